(** * The tasks of a machine on worker threads *)

From Verif Require Import Model.PoolM Spec.Pool.
From Verif Require Import Proofs.SystemP.

Section P.
  Context {S E : Type} (cn : connection S E) (status : S -> option connection_status).
  Context (w : nat) (bd : build) (chunk : option N) (timeout : N).
  Local Notation px := (pool_exec cn status w bd chunk timeout).
  Local Notation ps := (pool_step cn status w bd chunk timeout).
  Local Notation sx := (sys_exec cn status bd chunk timeout).

  Lemma px_app : forall a b p, px (a ++ b) p = let (e, p') := px a p in let (e', p'') := px b p' in (e ++ e', p'').
  Proof.
    induction a as [|x a IH]; intros b p; cbn [app pool_exec].
    - now destruct (px b p).
    - destruct (ps x p) as [e p']. rewrite IH. destruct (px a p') as [e1 p1]. destruct (px b p1) as [e2 p2].
      now rewrite app_assoc.
  Qed.

  (** A step of the pool is at most one step of the system. *)
  Lemma ps_sys : forall a p, exists l, sx l (po_sys p) = (fst (ps a p), po_sys (snd (ps a p))).
  Proof.
    intros a p. destruct a as [i t|i r|i a|a|d]; cbn [pool_step].
    - exists []. destruct (po_busy p i); [reflexivity|]. now destruct (Nat.ltb i w && negb (polled w p t) && runnable (po_sys p) t).
    - destruct (po_busy p i) as [[|]|].
      + exists [SysWatch]. unfold poll_watch. cbn [sys_exec sys_step]. destruct (watch_step cn timeout (po_sys p)).
        cbn. now rewrite app_nil_r.
      + unfold poll_listen. destruct (sy_listen (po_sys p)) eqn:L; [destruct r|..];
          [exists [SysListen]|exists []; reflexivity|exists [SysListen]|exists [SysListen]];
          cbn [sys_exec sys_step]; destruct (listen_step status (po_sys p)); cbn; now rewrite app_nil_r.
      + now exists [].
    - destruct (po_busy p i); [now exists []|]. destruct (Nat.ltb i w); [|now exists []].
      exists [SysAct a]. cbn [sys_exec]. destruct (sys_step cn status bd chunk timeout (SysAct a) (po_sys p)).
      cbn. now rewrite app_nil_r.
    - exists [SysAct a]. cbn [sys_exec]. destruct (sys_step cn status bd chunk timeout (SysAct a) (po_sys p)).
      cbn. now rewrite app_nil_r.
    - exists [SysElapse d]. cbn [sys_exec]. destruct (sys_step cn status bd chunk timeout (SysElapse d) (po_sys p)).
      cbn. now rewrite app_nil_r.
  Qed.

  Lemma px_sys : forall acts p, exists l, sx l (po_sys p) = (fst (px acts p), po_sys (snd (px acts p))).
  Proof.
    induction acts as [|a acts IH]; intros p; [now exists []|]. cbn [pool_exec].
    destruct (ps_sys a p) as (l1 & E1). destruct (ps a p) as [e p']. cbn [fst snd] in E1.
    destruct (IH p') as (l2 & E2). destruct (px acts p') as [e2 p2]. cbn [fst snd] in *.
    exists (l1 ++ l2). rewrite (sexec_app cn status bd chunk timeout), E1. cbn [fst snd]. now rewrite E2.
  Qed.

  (** ** Which worker polls what *)

  Lemma set_same : forall (p : @pool S) i o, set_busy p i o i = o.
  Proof. intros. unfold set_busy. now rewrite Nat.eqb_refl. Qed.
  Lemma set_other : forall (p : @pool S) i o j, j <> i -> set_busy p i o j = po_busy p j.
  Proof. intros p i o j H. unfold set_busy. now rewrite (proj2 (Nat.eqb_neq _ _) H). Qed.
  Lemma not_polled : forall (p : @pool S) t, polled w p t = false <-> forall j, (j < w)%nat -> po_busy p j <> Some t.
  Proof.
    intros p t. unfold polled. split.
    - intros H j L N. assert (X : existsb (fun j => match po_busy p j with Some t' => task_eqb t t' | None => false end) (seq 0 w) = true).
      { apply existsb_exists. exists j. split; [apply in_seq; lia|]. rewrite N. now destruct t. }
      congruence.
    - intros H. destruct (existsb _ _) eqn:X; [|reflexivity]. apply existsb_exists in X as (j & I & X).
      apply in_seq in I. destruct (po_busy p j) as [t'|] eqn:B; [|discriminate]. exfalso. apply (H j); [lia|].
      rewrite B. now destruct t, t'.
  Qed.

  Definition tidy (p : @pool S) : Prop :=
    (forall j, (w <= j)%nat -> po_busy p j = None) /\
    (forall i j t, po_busy p i = Some t -> po_busy p j = Some t -> i = j) /\
    (forall i, po_busy p i = Some TListen -> sy_listen (po_sys p) <> LDone) /\
    (forall i, po_busy p i = Some TWatch -> sy_watch (po_sys p) <> WDone /\
       forall u, sy_watch (po_sys p) = WSleep u -> u <= sy_now (po_sys p)) /\
    (sy_watch (po_sys p) = WClose -> exists i, po_busy p i = Some TWatch) /\
    (forall u, sy_watch (po_sys p) = WSleep u -> u <= sy_now (po_sys p) + timeout) /\
    sy_last (po_sys p) <= sy_now (po_sys p).

  Lemma tidy_free : forall (p : @pool S) i y, tidy p -> po_busy p i = Some TListen -> sy_watch y = sy_watch (po_sys p) ->
    sy_now y = sy_now (po_sys p) -> sy_last y = sy_last (po_sys p) -> tidy (Pool y (set_busy p i None)).
  Proof.
    intros p i y (A & B & C & D & F & G & H) X W N L. unfold tidy. cbn [po_sys po_busy]. rewrite W, N, L.
    split; [|split; [|split; [|split; [|split; [|split]]]]].
    - intros j J. unfold set_busy. destruct (Nat.eqb j i); auto.
    - intros i1 j1 t. unfold set_busy. destruct (Nat.eqb i1 i), (Nat.eqb j1 i); try discriminate. apply B.
    - intros k K. exfalso. unfold set_busy in K. destruct (Nat.eqb_spec k i) as [Q|Q]; [discriminate|]. apply Q. eapply B; eauto.
    - intros k K. unfold set_busy in K. destruct (Nat.eqb k i); [discriminate|]. eapply D; eauto.
    - intros Z. destruct (F Z) as (k & K). exists k. rewrite set_other; [exact K|]. intros ->. congruence.
    - exact G.
    - exact H.
  Qed.

  Lemma tidy_step : forall a p, tidy p -> tidy (snd (ps a p)).
  Proof.
    intros a p T. pose proof T as (A & B & C & D & F & G & H). destruct a as [i t|i r|i a|a|d]; cbn [pool_step].
    - destruct (po_busy p i) eqn:X; [exact T|].
      destruct (Nat.ltb i w && negb (polled w p t) && runnable (po_sys p) t) eqn:Z; [|exact T].
      apply andb_prop in Z as [Z R]. apply andb_prop in Z as [L NP]. apply Nat.ltb_lt in L. apply Bool.negb_true_iff in NP.
      cbn [snd]. unfold tidy. cbn [po_sys po_busy].
      assert (NB : forall j, po_busy p j <> Some t).
      { intros j N. destruct (Nat.lt_ge_cases j w) as [Q|Q]; [|rewrite A in N by exact Q; discriminate].
        revert N. now apply not_polled. }
      split; [|split; [|split; [|split; [|split; [|split]]]]]; [..|exact G|exact H].
      + intros j J. rewrite set_other by lia. auto.
      + intros i1 j1 t1. unfold set_busy. destruct (Nat.eqb_spec i1 i) as [Q1|Q1], (Nat.eqb_spec j1 i) as [Q2|Q2]; intros E1 E2.
        * congruence.
        * exfalso. injection E1 as <-. exact (NB _ E2).
        * exfalso. injection E2 as <-. exact (NB _ E1).
        * eapply B; eauto.
      + intros k K. unfold set_busy in K. destruct (Nat.eqb k i); [|eapply C; eauto]. injection K as ->.
        cbn [runnable] in R. intros Q. rewrite Q in R. discriminate.
      + intros k K. unfold set_busy in K. destruct (Nat.eqb k i); [|eapply D; eauto]. injection K as ->.
        cbn [runnable] in R. destruct (sy_watch (po_sys p)); try discriminate; split; try discriminate.
        intros u E1. injection E1 as ->. now apply N.leb_le.
      + intros Q. destruct (F Q) as (k & K). exists k. rewrite set_other; [exact K|]. intros ->. congruence.
    - destruct (po_busy p i) as [[|]|] eqn:X; [..|exact T].
      + unfold poll_watch, watch_step. destruct (D i X) as [D1 D2].
        destruct (sy_watch (po_sys p)) as [|u| |] eqn:Q; [..|congruence].
        * cbn [snd set_watch sy_watch]. unfold tidy. cbn [po_sys po_busy sy_watch sy_now sy_last sy_listen set_watch].
          split; [|split; [|split; [|split; [|split; [|split]]]]].
          -- intros j J. unfold set_busy. destruct (Nat.eqb j i); auto.
          -- intros i1 j1 t. unfold set_busy. destruct (Nat.eqb i1 i), (Nat.eqb j1 i); try discriminate. apply B.
          -- intros k K. unfold set_busy in K. destruct (Nat.eqb k i); [discriminate|]. eapply C; eauto.
          -- intros k K. exfalso. unfold set_busy in K. destruct (Nat.eqb_spec k i) as [Z|Z]; [discriminate|]. apply Z. eapply B; eauto.
          -- discriminate.
          -- intros u E1. injection E1 as <-. lia.
          -- exact H.
        * specialize (D2 u eq_refl). rewrite (proj2 (N.ltb_ge _ _) D2).
          destruct (timeout <? sy_now (po_sys p) - sy_last (po_sys p)) eqn:Z.
          -- cbn [snd set_watch sy_watch]. unfold tidy. cbn [po_sys po_busy sy_watch sy_now sy_last sy_listen set_watch].
             split; [exact A|split; [exact B|split; [exact C|split; [|split; [|split]]]]].
             ++ intros k K. split; discriminate.
             ++ intros _. now exists i.
             ++ discriminate.
             ++ exact H.
          -- cbn [snd set_watch sy_watch]. unfold tidy. cbn [po_sys po_busy sy_watch sy_now sy_last sy_listen set_watch].
             split; [|split; [|split; [|split; [|split; [|split]]]]].
             ++ intros j J. unfold set_busy. destruct (Nat.eqb j i); auto.
             ++ intros i1 j1 t. unfold set_busy. destruct (Nat.eqb i1 i), (Nat.eqb j1 i); try discriminate. apply B.
             ++ intros k K. unfold set_busy in K. destruct (Nat.eqb k i); [discriminate|]. eapply C; eauto.
             ++ intros k K. exfalso. unfold set_busy in K. destruct (Nat.eqb_spec k i) as [Y|Y]; [discriminate|]. apply Y. eapply B; eauto.
             ++ discriminate.
             ++ intros u1 E1. injection E1 as <-. lia.
             ++ exact H.
        * cbn [snd sy_watch]. unfold tidy. cbn [po_sys po_busy sy_watch sy_now sy_last sy_listen].
          split; [|split; [|split; [|split; [|split; [|split]]]]].
          -- intros j J. unfold set_busy. destruct (Nat.eqb j i); auto.
          -- intros i1 j1 t. unfold set_busy. destruct (Nat.eqb i1 i), (Nat.eqb j1 i); try discriminate. apply B.
          -- intros k K. unfold set_busy in K. destruct (Nat.eqb k i); [discriminate|]. eapply C; eauto.
          -- intros k K. exfalso. unfold set_busy in K. destruct (Nat.eqb_spec k i) as [Y|Y]; [discriminate|]. apply Y. eapply B; eauto.
          -- discriminate.
          -- discriminate.
          -- exact H.
      + unfold poll_listen. destruct (sy_listen (po_sys p)) as [|s|] eqn:L; [..|exfalso; eapply C; eauto].
        * destruct r; [|cbn [snd]; apply tidy_free; auto]. unfold listen_step. rewrite L.
          destruct (status (cf_conn (sy_config (po_sys p)))) as [s|]; cbn [snd sy_listen set_listen].
          -- unfold tidy. cbn [po_sys po_busy sy_watch sy_now sy_last sy_listen set_listen].
             split; [exact A|split; [exact B|split; [|split; [exact D|split; [exact F|split; [exact G|exact H]]]]]].
             intros k K. discriminate.
          -- apply tidy_free; auto.
        * unfold listen_step. rewrite L. cbn [snd sy_listen set_listen].
          unfold tidy. cbn [po_sys po_busy sy_watch sy_now sy_last sy_listen set_listen].
          split; [exact A|split; [exact B|split; [|split; [exact D|split; [exact F|split; [exact G|exact H]]]]]].
          intros k K. discriminate.
    - destruct (po_busy p i); [exact T|]. destruct (Nat.ltb i w); [|exact T]. cbn [sys_step].
      destruct (step cn bd chunk a (sy_config (po_sys p))). exact T.
    - cbn [sys_step]. destruct (step cn bd chunk a (sy_config (po_sys p))). exact T.
    - cbn [sys_step snd]. unfold tidy. cbn [po_sys po_busy sy_watch sy_now sy_last sy_listen].
      split; [exact A|split; [exact B|split; [exact C|split; [|split; [exact F|split]]]]].
      + intros k K. destruct (D k K) as [D1 D2]. split; [exact D1|]. intros u Q. specialize (D2 u Q). lia.
      + intros u Q. specialize (G u Q). lia.
      + lia.
  Qed.

  Lemma tidy_exec : forall acts p, tidy p -> tidy (snd (px acts p)).
  Proof.
    induction acts as [|a acts IH]; intros p T; [exact T|]. cbn [pool_exec].
    pose proof (tidy_step a p T) as T1. destruct (ps a p) as [e p']. cbn [snd] in T1.
    specialize (IH p' T1). destruct (px acts p'). exact IH.
  Qed.
  Lemma tidy_init : forall init st conn now, tidy (pool_init init st conn now).
  Proof.
    intros. unfold tidy, pool_init. cbn. split; [auto|split; [discriminate|split; [discriminate|split; [discriminate|split; [discriminate|split; [discriminate|lia]]]]]].
  Qed.

  (** What the watchdog has done, by its state. *)
  Definition done_so_far (x : watch) : list effect :=
    match x with WClose => [timed_out] | WDone => [timed_out; ConnClose] | _ => [] end.
  Lemma done_init : forall acts init st conn now,
    watched (fst (px acts (pool_init init st conn now))) = done_so_far (sy_watch (po_sys (snd (px acts (pool_init init st conn now))))).
  Proof.
    intros. destruct (px_sys acts (pool_init init st conn now)) as (l & X). cbn [pool_init po_sys] in X.
    destruct (thread_sims cn status bd chunk timeout init st conn now l) as (pre & post & _ & Y).
    rewrite X in Y. cbn [fst snd] in Y. unfold pool_init. destruct (sy_watch _); cbn [done_so_far]; apply Y.
  Qed.

  (** ** A second worker is enough *)

  Definition finish (j : nat) : list pool_action := [PElapse (timeout + 1); PPick j TWatch; PStep j true; PStep j true].

  Lemma finish_sleep : forall j p u, tidy p -> (j < w)%nat -> po_busy p j = None -> polled w p TWatch = false ->
    sy_watch (po_sys p) = WSleep u -> sy_watch (po_sys (snd (px (finish j) p))) = WDone.
  Proof.
    intros j p u (A & B & C & D & F & G & H) L I NP W. specialize (G u W).
    unfold finish. cbn [pool_exec pool_step sys_step po_busy po_sys]. rewrite I.
    change (polled w (Pool (System (sy_config (po_sys p)) (sy_last (po_sys p)) (sy_now (po_sys p) + (timeout + 1))
      (sy_watch (po_sys p)) (sy_listen (po_sys p))) (po_busy p)) TWatch) with (polled w p TWatch).
    rewrite NP, (proj2 (Nat.ltb_lt _ _) L). cbn [negb andb runnable sy_watch sy_now]. rewrite W.
    rewrite (proj2 (N.leb_le u _)) by lia. cbn [po_busy po_sys]. rewrite set_same.
    unfold poll_watch at 1. unfold watch_step at 1. cbn [po_sys po_busy sy_watch sy_now sy_last].
    rewrite (proj2 (N.ltb_ge _ u)) by lia.
    rewrite (proj2 (N.ltb_lt timeout _)) by lia. cbn [set_watch sy_watch po_busy]. rewrite set_same.
    unfold poll_watch, watch_step. cbn. reflexivity.
  Qed.

  Lemma first_idle : forall p, tidy p -> (2 <= w)%nat -> polled w p TWatch = false ->
    exists j, (j < w)%nat /\ po_busy p j = None.
  Proof.
    intros p (A & B & _) L NP. rewrite not_polled in NP.
    destruct (po_busy p 0%nat) as [[|]|] eqn:X0; [exfalso; apply (NP 0%nat); [lia|exact X0]| |exists 0%nat; split; [lia|exact X0]].
    destruct (po_busy p 1%nat) as [[|]|] eqn:X1; [exfalso; apply (NP 1%nat); [lia|exact X1]| |exists 1%nat; split; [lia|exact X1]].
    discriminate (B _ _ _ X0 X1).
  Qed.

  (** From any state, some actions take the watchdog from its first or its last sleep to the end. *)
  Lemma finish_start : forall j p, tidy p -> (j < w)%nat -> po_busy p j = Some TWatch -> sy_watch (po_sys p) <> WDone ->
    exists acts, always_ready acts /\ sy_watch (po_sys (snd (px acts p))) = WDone.
  Proof.
    intros j p T L X ND. pose proof T as (A & B & C & D & F & G & H). destruct (D j X) as [_ D2].
    assert (SL : forall q u, tidy q -> po_busy q j = None -> polled w q TWatch = false -> sy_watch (po_sys q) = WSleep u ->
      forall e, ps (PStep j true) p = (e, q) ->
      exists acts, always_ready acts /\ sy_watch (po_sys (snd (px acts p))) = WDone).
    { intros q u TQ BQ NQ WQ e EQ. exists (PStep j true :: finish j). split.
      - intros i I. cbn in I. intuition discriminate.
      - cbn [pool_exec]. rewrite EQ. pose proof (finish_sleep j q u TQ L BQ NQ WQ) as Z.
        destruct (px (finish j) q). exact Z. }
    assert (NP : forall y : @system S, polled w (Pool y (set_busy p j None)) TWatch = false).
    { intros y. apply not_polled. cbn [po_busy]. intros k K Q. unfold set_busy in Q.
      destruct (Nat.eqb_spec k j) as [Z|Z]; [discriminate|]. apply Z. eapply B; eauto. }
    pose proof (tidy_step (PStep j true) p T) as T1.
    cbn [pool_step] in T1, SL. rewrite X in T1, SL. unfold poll_watch, watch_step in T1, SL.
    destruct (sy_watch (po_sys p)) as [|u| |] eqn:W; [| | |congruence].
    - cbn [set_watch sy_watch snd] in T1, SL. eapply SL; [exact T1| |apply NP| |reflexivity]; cbn [po_busy po_sys sy_watch].
      + apply set_same.
      + reflexivity.
    - rewrite (proj2 (N.ltb_ge _ u)) in T1, SL by (apply D2; reflexivity).
      destruct (timeout <? sy_now (po_sys p) - sy_last (po_sys p)) eqn:Z.
      + exists [PStep j true; PStep j true]. split; [intros i I; cbn in I; intuition discriminate|].
        cbn [pool_exec pool_step]. rewrite X. unfold poll_watch at 1. unfold watch_step at 1. rewrite W.
        rewrite (proj2 (N.ltb_ge _ u)) by (apply D2; reflexivity). rewrite Z. cbn [set_watch sy_watch po_busy]. rewrite X.
        unfold poll_watch, watch_step. cbn. reflexivity.
      + cbn [set_watch sy_watch snd] in T1, SL. eapply SL; [exact T1| |apply NP| |reflexivity]; cbn [po_busy po_sys sy_watch].
        * apply set_same.
        * reflexivity.
    - exists [PStep j true]. split; [intros i I; cbn in I; intuition discriminate|].
      cbn [pool_exec pool_step]. rewrite X. unfold poll_watch, watch_step. rewrite W. cbn. reflexivity.
  Qed.

  Lemma can_finish_if : forall p, tidy p -> (polled w p TWatch = false -> exists j, (j < w)%nat /\ po_busy p j = None) ->
    exists acts, always_ready acts /\ sy_watch (po_sys (snd (px acts p))) = WDone.
  Proof.
    intros p T IDLE. pose proof T as (A & B & C & D & F & G & H).
    destruct (sy_watch (po_sys p)) as [|u| |] eqn:W.
    - destruct (polled w p TWatch) eqn:NP.
      + assert (X : exists j, (j < w)%nat /\ po_busy p j = Some TWatch).
        { unfold polled in NP. apply existsb_exists in NP as (j & I & X). apply in_seq in I. exists j. split; [lia|].
          destruct (po_busy p j) as [[|]|]; [reflexivity|discriminate|discriminate]. }
        destruct X as (j & J & X). apply (finish_start j p T J X). congruence.
      + destruct (IDLE eq_refl) as (j & J & I).
        assert (EQ : ps (PPick j TWatch) p = ([], Pool (po_sys p) (set_busy p j (Some TWatch)))).
        { cbn [pool_step]. rewrite I, (proj2 (Nat.ltb_lt _ _) J), NP. cbn [runnable]. now rewrite W. }
        pose proof (tidy_step (PPick j TWatch) p T) as T1. rewrite EQ in T1. cbn [snd] in T1.
        destruct (finish_start j _ T1 J) as (acts & R & Z).
        { cbn [po_busy]. apply set_same. } { cbn [po_sys]. congruence. }
        exists (PPick j TWatch :: acts). split.
        * intros i [I1|I1]; [discriminate|]. now apply (R i).
        * cbn [pool_exec]. rewrite EQ. destruct (px acts _). exact Z.
    - destruct (polled w p TWatch) eqn:NP.
      + assert (X : exists j, (j < w)%nat /\ po_busy p j = Some TWatch).
        { unfold polled in NP. apply existsb_exists in NP as (j & I & X). apply in_seq in I. exists j. split; [lia|].
          destruct (po_busy p j) as [[|]|]; [reflexivity|discriminate|discriminate]. }
        destruct X as (j & J & X). apply (finish_start j p T J X). congruence.
      + destruct (IDLE eq_refl) as (j & J & I). exists (finish j). split.
        * intros i I1. cbn in I1. intuition discriminate.
        * eapply finish_sleep; eauto.
    - destruct (F eq_refl) as (j & X).
      assert (J : (j < w)%nat) by (destruct (Nat.lt_ge_cases j w) as [J|J]; [exact J|rewrite A in X by exact J; discriminate]).
      apply (finish_start j p T J X). congruence.
    - exists []. split; [intros i []|exact W].
  Qed.

  Lemma can_finish : forall p, tidy p -> (2 <= w)%nat ->
    exists acts, always_ready acts /\ sy_watch (po_sys (snd (px acts p))) = WDone.
  Proof. intros p T L. apply can_finish_if; [exact T|]. now apply first_idle. Qed.

  (** One is enough if the status stream lets go. *)
  Lemma can_finish_yield : forall p, tidy p -> (1 <= w)%nat -> exists acts, sy_watch (po_sys (snd (px acts p))) = WDone.
  Proof.
    intros p T L. destruct (polled w p TWatch) eqn:NP.
    { destruct (can_finish_if p T) as (acts & _ & X); [congruence|]. now exists acts. }
    destruct (po_busy p 0%nat) as [[|]|] eqn:X.
    - rewrite not_polled in NP. exfalso. apply (NP 0%nat); [lia|exact X].
    - assert (FREE : forall q, tidy q -> po_busy q 0%nat = Some TListen -> sy_listen (po_sys q) = LAsk ->
        exists acts, sy_watch (po_sys (snd (px acts q))) = WDone).
      { intros q TQ BQ LQ. pose proof (tidy_step (PStep 0 false) q TQ) as T1.
        assert (EQ : ps (PStep 0 false) q = ([], Pool (po_sys q) (set_busy q 0 None))).
        { cbn [pool_step]. rewrite BQ. unfold poll_listen. now rewrite LQ. }
        rewrite EQ in T1. cbn [snd] in T1. destruct (can_finish_if _ T1) as (acts & _ & Z).
        { intros _. exists 0%nat. split; [lia|]. cbn [po_busy]. apply set_same. }
        exists (PStep 0 false :: acts). cbn [pool_exec]. rewrite EQ. destruct (px acts _). exact Z. }
      destruct (sy_listen (po_sys p)) as [|s|] eqn:LS.
      + now apply FREE.
      + pose proof (tidy_step (PStep 0 true) p T) as T1.
        assert (EQ : ps (PStep 0 true) p = (map SysListenLog (logged (status_report s)), Pool (set_listen (po_sys p) LAsk) (po_busy p))).
        { cbn [pool_step]. rewrite X. unfold poll_listen. rewrite LS. unfold listen_step. rewrite LS. reflexivity. }
        rewrite EQ in T1. cbn [snd] in T1. destruct (FREE _ T1 X eq_refl) as (acts & Z).
        exists (PStep 0 true :: acts). cbn [pool_exec]. rewrite EQ. destruct (px acts _). exact Z.
      + exfalso. destruct T as (_ & _ & C & _). eapply C; eauto.
    - destruct (can_finish_if p T) as (acts & _ & Z); [|now exists acts]. intros _. exists 0%nat. split; [lia|exact X].
  Qed.

  (** ** With one worker, nobody else runs once the listener does *)

  Definition caught (p : @pool S) : Prop := tidy p /\ po_busy p 0%nat = Some TListen.

  Lemma caught_step : forall a p, w = 1%nat -> always_some status -> always_ready [a] -> caught p ->
    let (e, p') := ps a p in
    caught p' /\ watched e = [] /\ sy_watch (po_sys p') = sy_watch (po_sys p) /\
    exec cn bd chunk (outside [a]) (sy_config (po_sys p)) = (seen e, sy_config (po_sys p')).
  Proof.
    intros a p W1 AS R [T X]. pose proof (tidy_step a p T) as T1. pose proof T as (A & B & C & D & F & G & H).
    assert (SEL : forall i t, po_busy p i = Some t -> i = 0%nat /\ t = TListen).
    { intros i t I. destruct i as [|i]; [split; congruence|]. rewrite A in I by lia. discriminate. }
    destruct a as [i t|i r|i a|a|d]; cbn [pool_step] in *.
    - destruct (po_busy p i) eqn:I; [cbn; unfold caught; auto|].
      destruct (Nat.ltb i w) eqn:Z; [|cbn; unfold caught; auto].
      apply Nat.ltb_lt in Z. replace i with 0%nat in I by lia. congruence.
    - destruct (po_busy p i) as [t|] eqn:I; [|cbn; unfold caught; auto].
      destruct (SEL i t I) as [-> ->]. unfold poll_listen in *.
      destruct r; [|exfalso; apply (R 0%nat); now left].
      destruct (sy_listen (po_sys p)) as [|s|] eqn:L; [..|exfalso; eapply C; eauto].
      + unfold listen_step in *. rewrite L in *. pose proof (AS (cf_conn (sy_config (po_sys p)))) as N.
        destruct (status (cf_conn (sy_config (po_sys p)))) as [s|] eqn:Q; [|congruence].
        cbn [snd set_listen sy_listen] in *. unfold caught. cbn [po_busy po_sys set_listen sy_watch sy_config outside flat_map app exec].
        cbn [seen flat_map app]. split; [split; [exact T1|exact X]|]. auto.
      + unfold listen_step in *. rewrite L in *. cbn [snd set_listen sy_listen] in *. unfold caught.
        cbn [po_busy po_sys set_listen sy_watch sy_config outside flat_map app exec].
        split; [split; [exact T1|exact X]|]. generalize (logged (status_report s)). intros l.
        split; [induction l as [|y l IH]; auto|]. split; [reflexivity|]. f_equal. induction l as [|y l IH]; auto.
    - destruct (po_busy p i) eqn:I; [cbn; unfold caught; auto|].
      destruct (Nat.ltb i w) eqn:Z; [|cbn; unfold caught; auto].
      apply Nat.ltb_lt in Z. replace i with 0%nat in I by lia. congruence.
    - cbn [sys_step] in *. cbn [outside flat_map app exec]. destruct (step cn bd chunk a (sy_config (po_sys p))) as [e c] eqn:Q.
      cbn [po_sys po_busy sy_config sy_watch] in *. unfold caught. cbn [po_busy].
      split; [split; [exact T1|exact X]|]. split; [apply threads_only|]. split; [reflexivity|].
      now rewrite app_nil_r, seen_threads.
    - cbn [sys_step] in *. cbn [outside flat_map app exec po_sys po_busy sy_config sy_watch] in *. unfold caught. cbn [po_busy seen watched flat_map].
      split; [split; [exact T1|exact X]|]. auto.
  Qed.

  Lemma ready_cons : forall a acts, always_ready (a :: acts) -> always_ready [a] /\ always_ready acts.
  Proof. intros a acts H. split; intros i I; apply (H i); [destruct I as [->|[]]; now left|now right]. Qed.

  Lemma caught_exec : forall acts p, w = 1%nat -> always_some status -> always_ready acts -> caught p ->
    let (e, p') := px acts p in
    caught p' /\ watched e = [] /\ sy_watch (po_sys p') = sy_watch (po_sys p) /\
    exec cn bd chunk (outside acts) (sy_config (po_sys p)) = (seen e, sy_config (po_sys p')).
  Proof.
    induction acts as [|a acts IH]; intros p W1 AS R K; [cbn; auto|].
    apply ready_cons in R as [R1 R2]. cbn [pool_exec]. pose proof (caught_step a p W1 AS R1 K) as X.
    destruct (ps a p) as [e p']. destruct X as (K1 & X1 & X2 & X3).
    specialize (IH p' W1 AS R2 K1). destruct (px acts p') as [e2 p2]. destruct IH as (K2 & Y1 & Y2 & Y3).
    split; [exact K2|]. split; [rewrite watched_app, X1, Y1; reflexivity|]. split; [congruence|].
    unfold outside in *. cbn [flat_map] in *. rewrite app_nil_r in X3.
    assert (EA : forall a b c, exec cn bd chunk (a ++ b) c =
      (fst (exec cn bd chunk a c) ++ fst (exec cn bd chunk b (snd (exec cn bd chunk a c))), snd (exec cn bd chunk b (snd (exec cn bd chunk a c))))).
    { clear. induction a as [|x a IH]; intros b c; cbn [app exec]; [cbn; now destruct (exec cn bd chunk b c)|].
      destruct (step cn bd chunk x c) as [ev c']. rewrite IH. destruct (exec cn bd chunk a c'). cbn [fst snd]. now rewrite app_assoc. }
    rewrite EA, X3. cbn [fst snd]. now rewrite Y3, seen_app.
  Qed.

  (** A status has been asked for only when the listener was polled, and then it is still. *)
  Lemma asked_caught : forall acts p, w = 1%nat -> always_some status -> always_ready acts -> tidy p ->
    statuses (fst (px acts p)) <> [] -> caught (snd (px acts p)).
  Proof.
    induction acts as [|a acts IH]; intros p W1 AS R T N; [cbn in N; congruence|].
    apply ready_cons in R as [R1 R2]. pose proof (tidy_step a p T) as T1. cbn [pool_exec] in *.
    assert (C1 : po_busy p 0%nat = Some TListen \/ statuses (fst (ps a p)) = []).
    { destruct a as [i t|i r|i a|a|d]; cbn [pool_step].
      - right. destruct (po_busy p i); [reflexivity|]. now destruct (Nat.ltb i w && negb (polled w p t) && runnable (po_sys p) t).
      - destruct (po_busy p i) as [[|]|] eqn:I.
        + right. unfold poll_watch, watch_step. destruct (sy_watch (po_sys p)); try reflexivity.
          destruct (sy_now (po_sys p) <? until); [reflexivity|]. destruct (timeout <? _); reflexivity.
        + left. destruct i as [|i]; [exact I|]. destruct T as (A & _). rewrite A in I by lia. discriminate.
        + now right.
      - right. destruct (po_busy p i); [reflexivity|]. destruct (Nat.ltb i w); [|reflexivity]. cbn [sys_step].
        destruct (step cn bd chunk a (sy_config (po_sys p))). apply threads_only.
      - right. cbn [sys_step]. destruct (step cn bd chunk a (sy_config (po_sys p))). apply threads_only.
      - now right. }
    destruct C1 as [C1|C1].
    - pose proof (caught_exec (a :: acts) p W1 AS) as X. cbn [pool_exec] in X.
      destruct (ps a p) as [e p']. destruct (px acts p') as [e2 p2]. apply X; [|split; assumption].
      intros i [->|I]; [apply (R1 i); now left|now apply (R2 i)].
    - specialize (IH (snd (ps a p)) W1 AS R2 T1). destruct (ps a p) as [e p']. cbn [fst snd] in *.
      destruct (px acts p') as [e2 p2]. cbn [fst snd] in *. apply IH. now rewrite statuses_app, C1 in N.
  Qed.

  (** ** With any number of workers, the listener keeps one and the others are given back *)

  Lemma kept_step : forall a p i, always_some status -> always_ready [a] -> tidy p -> po_busy p i = Some TListen ->
    po_busy (snd (ps a p)) i = Some TListen.
  Proof.
    intros a p i AS R (A & B & C & _) X. destruct a as [k t|k r|k a|a|d]; cbn [pool_step].
    - destruct (po_busy p k) eqn:I; [exact X|]. destruct (Nat.ltb k w && negb (polled w p t) && runnable (po_sys p) t); [|exact X].
      cbn [snd po_busy]. rewrite set_other; [exact X|]. intros ->. congruence.
    - destruct (po_busy p k) as [[|]|] eqn:I; [| |exact X].
      + assert (N : i <> k) by (intros ->; congruence). unfold poll_watch. destruct (watch_step cn timeout (po_sys p)) as [e y].
        cbn [snd po_busy]. destruct (sy_watch y); rewrite ?set_other by exact N; exact X.
      + assert (k = i) as -> by (eapply B; eauto). destruct r; [|exfalso; apply (R i); now left].
        unfold poll_listen, listen_step. destruct (sy_listen (po_sys p)) as [|s|] eqn:L; [| |exfalso; eapply C; eauto].
        * pose proof (AS (cf_conn (sy_config (po_sys p)))) as N.
          destruct (status (cf_conn (sy_config (po_sys p)))) as [s|]; [|congruence]. cbn. exact X.
        * cbn. exact X.
    - destruct (po_busy p k); [exact X|]. destruct (Nat.ltb k w); [|exact X].
      destruct (sys_step cn status bd chunk timeout (SysAct a) (po_sys p)). exact X.
    - destruct (sys_step cn status bd chunk timeout (SysAct a) (po_sys p)). exact X.
    - destruct (sys_step cn status bd chunk timeout (SysElapse d) (po_sys p)). exact X.
  Qed.

  Lemma kept_exec : forall acts p i, always_some status -> always_ready acts -> tidy p -> po_busy p i = Some TListen ->
    po_busy (snd (px acts p)) i = Some TListen.
  Proof.
    induction acts as [|a acts IH]; intros p i AS R T X; [exact X|]. apply ready_cons in R as [R1 R2]. cbn [pool_exec].
    pose proof (tidy_step a p T) as T1. pose proof (kept_step a p i AS R1 T X) as X1. destruct (ps a p) as [e p'].
    cbn [snd] in *. specialize (IH p' i AS R2 T1 X1). destruct (px acts p'). exact IH.
  Qed.

  Lemma asked_kept : forall acts p, always_some status -> always_ready acts -> tidy p ->
    statuses (fst (px acts p)) <> [] -> exists i, po_busy (snd (px acts p)) i = Some TListen.
  Proof.
    induction acts as [|a acts IH]; intros p AS R T N; [cbn in N; congruence|].
    apply ready_cons in R as [R1 R2]. pose proof (tidy_step a p T) as T1.
    assert (C1 : (exists i, po_busy p i = Some TListen) \/ statuses (fst (ps a p)) = []).
    { destruct a as [i t|i r|i a|a|d]; cbn [pool_step].
      - right. destruct (po_busy p i); [reflexivity|]. now destruct (Nat.ltb i w && negb (polled w p t) && runnable (po_sys p) t).
      - destruct (po_busy p i) as [[|]|] eqn:I.
        + right. unfold poll_watch, watch_step. destruct (sy_watch (po_sys p)); try reflexivity.
          destruct (sy_now (po_sys p) <? until); [reflexivity|]. destruct (timeout <? _); reflexivity.
        + left. now exists i.
        + now right.
      - right. destruct (po_busy p i); [reflexivity|]. destruct (Nat.ltb i w); [|reflexivity]. cbn [sys_step].
        destruct (step cn bd chunk a (sy_config (po_sys p))). apply threads_only.
      - right. cbn [sys_step]. destruct (step cn bd chunk a (sy_config (po_sys p))). apply threads_only.
      - now right. }
    destruct C1 as [(i & C1)|C1].
    - exists i. apply kept_exec; [exact AS| |exact T|exact C1].
      intros k [->|I]; [apply (R1 k); now left|now apply (R2 k)].
    - cbn [pool_exec] in *. specialize (IH (snd (ps a p)) AS R2 T1). destruct (ps a p) as [e p']. cbn [fst snd] in *.
      destruct (px acts p') as [e2 p2]. cbn [fst snd] in *. apply IH. now rewrite statuses_app, C1 in N.
  Qed.

  (** A poll of the watchdog ends after at most two steps. *)
  Lemma watch_ends : forall p j, tidy p -> po_busy p j = Some TWatch ->
    exists n, forall k, po_busy (snd (px (repeat (PStep j true) n) p)) k = if Nat.eqb k j then None else po_busy p k.
  Proof.
    intros p j (A & B & C & D & _) X. destruct (D j X) as [D1 D2].
    destruct (sy_watch (po_sys p)) as [|u| |] eqn:W; [| | |congruence].
    - exists 1%nat. intros k. cbn [repeat pool_exec pool_step]. rewrite X. unfold poll_watch, watch_step. rewrite W. reflexivity.
    - specialize (D2 u eq_refl). destruct (timeout <? sy_now (po_sys p) - sy_last (po_sys p)) eqn:Z.
      + exists 2%nat. intros k. cbn [repeat pool_exec pool_step]. rewrite X. unfold poll_watch at 1. unfold watch_step at 1.
        rewrite W, (proj2 (N.ltb_ge _ _) D2), Z. cbn [set_watch sy_watch po_busy]. rewrite X. reflexivity.
      + exists 1%nat. intros k. cbn [repeat pool_exec pool_step]. rewrite X. unfold poll_watch, watch_step.
        rewrite W, (proj2 (N.ltb_ge _ _) D2), Z. reflexivity.
    - exists 1%nat. intros k. cbn [repeat pool_exec pool_step]. rewrite X. unfold poll_watch, watch_step. rewrite W. reflexivity.
  Qed.

  Lemma given_back : forall p i, tidy p -> po_busy p i = Some TListen ->
    exists acts, (forall a, In a acts -> exists j, a = PStep j true) /\
      forall k, k <> i -> po_busy (snd (px acts p)) k = None.
  Proof.
    intros p i T X. pose proof T as (A & B & _).
    assert (L : forall k, k <> i -> po_busy p k <> Some TListen) by (intros k K Q; apply K; eapply B; eauto).
    destruct (polled w p TWatch) eqn:NP.
    - unfold polled in NP. apply existsb_exists in NP as (j & _ & Y).
      assert (PJ : po_busy p j = Some TWatch) by (destruct (po_busy p j) as [[|]|]; [reflexivity|discriminate|discriminate]).
      destruct (watch_ends p j T PJ) as (n & N). exists (repeat (PStep j true) n). split.
      + intros a I. apply repeat_spec in I. now exists j.
      + intros k K. rewrite N. destruct (Nat.eqb_spec k j) as [Q|Q]; [reflexivity|]. specialize (L k K).
        destruct (po_busy p k) as [[|]|] eqn:Z; [exfalso; apply Q; eapply B; eauto|congruence|reflexivity].
    - exists []. split; [intros a []|]. intros k K. cbn [pool_exec snd]. specialize (L k K). rewrite not_polled in NP.
      destruct (Nat.lt_ge_cases k w) as [Q|Q]; [|now apply A]. specialize (NP k Q).
      destruct (po_busy p k) as [[|]|]; [congruence|congruence|reflexivity].
  Qed.
End P.

Section Ends.
  Context {S E : Type} (cn : connection S E) (status : S -> option connection_status).
  Context (bd : build) (chunk : option N) (timeout : N) (init : Z) (st : store) (conn : S) (now : N).
  Local Notation px w := (pool_exec cn status w bd chunk timeout).
  Local Notation start := (pool_init init st conn now).

  Lemma pool_refines : forall w acts, exists l,
    sys_exec cn status bd chunk timeout l (system_init init st conn now) = (fst (px w acts start), po_sys (snd (px w acts start))).
  Proof. intros. apply (px_sys cn status w bd chunk timeout acts start). Qed.

  Lemma ready_app : forall a b, always_ready (a ++ b) -> always_ready a /\ always_ready b.
  Proof. intros a b H. split; intros i I; apply (H i); apply in_or_app; auto. Qed.

  Lemma starved : forall acts acts', always_some status -> always_ready (acts ++ acts') ->
    statuses (fst (px 1%nat acts start)) <> [] ->
    let p := snd (px 1%nat acts start) in
    let (tr, p') := px 1%nat acts' p in
    watched tr = [] /\ sy_watch (po_sys p') = sy_watch (po_sys p) /\
    exec cn bd chunk (outside acts') (sy_config (po_sys p)) = (seen tr, sy_config (po_sys p')).
  Proof.
    intros acts acts' AS R N. apply ready_app in R as [R1 R2].
    pose proof (asked_caught cn status 1 bd chunk timeout acts start eq_refl AS R1 (tidy_init 1 timeout _ _ _ _) N) as K.
    pose proof (caught_exec cn status 1 bd chunk timeout acts' _ eq_refl AS R2 K) as X. cbn zeta.
    destruct (px 1%nat acts' _) as [tr p']. apply X.
  Qed.

  Lemma never : always_some status -> exists acts, always_ready acts /\
    forall acts', always_ready acts' -> watched (fst (px 1%nat (acts ++ acts') start)) = [].
  Proof.
    intros AS. exists [PPick 0 TListen; PStep 0 true].
    assert (R : always_ready [PPick 0 TListen; PStep 0 true]) by (intros i I; cbn in I; intuition discriminate).
    split; [exact R|]. intros acts' R'. rewrite px_app.
    pose proof (starved [PPick 0 TListen; PStep 0 true] acts' AS) as X. cbn zeta in X.
    destruct (px 1%nat [PPick 0 TListen; PStep 0 true] start) as [e p] eqn:Q. cbn [fst snd] in X.
    cbn in Q. pose proof (AS conn) as N. destruct (status conn) as [s|]; [|congruence]. injection Q as <- Q.
    destruct (px 1%nat acts' p) as [e' p']. cbn [fst]. rewrite watched_app. cbn [watched flat_map app].
    apply X; [|discriminate]. intros i I. apply in_app_or in I as [I|I]; [now apply (R i)|now apply (R' i)].
  Qed.

  Lemma no_worker : forall acts, watched (fst (px 0%nat acts start)) = [].
  Proof.
    assert (X : forall acts p, (forall j, po_busy p j = None) -> watched (fst (px 0%nat acts p)) = []).
    { induction acts as [|a acts IH]; intros p B; [reflexivity|]. cbn [pool_exec].
      assert (Y : watched (fst (pool_step cn status 0 bd chunk timeout a p)) = [] /\
        forall j, po_busy (snd (pool_step cn status 0 bd chunk timeout a p)) j = None).
      { destruct a as [i t|i r|i a|a|d]; cbn [pool_step]; rewrite ?B; cbn [Nat.ltb Nat.leb andb]; auto.
        cbn [sys_step]. destruct (step cn bd chunk a (sy_config (po_sys p))). split; [apply threads_only|exact B]. }
      destruct (pool_step cn status 0 bd chunk timeout a p) as [e p']. destruct Y as [Y1 Y2]. cbn [fst snd] in *.
      specialize (IH p' Y2). destruct (px 0%nat acts p') as [e2 p2]. cbn [fst] in *. now rewrite watched_app, Y1, IH. }
    intros acts. apply X. reflexivity.
  Qed.

  Lemma yielding : forall w acts, (1 <= w)%nat -> exists acts',
    watched (fst (px w (acts ++ acts') start)) = [Logged "connection keepalive timed out"; ConnClose].
  Proof.
    intros w acts L. pose proof (tidy_exec cn status w bd chunk timeout acts start (tidy_init w timeout _ _ _ _)) as T.
    destruct (can_finish_yield cn status w bd chunk timeout _ T L) as (acts' & X). exists acts'.
    rewrite (done_init cn status w bd chunk timeout). rewrite px_app. destruct (px w acts start) as [e p]. cbn [snd] in X.
    destruct (px w acts' p) as [e' p']. cbn [snd] in *. now rewrite X.
  Qed.

  Lemma workers : forall w acts, always_some status -> always_ready acts -> statuses (fst (px w acts start)) <> [] ->
    exists i, (i < w)%nat /\
      (forall acts', always_ready acts' -> po_busy (snd (px w (acts ++ acts') start)) i = Some TListen) /\
      (exists acts', (forall a, In a acts' -> exists j, a = PStep j true) /\
        forall j, j <> i -> po_busy (snd (px w (acts ++ acts') start)) j = None).
  Proof.
    intros w acts AS R N. pose proof (tidy_exec cn status w bd chunk timeout acts start (tidy_init w timeout _ _ _ _)) as T.
    destruct (asked_kept cn status w bd chunk timeout acts start AS R (tidy_init w timeout _ _ _ _) N) as (i & X).
    assert (AP : forall l, snd (px w (acts ++ l) start) = snd (px w l (snd (px w acts start)))).
    { intros l. rewrite px_app. destruct (px w acts start) as [e p]. cbn [snd]. now destruct (px w l p). }
    exists i. split; [|split].
    - destruct T as (A & _). destruct (Nat.lt_ge_cases i w) as [Q|Q]; [exact Q|]. rewrite A in X by exact Q. discriminate.
    - intros l R'. rewrite AP. now apply kept_exec.
    - destruct (given_back cn status w bd chunk timeout _ i T X) as (l & L & Z). exists l. split; [exact L|].
      intros j J. rewrite AP. now apply Z.
  Qed.

  Lemma always_can_iff : forall w, always_some status ->
    ((forall acts, always_ready acts -> exists acts', always_ready acts' /\
       watched (fst (px w (acts ++ acts') start)) = [Logged "connection keepalive timed out"; ConnClose]) <-> (2 <= w)%nat).
  Proof.
    intros w AS. split.
    - intros H. destruct w as [|[|w]]; [exfalso|exfalso|lia].
      + destruct (H [] (fun i I => I)) as (acts' & _ & X). rewrite no_worker in X. discriminate.
      + destruct (never AS) as (acts & R & N). destruct (H acts R) as (acts' & R' & X). rewrite (N acts' R') in X. discriminate.
    - intros L acts R. pose proof (tidy_exec cn status w bd chunk timeout acts start (tidy_init w timeout _ _ _ _)) as T.
      destruct (can_finish cn status w bd chunk timeout _ T L) as (acts' & R' & X). exists acts'. split; [exact R'|].
      rewrite (done_init cn status w bd chunk timeout). rewrite px_app. destruct (px w acts start) as [e p]. cbn [snd] in X.
      destruct (px w acts' p) as [e' p']. cbn [snd] in *. now rewrite X.
  Qed.
End Ends.
