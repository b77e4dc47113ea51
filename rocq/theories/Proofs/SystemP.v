(** * A machine with its two tasks *)

From Verif Require Import Model.SystemM Spec.System.
From Verif Require Import Proofs.SidP Proofs.SocketP Proofs.TraceP Proofs.ReplayP.

Lemma of_threads_app : forall a b, of_threads (a ++ b) = of_threads a ++ of_threads b.
Proof. intros. apply flat_map_app. Qed.
Lemma elapsed_app : forall a b, elapsed (a ++ b) = elapsed a + elapsed b.
Proof.
  induction a as [|x a IH]; intros b; [reflexivity|]. unfold elapsed in *. cbn [app fold_right]. rewrite IH.
  destruct x; lia.
Qed.

Section System.
  Context {S E : Type} (cn : connection S E) (status : S -> option connection_status).
  Variables (bd : build) (chunk : option N) (timeout : N) (init : Z) (st0 : store) (conn0 : S) (now0 : N).

  Notation sstep := (sys_step cn status bd chunk timeout).
  Notation sexec := (sys_exec cn status bd chunk timeout).
  Notation start := (system_init init st0 conn0 now0).
  Notation run acts := (sexec acts start).
  Notation trace := (list (sys_event E)).

  Lemma seen_app : forall a b : trace, seen (a ++ b) = seen a ++ seen b.
  Proof. intros. apply flat_map_app. Qed.
  Lemma watched_app : forall a b : trace, watched (a ++ b) = watched a ++ watched b.
  Proof. intros. apply flat_map_app. Qed.
  Lemma watched_cons_close : forall a : trace, watched (SysWatchClose :: a) = ConnClose :: watched a.
  Proof. reflexivity. Qed.
  Lemma statuses_app : forall a b : trace, statuses (a ++ b) = statuses a ++ statuses b.
  Proof. intros. apply flat_map_app. Qed.
  Lemma listened_app : forall a b : trace, listened (a ++ b) = listened a ++ listened b.
  Proof. intros. apply flat_map_app. Qed.
  Lemma seen_threads : forall ev : list (event E), seen (map SysEv ev) = ev.
  Proof. induction ev as [|e ev IH]; [reflexivity|]. cbn. now f_equal. Qed.
  Lemma threads_only : forall ev : list (event E), watched (map SysEv ev) = [] /\ statuses (map SysEv ev) = [] /\ listened (map SysEv ev) = [].
  Proof. induction ev as [|e ev IH]; [easy|]. cbn. exact IH. Qed.

  Lemma sexec_snoc : forall acts a y, sexec (acts ++ [a]) y =
    (fst (sexec acts y) ++ fst (sstep a (snd (sexec acts y))), snd (sstep a (snd (sexec acts y)))).
  Proof.
    induction acts as [|x acts IH]; intros a y; cbn [app sys_exec].
    - cbn. destruct (sstep a y) as [ev y']. cbn. now rewrite app_nil_r.
    - destruct (sstep x y) as [ev y']. rewrite IH. destruct (sexec acts y') as [evs y''].
      cbn [fst snd]. destruct (sstep a y'') as [ev3 y3]. cbn. now rewrite app_assoc.
  Qed.
  Lemma sexec_app : forall a b y, sexec (a ++ b) y =
    (fst (sexec a y) ++ fst (sexec b (snd (sexec a y))), snd (sexec b (snd (sexec a y)))).
  Proof.
    induction a as [|x a IH]; intros b y; cbn [app sys_exec].
    - cbn. now destruct (sexec b y).
    - destruct (sstep x y) as [ev y']. rewrite IH. destruct (sexec a y') as [evs y''].
      cbn [fst snd]. now rewrite app_assoc.
  Qed.
  Lemma srun_ind : forall (P : list sys_action -> trace -> @system S -> Prop),
    P [] [] start ->
    (forall acts tr y a, run acts = (tr, y) -> P acts tr y -> P (acts ++ [a]) (tr ++ fst (sstep a y)) (snd (sstep a y))) ->
    forall acts, P acts (fst (run acts)) (snd (run acts)).
  Proof.
    intros P H0 HS acts. induction acts as [|a acts IH] using rev_ind; [exact H0|].
    rewrite sexec_snoc. cbn [fst snd]. apply HS; [apply surjective_pairing|exact IH].
  Qed.

  Definition timed_out : effect := Logged "connection keepalive timed out".

  (** ** The threads run as without the tasks *)

  Definition thread_sim (acts : list sys_action) (tr : trace) (y : @system S) : Prop :=
    exists pre post, of_threads acts = pre ++ post /\
    match sy_watch y with
    | WDone => exec cn bd chunk (pre ++ Close :: post) (config_init init st0 conn0) = (seen tr, sy_config y) /\
        watched tr = [timed_out; ConnClose]
    | WClose => post = [] /\ exec cn bd chunk pre (config_init init st0 conn0) = (seen tr, sy_config y) /\
        watched tr = [timed_out]
    | _ => post = [] /\ exec cn bd chunk pre (config_init init st0 conn0) = (seen tr, sy_config y) /\
        watched tr = []
    end.

  Lemma thread_sims : forall acts, thread_sim acts (fst (run acts)) (snd (run acts)).
  Proof.
    apply srun_ind.
    - exists [], []. repeat split.
    - intros acts tr y a R (pre & post & Ha & H). unfold thread_sim. rewrite of_threads_app, seen_app, watched_app.
      destruct a as [a|d| |]; cbn [sys_step].
      + (* threads *)
        destruct (step cn bd chunk a (sy_config y)) as [ev c] eqn:Es. cbn [fst snd sy_watch sy_config].
        rewrite seen_threads, (proj1 (threads_only ev)), app_nil_r, Ha. change (of_threads [SysAct a]) with [a].
        destruct (sy_watch y) eqn:W.
        * destruct H as (-> & X & Y). exists (pre ++ [a]), []. rewrite !app_nil_r. repeat split; [|exact Y].
          rewrite exec_snoc, X. cbn [fst snd]. now rewrite Es.
        * destruct H as (-> & X & Y). exists (pre ++ [a]), []. rewrite !app_nil_r. repeat split; [|exact Y].
          rewrite exec_snoc, X. cbn [fst snd]. now rewrite Es.
        * destruct H as (-> & X & Y). exists (pre ++ [a]), []. rewrite !app_nil_r. repeat split; [|exact Y].
          rewrite exec_snoc, X. cbn [fst snd]. now rewrite Es.
        * destruct H as (X & Y). exists pre, (post ++ [a]). rewrite app_assoc. repeat split; [|exact Y].
          change (pre ++ Close :: post ++ [a]) with (pre ++ (Close :: post) ++ [a]). rewrite app_assoc, exec_snoc, X.
          cbn [fst snd]. now rewrite Es.
      + exists pre, post. cbn. rewrite !app_nil_r. split; [exact Ha|exact H].
      + (* watchdog *)
        change (of_threads [SysWatch]) with (@nil action). rewrite app_nil_r.
        unfold watch_step. destruct (sy_watch y) as [|u| |] eqn:W.
        * exists pre, post. cbn. rewrite !app_nil_r. split; [exact Ha|exact H].
        * destruct (sy_now y <? u); [exists pre, post; cbn; rewrite W, !app_nil_r; split; [exact Ha|exact H]|].
          destruct (timeout <? sy_now y - sy_last y); exists pre, post; cbn; rewrite !app_nil_r; split; try exact Ha; [|exact H].
          destruct H as (-> & X & ->). repeat split. exact X.
        * destruct H as (-> & X & Y). exists pre, []. cbn. split; [exact Ha|]. split; [|now rewrite Y].
          rewrite exec_snoc, X. reflexivity.
        * exists pre, post. cbn. rewrite W, !app_nil_r. split; [exact Ha|exact H].
      + (* listener *)
        change (of_threads [SysListen]) with (@nil action). rewrite app_nil_r.
        assert (L : sy_watch (snd (listen_step (E := E) status y)) = sy_watch y /\ sy_config (snd (listen_step (E := E) status y)) = sy_config y /\
          seen (fst (listen_step (E := E) status y)) = [] /\ watched (fst (listen_step (E := E) status y)) = []).
        { unfold listen_step. destruct (sy_listen y) as [|s|]; [easy| |easy].
          cbn [fst snd]. destruct s; easy. }
        destruct L as (-> & -> & -> & ->). exists pre, post. rewrite !app_nil_r. split; [exact Ha|exact H].
  Qed.

  Lemma threads_in_system : forall acts, exists pre post, of_threads acts = pre ++ post /\
    ((watched (fst (run acts)) = [timed_out; ConnClose] /\
      exec cn bd chunk (pre ++ Close :: post) (config_init init st0 conn0) = (seen (fst (run acts)), sy_config (snd (run acts)))) \/
     (~ In ConnClose (watched (fst (run acts))) /\
      exec cn bd chunk (pre ++ post) (config_init init st0 conn0) = (seen (fst (run acts)), sy_config (snd (run acts))))).
  Proof.
    intros acts. destruct (thread_sims acts) as (pre & post & Ha & H). exists pre, post. split; [exact Ha|].
    destruct (sy_watch (snd (run acts))).
    - destruct H as (-> & X & ->). right. rewrite app_nil_r. split; [easy|exact X].
    - destruct H as (-> & X & ->). right. rewrite app_nil_r. split; [easy|exact X].
    - destruct H as (-> & X & ->). right. rewrite app_nil_r. split; [|exact X]. intros [A|[]]. discriminate.
    - destruct H as (X & Y). left. now split.
  Qed.

  (** ** The watchdog *)

  Definition watch_inv (acts : list sys_action) (tr : trace) (y : @system S) : Prop :=
    sy_last y = now0 /\ sy_now y = now0 + elapsed acts /\
    match sy_watch y with
    | WStart => True
    | WSleep u => u <= sy_now y + timeout
    | WClose | WDone => timeout < elapsed acts
    end.
  Lemma watch_invariant : forall acts, watch_inv acts (fst (run acts)) (snd (run acts)).
  Proof.
    apply srun_ind.
    - repeat split. cbn. lia.
    - intros acts tr y a R (L & T & H). unfold watch_inv. rewrite elapsed_app. destruct a as [a|d| |]; cbn [sys_step].
      + destruct (step cn bd chunk a (sy_config y)) as [ev c]. cbn. rewrite N.add_0_r. now repeat split.
      + cbn. repeat split; [exact L|lia|]. destruct (sy_watch y); lia.
      + change (elapsed [SysWatch]) with 0. rewrite N.add_0_r. unfold watch_step. destruct (sy_watch y) as [|u| |] eqn:W.
        * cbn. repeat split; [exact L|exact T|]. lia.
        * destruct (sy_now y <? u); [cbn; rewrite W; now repeat split|].
          destruct (N.ltb_spec timeout (sy_now y - sy_last y)); cbn; (repeat split; [exact L|exact T|]); lia.
        * cbn. now repeat split.
        * cbn. rewrite W. now repeat split.
      + change (elapsed [SysListen]) with 0. rewrite N.add_0_r. unfold listen_step. destruct (sy_listen y); cbn; now repeat split.
  Qed.

  Lemma watch_safe : forall acts,
    watched (fst (run acts)) = [] \/
    (timeout < elapsed acts /\
     (watched (fst (run acts)) = [timed_out] \/ watched (fst (run acts)) = [timed_out; ConnClose])).
  Proof.
    intros acts. destruct (thread_sims acts) as (pre & post & _ & H). destruct (watch_invariant acts) as (_ & _ & W).
    destruct (sy_watch (snd (run acts))); intuition.
  Qed.

  (** What the watchdog does, from when it runs. *)
  Definition watch_does (w : watch) (last : N) (ts : list N) : list effect :=
    match w with
    | WStart => match ts with [] => [] | t0 :: ts' => asleep_since timeout t0 ts' end
    | WSleep u => asleep_since timeout (u - timeout - last) ts
    | WClose => match ts with [] => [] | _ :: _ => [ConnClose] end
    | WDone => []
    end.
  Definition sleeps_well (y : @system S) : Prop :=
    sy_last y <= sy_now y /\ match sy_watch y with WSleep u => sy_last y + timeout <= u | _ => True end.
  Lemma watch_does_all : forall acts y, sleeps_well y ->
    watched (fst (sexec acts y)) = watch_does (sy_watch y) (sy_last y) (watch_runs (sy_now y - sy_last y) acts).
  Proof.
    induction acts as [|a acts IH]; intros y (N0 & U).
    - cbn. now destruct (sy_watch y).
    - destruct a as [a|d| |]; cbn [sys_exec sys_step watch_runs].
      + destruct (step cn bd chunk a (sy_config y)) as [ev c].
        match goal with |- context [sexec acts ?z] => specialize (IH z); set (y' := z) in *; destruct (sexec acts y') as [evs y''] end.
        cbn [fst] in IH |- *. rewrite watched_app, (proj1 (threads_only ev)). rewrite IH; [reflexivity|now split].
      + match goal with |- context [sexec acts ?z] => specialize (IH z); set (y' := z) in *; destruct (sexec acts y') as [evs y''] end.
        cbn [fst app] in IH |- *. rewrite IH; [|split; cbn; [lia|exact U]]. subst y'. cbn [sy_watch sy_last sy_now].
        do 2 f_equal. lia.
      + unfold watch_step. destruct (sy_watch y) as [|u| |] eqn:W.
        * match goal with |- context [sexec acts ?z] => specialize (IH z); set (y' := z) in *; destruct (sexec acts y') as [evs y''] end.
          cbn [fst app] in IH |- *. rewrite IH; [|split; cbn; lia]. subst y'. cbn.
          replace (sy_now y + timeout - timeout - sy_last y) with (sy_now y - sy_last y) by lia. reflexivity.
        * cbn [watch_does asleep_since].
          replace (u - timeout - sy_last y + timeout) with (u - sy_last y) by lia.
          destruct (N.ltb_spec (sy_now y) u) as [Hu|Hu].
          -- specialize (IH y). destruct (sexec acts y) as [evs y'']. cbn [fst app] in IH |- *.
             rewrite IH by (split; [exact N0|now rewrite W]). rewrite W.
             destruct (N.ltb_spec (sy_now y - sy_last y) (u - sy_last y)); [reflexivity|lia].
          -- destruct (N.ltb_spec (sy_now y - sy_last y) (u - sy_last y)); [lia|].
             destruct (N.ltb_spec timeout (sy_now y - sy_last y)).
             ++ destruct (N.leb_spec (sy_now y - sy_last y) timeout); [lia|].
                match goal with |- context [sexec acts ?z] => specialize (IH z); set (y' := z) in *; destruct (sexec acts y') as [evs y''] end.
                cbn [fst app] in IH |- *. rewrite watched_app, IH by (split; cbn; [exact N0|exact I]). reflexivity.
             ++ destruct (N.leb_spec (sy_now y - sy_last y) timeout); [|lia].
                match goal with |- context [sexec acts ?z] => specialize (IH z); set (y' := z) in *; destruct (sexec acts y') as [evs y''] end.
                cbn [fst app] in IH |- *. rewrite IH; [|split; cbn; lia]. subst y'. cbn.
                replace (sy_now y + timeout - timeout - sy_last y) with (sy_now y - sy_last y) by lia. reflexivity.
        * match goal with |- context [sexec acts ?z] => specialize (IH z); set (y' := z) in *; destruct (sexec acts y') as [evs y''] end.
          cbn [fst app] in IH |- *. rewrite watched_cons_close, IH by (split; cbn; [exact N0|exact I]). reflexivity.
        * specialize (IH y). destruct (sexec acts y) as [evs y'']. cbn [fst app] in IH |- *.
          rewrite IH by (split; [exact N0|now rewrite W]). now rewrite W.
      + assert (L : sy_watch (snd (listen_step (E := E) status y)) = sy_watch y /\ sy_now (snd (listen_step (E := E) status y)) = sy_now y /\
          sy_last (snd (listen_step (E := E) status y)) = sy_last y /\ watched (fst (listen_step (E := E) status y)) = []).
        { unfold listen_step. destruct (sy_listen y) as [|s|]; [easy| |easy]. cbn [fst snd]. destruct s; easy. }
        destruct (listen_step status y) as [ev y']. cbn [fst snd] in L. destruct L as (L1 & L2 & L3 & L4).
        specialize (IH y'). destruct (sexec acts y') as [evs y'']. cbn [fst] in IH |- *.
        rewrite watched_app, L4, IH by (split; rewrite ?L1, ?L2, ?L3; assumption). now rewrite L1, L2, L3.
  Qed.
  Lemma watch_exact : forall acts, watched (fst (run acts)) =
    match watch_runs 0 acts with [] => [] | t0 :: ts => asleep_since timeout t0 ts end.
  Proof.
    intros acts. rewrite watch_does_all by (split; cbn; [lia|exact I]). cbn. now rewrite N.sub_diag.
  Qed.

  (** How far the watchdog has got; it never goes back. *)
  Definition rank (w : watch) : nat := match w with WStart => 0 | WSleep _ => 1 | WClose => 2 | WDone => 3 end.
  Lemma rank_step : forall a y, (rank (sy_watch y) <= rank (sy_watch (snd (sstep a y))))%nat.
  Proof.
    intros a y. destruct a as [a|d| |]; cbn [sys_step].
    - destruct (step cn bd chunk a (sy_config y)); cbn; lia.
    - cbn. lia.
    - unfold watch_step. destruct (sy_watch y) as [|u| |] eqn:W; cbn; try lia.
      + destruct (sy_now y <? u); [cbn; rewrite W; cbn; lia|]. destruct (timeout <? sy_now y - sy_last y); cbn; lia.
      + rewrite W. cbn. lia.
    - unfold listen_step. destruct (sy_listen y); cbn; lia.
  Qed.
  Lemma rank_exec : forall acts y, (rank (sy_watch y) <= rank (sy_watch (snd (sexec acts y))))%nat.
  Proof.
    induction acts as [|a acts IH] using rev_ind; intros y; [cbn; lia|]. rewrite sexec_snoc. cbn [snd].
    pose proof (IH y). pose proof (rank_step a (snd (sexec acts y))). lia.
  Qed.

  (** A sleep ends at most two periods after creation, or one after the first run. *)
  Lemma watch_until : forall a0 a1 u, sy_watch (snd (run (a0 ++ [SysWatch] ++ a1))) = WSleep u ->
    u <= N.max (now0 + elapsed a0 + timeout) (now0 + 2 * timeout).
  Proof.
    intros a0 a1. induction a1 as [|a a1 IH] using rev_ind; intros u H.
    - cbn [app] in H. rewrite sexec_snoc in H. cbn [snd sys_step] in H.
      destruct (watch_invariant a0) as (L & T & W). unfold watch_step in H.
      destruct (sy_watch (snd (run a0))) as [|v| |] eqn:Wt; cbn in H.
      + injection H as <-. lia.
      + destruct (sy_now (snd (run a0)) <? v); [cbn in H; rewrite Wt in H; injection H as <-; lia|].
        destruct (timeout <? _); cbn in H; [discriminate|]. injection H as <-. lia.
      + discriminate.
      + rewrite Wt in H. discriminate.
    - change (a0 ++ [SysWatch] ++ a1 ++ [a]) with (a0 ++ ([SysWatch] ++ a1) ++ [a]) in H.
      rewrite app_assoc, sexec_snoc in H. cbn [snd] in H. set (w := a0 ++ [SysWatch] ++ a1) in *.
      destruct (watch_invariant w) as (L & T & W).
      assert (R : (1 <= rank (sy_watch (snd (run w))))%nat).
      { unfold w. rewrite sexec_app. cbn [snd app]. change (SysWatch :: a1) with ([SysWatch] ++ a1). rewrite sexec_app.
        cbn [snd]. etransitivity; [|apply rank_exec]. cbn [sys_exec]. 
        destruct (sstep SysWatch (snd (run a0))) as [ev y'] eqn:Es. cbn [snd].
        assert (y' = snd (sstep SysWatch (snd (run a0)))) as -> by now rewrite Es. clear Es. cbn [sys_step]. unfold watch_step.
        destruct (sy_watch (snd (run a0))) as [|v| |] eqn:Wt; cbn; try lia.
        - destruct (_ <? v); [cbn; rewrite Wt; cbn; lia|]. destruct (timeout <? _); cbn; lia.
        - rewrite Wt. cbn. lia. }
      destruct a as [a|d| |]; cbn [sys_step] in H.
      + destruct (step cn bd chunk a _). now apply IH.
      + now apply IH.
      + unfold watch_step in H. destruct (sy_watch (snd (run w))) as [|v| |] eqn:Wt; cbn in H.
        * cbn in R. lia.
        * destruct (sy_now (snd (run w)) <? v); [cbn in H; rewrite Wt in H; injection H as <-; now apply IH|].
          destruct (N.ltb_spec timeout (sy_now (snd (run w)) - sy_last (snd (run w)))); cbn in H; [discriminate|].
          injection H as <-. lia.
        * discriminate.
        * rewrite Wt in H. discriminate.
      + unfold listen_step in H. destruct (sy_listen (snd (run w))); cbn in H; now apply IH.
  Qed.

  Lemma watch_live : forall a0 a1 a2 a3, 0 < timeout -> timeout <= elapsed a1 -> 2 * timeout <= elapsed a0 + elapsed a1 ->
    watched (fst (run (a0 ++ [SysWatch] ++ a1 ++ [SysWatch] ++ a2 ++ [SysWatch] ++ a3))) = [timed_out; ConnClose].
  Proof.
    intros a0 a1 a2 a3 H0 H1 H2.
    set (w1 := a0 ++ [SysWatch] ++ a1). set (w2 := w1 ++ [SysWatch] ++ a2). set (w3 := w2 ++ [SysWatch] ++ a3).
    assert (Ew : a0 ++ [SysWatch] ++ a1 ++ [SysWatch] ++ a2 ++ [SysWatch] ++ a3 = w3)
      by (unfold w3, w2, w1; now rewrite !app_assoc).
    rewrite Ew. clear Ew.
    assert (R1 : (1 <= rank (sy_watch (snd (run w1))))%nat).
    { unfold w1. rewrite sexec_app. cbn [snd]. rewrite sexec_app. cbn [snd]. etransitivity; [|apply rank_exec].
      rewrite <- (app_nil_l [SysWatch]), sexec_snoc. cbn [snd sys_exec sys_step]. unfold watch_step.
      destruct (sy_watch (snd (run a0))) as [|v| |] eqn:Wt; cbn; try lia.
      - destruct (_ <? v); [cbn; rewrite Wt; cbn; lia|]. destruct (timeout <? _); cbn; lia.
      - rewrite Wt. cbn. lia. }
    assert (R2 : (2 <= rank (sy_watch (snd (run w2))))%nat).
    { unfold w2. rewrite sexec_app. cbn [snd]. rewrite sexec_app. cbn [snd]. etransitivity; [|apply rank_exec].
      rewrite <- (app_nil_l [SysWatch]), sexec_snoc. cbn [snd sys_exec sys_step]. unfold watch_step.
      destruct (watch_invariant w1) as (L & T & _).
      assert (Tw : elapsed w1 = elapsed a0 + elapsed a1) by (unfold w1; rewrite !elapsed_app; cbn; lia).
      destruct (sy_watch (snd (run w1))) as [|v| |] eqn:Wt; cbn; try lia.
      - cbn in R1. lia.
      - pose proof (watch_until a0 a1 v Wt) as U. destruct (N.ltb_spec (sy_now (snd (run w1))) v); [exfalso; lia|].
        destruct (N.ltb_spec timeout (sy_now (snd (run w1)) - sy_last (snd (run w1)))); cbn; lia.
      - rewrite Wt. cbn. lia. }
    assert (R3 : (3 <= rank (sy_watch (snd (run w3))))%nat).
    { unfold w3. rewrite sexec_app. cbn [snd]. rewrite sexec_app. cbn [snd]. etransitivity; [|apply rank_exec].
      rewrite <- (app_nil_l [SysWatch]), sexec_snoc. cbn [snd sys_exec sys_step]. unfold watch_step.
      destruct (sy_watch (snd (run w2))) as [|v| |] eqn:Wt; cbn in R2 |- *; try lia. rewrite Wt. cbn. lia. }
    destruct (thread_sims w3) as (pre & post & _ & H). destruct (sy_watch (snd (run w3))); cbn in R3; try lia. apply H.
  Qed.

  (** ** The listener *)

  Definition listen_inv (acts : list sys_action) (tr : trace) (y : @system S) : Prop :=
    match sy_listen y with
    | LAsk => exists h, statuses tr = map Some h /\ listened tr = lines h /\ turns acts = (2 * length h)%nat
    | LReport s => exists h, statuses tr = map Some (h ++ [s]) /\ listened tr = lines h /\ turns acts = (2 * length h + 1)%nat
    | LDone => exists h, statuses tr = map Some h ++ [None] /\ listened tr = lines h
    end.
  Lemma lines_snoc : forall h s, lines (h ++ [s]) = lines h ++ match status_line s with Some t => [Logged t] | None => [] end.
  Proof. intros h s. unfold lines. rewrite flat_map_app. cbn. now rewrite app_nil_r. Qed.
  Lemma turns_app : forall a b, turns (a ++ b) = (turns a + turns b)%nat.
  Proof. intros. unfold turns. now rewrite filter_app, app_length. Qed.
  Lemma listen_invariant : forall acts, listen_inv acts (fst (run acts)) (snd (run acts)).
  Proof.
    apply srun_ind.
    - exists []. repeat split.
    - intros acts tr y a _ H. unfold listen_inv in *. rewrite statuses_app, listened_app, turns_app. destruct a as [a|d| |]; cbn [sys_step].
      + destruct (step cn bd chunk a (sy_config y)) as [ev c]. cbn [fst snd sy_listen]. change (turns [SysAct a]) with 0%nat.
        destruct (threads_only ev) as (_ & -> & ->). now rewrite !app_nil_r, Nat.add_0_r.
      + cbn. now rewrite !app_nil_r, Nat.add_0_r.
      + assert (X : sy_listen (snd (watch_step cn timeout y)) = sy_listen y /\ statuses (fst (watch_step cn timeout y)) = [] /\
          listened (fst (watch_step cn timeout y)) = []).
        { unfold watch_step. destruct (sy_watch y) as [|u| |]; try easy. destruct (sy_now y <? u); [easy|].
          destruct (timeout <? sy_now y - sy_last y); easy. }
        destruct X as (-> & -> & ->). change (turns [SysWatch]) with 0%nat. now rewrite !app_nil_r, Nat.add_0_r.
      + change (turns [SysListen]) with 1%nat. unfold listen_step. destruct (sy_listen y) as [|s|] eqn:Ls.
        * destruct H as (h & Hs & Hl & Ht). destruct (status (cf_conn (sy_config y))) as [s|]; cbn.
          -- exists h. rewrite Hs, Hl, Ht, map_app, app_nil_r. repeat split.
          -- exists h. now rewrite Hs, Hl, app_nil_r.
        * destruct H as (h & Hs & Hl & Ht). cbn [fst snd set_listen sy_listen]. exists (h ++ [s]).
          rewrite lines_snoc, Hs, Hl, Ht, app_length. cbn [length].
          destruct s; cbn; rewrite ?app_nil_r; (split; [reflexivity|split; [reflexivity|lia]]).
        * cbn. rewrite Ls, !app_nil_r. exact H.
  Qed.

  Lemma listener_in_system : forall acts, exists h last, listened (fst (run acts)) = lines h /\
    statuses (fst (run acts)) = map Some h ++ last /\
    ((last = [] /\ turns acts = (2 * length h)%nat) \/
     ((exists s, last = [Some s]) /\ turns acts = (2 * length h + 1)%nat) \/ last = [None]).
  Proof.
    intros acts. pose proof (listen_invariant acts) as H. unfold listen_inv in H.
    destruct (sy_listen (snd (run acts))).
    - destruct H as (h & Hs & Hl & Ht). exists h, []. rewrite app_nil_r. split; [exact Hl|]. split; [exact Hs|left; now split].
    - destruct H as (h & Hs & Hl & Ht). exists h, [Some s]. rewrite map_app in Hs. split; [exact Hl|]. split; [exact Hs|].
      right. left. split; [now exists s|exact Ht].
    - destruct H as (h & Hs & Hl). exists h, [None]. split; [exact Hl|]. split; [exact Hs|right; now right].
  Qed.

  (** ** The connection *)

  Lemma sys_replays_app : forall s (a b : trace) s1 s2,
    sys_replays cn status s a s1 -> sys_replays cn status s1 b s2 -> sys_replays cn status s (a ++ b) s2.
  Proof. intros s a b s1 s2 H K. induction H; [exact K|]. cbn [app]. econstructor; eauto. Qed.
  Lemma sys_replays_threads : forall s tr s', replays cn s tr s' -> sys_replays cn status s (map SysEv tr) s'.
  Proof. intros s tr s' H. induction H; [constructor|]. cbn [map]. econstructor; [exact H|exact IHreplays]. Qed.
  Lemma sys_replays_logs : forall (f : string -> sys_event E) s ls,
    (forall t, sys_undergoes cn status s (f t) s) -> sys_replays cn status s (map f ls) s.
  Proof. intros f s ls H. induction ls as [|t ls IH]; [constructor|]. cbn [map]. econstructor; [apply H|exact IH]. Qed.
  Lemma sys_replays_one : forall s (e : sys_event E) s', sys_undergoes cn status s e s' -> sys_replays cn status s [e] s'.
  Proof. intros. econstructor; [eassumption|constructor]. Qed.

  Lemma step_replays : forall a (c : @config S),
    replays cn (cf_conn c) (fst (step cn bd chunk a c)) (cf_conn (snd (step cn bd chunk a c))).
  Proof.
    intros a c. pose proof (step_shaped cn bd chunk a c) as Sh. revert Sh.
    generalize (fst (step cn bd chunk a c)) (snd (step cn bd chunk a c)). intros ev c' Sh.
    destruct Sh; cbn [cf_conn]; first [apply replays_one; cbn; first [reflexivity|apply surjective_pairing]|constructor].
  Qed.

  Lemma sys_replayed : forall acts, sys_replays cn status conn0 (fst (run acts)) (cf_conn (sy_config (snd (run acts)))).
  Proof.
    apply (srun_ind (fun _ tr y => sys_replays cn status conn0 tr (cf_conn (sy_config y)))).
    - constructor.
    - intros acts tr y a _ IH. eapply sys_replays_app; [exact IH|]. clear IH. destruct a as [a|d| |]; cbn [sys_step].
      + pose proof (step_replays a (sy_config y)) as X. destruct (step cn bd chunk a (sy_config y)) as [ev c].
        cbn [fst snd sy_config] in *. now apply sys_replays_threads.
      + constructor.
      + unfold watch_step. destruct (sy_watch y) as [|u| |]; [constructor| | |constructor].
        * destruct (sy_now y <? u); [constructor|]. destruct (timeout <? sy_now y - sy_last y); [|constructor].
          apply sys_replays_logs. reflexivity.
        * apply sys_replays_one. reflexivity.
      + unfold listen_step. destruct (sy_listen y) as [|s|]; [|apply sys_replays_logs; reflexivity|constructor].
        apply sys_replays_one. now split.
  Qed.
End System.

(** ** After a close *)

Section Closed.
  Context {S E : Type} (cn : connection S E) (closed : S -> Prop).
  Hypothesis Hc : closes_for_good cn closed.

  Lemma replays_split : forall (a b : list (event E)) s s2, replays cn s (a ++ b) s2 -> exists s1, replays cn s a s1 /\ replays cn s1 b s2.
  Proof.
    induction a as [|e a IH]; intros b s s2 H; [exists s; split; [constructor|exact H]|].
    inversion H as [|? ? s1 ? ? U R]; subst. destruct (IH _ _ _ R) as (s3 & A & B). exists s3. split; [|exact B].
    econstructor; eauto.
  Qed.
  Lemma closed_sends : forall tr s s', replays cn s tr s' -> closed s -> forall t f r, In (EvSend t f r) tr -> r <> None.
  Proof.
    destruct Hc as (C1 & C2 & C3). intros tr s s' R. induction R as [|s e s1 tr s' U R IH]; intros Cl t f r I; [contradiction|].
    assert (Cl1 : closed s1).
    { destruct e; cbn in U; subst; try assumption.
      - replace s1 with (fst (cn_send_and_forget cn s f0)) by now rewrite U. now apply C3.
      - replace s1 with (fst (cn_send cn s f0)) by now rewrite U. now apply C2.
      - apply C1. }
    destruct I as [->|I]; [|eapply IH; eauto]. cbn in U.
    replace r with (snd (cn_send_and_forget cn s f)) by now rewrite U. now apply C3.
  Qed.
  Lemma after_close : forall tr1 tr2 s s', replays cn s (tr1 ++ EvClose :: tr2) s' ->
    forall t f r, In (EvSend t f r) tr2 -> r <> None.
  Proof.
    intros tr1 tr2 s s' R. destruct (replays_split _ _ _ _ R) as (s1 & _ & R1). inversion R1 as [|? ? s2 ? ? U R2]; subst.
    cbn in U. subst. eapply closed_sends; [exact R2|]. apply (proj1 Hc).
  Qed.
End Closed.

Section Calls.
  Context {E : Type} (chunk : option N) (t : nat).
  Notation behaves := (@behaves E chunk t).

  Lemma behaves_split : forall (a b : list (event E)) rs x y, behaves rs x (a ++ b) y ->
    exists rs1 z rs2, behaves rs1 x a z /\ behaves rs2 z b y.
  Proof.
    induction a as [|e a IH]; intros b rs x y H; [exists [], x, rs; split; [constructor|exact H]|].
    cbn [app] in H. inversion H as [|r1 ? ? z r2 ? ? D B]; subst. destruct (IH _ _ _ _ B) as (q1 & w & q2 & B1 & B2).
    exists (r1 ++ q1), w, q2. split; [|exact B2]. econstructor; eauto.
  Qed.
  (** Without a new id a thread that is in no call does not get into one. *)
  Definition in_call (x : phase) : bool := match x with Inside _ _ => true | _ => false end.
  Lemma stays_out : forall tr rs x y, behaves rs x tr y -> in_call x = false ->
    (forall sid p, ~ In (EvAlloc t sid p) tr) -> in_call y = false.
  Proof.
    intros tr rs x y H. induction H as [x|rs x e y rs' tr z D B IH]; intros O NA; [exact O|].
    apply IH; [|intros sid p I; apply (NA sid p); now right].
    inversion D; subst; try assumption; try reflexivity; try discriminate.
    exfalso. eapply NA. now left.
  Qed.
  (** Nor does one whose frames are all refused get to the return. *)
  Lemma refused_out : forall tr rs sid f fs y, behaves rs (Inside sid (f :: fs)) tr y ->
    (forall u g r, In (EvSend u g r) tr -> r <> None) -> (forall sid p, ~ In (EvAlloc t sid p) tr) ->
    y = Inside sid (f :: fs) \/ in_call y = false.
  Proof.
    intros tr rs sid f fs y H. remember (Inside sid (f :: fs)) as x eqn:Ex. revert Ex.
    induction H as [x|rs x e y rs' tr z D B IH]; intros Ex NS NA; [now left|]. subst x.
    assert (NS' : forall u g r, In (EvSend u g r) tr -> r <> None) by (intros u g r I; eapply NS; right; exact I).
    assert (NA' : forall s p, ~ In (EvAlloc t s p) tr) by (intros s p I; eapply NA; right; exact I).
    inversion D; subst.
    - now apply IH.
    - exfalso. eapply NS; [now left|reflexivity].
    - right. eapply stays_out; eauto.
  Qed.
  Lemma no_return : forall rs ph tr1 sid p tr2 sid' tr3,
    behaves rs Outside (tr1 ++ EvAlloc t sid p :: tr2 ++ EvReturn t sid' :: tr3) ph ->
    (forall u g r, In (EvSend u g r) tr2 -> r <> None) -> (forall s q, ~ In (EvAlloc t s q) tr2) ->
    fragments chunk p = [].
  Proof.
    intros rs ph tr1 sid p tr2 sid' tr3 H NS NA. apply behaves_split in H as (r1 & x1 & r2 & _ & H).
    inversion H as [|r3 ? ? x2 r4 ? ? D B]; subst. clear H.
    apply behaves_split in B as (r5 & x3 & r6 & B & H). inversion H as [|r7 ? ? x4 r8 ? ? D' B']; subst. clear H B'.
    inversion D as [? ? O| | | |? ? fs C| | | | | |]; subst; [cbn in O; now rewrite Nat.eqb_refl in O|].
    destruct (fragments chunk p) as [|q ps]; [reflexivity|]. exfalso. inversion C as [|? f ? fs1 _ C']; subst.
    destruct (refused_out _ _ _ _ _ _ B NS NA) as [->|X].
    - inversion D' as [? ? O| | | | | | | | | |]; subst. cbn in O. now rewrite Nat.eqb_refl in O.
    - inversion D' as [? ? O| | | | | | | | | |]; subst; [cbn in O; now rewrite Nat.eqb_refl in O|discriminate].
  Qed.
End Calls.

Lemma closed_calls : forall (S E : Type) (cn : connection S E) status bd chunk timeout init st0 conn0 now0 closed,
  closes_for_good cn closed -> forall acts tr1 tr2,
  seen (fst (sys_exec cn status bd chunk timeout acts (system_init init st0 conn0 now0))) = tr1 ++ EvClose :: tr2 ->
  (forall t f r, In (EvSend t f r) tr2 -> r <> None) /\
  (forall t sid p u1 u2 sid' u3, tr2 = u1 ++ EvAlloc t sid p :: u2 ++ EvReturn t sid' :: u3 ->
     fragments chunk p <> [] -> exists s q, In (EvAlloc t s q) u2).
Proof.
  intros S E cn status bd chunk timeout init st0 conn0 now0 closed Hc acts tr1 tr2 H.
  assert (X : exists acts', fst (exec cn bd chunk acts' (config_init init st0 conn0)) = tr1 ++ EvClose :: tr2).
  { destruct (threads_in_system cn status bd chunk timeout init st0 conn0 now0 acts) as (pre & post & _ & [[_ X]|[_ X]]);
      rewrite H in X; eexists; rewrite X; reflexivity. }
  clear H. destruct X as (acts' & X).
  assert (A : forall t f r, In (EvSend t f r) tr2 -> r <> None).
  { pose proof (replayed cn bd chunk init st0 conn0 acts') as R. rewrite X in R. eapply after_close; eauto. }
  split; [exact A|]. intros t sid p u1 u2 sid' u3 -> Hf.
  destruct (behaviour cn bd chunk init st0 conn0 t acts') as (rs & ph & _ & B). rewrite X in B.
  replace (tr1 ++ EvClose :: u1 ++ EvAlloc t sid p :: u2 ++ EvReturn t sid' :: u3)
    with ((tr1 ++ EvClose :: u1) ++ EvAlloc t sid p :: u2 ++ EvReturn t sid' :: u3) in B by (rewrite <- app_assoc; reflexivity).
  assert (Dec : (exists s q, In (EvAlloc t s q) u2) \/ (forall s q, ~ In (EvAlloc t s q) u2)).
  { clear. induction u2 as [|e u2 IH]; [right; intros s q []|]. destruct IH as [(s & q & I)|NI]; [left; exists s, q; now right|].
    destruct e as [|u s q| | | | | | |]; try (right; intros s' q' [I|I]; [discriminate|eapply NI; exact I]).
    destruct (Nat.eq_dec u t) as [->|Hn]; [left; exists s, q; now left|].
    right. intros s' q' [I|I]; [congruence|eapply NI; exact I]. }
  destruct Dec as [D|D]; [exact D|]. exfalso. apply Hf. eapply no_return; [exact B| |exact D].
  intros u g r I. apply A with (t := u) (f := g). apply in_or_app. right. right. apply in_or_app. now left.
Qed.

(** ** The two ends of a connection *)

Lemma ends_disjoint : forall (S E S' E' : Type) (cn : connection S E) (cn' : connection S' E')
  bd bd' chunk chunk' st st' conn conn' acts acts' sid,
  In sid (alloc_ids (fst (exec cn bd chunk acts (config_init (rm_stream_id (machine_new Client)) st conn)))) ->
  In sid (alloc_ids (fst (exec cn' bd' chunk' acts' (config_init (rm_stream_id (machine_new Server)) st' conn')))) -> False.
Proof.
  intros S E S' E' cn cn' bd bd' chunk chunk' st st' conn conn' acts acts' sid A B.
  assert (X : forall (S E : Type) (cn : connection S E) bd chunk init st conn acts,
    In sid (alloc_ids (fst (exec cn bd chunk acts (config_init init st conn)))) -> in_class init sid).
  { clear. intros S E cn bd chunk init st conn acts H.
    destruct (draw_invariant cn bd chunk init st conn acts) as (D1 & _ & _ & D4). apply D4 in H. rewrite D1 in H.
    unfold draws in H. apply in_map_iff in H as (k & <- & _). apply id_in_class. }
  apply X in A. apply X in B. destruct A as [_ A], B as [_ B]. cbn in A, B. rewrite A in B. discriminate.
Qed.
