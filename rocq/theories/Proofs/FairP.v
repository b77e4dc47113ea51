(** * Fair runs of the worker threads *)

From Verif Require Import Model.PoolM Spec.Fair.
From Verif Require Import Proofs.SystemP Proofs.PoolP.

Section P.
  Context {S E : Type} (cn : connection S E) (status : S -> option connection_status).
  Context (w : nat) (bd : build) (chunk : option N) (timeout : N) (init : Z) (st0 : store) (conn : S) (now : N).
  Context (acts : nat -> pool_action).
  Local Notation px := (pool_exec cn status w bd chunk timeout).
  Local Notation ps := (pool_step cn status w bd chunk timeout).
  Local Notation start := (pool_init init st0 conn now).
  Definition state (n : nat) : @pool S := snd (px (begun acts n) start).
  Local Notation tid := (tidy w timeout).

  Lemma begun_S : forall n, begun acts (Datatypes.S n) = begun acts n ++ [acts n].
  Proof. intros n. unfold begun. rewrite seq_S, map_app. reflexivity. Qed.
  Lemma state_S : forall n, state (Datatypes.S n) = snd (ps (acts n) (state n)).
  Proof.
    intros n. unfold state. rewrite begun_S, px_app. destruct (px (begun acts n) start) as [e p]. cbn [snd pool_exec].
    destruct (ps (acts n) p) as [e1 p1]. reflexivity.
  Qed.
  Lemma state_tidy : forall n, tid (state n).
  Proof. intros n. apply tidy_exec, tidy_init. Qed.

  (** What a step that is not one of the watchdog leaves alone. *)
  Lemma step_alone : forall a p, (forall i r, a = PStep i r -> po_busy p i <> Some TWatch) ->
    sy_watch (po_sys (snd (ps a p))) = sy_watch (po_sys p) /\
    forall j, po_busy p j = Some TWatch -> po_busy (snd (ps a p)) j = Some TWatch.
  Proof.
    intros a p H. destruct a as [i t|i r|i a|a|d]; cbn [pool_step].
    - destruct (po_busy p i) eqn:X; [auto|].
      destruct (Nat.ltb i w && negb (polled w p t) && runnable (po_sys p) t); [|auto]. cbn [snd po_sys po_busy].
      split; [reflexivity|]. intros j J. rewrite set_other; [exact J|]. intros ->. congruence.
    - destruct (po_busy p i) as [[|]|] eqn:X; [exfalso; now apply (H i r)| |auto].
      assert (Y : forall j, po_busy p j = Some TWatch -> set_busy p i None j = Some TWatch).
      { intros j J. rewrite set_other; [exact J|]. intros ->. congruence. }
      unfold poll_listen, listen_step. destruct (sy_listen (po_sys p)) eqn:L; [destruct r|..]; rewrite ?L; cbn [snd po_sys po_busy];
        try (destruct (status _)); cbn [snd po_sys po_busy set_listen sy_watch sy_listen]; rewrite ?L; auto.
    - destruct (po_busy p i); [auto|]. destruct (Nat.ltb i w); [|auto]. cbn [sys_step].
      destruct (step cn bd chunk a (sy_config (po_sys p))). auto.
    - cbn [sys_step]. destruct (step cn bd chunk a (sy_config (po_sys p))). auto.
    - auto.
  Qed.
  Lemma step_time : forall a p, sy_last (po_sys (snd (ps a p))) = sy_last (po_sys p) /\
    sy_now (po_sys (snd (ps a p))) = sy_now (po_sys p) + passed [a].
  Proof.
    intros a p. destruct a as [i t|i r|i a|a|d]; cbn [pool_step passed fold_right].
    - destruct (po_busy p i); [split; [reflexivity|cbn; lia]|].
      destruct (Nat.ltb i w && negb (polled w p t) && runnable (po_sys p) t); cbn; (split; [reflexivity|lia]).
    - destruct (po_busy p i) as [[|]|]; [| |cbn; split; [reflexivity|lia]].
      + unfold poll_watch, watch_step. destruct (sy_watch (po_sys p)) eqn:W; rewrite ?W; cbn [snd po_sys set_watch sy_last sy_now];
          try (destruct (_ <? _)); try (destruct (_ <? _)); cbn; (split; [reflexivity|lia]).
      + unfold poll_listen, listen_step. destruct (sy_listen (po_sys p)) eqn:L; [destruct r|..]; rewrite ?L; cbn [snd po_sys];
        try (destruct (status _)); cbn; (split; [reflexivity|lia]).
    - destruct (po_busy p i); [cbn; split; [reflexivity|lia]|]. destruct (Nat.ltb i w); [|cbn; split; [reflexivity|lia]].
      cbn [sys_step]. destruct (step cn bd chunk a (sy_config (po_sys p))). cbn. split; [reflexivity|lia].
    - cbn [sys_step]. destruct (step cn bd chunk a (sy_config (po_sys p))). cbn. split; [reflexivity|lia].
    - cbn. split; [reflexivity|lia].
  Qed.
  Lemma passed_app : forall a b, passed (a ++ b) = passed a + passed b.
  Proof.
    unfold passed. induction a as [|x a IH]; intros b; cbn [app fold_right]; [lia|]. rewrite IH. destruct x; lia.
  Qed.
  Lemma state_time : forall n, sy_last (po_sys (state n)) = now /\ sy_now (po_sys (state n)) = now + passed (begun acts n).
  Proof.
    induction n as [|n [L N]].
    - cbn. split; [reflexivity|lia].
    - rewrite state_S, begun_S, passed_app. destruct (step_time (acts n) (state n)) as [A B]. rewrite A, B, L, N. split; [reflexivity|lia].
  Qed.
  Lemma time_grows : forall n m, (n <= m)%nat -> sy_now (po_sys (state n)) <= sy_now (po_sys (state m)).
  Proof.
    intros n m H. induction H as [|m H IH]; [lia|]. rewrite state_S. destruct (step_time (acts m) (state m)) as [_ B].
    rewrite B. lia.
  Qed.

  (** The [k]th step is one of the watchdog. *)
  Definition turn (k : nat) : Prop := exists j r, acts k = PStep j r /\ po_busy (state k) j = Some TWatch.
  Lemma turn_dec : forall k, turn k \/ ~ turn k.
  Proof.
    intros k. unfold turn. destruct (acts k) as [i t|i r|i a|a|d] eqn:A;
      try (right; intros (j & q & X & _); discriminate).
    destruct (po_busy (state k) i) as [[|]|] eqn:B.
    - left. now exists i, r.
    - right. intros (j & q & X & Y). injection X as <- <-. congruence.
    - right. intros (j & q & X & Y). injection X as <- <-. congruence.
  Qed.
  Lemma no_turn : forall k, ~ turn k -> sy_watch (po_sys (state (Datatypes.S k))) = sy_watch (po_sys (state k)) /\
    forall j, po_busy (state k) j = Some TWatch -> po_busy (state (Datatypes.S k)) j = Some TWatch.
  Proof.
    intros k H. rewrite state_S. apply step_alone. intros i r A B. apply H. now exists i, r.
  Qed.
  (** Nothing changes about it before its next turn. *)
  Lemma until_turn : forall n m, (n <= m)%nat ->
    (sy_watch (po_sys (state m)) = sy_watch (po_sys (state n)) /\
     forall j, po_busy (state n) j = Some TWatch -> po_busy (state m) j = Some TWatch) \/
    exists k, (n <= k)%nat /\ turn k /\ sy_watch (po_sys (state k)) = sy_watch (po_sys (state n)).
  Proof.
    intros n m H. induction H as [|m H [[A B]|IH]]; [left; auto| |now right].
    destruct (turn_dec m) as [T|T]; [right; exists m; auto|].
    destruct (no_turn m T) as [C D]. left. split; [congruence|auto].
  Qed.

  Lemma polled_turn : goes_on w acts -> forall n j, po_busy (state n) j = Some TWatch ->
    exists k, (n <= k)%nat /\ turn k /\ sy_watch (po_sys (state k)) = sy_watch (po_sys (state n)).
  Proof.
    intros [G _] n j J. destruct (state_tidy n) as (A & _).
    assert (L : (j < w)%nat).
    { destruct (Nat.lt_ge_cases j w) as [Q|Q]; [exact Q|]. rewrite A in J by exact Q. discriminate. }
    destruct (G j n L) as (m & r & H & X). destruct (until_turn n m H) as [[B C]|K]; [|exact K].
    exists m. split; [exact H|]. split; [|exact B]. exists j, r. auto.
  Qed.

  (** It gets a turn if it does not wait for ever. *)
  Definition attended : Prop := forall n, exists m, (n <= m)%nat /\ ~ waits w (state m).

  Lemma gets_turn : goes_on w acts -> attended -> forall n, sy_watch (po_sys (state n)) <> WDone ->
    exists k, (n <= k)%nat /\ turn k /\ sy_watch (po_sys (state k)) = sy_watch (po_sys (state n)).
  Proof.
    intros G F n ND. pose proof G as [_ CL].
    assert (D : sy_watch (po_sys (state n)) = WStart \/ (exists u, sy_watch (po_sys (state n)) = WSleep u) \/
                sy_watch (po_sys (state n)) = WClose).
    { destruct (sy_watch (po_sys (state n))) as [|u| |]; [auto|right; left; now exists u|auto|congruence]. }
    assert (OUT : forall m, (n <= m)%nat -> ~ waits w (state m) ->
      (sy_watch (po_sys (state n)) = WStart \/ exists u, sy_watch (po_sys (state n)) = WSleep u /\ u <= sy_now (po_sys (state m))) ->
      exists k, (n <= k)%nat /\ turn k /\ sy_watch (po_sys (state k)) = sy_watch (po_sys (state n))).
    { intros m H NW W. destruct (until_turn n m H) as [[A _]|K]; [|exact K].
      destruct (polled w (state m) TWatch) eqn:P.
      - unfold polled in P. apply existsb_exists in P as (j & _ & P).
        destruct (po_busy (state m) j) as [[|]|] eqn:B; try discriminate P.
        destruct (polled_turn G m j B) as (k & L & T & X). exists k. split; [lia|]. split; [exact T|congruence].
      - exfalso. apply NW. split; [now apply not_polled|]. rewrite A. exact W. }
    destruct D as [D|[[u D]|D]].
    - destruct (F n) as (m & H & NW). apply (OUT m H NW). now left.
    - destruct (CL u) as (n1 & T1). destruct (F (n + n1)%nat) as (m & H & NW). apply (OUT m); [lia|exact NW|].
      right. exists u. split; [exact D|]. destruct (state_time n1) as [_ X].
      pose proof (time_grows n1 m ltac:(lia)). lia.
    - destruct (state_tidy n) as (_ & _ & _ & _ & B & _). destruct (B D) as (j & J). exact (polled_turn G n j J).
  Qed.

  (** What a turn does. *)
  Lemma turn_does : forall k, turn k -> 
    match sy_watch (po_sys (state k)) with
    | WStart => exists u, sy_watch (po_sys (state (Datatypes.S k))) = WSleep u
    | WSleep _ => timeout < sy_now (po_sys (state k)) - now -> sy_watch (po_sys (state (Datatypes.S k))) = WClose
    | WClose | WDone => sy_watch (po_sys (state (Datatypes.S k))) = WDone
    end.
  Proof.
    intros k (j & r & A & B). rewrite state_S, A. cbn [pool_step]. rewrite B. unfold poll_watch, watch_step.
    destruct (state_tidy k) as (_ & _ & _ & D & _). destruct (D j B) as [_ D2].
    destruct (sy_watch (po_sys (state k))) as [|u| |] eqn:W; cbn [snd po_sys set_watch sy_watch].
    - now eexists.
    - intros T. rewrite (proj2 (N.ltb_ge _ _) (D2 u eq_refl)). destruct (state_time k) as [L _]. rewrite L.
      rewrite (proj2 (N.ltb_lt _ _) T). reflexivity.
    - reflexivity.
    - exact W.
  Qed.

  Lemma done_stays : forall n m, (n <= m)%nat -> sy_watch (po_sys (state n)) = WDone -> sy_watch (po_sys (state m)) = WDone.
  Proof.
    intros n m H D. induction H as [|m H IH]; [exact D|].
    destruct (turn_dec m) as [T|T]; [|now rewrite (proj1 (no_turn m T))].
    apply turn_does in T. rewrite IH in T. exact T.
  Qed.

  Lemma reaches_done : goes_on w acts -> attended -> exists n, sy_watch (po_sys (state n)) = WDone.
  Proof.
    intros G F. pose proof G as [_ CL]. destruct (CL (timeout + 1)) as (n & T).
    assert (LATE : forall k, (n <= k)%nat -> timeout < sy_now (po_sys (state k)) - now).
    { intros k H. pose proof (time_grows n k H). destruct (state_time n) as [_ X]. lia. }
    assert (C : forall k, sy_watch (po_sys (state k)) = WClose -> exists m, sy_watch (po_sys (state m)) = WDone).
    { intros k W. destruct (gets_turn G F k) as (m & _ & U & X); [congruence|]. apply turn_does in U. rewrite X, W in U. eauto. }
    assert (L : forall k u, (n <= k)%nat -> sy_watch (po_sys (state k)) = WSleep u -> exists m, sy_watch (po_sys (state m)) = WDone).
    { intros k u H W. destruct (gets_turn G F k) as (m & H' & U & X); [congruence|]. apply turn_does in U. rewrite X, W in U.
      apply (C (Datatypes.S m)). apply U. apply LATE. lia. }
    destruct (sy_watch (po_sys (state n))) as [|u| |] eqn:W; [|eauto..].
    destruct (gets_turn G F n) as (m & H' & U & X); [congruence|]. apply turn_does in U. rewrite X, W in U.
    destruct U as [u U]. apply (L (Datatypes.S m) u); [lia|exact U].
  Qed.

  Lemma attended_closes : goes_on w acts -> attended -> exists n, forall m, (n <= m)%nat ->
    watched (fst (px (begun acts m) start)) = [Logged "connection keepalive timed out"; ConnClose].
  Proof.
    intros G F. destruct (reaches_done G F) as (n & D). exists n. intros m H. rewrite done_init.
    change (snd (px (begun acts m) start)) with (state m). rewrite (done_stays n m H D). reflexivity.
  Qed.

  Lemma weak_attended : (2 <= w)%nat -> weakly_fair w state -> attended.
  Proof.
    intros L F n. apply F. intros m _ [W _]. destruct (first_idle w timeout (state m) (state_tidy m) L) as (j & X).
    - now apply not_polled.
    - exists j. exact X.
  Qed.
  Lemma strong_attended : (forall n, exists m, (n <= m)%nat /\ idle w (state m)) -> strongly_fair w state -> attended.
  Proof. intros I F n. apply F. intros k _. destruct (I k) as (m & H & X). exists m. auto. Qed.

  (** ** Runs that are fair *)

  Lemma pick_attends : forall i p, (i < w)%nat -> po_busy p i <> Some TListen -> ~ waits w (snd (ps (PPick i TWatch) p)).
  Proof.
    intros i p L N [NB D]. cbn [pool_step] in *. destruct (po_busy p i) as [[|]|] eqn:B; [|congruence|].
    - exact (NB i L B).
    - assert (R : polled w p TWatch = false /\ runnable (po_sys p) TWatch = true \/
                  Nat.ltb i w && negb (polled w p TWatch) && runnable (po_sys p) TWatch = false).
      { rewrite (proj2 (Nat.ltb_lt i w) L). destruct (polled w p TWatch); [now right|]. destruct (runnable (po_sys p) TWatch); auto. }
      destruct R as [[R1 R2]|R].
      + rewrite (proj2 (Nat.ltb_lt i w) L), R1, R2 in NB. cbn [andb negb snd po_busy] in NB.
        apply (NB i L). apply set_same.
      + rewrite R in NB, D. cbn [snd] in NB, D. rewrite (proj2 (Nat.ltb_lt i w) L), (proj2 (not_polled w p TWatch) NB) in R.
        cbn [andb negb runnable] in R. destruct D as [D|(u & D & U)]; rewrite D in R; [discriminate|].
        rewrite (proj2 (N.leb_le _ _) U) in R. discriminate.
  Qed.
  Lemma never_takes : forall i a p, a <> PPick i TListen -> po_busy p i <> Some TListen -> po_busy (snd (ps a p)) i <> Some TListen.
  Proof.
    intros i a p NA N. destruct a as [k t|k r|k a|a|d]; cbn [pool_step].
    - destruct (po_busy p k) eqn:X; [exact N|].
      destruct (Nat.ltb k w && negb (polled w p t) && runnable (po_sys p) t); [|exact N]. cbn [snd po_busy].
      destruct (Nat.eq_dec i k) as [<-|Q]; [rewrite set_same; congruence|now rewrite set_other].
    - assert (Y : set_busy p k None i <> Some TListen).
      { destruct (Nat.eq_dec i k) as [<-|Q]; [rewrite set_same; discriminate|now rewrite set_other]. }
      destruct (po_busy p k) as [[|]|] eqn:X; [| |exact N].
      + unfold poll_watch. destruct (watch_step cn timeout (po_sys p)) as [e y]. cbn [snd po_busy].
        destruct (sy_watch y); assumption.
      + unfold poll_listen. destruct (sy_listen (po_sys p)) eqn:L; [destruct r|..]; cbn [snd po_busy]; try exact Y;
          destruct (listen_step status (po_sys p)) as [e y]; cbn [snd po_busy]; destruct (sy_listen y); assumption.
    - destruct (po_busy p k); [exact N|]. destruct (Nat.ltb k w); [|exact N]. cbn [sys_step].
      destruct (step cn bd chunk a (sy_config (po_sys p))). exact N.
    - cbn [sys_step]. destruct (step cn bd chunk a (sy_config (po_sys p))). exact N.
    - exact N.
  Qed.
  (** A worker that never takes the listener, and looks for the watchdog again and again. *)
  Lemma reserved_fair : forall i, (i < w)%nat -> (forall n, acts n <> PPick i TListen) ->
    (forall n, exists m, (n <= m)%nat /\ acts m = PPick i TWatch) -> strongly_fair w state.
  Proof.
    intros i L N P n _. destruct (P n) as (m & H & X). exists (Datatypes.S m). split; [lia|].
    rewrite state_S, X. apply pick_attends; [exact L|]. clear -N.
    induction m as [|m IH]; [cbn; discriminate|]. rewrite state_S. apply never_takes; auto.
  Qed.
End P.

(** ** With fewer workers *)

Section One.
  Context {S E : Type} (cn : connection S E) (status : S -> option connection_status).
  Context (bd : build) (chunk : option N) (timeout : N) (init : Z) (st0 : store) (conn : S) (now : N).
  Local Notation st w acts := (state cn status w bd chunk timeout init st0 conn now acts).

  (** The listener is polled first; then it goes on, and time does, in turns. *)
  Definition hogged (n : nat) : pool_action :=
    match n with
    | O => PPick 0 TListen
    | Datatypes.S m => if Nat.even m then PStep 0 true else PElapse 1
    end.
  Lemma begun_split : forall (acts : nat -> pool_action) n m, begun acts (n + m) = begun acts n ++ map acts (seq n m).
  Proof. intros acts n m. unfold begun. now rewrite seq_app, map_app. Qed.
  Lemma hogged_goes_on : goes_on 1 hogged.
  Proof.
    split.
    - intros i n L. assert (i = 0)%nat as -> by lia. exists (Datatypes.S (2 * n)), true. split; [lia|].
      unfold hogged. rewrite Nat.even_mul. reflexivity.
    - intros t. exists (1 + 2 * N.to_nat t)%nat.
      assert (X : forall k, passed (begun hogged (1 + 2 * k)) = N.of_nat k).
      { induction k as [|k IH]; [reflexivity|]. replace (1 + 2 * Datatypes.S k)%nat with ((1 + 2 * k) + 2)%nat by lia.
        rewrite begun_split, passed_app, IH. cbn [seq map].
        change (hogged (1 + 2 * k)) with (if Nat.even (2 * k) then PStep 0 true else PElapse 1).
        change (hogged (Datatypes.S (1 + 2 * k))) with (if Nat.even (Datatypes.S (2 * k)) then PStep 0 true else PElapse 1).
        rewrite Nat.even_succ, <- Nat.negb_even, Nat.even_mul. cbn. lia. }
      rewrite X. lia.
  Qed.
  Lemma hogged_ready : forall l, always_ready (map hogged l).
  Proof.
    intros l i I. apply in_map_iff in I as (n & X & _). destruct n; cbn in X; [discriminate|]. destruct (Nat.even n); discriminate.
  Qed.

  Lemma hogged_busy : always_some status -> forall n, po_busy (st 1%nat hogged (Datatypes.S n)) 0%nat = Some TListen.
  Proof.
    intros AS n. unfold state. change (Datatypes.S n) with (1 + n)%nat. rewrite begun_split, px_app.
    destruct (pool_exec cn status 1 bd chunk timeout (begun hogged 1) (pool_init init st0 conn now)) as [e p] eqn:Q.
    pose proof (tidy_exec cn status 1 bd chunk timeout (begun hogged 1) _ (tidy_init 1 timeout init st0 conn now)) as T.
    rewrite Q in T. cbn [snd] in T.
    pose proof (kept_exec cn status 1 bd chunk timeout (map hogged (seq 1 n)) p 0%nat AS (hogged_ready _) T) as K.
    destruct (pool_exec cn status 1 bd chunk timeout (map hogged (seq 1 n)) p) as [e2 p2]. cbn [snd] in *. apply K.
    injection Q as _ <-. reflexivity.
  Qed.
  Lemma hogged_watch : always_some status -> forall n, sy_watch (po_sys (st 1%nat hogged n)) = WStart.
  Proof.
    intros AS. induction n as [|n IH]; [reflexivity|].
    assert (NT : ~ turn cn status 1 bd chunk timeout init st0 conn now hogged n).
    { intros (j & r & A & B). destruct n as [|n]; [discriminate A|]. unfold hogged in A. destruct (Nat.even n); [|discriminate A].
      injection A as <- _. rewrite (hogged_busy AS n) in B. discriminate. }
    destruct (no_turn cn status 1 bd chunk timeout init st0 conn now hogged n NT) as [X _]. congruence.
  Qed.
  Lemma hogged_fair : always_some status -> strongly_fair 1 (st 1%nat hogged).
  Proof.
    intros AS n I. destruct (I (Datatypes.S n)) as (m & H & X); [lia|]. exfalso.
    destruct m as [|m]; [lia|]. destruct X as (j & L & B).
    - split; [|left; now apply hogged_watch]. intros i L B. assert (i = 0)%nat as -> by lia.
      rewrite (hogged_busy AS m) in B. discriminate.
    - assert (j = 0)%nat as -> by lia. rewrite (hogged_busy AS m) in B. discriminate.
  Qed.

  Lemma watched_nothing : forall w acts n, sy_watch (po_sys (st w acts n)) = WStart ->
    watched (fst (pool_exec cn status w bd chunk timeout (begun acts n) (pool_init init st0 conn now))) = [].
  Proof. intros w acts n W. rewrite done_init. unfold state in W. now rewrite W. Qed.

  Lemma strong_weak : forall w (run : nat -> @pool S), strongly_fair w run -> weakly_fair w run.
  Proof. intros w run F n H. apply F. intros k K. exists k. split; [lia|]. now apply H. Qed.

  Local Notation run w acts := (fun n => snd (pool_exec cn status w bd chunk timeout (begun acts n) (pool_init init st0 conn now))).
  Local Notation does w acts n := (watched (fst (pool_exec cn status w bd chunk timeout (begun acts n) (pool_init init st0 conn now)))).

  Lemma one_starves : always_some status -> exists acts, goes_on 1 acts /\ strongly_fair 1 (run 1%nat acts) /\
    forall n, ~ In (PStep 0 false) (begun acts n) /\ does 1%nat acts n = [].
  Proof.
    intros AS. exists hogged. split; [apply hogged_goes_on|]. split; [now apply hogged_fair|].
    intros n. split; [apply (hogged_ready (seq 0 n))|]. apply watched_nothing. now apply hogged_watch.
  Qed.

  Lemma fair_iff : forall w, always_some status ->
    ((forall acts, goes_on w acts -> weakly_fair w (run w acts) ->
        exists n, does w acts n = [Logged "connection keepalive timed out"; ConnClose]) <-> (2 <= w)%nat).
  Proof.
    intros w AS. split.
    - intros H. destruct (Nat.lt_ge_cases w 2) as [L|L]; [exfalso|exact L].
      assert (w = 0 \/ w = 1)%nat as [->| ->] by lia.
      + assert (G : goes_on 0 (fun _ => PElapse 1)).
        { split; [lia|]. intros t. exists (N.to_nat t).
          assert (X : forall n, passed (begun (fun _ => PElapse 1) n) = N.of_nat n).
          { induction n as [|n IH]; [reflexivity|]. rewrite begun_S, passed_app, IH. cbn. lia. }
          rewrite X. lia. }
        destruct (H _ G) as (n & X).
        { intros n I. exists n. split; [lia|]. intros W. destruct (I n (le_n n) W) as (i & Q & _). lia. }
        rewrite no_worker in X. discriminate.
      + destruct (H _ hogged_goes_on (strong_weak _ _ (hogged_fair AS))) as (n & X).
        rewrite (watched_nothing 1%nat hogged n) in X; [discriminate|now apply hogged_watch].
    - intros L acts G F.
      destruct (attended_closes cn status w bd chunk timeout init st0 conn now acts G) as (n & X).
      + now apply weak_attended.
      + exists n. apply X. lia.
  Qed.
End One.
