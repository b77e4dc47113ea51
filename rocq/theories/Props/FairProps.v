(** * Properties of fair runs of a runtime: C111 *)

From Verif Require Import Model.PoolM Spec.Fair.
From Verif Require Import Proofs.PoolP Proofs.FairP.

(** ** C111: with two workers the watchdog does close the connection *)

(** On a runtime with two workers or more, in every run in which no worker stops, time goes on and the watchdog is not
    left waiting for ever beside an idle worker, the watchdog closes the connection, once, and that is all it does. *)
Theorem C111_closes : forall (S E : Type) (cn : connection S E) status bd chunk timeout init st conn now w acts,
  let run n := pool_exec cn status w bd chunk timeout (begun acts n) (pool_init init st conn now) in
  (2 <= w)%nat -> goes_on w acts -> weakly_fair w (fun n => snd (run n)) ->
  exists n, forall m, (n <= m)%nat -> watched (fst (run m)) = [Logged "connection keepalive timed out"; ConnClose].
Proof.
  exact (fun S E cn status bd chunk timeout init st conn now w acts L G F =>
    attended_closes cn status w bd chunk timeout init st conn now acts G
      (weak_attended cn status w bd chunk timeout init st conn now acts L F)).
Qed.
Print Assumptions C111_closes.

(** One worker is enough if it is idle again and again, as it is if status streams again and again are not ready, and
    the runtime is strongly fair. *)
Theorem C111_idle : forall (S E : Type) (cn : connection S E) status bd chunk timeout init st conn now w acts,
  let run n := pool_exec cn status w bd chunk timeout (begun acts n) (pool_init init st conn now) in
  goes_on w acts -> strongly_fair w (fun n => snd (run n)) ->
  (forall n, exists m, (n <= m)%nat /\ idle w (snd (run m))) ->
  exists n, forall m, (n <= m)%nat -> watched (fst (run m)) = [Logged "connection keepalive timed out"; ConnClose].
Proof.
  exact (fun S E cn status bd chunk timeout init st conn now w acts G F I =>
    attended_closes cn status w bd chunk timeout init st conn now acts G
      (strong_attended cn status w bd chunk timeout init st conn now acts I F)).
Qed.
Print Assumptions C111_idle.

(** Otherwise it is not: with status streams that are always ready there is a run of one worker, strongly fair, in which the
    watchdog never does anything. *)
Theorem C111_one : forall (S E : Type) (cn : connection S E) status bd chunk timeout init st conn now,
  always_some status -> exists acts,
  let run n := pool_exec cn status 1 bd chunk timeout (begun acts n) (pool_init init st conn now) in
  goes_on 1 acts /\ strongly_fair 1 (fun n => snd (run n)) /\
  forall n, ~ In (PStep 0 false) (begun acts n) /\ watched (fst (run n)) = [].
Proof. exact @one_starves. Qed.
Print Assumptions C111_one.

(** So: all fair runs close the connection exactly if there are two workers or more. *)
Theorem C111_iff : forall (S E : Type) (cn : connection S E) status bd chunk timeout init st conn now w,
  always_some status ->
  ((forall acts, let run n := pool_exec cn status w bd chunk timeout (begun acts n) (pool_init init st conn now) in
      goes_on w acts -> weakly_fair w (fun n => snd (run n)) ->
      exists n, watched (fst (run n)) = [Logged "connection keepalive timed out"; ConnClose]) <-> (2 <= w)%nat).
Proof. exact @fair_iff. Qed.
Print Assumptions C111_iff.

(** A strongly fair runtime is weakly fair. *)
Theorem C111_strong : forall (S : Type) w (run : nat -> @pool S), strongly_fair w run -> weakly_fair w run.
Proof. exact @strong_weak. Qed.
Print Assumptions C111_strong.

(** Two workers in turns; the connection publishes its status at once. *)
Definition fx_conn : connection bool string := Connection (fun s _ => (s, None)) (fun s _ => (s, None)) (fun _ => true).
Definition fx_status (s : bool) : option connection_status := Some (if s then Closed else Connected).
Definition fx_turns (n : nat) : pool_action :=
  nth (n mod 5) [PPick 0 TListen; PPick 1 TWatch; PStep 0 true; PStep 1 true] (PElapse 1).
Lemma fx_at : forall n k, (k < 5)%nat -> fx_turns (5 * n + k) = fx_turns k.
Proof.
  intros n k L. unfold fx_turns. rewrite Nat.add_comm, (Nat.mul_comm 5), Nat.mod_add by discriminate. reflexivity.
Qed.
Lemma fx_goes_on : goes_on 2 fx_turns.
Proof.
  split.
  - intros i n L. exists (5 * n + (2 + i))%nat, true. split; [lia|]. rewrite fx_at by lia.
    destruct i as [|[|i]]; [reflexivity..|lia].
  - intros t. exists (N.to_nat t * 5)%nat.
    assert (X : forall k, passed (begun fx_turns (k * 5)) = N.of_nat k).
    { induction k as [|k IH]; [reflexivity|]. replace (Datatypes.S k * 5)%nat with (k * 5 + 5)%nat by lia.
      rewrite begun_split, passed_app, IH. cbn [seq map].
      replace (k * 5)%nat with (5 * k + 0)%nat by lia.
      rewrite <- !Nat.add_succ_r, !fx_at by lia. cbn. lia. }
    rewrite X. lia.
Qed.
Example C111_example :
  goes_on 2 fx_turns /\ always_some fx_status /\
  strongly_fair 2 (fun n => snd (pool_exec fx_conn fx_status 2 Debug None 2 (begun fx_turns n) (pool_init 1 (fun _ => false) false 100))) /\
  watched (fst (pool_exec fx_conn fx_status 2 Debug None 2 (begun fx_turns 18) (pool_init 1 (fun _ => false) false 100))) = [] /\
  watched (fst (pool_exec fx_conn fx_status 2 Debug None 2 (begun fx_turns 30) (pool_init 1 (fun _ => false) false 100))) =
    [Logged "connection keepalive timed out"; ConnClose].
Proof.
  split; [exact fx_goes_on|]. split; [discriminate|]. split; [|split; vm_compute; reflexivity].
  apply (reserved_fair fx_conn fx_status 2 Debug None 2 1 (fun _ => false) false 100 fx_turns 1%nat); [lia| |].
  - intros n. unfold fx_turns. pose proof (Nat.mod_upper_bound n 5 ltac:(discriminate)) as L.
    destruct (n mod 5)%nat as [|[|[|[|[|m]]]]]; cbn; discriminate.
  - intros n. exists (5 * n + 1)%nat. split; [lia|]. rewrite fx_at by lia. reflexivity.
Qed.

(** One worker, and status streams that are never ready. *)
Definition fx_yields (n : nat) : pool_action :=
  nth (n mod 6) [PPick 0 TListen; PStep 0 false; PPick 0 TWatch; PStep 0 true; PStep 0 true] (PElapse 1).
Lemma fx_yields_at : forall n k, (k < 6)%nat -> fx_yields (6 * n + k) = fx_yields k.
Proof.
  intros n k L. unfold fx_yields. rewrite Nat.add_comm, (Nat.mul_comm 6), Nat.mod_add by discriminate. reflexivity.
Qed.
Lemma fx_yields_goes_on : goes_on 1 fx_yields.
Proof.
  split.
  - intros i n L. exists (6 * n + 3)%nat, true. split; [lia|]. rewrite fx_yields_at by lia. now assert (i = 0)%nat as -> by lia.
  - intros t. exists (N.to_nat t * 6)%nat.
    assert (X : forall k, passed (begun fx_yields (k * 6)) = N.of_nat k).
    { induction k as [|k IH]; [reflexivity|]. replace (Datatypes.S k * 6)%nat with (k * 6 + 6)%nat by lia.
      rewrite begun_split, passed_app, IH. cbn [seq map].
      replace (k * 6)%nat with (6 * k + 0)%nat by lia.
      rewrite <- !Nat.add_succ_r, !fx_yields_at by lia. cbn. lia. }
    rewrite X. lia.
Qed.
Definition fx_run (n : nat) : list (sys_event string) * @pool bool :=
  pool_exec fx_conn fx_status 1 Debug None 2 (begun fx_yields n) (pool_init 1 (fun _ => false) false 100).
Lemma fx_free : forall k, po_busy (snd (fx_run (6 * k))) 0%nat = None /\ sy_listen (po_sys (snd (fx_run (6 * k)))) = LAsk /\
  po_busy (snd (fx_run (6 * k + 2))) 0%nat = None.
Proof.
  assert (X : forall k, po_busy (snd (fx_run (6 * k))) 0%nat = None /\ sy_listen (po_sys (snd (fx_run (6 * k)))) = LAsk ->
    po_busy (snd (fx_run (6 * k + 2))) 0%nat = None /\
    po_busy (snd (fx_run (6 * k + 6))) 0%nat = None /\ sy_listen (po_sys (snd (fx_run (6 * k + 6)))) = LAsk).
  { intros k [B L]. unfold fx_run in *. rewrite !begun_split, !px_app.
    destruct (pool_exec fx_conn fx_status 1 Debug None 2 (begun fx_yields (6 * k)) (pool_init 1 (fun _ => false) false 100)) as [e p].
    cbn [snd] in *. replace (6 * k)%nat with (6 * k + 0)%nat by lia. cbn [seq map].
    rewrite <- !Nat.add_succ_r, !fx_yields_at by lia.
    change (fx_yields 0) with (PPick 0 TListen). change (fx_yields 1) with (PStep 0 false). change (fx_yields 2) with (PPick 0 TWatch).
    change (fx_yields 3) with (PStep 0 true). change (fx_yields 4) with (PStep 0 true). change (fx_yields 5) with (PElapse 1).
    destruct p as [[c last t wt ls] busy]. cbn in B, L. subst ls.
    cbn [pool_exec pool_step po_busy po_sys polled seq existsb runnable sy_listen orb negb andb]. rewrite B. cbn.
    split; [reflexivity|].
    destruct wt as [|u| |]; cbn; try (split; reflexivity).
    destruct (u <=? t) eqn:U; cbn; [|split; reflexivity]. unfold poll_watch. cbn. apply N.leb_le in U. rewrite (proj2 (N.ltb_ge _ _) U).
    destruct (2 <? t - last); cbn; split; reflexivity. }
  induction k as [|k (A & B & _)]; [split; [reflexivity|split; reflexivity]|].
  replace (6 * Datatypes.S k)%nat with (6 * k + 6)%nat by lia. destruct (X k (conj A B)) as (_ & C & D).
  split; [exact C|]. split; [exact D|]. replace (6 * k + 6)%nat with (6 * Datatypes.S k)%nat in * by lia. now apply X.
Qed.
Example C111_example_idle :
  goes_on 1 fx_yields /\ strongly_fair 1 (fun n => snd (fx_run n)) /\ (forall n, exists m, (n <= m)%nat /\ idle 1 (snd (fx_run m))) /\
  watched (fst (fx_run 42)) = [Logged "connection keepalive timed out"; ConnClose].
Proof.
  split; [exact fx_yields_goes_on|]. split; [|split; [|vm_compute; reflexivity]].
  - intros n _. exists (6 * n + 3)%nat. split; [lia|]. replace (6 * n + 3)%nat with (Datatypes.S (6 * n + 2)) by lia.
    unfold fx_run. rewrite begun_S, px_app, fx_yields_at by lia. change (fx_yields 2) with (PPick 0 TWatch).
    destruct (fx_free n) as (_ & _ & F). unfold fx_run in F.
    destruct (pool_exec fx_conn fx_status 1 Debug None 2 (begun fx_yields (6 * n + 2)) (pool_init 1 (fun _ => false) false 100)) as [e p].
    cbn [snd] in F. pose proof (pick_attends fx_conn fx_status 1 Debug None 2 0%nat p ltac:(lia) ltac:(congruence)) as X.
    cbn [pool_exec]. destruct (pool_step fx_conn fx_status 1 Debug None 2 (PPick 0 TWatch) p). exact X.
  - intros n. exists (6 * n)%nat. split; [lia|]. exists 0%nat. split; [lia|]. apply fx_free.
Qed.
