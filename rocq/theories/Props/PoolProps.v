(** * Properties of the tasks on the worker threads of a runtime: C104 *)

From Coq Require Import String.
From Verif Require Import Model.PoolM Spec.Pool.
From Verif Require Import Proofs.PoolP.

(** A connection that takes everything; its state says whether it is closed. *)
Definition px_conn : connection bool string := Connection (fun s _ => (s, None)) (fun s _ => (s, None)) (fun _ => true).
Definition px_status (s : bool) : option connection_status := Some (if s then Closed else Connected).
Definition px_start : @pool bool := pool_init 1 (fun _ => false) false 100.

(** Whatever the workers do, the machine behaves as in C70: they only choose who runs next. *)
Theorem C104_refines : forall (S E : Type) (cn : connection S E) status bd chunk timeout init st conn now w acts,
  let run := pool_exec cn status w bd chunk timeout acts (pool_init init st conn now) in
  exists acts', sys_exec cn status bd chunk timeout acts' (system_init init st conn now) = (fst run, po_sys (snd run)).
Proof. exact (@pool_refines). Qed.
Print Assumptions C104_refines.

(** The claim: whatever has happened, the watchdog can still come to close the connection.  On a runtime with one
    worker it is false of every connection that publishes its status at once, as documented: once the
    listener has asked for a status, the worker does nothing but run the listener.  The watchdog does nothing any more,
    and the connection sees what threads outside the runtime do, as if they were alone. *)
Theorem C104_starved : forall (S E : Type) (cn : connection S E) status bd chunk timeout init st conn now acts acts',
  always_some status -> always_ready (acts ++ acts') ->
  let run := pool_exec cn status 1 bd chunk timeout acts (pool_init init st conn now) in
  statuses (fst run) <> [] ->
  let (tr, p') := pool_exec cn status 1 bd chunk timeout acts' (snd run) in
  watched tr = [] /\ sy_watch (po_sys p') = sy_watch (po_sys (snd run)) /\
  exec cn bd chunk (outside acts') (sy_config (po_sys (snd run))) = (seen tr, sy_config (po_sys p')).
Proof. exact (@starved). Qed.
Print Assumptions C104_starved.

Theorem C104_refuted : forall (S E : Type) (cn : connection S E) status bd chunk timeout init st conn now,
  always_some status -> exists acts, always_ready acts /\ forall acts', always_ready acts' ->
    watched (fst (pool_exec cn status 1 bd chunk timeout (acts ++ acts') (pool_init init st conn now))) = [].
Proof. exact (@never). Qed.
Print Assumptions C104_refuted.

(** Exactly: it holds when there are two workers or more. *)
Theorem C104_iff_partial : forall (S E : Type) (cn : connection S E) status bd chunk timeout init st conn now w,
  always_some status ->
  ((forall acts, always_ready acts -> exists acts', always_ready acts' /\
      watched (fst (pool_exec cn status w bd chunk timeout (acts ++ acts') (pool_init init st conn now))) =
        [Logged "connection keepalive timed out"; ConnClose]) <->
   (2 <= w)%nat).
Proof. exact (@always_can_iff). Qed.
Print Assumptions C104_iff_partial.

(** The listener costs exactly one worker: once it has asked for a status it keeps its worker for ever, and all
    the others are given back when the poll of the watchdog that may be going on is over. *)
Theorem C104_workers : forall (S E : Type) (cn : connection S E) status bd chunk timeout init st conn now w acts,
  always_some status -> always_ready acts ->
  let run acts := pool_exec cn status w bd chunk timeout acts (pool_init init st conn now) in
  statuses (fst (run acts)) <> [] ->
  exists i, (i < w)%nat /\
    (forall acts', always_ready acts' -> po_busy (snd (run (acts ++ acts'))) i = Some TListen) /\
    (exists acts', (forall a, In a acts' -> exists j, a = PStep j true) /\
      forall j, j <> i -> po_busy (snd (run (acts ++ acts'))) j = None).
Proof. exact (@workers). Qed.
Print Assumptions C104_workers.

(** One worker is enough if a status stream need not be ready at once. *)
Theorem C104_yielding : forall (S E : Type) (cn : connection S E) status bd chunk timeout init st conn now w acts,
  (1 <= w)%nat -> exists acts',
  watched (fst (pool_exec cn status w bd chunk timeout (acts ++ acts') (pool_init init st conn now))) =
    [Logged "connection keepalive timed out"; ConnClose].
Proof. exact (@yielding). Qed.
Print Assumptions C104_yielding.

(** One worker, timeout 10.  The watchdog goes to sleep, then the listener is run: from then on neither the
    watchdog nor a task of the user on the worker does anything, while a thread outside the runtime may.  With a second worker, or with
    a stream that is once not ready, the watchdog closes the connection. *)
Definition px_payload : payload := Payload None (Some [n2b 1]).
Definition px_acts : list pool_action :=
  [PPick 0 TWatch; PStep 0 true; PPick 0 TListen; PStep 0 true; PElapse 11; PPick 0 TWatch; PStep 0 true;
   PUser 0 (Call 0 px_payload); PUser 0 (Run 0); PUser 0 (Run 0); PStep 0 true; PPick 0 TWatch; PStep 0 true].
Example C104_example :
  always_some px_status /\ always_ready px_acts /\ statuses (fst (pool_exec px_conn px_status 2 Debug None 10 px_acts px_start)) <> [] /\
  fst (pool_exec px_conn px_status 1 Debug None 10 px_acts px_start) =
    [SysStatus (Some Connected); SysStatus (Some Connected)] /\
  seen (fst (pool_exec px_conn px_status 1 Debug None 10 (px_acts ++ [POut (Call 0 px_payload); POut (Run 0); POut (Run 0); POut (Run 0)]) px_start)) =
    [EvDraw 0 1; EvAlloc 0 1 px_payload; EvSend 0 (FRequestFnf (RequestFnfFrame 1 0 px_payload)) None] /\
  watched (fst (pool_exec px_conn px_status 2 Debug None 10 (px_acts ++ [PPick 1 TWatch; PStep 1 true; PStep 1 true]) px_start)) =
    [Logged "connection keepalive timed out"; ConnClose] /\
  watched (fst (pool_exec px_conn px_status 1 Debug None 10
    (px_acts ++ [PStep 0 false; PPick 0 TWatch; PStep 0 true; PStep 0 true]) px_start)) =
    [Logged "connection keepalive timed out"; ConnClose].
Proof.
  split; [intros s; discriminate|]. split; [intros i I; cbn in I; intuition discriminate|].
  vm_compute. split; [discriminate|]. repeat split.
Qed.
