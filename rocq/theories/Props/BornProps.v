(** * Properties of how a machine is made: C113 *)

From Verif Require Import Model.BornM Spec.Born.
From Verif Require Import Proofs.BornP.

(** ** C113: making a machine, with and without a runtime *)

(** Calling [new] does nothing: until the future is polled, all that can happen to the connection is that it is
    dropped with the future. *)
Theorem C113_lazy : forall (S E : Type) (cn : connection S E) status bd chunk timeout init st conn now acts,
  (forall r, ~ In (BornPoll r) acts) ->
  fst (born_exec cn status bd chunk timeout init st acts (Unborn conn now)) =
    if existsb (fun a => match a with BornForget => true | _ => false end) acts then [BornSees LifeFreed] else [].
Proof.
  exact (fun S E cn status bd chunk timeout init st conn now => lazy_ cn status bd chunk timeout init st conn now).
Qed.
Print Assumptions C113_lazy.

(** Polled outside of a runtime it panics, the connection is dropped, unused, and that is all. *)
Theorem C113_outside : forall (S E : Type) (cn : connection S E) status bd chunk timeout init st conn now a b,
  waits a ->
  born_exec cn status bd chunk timeout init st (a ++ BornPoll NoRuntime :: b) (Unborn conn now) =
    ([BornPanicked; BornSees LifeFreed], NoMachine).
Proof.
  exact (fun S E cn status bd chunk timeout init st conn now => outside cn status bd chunk timeout init st conn now).
Qed.
Print Assumptions C113_outside.

(** Polled in a runtime with a timer it returns the machine of C90, made at that time. *)
Theorem C113_running : forall (S E : Type) (cn : connection S E) status bd chunk timeout init st conn now a b,
  waits a ->
  fst (born_exec cn status bd chunk timeout init st (a ++ BornPoll (Running true) :: b) (Unborn conn now)) =
    BornMade :: map BornSees (fst (life_exec cn status bd chunk timeout (lives b) (life_init init st conn (now + life_elapsed (lives a))))).
Proof.
  exact (fun S E cn status bd chunk timeout init st conn now => running cn status bd chunk timeout init st conn now).
Qed.
Print Assumptions C113_running.

(** Without a timer the watchdog panics when it is first run.  All else is as if the runtime had dropped it then. *)
Theorem C113_no_timer : forall (S E : Type) (cn : connection S E) status bd chunk timeout init st conn now a b,
  waits a ->
  map erased (fst (born_exec cn status bd chunk timeout init st (a ++ BornPoll (Running false) :: b) (Unborn conn now))) =
    BornMade :: map BornSees (fst (life_exec cn status bd chunk timeout (map stops_watch (lives b))
      (life_init init st conn (now + life_elapsed (lives a))))).
Proof.
  exact (fun S E cn status bd chunk timeout init st conn now => no_timer cn status bd chunk timeout init st conn now).
Qed.
Print Assumptions C113_no_timer.

(** In a runtime that has been shut down it returns a machine of which only users have clones. *)
Theorem C113_shut : forall (S E : Type) (cn : connection S E) status bd chunk timeout init st conn now a b,
  waits a -> exists tr,
  fst (born_exec cn status bd chunk timeout init st (a ++ BornPoll ShutDown :: b) (Unborn conn now)) =
    [BornSees LifeListenCancelled; BornSees LifeWatchCancelled; BornMade] ++ map BornSees tr /\
  fst (life_exec cn status bd chunk timeout (LifeCancelListen :: LifeCancelWatch :: lives b)
    (life_init init st conn (now + life_elapsed (lives a)))) = LifeListenCancelled :: LifeWatchCancelled :: tr.
Proof.
  exact (fun S E cn status bd chunk timeout init st conn now => shut cn status bd chunk timeout init st conn now).
Qed.
Print Assumptions C113_shut.

(** In all of them the machine does what that of C70 does, with the tasks that there are. *)
Theorem C113_system : forall (S E : Type) (cn : connection S E) status bd chunk timeout init st conn now a r b,
  waits a -> r <> NoRuntime -> exists acts,
  some_of acts (flat_map system_action (lives b)) /\ elapsed acts = life_elapsed (lives b) /\
  (r <> Running true -> ~ In SysWatch acts) /\ (r = ShutDown -> ~ In SysListen acts) /\
  fst (sys_exec cn status bd chunk timeout acts (system_init init st conn (now + life_elapsed (lives a)))) =
    of_machine (fst (born_exec cn status bd chunk timeout init st (a ++ BornPoll r :: b) (Unborn conn now))).
Proof.
  exact (fun S E cn status bd chunk timeout init st conn now => machine_system cn status bd chunk timeout init st conn now).
Qed.
Print Assumptions C113_system.

(** The watchdog logs and closes only where there is a timer, and later than the timeout after the poll, however long ago
    [new] was called. *)
Theorem C113_closed : forall (S E : Type) (cn : connection S E) status bd chunk timeout init st conn now acts,
  watched (of_machine (fst (born_exec cn status bd chunk timeout init st acts (Unborn conn now)))) <> [] ->
  exists a b, acts = a ++ BornPoll (Running true) :: b /\ waits a /\ timeout < life_elapsed (lives b).
Proof.
  exact (fun S E cn status bd chunk timeout init st conn now => closed_by cn status bd chunk timeout init st conn now).
Qed.
Print Assumptions C113_closed.

(** The listener asks for statuses only in a runtime that runs. *)
Theorem C113_asked : forall (S E : Type) (cn : connection S E) status bd chunk timeout init st conn now acts,
  statuses (of_machine (fst (born_exec cn status bd chunk timeout init st acts (Unborn conn now)))) <> [] ->
  exists a timer b, acts = a ++ BornPoll (Running timer) :: b /\ waits a.
Proof.
  exact (fun S E cn status bd chunk timeout init st conn now => asked_by cn status bd chunk timeout init st conn now).
Qed.
Print Assumptions C113_asked.

(** A machine with a timeout of 10 of which the future waits for 30; then one request, and it is dropped. *)
Definition bx_conn : connection bool string := Connection (fun s _ => (s, None)) (fun s _ => (s, None)) (fun _ => true).
Definition bx_payload : payload := Payload None (Some [n2b 7]).
Definition bx_run (acts : list born_action) : list (born_event string) :=
  fst (born_exec bx_conn (fun s => if s then None else Some Connected) Debug None 10 1 (fun _ => false) acts (Unborn false 100)).
Definition bx_waits : list born_action := [Born (LifeElapse 30); Born LifeWatch].
Definition bx_acts : list born_action :=
  map Born [LifeWatch; LifeUse 0 (Call 0 bx_payload); LifeUse 0 (Run 0); LifeUse 0 (Run 0); LifeUse 0 (Run 0); LifeUse 0 (Run 0);
    LifeElapse 10; LifeWatch; LifeListen; LifeElapse 10; LifeWatch; LifeWatch; LifeDrop 0; LifeListen; LifeListen].
Definition bx_call : list (born_event string) :=
  map (fun e => BornSees (LifeSys (SysEv e)))
    [EvDraw 0 1; EvAlloc 0 1 bx_payload; EvSend 0 (fnf_frame 1 false bx_payload) None; EvReturn 0 1].
Example C113_example :
  waits bx_waits /\
  bx_run (bx_waits ++ BornPoll NoRuntime :: bx_acts) = [BornPanicked; BornSees LifeFreed] /\
  bx_run (bx_waits ++ BornForget :: bx_acts) = [BornSees LifeFreed] /\
  bx_run (bx_waits ++ BornPoll (Running true) :: bx_acts) =
    BornMade :: bx_call ++ map BornSees
      [LifeSys (SysStatus (Some Connected)); LifeSys (SysWatchLog "connection keepalive timed out"); LifeSys SysWatchClose;
       LifeDropped 0; LifeSys (SysStatus None); LifeFreed] /\
  bx_run (bx_waits ++ BornPoll (Running false) :: bx_acts) =
    BornMade :: BornWatchPanicked :: bx_call ++ map BornSees
      [LifeSys (SysStatus (Some Connected)); LifeDropped 0; LifeSys (SysStatus (Some Connected))] /\
  bx_run (bx_waits ++ BornPoll ShutDown :: bx_acts) =
    [BornSees LifeListenCancelled; BornSees LifeWatchCancelled; BornMade] ++ bx_call ++ map BornSees [LifeDropped 0; LifeFreed].
Proof.
  split.
  - intros a [<-|[<-|[]]]; eauto.
  - repeat split; vm_compute; reflexivity.
Qed.
