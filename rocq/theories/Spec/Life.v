(** * Specification of who keeps a connection alive

    Independent of the model: uses only its data types. *)

From Verif Require Export Spec.System Model.LifeTypes.

(** Who can hold a machine. *)
Inductive holder : Set :=
| User (t : nat)
| Watchdog
| Listener.
Definition same_holder (h k : holder) : bool :=
  match h, k with
  | User t, User u => Nat.eqb t u
  | Watchdog, Watchdog | Listener, Listener => true
  | _, _ => false
  end.
Definition without (h : holder) (l : list holder) : list holder := filter (fun k => negb (same_holder h k)) l.

Section Events.
  Context {E : Type}.
  (** Who holds a machine after an event: a clone makes a holder; a drop, the end of a task and its
      cancellation unmake one. *)
  Definition holders_step (l : list holder) (e : life_event E) : list holder :=
    match e with
    | LifeCloned _ u => User u :: l
    | LifeDropped t => without (User t) l
    | LifeSys SysWatchClose | LifeWatchCancelled => without Watchdog l
    | LifeSys (SysStatus None) | LifeListenCancelled => without Listener l
    | _ => l
    end.
  (** Who holds a machine after the events [tr] of a machine created by thread 0. *)
  Definition holders (tr : list (life_event E)) : list holder :=
    fold_left holders_step tr [Listener; Watchdog; User 0].

  (** The events of the machine. *)
  Definition of_system (tr : list (life_event E)) : list (sys_event E) :=
    flat_map (fun e => match e with LifeSys e' => [e'] | _ => [] end) tr.
  (** The thread an event of the threads is by; a close may be by any. *)
  Definition by_thread (e : event E) : option nat :=
    match e with
    | EvDraw t _ | EvAlloc t _ _ | EvBusy t _ | EvSend t _ _ | EvReturn t _ | EvPanic t | EvPush t _ _ | EvMissing t => Some t
    | EvClose => None
    end.
  (** What has to be the case for an event to happen when [l] are the holders: whoever acts has a machine, a clone
      goes to a thread without one, and the connection is dropped when nobody has one. *)
  Definition entitled (l : list holder) (e : life_event E) : Prop :=
    match e with
    | LifeSys (SysEv e') =>
      match by_thread e' with
      | Some t => In (User t) l
      | None => exists t, In (User t) l
      end
    | LifeSys (SysWatchLog _) | LifeSys SysWatchClose | LifeWatchCancelled => In Watchdog l
    | LifeSys (SysStatus _) | LifeSys (SysListenLog _) | LifeListenCancelled => In Listener l
    | LifeCloned t u => In (User t) l /\ ~ In (User u) l
    | LifeDropped t => In (User t) l
    | LifeFreed => l = []
    end.
End Events.

(** The steps of the machine in a schedule. *)
Definition system_action (a : life_action) : list sys_action :=
  match a with
  | LifeUse _ a' => [SysAct a']
  | LifeElapse d => [SysElapse d]
  | LifeWatch => [SysWatch]
  | LifeListen => [SysListen]
  | _ => []
  end.
(** How much time passes. *)
Definition life_elapsed (acts : list life_action) : N := elapsed (flat_map system_action acts).
