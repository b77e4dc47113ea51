(** * binate/src/connection/socket.rs: who keeps the connection of a machine alive

    [RSocketMachine] is [Clone] and every clone holds a clone of the same [Arc<dyn DuplexConnection>]
    (socket.rs:30-42).  Each task of [RSocketMachine::new] owns such a clone (71, 88).  Here a machine with its
    tasks (Model/SystemM.v) comes with the count of that [Arc]: a thread can use its own machine only, and a
    task drops its clone when it ends.  The count is unbounded; Rust's aborts the process above
    [isize::MAX]. *)

From Verif Require Export Model.SystemM Model.LifeTypes.

Section Life.
  Context {S E : Type} (cn : connection S E) (status : S -> option connection_status).

  (** [lf_owners] are the threads that have a machine; [lf_strong] is the count of the [Arc] of socket.rs:34;
      the two flags say whether the futures of the tasks exist. *)
  Record life : Type := Life {
    lf_sys : @system S;
    lf_owners : list nat;
    lf_strong : N;
    lf_watch : bool;
    lf_listen : bool }.

  Definition set_sys (y : life) (s : @system S) : life :=
    Life s (lf_owners y) (lf_strong y) (lf_watch y) (lf_listen y).
  Definition set_owners (y : life) (l : list nat) : life :=
    Life (lf_sys y) l (lf_strong y) (lf_watch y) (lf_listen y).

  (** [Arc::clone] and [Arc::drop] of socket.rs:34, the latter with the drop of the connection when the count was one. *)
  Definition retain (y : life) : life :=
    Life (lf_sys y) (lf_owners y) (lf_strong y + 1) (lf_watch y) (lf_listen y).
  Definition release (y : life) : list (life_event E) * life :=
    (if lf_strong y =? 1 then [LifeFreed] else [],
     Life (lf_sys y) (lf_owners y) (lf_strong y - 1) (lf_watch y) (lf_listen y)).

  (** A thread in the middle of a [fire_and_forget] has borrowed its machine, socket.rs:148: it can neither drop
      it nor call [close], which needs it mutably (105). *)
  Definition borrowed (y : life) (t : nat) : bool :=
    match cf_threads (sy_config (lf_sys y)) t with
    | Idle | Panicked => false
    | _ => true
    end.
  (** Whether an action is one that thread [t] can do with its machine: its own calls and steps
      (socket.rs:133-174), [close] (105) while it has not borrowed the machine, changes of [receivers]
      (36). *)
  Definition usable (y : life) (t : nat) (a : action) : bool :=
    match a with
    | Call u _ | Run u | Push u _ | Request u => Nat.eqb u t
    | Close => negb (borrowed y t)
    | Insert _ | Remove _ => true
    end.
  Definition owns (y : life) (t : nat) : bool := existsb (Nat.eqb t) (lf_owners y).

  (** The watchdog's future is complete after the [break] of socket.rs:97: its clone is dropped. *)
  Definition watch_ended (y : life) : list (life_event E) * life :=
    match sy_watch (lf_sys y) with
    | WDone => release (Life (lf_sys y) (lf_owners y) (lf_strong y) false (lf_listen y))
    | _ => ([], y)
    end.
  (** The listener's future is complete after the [while let] of socket.rs:73-85: its clone is dropped. *)
  Definition listen_ended (y : life) : list (life_event E) * life :=
    match sy_listen (lf_sys y) with
    | LDone => release (Life (lf_sys y) (lf_owners y) (lf_strong y) (lf_watch y) false)
    | _ => ([], y)
    end.

  (** [Clone] of socket.rs:30, the drop of a machine, the steps of the tasks with their ends.  A runtime
      drops a task where it awaits: before its first step, at the [sleep] of 91, at the [next] of 74. *)
  Definition life_step (bd : build) (chunk : option N) (timeout : N) (a : life_action) (y : life)
    : list (life_event E) * life :=
    match a with
    | LifeUse t a' =>
      if owns y t && usable y t a' then
        let (ev, s) := sys_step cn status bd chunk timeout (SysAct a') (lf_sys y) in
        (map LifeSys ev, set_sys y s)
      else ([], y)
    | LifeClone t u =>
      if owns y t && negb (owns y u) then ([LifeCloned t u], retain (set_owners y (u :: lf_owners y)))
      else ([], y)
    | LifeDrop t =>
      if owns y t && negb (borrowed y t) then
        let (ev, y') := release (set_owners y (filter (fun u => negb (Nat.eqb t u)) (lf_owners y))) in
        (LifeDropped t :: ev, y')
      else ([], y)
    | LifeElapse d =>
      let (ev, s) := sys_step cn status bd chunk timeout (SysElapse d) (lf_sys y) in
      (map LifeSys ev, set_sys y s)
    | LifeWatch =>
      if lf_watch y then
        let (ev, s) := sys_step cn status bd chunk timeout SysWatch (lf_sys y) in
        let (ev', y') := watch_ended (set_sys y s) in
        (map LifeSys ev ++ ev', y')
      else ([], y)
    | LifeListen =>
      if lf_listen y then
        let (ev, s) := sys_step cn status bd chunk timeout SysListen (lf_sys y) in
        let (ev', y') := listen_ended (set_sys y s) in
        (map LifeSys ev ++ ev', y')
      else ([], y)
    | LifeCancelWatch =>
      match lf_watch y, sy_watch (lf_sys y) with
      | true, WStart | true, WSleep _ =>
        let (ev, y') := release (Life (lf_sys y) (lf_owners y) (lf_strong y) false (lf_listen y)) in
        (LifeWatchCancelled :: ev, y')
      | _, _ => ([], y)
      end
    | LifeCancelListen =>
      match lf_listen y, sy_listen (lf_sys y) with
      | true, LAsk =>
        let (ev, y') := release (Life (lf_sys y) (lf_owners y) (lf_strong y) (lf_watch y) false) in
        (LifeListenCancelled :: ev, y')
      | _, _ => ([], y)
      end
    end.

  Fixpoint life_exec (bd : build) (chunk : option N) (timeout : N) (acts : list life_action) (y : life)
    : list (life_event E) * life :=
    match acts with
    | [] => ([], y)
    | a :: acts' =>
      let (ev, y') := life_step bd chunk timeout a y in
      let (evs, y'') := life_exec bd chunk timeout acts' y' in
      (ev ++ evs, y'')
    end.

  (** [RSocketMachine::new], socket.rs:45-102, called by thread 0: the [Arc] is made (58) and cloned for each
      task (71, 88). *)
  Definition life_init (init : Z) (st : store) (conn : S) (now : N) : life :=
    retain (retain (Life (system_init init st conn now) [0%nat] 1 true true)).
End Life.
