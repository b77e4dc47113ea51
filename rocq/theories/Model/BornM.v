(** * binate/src/connection/socket.rs: how a machine is made, and where

    [RSocketMachine::new] (socket.rs:45-102) is an [async fn] without an [await]: nothing of it happens before its
    future is polled, and then all of it does.  It calls [tokio::spawn] twice (runtime.rs:5-11), which panics outside
    of a runtime, and drops the future it is given on a runtime that has been shut down.  The watchdog
    calls [tokio::time::sleep] when it is first run (socket.rs:91), which panics on a runtime without a timer; [tokio]
    catches the panic of a task and drops its future.  All this of [tokio] to our knowledge.  A future is polled
    once: [await] does not poll one that is complete. *)

From Verif Require Export Model.LifeM Model.BornTypes.

Section Born.
  Context {S E : Type} (cn : connection S E) (status : S -> option connection_status).

  (** The future with the connection it has been given (socket.rs:47); no future and no machine; a machine with its tasks,
      and whether their runtime has a timer. *)
  Inductive born : Type :=
  | Unborn (conn : S) (now : N)
  | NoMachine
  | Alive (timer : bool) (y : @life S).

  (** Dropping the futures of the tasks, with the clones they own (socket.rs:71, 88). *)
  Definition drop_listen (y : @life S) : list (life_event E) * life :=
    let (ev, y') := release (Life (lf_sys y) (lf_owners y) (lf_strong y) (lf_watch y) false) in
    (LifeListenCancelled :: ev, y').
  Definition drop_watch (y : @life S) : list (life_event E) * life :=
    let (ev, y') := release (Life (lf_sys y) (lf_owners y) (lf_strong y) false (lf_listen y)) in
    (LifeWatchCancelled :: ev, y').

  (** [spawn] of runtime.rs:5-11, given what dropping the future does: a panic, in the course of which it is dropped;
      a drop; a task. *)
  Definition spawn_task (r : runtime) (dropped : @life S -> list (life_event E) * life) (y : @life S)
    : oc (list (life_event E) * life) :=
    match r with
    | NoRuntime => Panic
    | ShutDown => Ret (dropped y)
    | Running _ => Ret ([], y)
    end.

  (** socket.rs:50-101: the machine, with one [Arc] of the connection (58), the clone and the task of 71-86, those of 88-100, the
      machine returned.  In a panic the future that was to be spawned and the machine are dropped. *)
  Definition machine_made (r : runtime) (init : Z) (st : store) (conn : S) (now : N)
    : list (born_event E) * born :=
    let y0 := Life (system_init init st conn now) [0%nat] 1 true true in
    let y1 := retain y0 in
    match spawn_task r drop_listen y1 with
    | Ret (ev1, y2) =>
      let y3 := retain y2 in
      match spawn_task r drop_watch y3 with
      | Ret (ev2, y4) =>
        (map BornSees (ev1 ++ ev2) ++ [BornMade], Alive (match r with Running timer => timer | _ => false end) y4)
      | _ => ([BornPanicked], NoMachine)
      end
    | _ =>
      let (ev1, y2) := @release S E y1 in
      let (ev2, y3) := @release S E y2 in
      (BornPanicked :: map BornSees (ev1 ++ ev2), NoMachine)
    end.

  (** The first run of the watchdog where there is no timer: socket.rs:91. *)
  Definition watch_panics (y : @life S) : list (born_event E) * born :=
    let (ev, y') := release (Life (lf_sys y) (lf_owners y) (lf_strong y) false (lf_listen y)) in
    (BornWatchPanicked :: map BornSees ev, Alive false y').

  Definition born_step (bd : build) (chunk : option N) (timeout : N) (init : Z) (st : store) (a : born_action) (b : born)
    : list (born_event E) * born :=
    match b, a with
    | Unborn conn now, BornPoll r => machine_made r init st conn now
    | Unborn conn now, BornForget => ([BornSees LifeFreed], NoMachine)
    | Unborn conn now, Born (LifeElapse d) => ([], Unborn conn (now + d))
    | Unborn _ _, Born _ => ([], b)
    | NoMachine, _ => ([], b)
    | Alive timer y, Born a' =>
      match timer, a', sy_watch (lf_sys y), lf_watch y with
      | false, LifeWatch, WStart, true => watch_panics y
      | _, _, _, _ =>
        let (ev, y') := life_step cn status bd chunk timeout a' y in
        (map BornSees ev, Alive timer y')
      end
    | Alive _ _, _ => ([], b)
    end.

  Fixpoint born_exec (bd : build) (chunk : option N) (timeout : N) (init : Z) (st : store) (acts : list born_action) (b : born)
    : list (born_event E) * born :=
    match acts with
    | [] => ([], b)
    | a :: acts' =>
      let (ev, b') := born_step bd chunk timeout init st a b in
      let (evs, b'') := born_exec bd chunk timeout init st acts' b' in
      (ev ++ evs, b'')
    end.
End Born.
Arguments Unborn {S}. Arguments NoMachine {S}. Arguments Alive {S}.
