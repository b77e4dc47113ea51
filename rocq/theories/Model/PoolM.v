(** * binate/src/connection/socket.rs:71-100 on the worker threads of a runtime

    [runtime::spawn] (runtime.rs:5-11) hands the two tasks to [tokio], whose worker threads poll one task at a
    time each.  A task runs until its future is pending or done: nothing takes it off its worker before.  Which
    task an idle worker polls, and when, is arbitrary; a task asleep is not polled before its time.  The status
    stream is the connection's and makes no use of [tokio]'s budget unless it answers that it is not ready.
    A task of the user is one action at a time, so that one that never lets go of its worker is left out. *)

From Verif Require Export Model.SystemM Model.PoolTypes.

Definition task_eqb (a b : task) : bool :=
  match a, b with TWatch, TWatch | TListen, TListen => true | _, _ => false end.

Section Pool.
  Context {S E : Type} (cn : connection S E) (status : S -> option connection_status).

  (** The machine with its tasks, and what each worker polls. *)
  Record pool : Type := Pool { po_sys : @system S; po_busy : nat -> option task }.

  Definition set_busy (p : pool) (i : nat) (o : option task) : nat -> option task :=
    fun j => if Nat.eqb j i then o else po_busy p j.
  Definition polled (w : nat) (p : pool) (t : task) : bool :=
    existsb (fun j => match po_busy p j with Some t' => task_eqb t t' | None => false end) (seq 0 w).

  (** Whether a task that is not being polled may be: it has just been spawned, its timer has expired, or its
      status stream has been heard of. *)
  Definition runnable (y : @system S) (t : task) : bool :=
    match t with
    | TWatch => match sy_watch y with WStart => true | WSleep until => until <=? sy_now y | WClose | WDone => false end
    | TListen => match sy_listen y with LAsk => true | LReport _ | LDone => false end
    end.

  (** One step of the poll of the watchdog: [sleep(..).await] (socket.rs:91) and the end of the task give the
      worker back. *)
  Definition poll_watch (timeout : N) (i : nat) (p : pool) : list (sys_event E) * pool :=
    let (ev, y) := watch_step cn timeout (po_sys p) in
    (ev, Pool y (match sy_watch y with WSleep _ | WDone => set_busy p i None | WStart | WClose => po_busy p end)).
  (** One step of the poll of the listener: only a status stream that is not ready ([.next().await],
      socket.rs:74), or one that ends, gives the worker back. *)
  Definition poll_listen (ready : bool) (i : nat) (p : pool) : list (sys_event E) * pool :=
    match sy_listen (po_sys p), ready with
    | LAsk, false => ([], Pool (po_sys p) (set_busy p i None))
    | _, _ =>
      let (ev, y) := listen_step status (po_sys p) in
      (ev, Pool y (match sy_listen y with LDone => set_busy p i None | LAsk | LReport _ => po_busy p end))
    end.

  Definition pool_step (w : nat) (bd : build) (chunk : option N) (timeout : N) (a : pool_action) (p : pool)
    : list (sys_event E) * pool :=
    let plain x := let (ev, y) := sys_step cn status bd chunk timeout x (po_sys p) in (ev, Pool y (po_busy p)) in
    match a with
    | PPick i t =>
      match po_busy p i with
      | None =>
        if Nat.ltb i w && negb (polled w p t) && runnable (po_sys p) t
        then ([], Pool (po_sys p) (set_busy p i (Some t))) else ([], p)
      | Some _ => ([], p)
      end
    | PStep i ready =>
      match po_busy p i with
      | Some TWatch => poll_watch timeout i p
      | Some TListen => poll_listen ready i p
      | None => ([], p)
      end
    | PUser i a' =>
      match po_busy p i with
      | None => if Nat.ltb i w then plain (SysAct a') else ([], p)
      | Some _ => ([], p)
      end
    | POut a' => plain (SysAct a')
    | PElapse d => plain (SysElapse d)
    end.

  Fixpoint pool_exec (w : nat) (bd : build) (chunk : option N) (timeout : N) (acts : list pool_action) (p : pool)
    : list (sys_event E) * pool :=
    match acts with
    | [] => ([], p)
    | a :: acts' =>
      let (ev, p') := pool_step w bd chunk timeout a p in
      let (evs, p'') := pool_exec w bd chunk timeout acts' p' in
      (ev ++ evs, p'')
    end.

  (** [RSocketMachine::new], socket.rs:45-102: no worker polls either task yet. *)
  Definition pool_init (init : Z) (st : store) (conn : S) (now : N) : pool :=
    Pool (system_init init st conn now) (fun _ => None).
End Pool.
