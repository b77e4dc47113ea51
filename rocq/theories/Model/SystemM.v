(** * binate/src/connection/socket.rs: a machine, its threads and its two tasks together

    The threads are those of [Model/SocketM.v].  The tasks are spawned by
    [RSocketMachine::new] and run whenever the scheduler picks them.  [status s] is the first
    item of the stream [connection_status] gives in state [s] of the connection, [None] if it
    ends without one; asking for it is taken not to change the state.  A task whose future
    is pending is one the scheduler does not pick. *)

From Verif Require Export Model.SocketM.

(** The watchdog, socket.rs:88-100: not yet run, asleep until (91), between the log of
    [handle_connection_error] and its [close] (112-113), past the [break]. *)
Inductive watch : Set :=
| WStart
| WSleep (until : N)
| WClose
| WDone.

(** The status listener, socket.rs:71-86: at the head of the [while let], with a status to
    report, past the loop. *)
Inductive listen : Set :=
| LAsk
| LReport (s : connection_status)
| LDone.

Section System.
  Context {S E : Type} (cn : connection S E) (status : S -> option connection_status).

  (** The machine and the clock; [sy_last] is [keepalive_last_received]. *)
  Record system : Type := System {
    sy_config : @config S;
    sy_last : N;
    sy_now : N;
    sy_watch : watch;
    sy_listen : listen }.

  Definition set_watch (y : system) (w : watch) : system :=
    System (sy_config y) (sy_last y) (sy_now y) w (sy_listen y).
  Definition set_listen (y : system) (l : listen) : system :=
    System (sy_config y) (sy_last y) (sy_now y) (sy_watch y) l.

  (** The lines logged, [handle_error] of socket.rs:116-118. *)
  Definition logged (l : list effect) : list string :=
    flat_map (fun e => match e with Logged t => [t] | ConnClose => [] end) l.

  (** Up to the next [await], log or [close] of the watchdog, socket.rs:90-99. *)
  Definition watch_step (timeout : N) (y : system) : list (sys_event E) * system :=
    match sy_watch y with
    | WStart => ([], set_watch y (WSleep (sy_now y + timeout)))
    | WSleep until =>
      if sy_now y <? until then ([], y)
      else if timeout <? sy_now y - sy_last y
           then (map SysWatchLog (logged (handle_error timeout_display)), set_watch y WClose)
           else ([], set_watch y (WSleep (sy_now y + timeout)))
    | WClose =>
      let c := sy_config y in
      ([SysWatchClose],
       System (Config (cf_counter c) (cf_store c) (cn_close cn (cf_conn c)) (cf_threads c))
         (sy_last y) (sy_now y) WDone (sy_listen y))
    | WDone => ([], y)
    end.

  (** Up to the next status or log of the listener, socket.rs:73-85. *)
  Definition listen_step (y : system) : list (sys_event E) * system :=
    match sy_listen y with
    | LAsk =>
      let s := status (cf_conn (sy_config y)) in
      ([SysStatus s], set_listen y (match s with Some s' => LReport s' | None => LDone end))
    | LReport s => (map SysListenLog (logged (status_report s)), set_listen y LAsk)
    | LDone => ([], y)
    end.

  Definition sys_step (bd : build) (chunk : option N) (timeout : N) (a : sys_action) (y : system)
    : list (sys_event E) * system :=
    match a with
    | SysAct a' =>
      let (ev, c) := step cn bd chunk a' (sy_config y) in
      (map SysEv ev, System c (sy_last y) (sy_now y) (sy_watch y) (sy_listen y))
    | SysElapse d => ([], System (sy_config y) (sy_last y) (sy_now y + d) (sy_watch y) (sy_listen y))
    | SysWatch => watch_step timeout y
    | SysListen => listen_step y
    end.

  Fixpoint sys_exec (bd : build) (chunk : option N) (timeout : N) (acts : list sys_action) (y : system)
    : list (sys_event E) * system :=
    match acts with
    | [] => ([], y)
    | a :: acts' =>
      let (ev, y') := sys_step bd chunk timeout a y in
      let (evs, y'') := sys_exec bd chunk timeout acts' y' in
      (ev ++ evs, y'')
    end.

  (** [RSocketMachine::new], socket.rs:45-102, at time [now]: the tasks are spawned, all threads idle. *)
  Definition system_init (init : Z) (st : store) (conn : S) (now : N) : system :=
    System (config_init init st conn) now now WStart LAsk.
End System.
