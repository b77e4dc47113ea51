(** * binate/src/connection/socket.rs: a machine whose connection also changes by itself

    In Model/SystemM.v the state of the connection changes only in the calls of the machine.  Here it also changes in
    between (conn.rs:9-34: a connection is [Sync] and has states such as [Connecting], conn.rs:38-50, that end by
    themselves), at any time, in ways given by an arbitrary function. *)

From Verif Require Export Model.SystemM Model.EnvTypes.

Section Env.
  Context {S E M : Type} (cn : connection S E) (status : S -> option connection_status) (move : M -> S -> S).

  Definition moved (m : M) (y : @system S) : @system S :=
    let c := sy_config y in
    System (Config (cf_counter c) (cf_store c) (move m (cf_conn c)) (cf_threads c)) (sy_last y) (sy_now y) (sy_watch y) (sy_listen y).

  (** The steps of socket.rs:45-174 as in Model/SystemM.v, and the changes of the connection. *)
  Definition env_step (bd : build) (chunk : option N) (timeout : N) (a : env_action M) (y : @system S)
    : list (env_event M E) * @system S :=
    match a with
    | EnvSys a' => let (ev, y') := sys_step cn status bd chunk timeout a' y in (map EnvSees ev, y')
    | EnvMove m => ([EnvMoved m], moved m y)
    end.

  Fixpoint env_exec (bd : build) (chunk : option N) (timeout : N) (acts : list (env_action M)) (y : @system S)
    : list (env_event M E) * @system S :=
    match acts with
    | [] => ([], y)
    | a :: acts' =>
      let (ev, y') := env_step bd chunk timeout a y in
      let (evs, y'') := env_exec bd chunk timeout acts' y' in
      (ev ++ evs, y'')
    end.
End Env.
