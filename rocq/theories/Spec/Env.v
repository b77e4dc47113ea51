(** * Specification of a machine whose connection also changes by itself

    Independent of the model: uses only its data types. *)

From Verif Require Export Spec.System Model.EnvTypes.

Section Env.
  Context {M : Type}.
  (** The steps of the machine. *)
  Definition steps_of (acts : list (env_action M)) : list sys_action :=
    flat_map (fun a => match a with EnvSys a' => [a'] | EnvMove _ => [] end) acts.
  Context {E : Type}.
  (** What is seen of the machine. *)
  Definition sights (tr : list (env_event M E)) : list (sys_event E) :=
    flat_map (fun e => match e with EnvSees e' => [e'] | EnvMoved _ => [] end) tr.
End Env.

Section Events.
  Context {E : Type}.
  (** All but the listener, who sees statuses. *)
  Definition but_listener (tr : list (sys_event E)) : list (sys_event E) :=
    filter (fun e => match e with SysStatus _ | SysListenLog _ => false | _ => true end) tr.
  (** A connection that gives these answers, in order, and does nothing else. *)
  Definition scripted : connection (list (option E)) E :=
    let answer s (f : frame) := match s with [] => ([], None) | r :: s' => (s', r) end in
    Connection answer answer (fun s => s).
End Events.

(** What the connection goes through. *)
Section Replay.
  Context {S E M : Type} (cn : connection S E) (status : S -> option connection_status) (move : M -> S -> S).
  Definition env_undergoes (s : S) (e : env_event M E) (s' : S) : Prop :=
    match e with
    | EnvSees e' => sys_undergoes cn status s e' s'
    | EnvMoved m => s' = move m s
    end.
  Inductive env_replays : S -> list (env_event M E) -> S -> Prop :=
  | Er_nil : forall s, env_replays s [] s
  | Er_cons : forall s e s1 tr s', env_undergoes s e s1 -> env_replays s1 tr s' -> env_replays s (e :: tr) s'.
End Replay.
