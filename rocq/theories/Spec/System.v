(** * Specification of a machine with its two tasks

    Independent of the model: uses only its data types. *)

From Verif Require Export Spec.Socket.

(** The actions of the threads in a schedule. *)
Definition of_threads (acts : list sys_action) : list action :=
  flat_map (fun a => match a with SysAct a' => [a'] | _ => [] end) acts.
(** How much time passes. *)
Definition elapsed (acts : list sys_action) : N :=
  fold_right (fun a n => match a with SysElapse d => d + n | _ => n end) 0 acts.
(** How many times the listener is run. *)
Definition turns (acts : list sys_action) : nat :=
  length (filter (fun a => match a with SysListen => true | _ => false end) acts).

(** The times after creation at which the watchdog is run, when [t] has passed already. *)
Fixpoint watch_runs (t : N) (acts : list sys_action) : list N :=
  match acts with
  | [] => []
  | SysElapse d :: acts' => watch_runs (t + d) acts'
  | SysWatch :: acts' => t :: watch_runs t acts'
  | _ :: acts' => watch_runs t acts'
  end.
(** What a watchdog asleep since time [from] does when it is run at the times [ts]: runs less than a
    timeout later find it asleep; the next one looks at the time, and unless more than a timeout has
    passed since creation it sleeps again from then on.  If it has, the timeout is logged then and the
    connection closed by the run after. *)
Fixpoint asleep_since (timeout from : N) (ts : list N) : list effect :=
  match ts with
  | [] => []
  | t :: ts' =>
    if t <? from + timeout then asleep_since timeout from ts'
    else if t <=? timeout then asleep_since timeout t ts'
    else Logged "connection keepalive timed out" :: match ts' with [] => [] | _ :: _ => [ConnClose] end
  end.

Section Events.
  Context {E : Type}.
  (** What the threads and the connection see: a close by the watchdog is a close. *)
  Definition seen (tr : list (sys_event E)) : list (event E) :=
    flat_map (fun e => match e with SysEv e' => [e'] | SysWatchClose => [EvClose] | _ => [] end) tr.
  (** What the watchdog has done. *)
  Definition watched (tr : list (sys_event E)) : list effect :=
    flat_map (fun e => match e with SysWatchLog t => [Logged t] | SysWatchClose => [ConnClose] | _ => [] end) tr.
  (** The statuses the listener was given and the lines it logged. *)
  Definition statuses (tr : list (sys_event E)) : list (option connection_status) :=
    flat_map (fun e => match e with SysStatus s => [s] | _ => [] end) tr.
  Definition listened (tr : list (sys_event E)) : list effect :=
    flat_map (fun e => match e with SysListenLog t => [Logged t] | _ => [] end) tr.
End Events.

(** What the connection goes through, including the questions for its status. *)
Section Replay.
  Context {S E : Type} (cn : connection S E) (status : S -> option connection_status).
  Definition sys_undergoes (s : S) (e : sys_event E) (s' : S) : Prop :=
    match e with
    | SysEv e' => undergoes cn s e' s'
    | SysWatchClose => s' = cn_close cn s
    | SysStatus x => x = status s /\ s' = s
    | SysWatchLog _ | SysListenLog _ => s' = s
    end.
  Inductive sys_replays : S -> list (sys_event E) -> S -> Prop :=
  | Sr_nil : forall s, sys_replays s [] s
  | Sr_cons : forall s e s1 tr s', sys_undergoes s e s1 -> sys_replays s1 tr s' -> sys_replays s (e :: tr) s'.
End Replay.

(** A connection that once closed stays closed and takes no frame by [send_and_forget]. *)
Definition closes_for_good {S E : Type} (cn : connection S E) (closed : S -> Prop) : Prop :=
  (forall s, closed (cn_close cn s)) /\
  (forall s f, closed s -> closed (fst (cn_send cn s f))) /\
  (forall s f, closed s -> closed (fst (cn_send_and_forget cn s f)) /\ snd (cn_send_and_forget cn s f) <> None).

(** A connection that once closed stays closed, whatever it does with frames, and one whose status
    streams always begin with a status, which is [Closed] then. *)
Definition stays_closed {S E : Type} (cn : connection S E) (closed : S -> Prop) : Prop :=
  (forall s, closed (cn_close cn s)) /\
  (forall s f, closed s -> closed (fst (cn_send cn s f))) /\
  (forall s f, closed s -> closed (fst (cn_send_and_forget cn s f))).
Definition tells {S : Type} (status : S -> option connection_status) (closed : S -> Prop) : Prop :=
  (forall s, status s <> None) /\ (forall s, closed s -> status s = Some Closed).
