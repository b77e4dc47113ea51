(** * Specification of threads that catch their panics

    Independent of the model: uses only its data types. *)

From Verif Require Export Spec.Socket Model.ReviveTypes.

(** The actions other than catching. *)
Definition plain_acts (acts : list revive_action) : list action :=
  flat_map (fun a => match a with ReviveAct a' => [a'] | Catch _ => [] end) acts.

(** An action of another thread. *)
Definition renamed (r : nat -> nat) (a : action) : action :=
  match a with
  | Call t p => Call (r t) p
  | Run t => Run (r t)
  | Push t m => Push (r t) m
  | Request t => Request (r t)
  | Close => Close
  | Insert k => Insert k
  | Remove k => Remove k
  end.

Section Revive.
  Context {E : Type}.
  (** What is seen of the machine. *)
  Definition plain (tr : list (revive_event E)) : list (event E) :=
    flat_map (fun e => match e with ReviveSees e' => [e'] | Caught _ => [] end) tr.
  Definition event_renamed (r : nat -> nat) (e : event E) : event E :=
    match e with
    | EvDraw t sid => EvDraw (r t) sid
    | EvAlloc t sid p => EvAlloc (r t) sid p
    | EvBusy t sid => EvBusy (r t) sid
    | EvSend t f a => EvSend (r t) f a
    | EvReturn t sid => EvReturn (r t) sid
    | EvPanic t => EvPanic (r t)
    | EvPush t f a => EvPush (r t) f a
    | EvClose => EvClose
    | EvMissing t => EvMissing (r t)
    end.
  (** Thread [t] has panicked and has not caught it. *)
  Definition uncaught (t : nat) (tr : list (revive_event E)) : bool :=
    fold_left (fun b e => match e with
                          | ReviveSees (EvPanic u) | ReviveSees (EvMissing u) => if Nat.eqb u t then true else b
                          | Caught u => if Nat.eqb u t then false else b
                          | _ => b end) tr false.
End Revive.
