(** * Worker threads of the runtime, as data *)

From Verif Require Export Model.Types.

(** The two tasks of a machine. *)
Inductive task : Set := TWatch | TListen.

(** What can happen: worker [i] begins to poll a task; the task worker [i] polls goes on ([ready] says what
    the status stream answers, if it is polled); worker [i] runs a task of the user up to its next action on the
    machine; a thread outside the runtime acts; time passes. *)
Inductive pool_action : Set :=
| PPick (i : nat) (t : task)
| PStep (i : nat) (ready : bool)
| PUser (i : nat) (a : action)
| POut (a : action)
| PElapse (d : N).
