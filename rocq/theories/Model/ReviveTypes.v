(** * Threads that catch their panics

    Data types only, shared by Model/ReviveM.v and Spec/Revive.v. *)

From Verif Require Export Model.Types.

(** What a scheduler picks: a step of the threads, or a thread that has panicked catches the panic ([catch_unwind], or
    the task it ran is over and its worker picks up another) and goes on to use the machine. *)
Inductive revive_action : Set :=
| ReviveAct (a : action)
| Catch (t : nat).

(** What is observed of it. *)
Inductive revive_event (E : Type) : Type :=
| ReviveSees (e : event E)
| Caught (t : nat).
Arguments ReviveSees {E}. Arguments Caught {E}.
