(** * Runs of a machine whose connection also changes by itself

    Data types only, shared by Model/EnvM.v and Spec/Env.v. *)

From Verif Require Export Model.Types.

(** What happens: a step of the machine, or a change of the connection that is no doing of the machine: bytes arrive, the
    peer goes away, a connection is established. *)
Inductive env_action (M : Type) : Type :=
| EnvSys (a : sys_action)
| EnvMove (m : M).
Arguments EnvSys {M}. Arguments EnvMove {M}.

(** What is observed of it. *)
Inductive env_event (M E : Type) : Type :=
| EnvSees (e : sys_event E)
| EnvMoved (m : M).
Arguments EnvSees {M E}. Arguments EnvMoved {M E}.
