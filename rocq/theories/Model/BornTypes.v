(** * The ways a machine is made, and what is observed of that

    Data types only, shared by Model/BornM.v and Spec/Born.v. *)

From Verif Require Export Model.LifeTypes.

(** Where the future of [RSocketMachine::new] is polled: outside of any runtime, in one that has been shut down, in
    one that runs, with or without a timer. *)
Inductive runtime : Set :=
| NoRuntime
| ShutDown
| Running (timer : bool).

(** What happens: the future is polled by thread 0, it is dropped instead, or what happens once there is a machine
    (and, before, time passes). *)
Inductive born_action : Set :=
| BornPoll (r : runtime)
| BornForget
| Born (a : life_action).

(** What can be observed: the poll panics; it returns the machine; the watchdog panics; an event of the machine and those
    who hold it. *)
Inductive born_event (E : Type) : Type :=
| BornPanicked
| BornMade
| BornWatchPanicked
| BornSees (e : life_event E).
Arguments BornPanicked {E}. Arguments BornMade {E}. Arguments BornWatchPanicked {E}. Arguments BornSees {E}.
