(** * The ways a machine is used, cloned and dropped, and what is observed of it

    Data types only, shared by Model/LifeM.v and Spec/Life.v. *)

From Verif Require Export Model.Types.

(** What a scheduler picks: thread [t] does something with its machine; thread [t] clones its machine for
    thread [u]; thread [t] drops its machine; time passes; one of the two tasks runs; the runtime drops
    one of the two tasks, as it does when it is shut down. *)
Inductive life_action : Set :=
| LifeUse (t : nat) (a : action)
| LifeClone (t u : nat)
| LifeDrop (t : nat)
| LifeElapse (d : N)
| LifeWatch
| LifeListen
| LifeCancelWatch
| LifeCancelListen.

(** What can be observed: an event of the machine; a clone, a drop and a task dropped; the connection
    itself dropped. *)
Inductive life_event (E : Type) : Type :=
| LifeSys (e : sys_event E)
| LifeCloned (t u : nat)
| LifeDropped (t : nat)
| LifeWatchCancelled
| LifeListenCancelled
| LifeFreed.
Arguments LifeSys {E}. Arguments LifeCloned {E}. Arguments LifeDropped {E}.
Arguments LifeWatchCancelled {E}. Arguments LifeListenCancelled {E}. Arguments LifeFreed {E}.
