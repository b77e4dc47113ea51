(** * Types for the request handler, binate/src/connection/socket.rs:27-28, 125-130 *)

From Verif Require Export Model.Base.

(** A handler is known by a number: 0 is the [DummyRSocket] of [RSocketMachine::new]
    (socket.rs:59-61), [k > 0] the argument of call [k] of [set_request_handler]. *)

(** What can happen next:
    - [HStart k]: call [k] is made; its future has not run yet;
    - [HPoll k]: the future of call [k] is polled, up to the end of [write().await];
    - [HRun k]: the thread polling it goes on, one atomic step;
    - [HCancel k]: the future is dropped by its owner, who is not polling it. *)
Inductive handler_action : Type :=
| HStart (k : nat)
| HPoll (k : nat)
| HRun (k : nat)
| HCancel (k : nat).

(** - [HvArrive k]: call [k] asks for the lock for the first time;
    - [HvWake k]: the lock is given to the waiting call [k], its task is woken;
    - [HvSet k]: handler [k] is put in place;
    - [HvDrop k]: handler [k] is dropped;
    - [HvReturn k]: call [k] returns;
    - [HvCancel k]: the future of call [k] has been dropped before it returned. *)
Inductive handler_event : Type :=
| HvArrive (k : nat)
| HvWake (k : nat)
| HvSet (k : nat)
| HvDrop (k : nat)
| HvReturn (k : nat)
| HvCancel (k : nat).
