(** * Connections whose operations take time, as data *)

From Verif Require Export Model.Types.

(** What a machine asks of its connection: [send_and_forget], [send], [close]. *)
Inductive conn_op : Set :=
| OpForget (f : frame)
| OpSend (f : frame)
| OpClose.

(** How an operation ends: it returns, for [send_and_forget] with [Ok(())] ([None]) or an error, or it panics.
    What [send] returns is a future, a matter between its caller and the connection; [close] returns nothing. *)
Inductive op_end (E : Type) : Type :=
| Returned (r : option E)
| Unwound.
Arguments Returned {E}. Arguments Unwound {E}.

(** A connection: what entering an operation in a thread does to it, what running the operation of a
    thread a little further does, and whether it then ends; what it does by itself. *)
Record slow_connection (S E : Type) : Type := SlowConnection {
  sc_enter : S -> nat -> conn_op -> S;
  sc_go : S -> nat -> S * option (op_end E);
  sc_alone : S -> N -> S }.
Arguments SlowConnection {S E}. Arguments sc_enter {S E}. Arguments sc_go {S E}. Arguments sc_alone {S E}.

(** What a scheduler picks: a thread starts a [fire_and_forget], a [metadata_push], a [close] or a method that is
    not implemented; a thread takes a step; other code changes the store; the connection does something by
    itself. *)
Inductive slow_action : Set :=
| SlCall (t : nat) (p : payload)
| SlPush (t : nat) (metadata : bytes)
| SlClose (t : nat)
| SlRequest (t : nat)
| SlRun (t : nat)
| SlInsert (k : N)
| SlRemove (k : N)
| SlAlone (n : N).

(** What can be observed: as in [event], but that operations of the connection begin and end. *)
Inductive slow_event (E : Type) : Type :=
| SlDraw (t : nat) (sid : N)
| SlAlloc (t : nat) (sid : N) (p : payload)
| SlBusy (t : nat) (sid : N)
| SlBegin (t : nat) (op : conn_op)
| SlEnd (t : nat) (op : conn_op) (a : op_end E)
| SlReturn (t : nat) (sid : N)
| SlPanic (t : nat)
| SlMissing (t : nat).
Arguments SlDraw {E}. Arguments SlAlloc {E}. Arguments SlBusy {E}. Arguments SlBegin {E}.
Arguments SlEnd {E}. Arguments SlReturn {E}. Arguments SlPanic {E}. Arguments SlMissing {E}.
