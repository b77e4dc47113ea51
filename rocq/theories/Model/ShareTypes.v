(** * [Bytes] with their storage: data types *)

From Verif Require Export Model.Types.

(** A [Bytes] (bytes 1.0.1): its content, and where the first byte lies: the block of storage it
    holds a reference to, and the offset therein.  [None] is a [Bytes] that holds no storage
    ([Bytes::new]). *)
Record handle : Set := Handle { h_bytes : bytes; h_at : option (nat * nat) }.

(** A payload, payload.rs:10-14, whose parts have their storage. *)
Record held_payload : Set := HeldPayload { hp_metadata : option handle; hp_data : option handle }.

(** A reader that keeps a record of every [Bytes] it has handed out, together with the number of
    bytes that were left before: one over a single [Bytes], one over the [VecDeque] of a
    [BufList<Bytes>] (buf.rs:12-14), with the number of the next block of storage. *)
Record one_reader : Set := OneReader { or_buf : handle; or_out : list (nat * handle) }.
Record list_reader : Set := ListReader {
  lr_bufs : list handle; lr_next : nat; lr_out : list (nat * handle) }.
