(** * The buffers [bytes] and [std] build from others, as data *)

From Verif Require Export Model.Types.

(** [bytes::buf::Take<T>] (bytes 1.0.1): the inner buffer and how many bytes may still be read. *)
Record take (T : Type) : Type := Take { tk_inner : T; tk_limit : nat }.
Arguments Take {T}.
Arguments tk_inner {T}.
Arguments tk_limit {T}.

(** [bytes::buf::Chain<T, U>]. *)
Record chain (T U : Type) : Type := Chain { cn_a : T; cn_b : U }.
Arguments Chain {T U}.
Arguments cn_a {T U}.
Arguments cn_b {T U}.

(** [VecDeque<u8>]: the two slices of [as_slices]. *)
Record deque : Type := Deque { dq_front : bytes; dq_back : bytes }.

(** [io::Cursor<T>] with [T: AsRef<[u8]>].  The position is unbounded. *)
Record cursor : Type := Cursor { cu_data : bytes; cu_pos : nat }.
