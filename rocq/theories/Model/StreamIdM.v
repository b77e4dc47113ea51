(** * binate/src/connection/stream_id.rs and binate/src/connection/counter.rs

    Sequential meaning of each method; [Model/SocketM.v] interleaves them. *)

From Verif Require Export Model.Base.

(** ** [AtomicI32] *)

(** Two's complement wrap-around of [fetch_add]/[fetch_sub] on an [i32]. *)
Definition wrap_i32 (z : Z) : Z :=
  let m := (z mod 2 ^ 32)%Z in
  if (m <? 2 ^ 31)%Z then m else (m - 2 ^ 32)%Z.
(** [n as i32] for a [u32]. *)
Definition u32_as_i32 (n : N) : Z := wrap_i32 (Z.of_N n).

(** ** [StreamIdProvider] *)

(** [STREAM_ID_MASK], stream_id.rs:9. *)
Definition STREAM_ID_MASK : Z := 0x7FFFFFFF.

(** [StreamIdProvider::new_for_client], stream_id.rs:17-20;
    [new_for_server], stream_id.rs:23-26; [_new], stream_id.rs:43-46.
    A provider is the content of its [AtomicI32]. *)
Definition sid_new_for_client : Z := 1.
Definition sid_new_for_server : Z := 2.
Definition sid_new (init : Z) : Z := init.

(** One [fetch_add(2, Relaxed) & STREAM_ID_MASK as u32], stream_id.rs:32-33:
    the id drawn and the new content. *)
Definition sid_draw (c : Z) : N * Z :=
  (Z.to_N (Z.land c STREAM_ID_MASK), wrap_i32 (c + 2)).

(** The store is only asked [contains_key]: a [DashMap<u32, T>] is its set of keys. *)
Definition store : Type := N -> bool.

(** [StreamIdProvider::next_stream_id] with nobody else running, stream_id.rs:29-40.
    Out of [fuel] is [Loop]. *)
Fixpoint next_stream_id (fuel : nat) (st : store) (c : Z) : oc (N * Z) :=
  match fuel with
  | O => Loop
  | S fuel' =>
    let (sid, c') := sid_draw c in
    if negb (st sid) then Ret (sid, c') else next_stream_id fuel' st c'
  end.

(** ** [RequestCounter] *)

(** [COUNTER_MASK], counter.rs:3. *)
Definition COUNTER_MASK : N := 0x7FFFFFFF.
(** [RequestCounter::new], counter.rs:11-13. *)
Definition counter_new (n : N) : Z := u32_as_i32 (N.land n COUNTER_MASK).
(** [RequestCounter::dec], counter.rs:16-18. *)
Definition counter_dec (c : Z) : Z * Z := (c, wrap_i32 (c - 1)).
(** [RequestCounter::is_zero], counter.rs:21-23. *)
Definition counter_is_zero (c : Z) : bool := (c =? 0)%Z.
(** [RequestCounter::add], counter.rs:26-28. *)
Definition counter_add (n : N) (c : Z) : Z := wrap_i32 (c + u32_as_i32 n).
(** [RequestCounter::load], counter.rs:31-33. *)
Definition counter_load (c : Z) : Z := c.

(** Every method is a single atomic operation, so an execution of any number of
    threads is a sequence of operations: those of the threads, interleaved.
    The results are in the order of the operations. *)
Definition counter_step (o : counter_op) (c : Z) : counter_res * Z :=
  match o with
  | CtDec => let (v, c') := counter_dec c in (CtCount v, c')
  | CtAdd n => (CtUnit, counter_add n c)
  | CtIsZero => (CtBool (counter_is_zero c), c)
  | CtLoad => (CtCount (counter_load c), c)
  end.
Fixpoint counter_run (ops : list counter_op) (c : Z) : list counter_res * Z :=
  match ops with
  | [] => ([], c)
  | o :: ops' =>
    let (r, c') := counter_step o c in
    let (rs, c'') := counter_run ops' c' in
    (r :: rs, c'')
  end.
