(** * binate/src/payload.rs: chunking *)

From Coq Require Import SpecFloat.
From Verif Require Export Model.PayloadM.

(** ** [f32] and its conversions

    [f32] is IEEE-754 binary32, [Coq.Floats.SpecFloat] with 24 bits of precision
    and maximal exponent 128; rounding to nearest, ties to even. *)
Definition f32_prec : Z := 24.
Definition f32_emax : Z := 128.

(** [n as f32] for a [usize]: nearest [f32] (Rust reference, numeric casts). *)
Definition f32_of_usize (n : N) : spec_float :=
  binary_normalize f32_prec f32_emax (Z.of_N n) 0 false.
(** [/] on [f32]. *)
Definition f32_div (x y : spec_float) : spec_float := SFdiv f32_prec f32_emax x y.
(** [f32::ceil]: least integer not below the argument.  Only the values with a
    negative exponent can have a fractional part. *)
Definition f32_ceil (x : spec_float) : spec_float :=
  match x with
  | S754_finite s m e =>
      if Z.leb 0 e then x
      else binary_normalize f32_prec f32_emax
             (- ((- SpecFloat.cond_Zopp s (Zpos m)) / 2 ^ (- e)))%Z 0 s
  | _ => x
  end.
(** [x as usize]: truncation towards zero, saturating; NaN gives 0.
    [usize] is taken to be 64 bits wide. *)
Definition usize_max : N := 2 ^ 64 - 1.
Definition usize_of_f32 (x : spec_float) : N :=
  match x with
  | S754_zero _ | S754_nan | S754_infinity true | S754_finite true _ _ => 0
  | S754_infinity false => usize_max
  | S754_finite false m e =>
      N.min usize_max
        (if Z.leb 0 e then N.pos m * 2 ^ Z.to_N e else N.pos m / 2 ^ Z.to_N (- e))
  end.

(** ** [PayloadChunks], payload.rs:191-195 *)

Record chunks : Set := Chunks {
  ch_size : N; ch_metadata : option bytes; ch_data : option bytes }.

(** [Payload::chunks], payload.rs:113-117. *)
Definition payload_chunks (p : payload) (chunk_size : N) : oc chunks :=
  if negb (chunk_size =? 0) then
    let (metadata, data) := payload_split p in
    Ret (Chunks chunk_size metadata data)
  else Panic.

(** [ExactSizeIterator::len], payload.rs:200-209. *)
Definition chunks_len (c : chunks) : N :=
  let metadata_len := match ch_metadata c with Some b => blen b | None => 0 end in
  let data_len := match ch_data c with Some b => blen b | None => 0 end in
  let len1 := f32_div (f32_of_usize metadata_len) (f32_of_usize (ch_size c)) in
  let len2 := f32_div (f32_of_usize data_len) (f32_of_usize (ch_size c)) in
  N.max (usize_of_f32 (f32_ceil len1)) (usize_of_f32 (f32_ceil len2)).

(** The treatment of one part in [next], payload.rs:222-229 and 230-237: what is
    yielded and what stays.  [split_to] returns the first bytes and keeps the rest. *)
Definition part_next (chunk_size : N) (o : option bytes) : option bytes * option bytes :=
  match o with
  | Some m =>
      if chunk_size <? blen m
      then (Some (firstn (N.to_nat chunk_size) m), Some (skipn (N.to_nat chunk_size) m))
      else (Some m, None)
  | None => (None, None)
  end.

(** [Iterator::next], payload.rs:215-239. *)
Definition chunks_next (c : chunks) : option payload * chunks :=
  match ch_metadata c, ch_data c with
  | None, None => (None, c)
  | _, _ =>
    let (meta, metadata') := part_next (ch_size c) (ch_metadata c) in
    let (data, data') := part_next (ch_size c) (ch_data c) in
    (Some (payload_new meta data), Chunks (ch_size c) metadata' data')
  end.

(** The results of [k] successive calls of [next], and the iterator afterwards. *)
Fixpoint chunks_calls (k : nat) (c : chunks) : list (option payload) * chunks :=
  match k with
  | O => ([], c)
  | S k' =>
    let (r, c') := chunks_next c in
    let (rs, c'') := chunks_calls k' c' in
    (r :: rs, c'')
  end.

(** [Iterator::size_hint] is not overridden in payload.rs:212-240: the default of [core::iter],
    no lower and no upper bound, whatever [len] says. *)
Definition chunks_size_hint (c : chunks) : N * option N := (0, None).

(** [Iterator::size_hint] of [core::iter::Take], the adaptor made by [take(n)], from the hint of what it
    wraps, and the default [ExactSizeIterator::len], which [Take] and [Zip] inherit: it asserts that the
    two bounds agree. *)
Definition take_size_hint (n : N) (hint : N * option N) : N * option N :=
  if n =? 0 then (0, Some 0) else
  let (lower, upper) := hint in
  (N.min lower n, match upper with Some x => if x <? n then Some x else Some n | None => Some n end).
Definition exact_len (hint : N * option N) : oc N :=
  let (lower, upper) := hint in
  match upper with
  | Some u => if u =? lower then Ret lower else Panic
  | None => Panic
  end.
