(** * Primitives of the [bytes] crate (1.0.1) and of Rust integers used by binate

    The [bytes] crate is a dependency: what follows is its documented contract,
    method by method, including the default bodies of the [Buf] trait. *)

From Verif Require Export Model.Types.

(** ** Integers *)

(** [x as u8], [x as u16], [x as u32], [x as i32] bit patterns: truncation. *)
Definition as_u8 (n : N) : N := n mod 2 ^ 8.
Definition as_u16 (n : N) : N := n mod 2 ^ 16.
Definition as_u32 (n : N) : N := n mod 2 ^ 32.

Definition b2n (b : byte) : N := Coq.Strings.Byte.to_N b.
Definition n2b (n : N) : byte :=
  match Coq.Strings.Byte.of_N (n mod 256) with
  | Some b => b
  | None => Coq.Init.Byte.x00   (* unreachable: n mod 256 < 256 *)
  end.

(** [to_be_bytes] of a [k]-byte unsigned integer. *)
Fixpoint to_be (k : nat) (n : N) : bytes :=
  match k with
  | O => []
  | S k' => n2b (n / 256 ^ N.of_nat k') :: to_be k' n
  end.

(** [from_be_bytes]. *)
Definition of_be (l : bytes) : N := fold_left (fun acc b => acc * 256 + b2n b) l 0.

(** ** [BufMut for BytesMut]: everything appends at the end *)

Definition enc : Type := bytes -> eres.

Definition enc_nop : enc := fun buf => EOk buf.
Definition enc_panic : enc := fun buf => EPanic buf.
(** Statement sequencing inside an [encode] body. *)
Definition enc_seq (a b : enc) : enc := fun buf =>
  match a buf with
  | EOk buf' => b buf'
  | EPanic buf' => EPanic buf'
  end.
Declare Scope enc_scope.
Infix ";;" := enc_seq (at level 60, right associativity) : enc_scope.
Delimit Scope enc_scope with enc.

Definition put_u8 (n : N) : enc := fun buf => EOk (buf ++ to_be 1 n).
Definition put_u16 (n : N) : enc := fun buf => EOk (buf ++ to_be 2 n).
Definition put_u32 (n : N) : enc := fun buf => EOk (buf ++ to_be 4 n).
Definition put_u64 (n : N) : enc := fun buf => EOk (buf ++ to_be 8 n).
Definition put_slice (l : bytes) : enc := fun buf => EOk (buf ++ l).
(** [if let Some(x) = o { f(x) }] *)
Definition enc_opt (o : option bytes) (f : bytes -> enc) : enc :=
  match o with Some l => f l | None => enc_nop end.

(** ** The [Buf] trait: provided methods *)

Section Provided.
  Context {B : Type} (ops : buf_ops B).

  (** Loop of the default [Buf::copy_to_slice]:
      [while off < dst.len() { copy min(chunk.len(), dst.len()-off); advance }].
      [k] is [dst.len() - off].  Out of [fuel] is [Loop]. *)
  Fixpoint copy_loop (fuel k : nat) (acc : bytes) (b : B) : oc (bytes * B) :=
    match k with
    | O => Ret (acc, b)
    | S _ =>
      match fuel with
      | O => Loop
      | S fuel' =>
        let src := b_chunk ops b in
        let cnt := Nat.min (length src) k in
        match b_advance ops cnt b with
        | Ret b' => copy_loop fuel' (k - cnt) (acc ++ firstn cnt src) b'
        | Panic => Panic
        | Loop => Loop
        end
      end
    end.

  (** Default [Buf::copy_to_slice] into a slice of length [k]. *)
  Definition copy_to_slice (fuel k : nat) (b : B) : oc (bytes * B) :=
    if Nat.leb k (b_remaining ops b) then copy_loop fuel k [] b
    else Panic.   (* assert!(self.remaining() >= dst.len()) *)

  (** Default [Buf::get_u8]. *)
  Definition get_u8 (b : B) : oc (N * B) :=
    if Nat.leb 1 (b_remaining ops b) then
      match b_chunk ops b with
      | [] => Panic                           (* self.chunk()[0] *)
      | x :: _ =>
        match b_advance ops 1 b with
        | Ret b' => Ret (b2n x, b')
        | Panic => Panic
        | Loop => Loop
        end
      end
    else Panic.

  (** Default [Buf::get_u16/get_u32/get_u64] (macro [buf_get_impl!]) with [k] the
      size of the integer: direct read when the first chunk is long enough,
      otherwise through [copy_to_slice]. *)
  Definition get_be (fuel k : nat) (b : B) : oc (N * B) :=
    if Nat.leb k (length (b_chunk ops b)) then
      match b_advance ops k b with
      | Ret b' => Ret (of_be (firstn k (b_chunk ops b)), b')
      | Panic => Panic
      | Loop => Loop
      end
    else
      match copy_to_slice fuel k b with
      | Ret (l, b') => Ret (of_be l, b')
      | Panic => Panic
      | Loop => Loop
      end.

  (** Default [Buf::chunks_vectored] (bytes 1.0.1): nothing without a slot or without
      bytes, else the chunk. *)
  Definition default_vectored (slots : nat) (b : B) : list bytes :=
    match slots, b_remaining ops b with
    | O, _ | _, O => []
    | S _, S _ => [b_chunk ops b]
    end.

  (** [BytesMut::put(b.take(limit))] (bytes 1.0.1):
      [while src.has_remaining() { let s = src.chunk(); extend(s); src.advance(s.len()) }]
      where [src] is [Take { inner, limit }]: remaining is the minimum of the inner
      one and [limit], the chunk is cut to [limit], [advance] counts [limit] down. *)
  Fixpoint put_take (fuel limit : nat) (acc : bytes) (b : B) : oc (bytes * B) :=
    match Nat.min (b_remaining ops b) limit with
    | O => Ret (acc, b)
    | S _ =>
      match fuel with
      | O => Loop
      | S fuel' =>
        let s := firstn (Nat.min (length (b_chunk ops b)) limit) (b_chunk ops b) in
        match b_advance ops (length s) b with
        | Ret b' => put_take fuel' (limit - length s) (acc ++ s) b'
        | Panic => Panic
        | Loop => Loop
        end
      end
    end.
End Provided.

(** [Buf for Bytes] / [Buf for &[u8]]: one contiguous chunk. *)
Definition flat_advance (cnt : nat) (b : bytes) : oc bytes :=
  if Nat.leb cnt (length b) then Ret (skipn cnt b) else Panic.
Definition flat_copy_to_bytes (len : nat) (b : bytes) : oc (bytes * bytes) :=
  if Nat.leb len (length b) then Ret (firstn len b, skipn len b) else Panic.
Definition flat_vectored (slots : nat) (b : bytes) : list bytes :=
  match slots, b with
  | O, _ | _, [] => []
  | S _, _ => [b]
  end.
Definition flat : buf_ops bytes := {|
  b_remaining := @length byte;
  b_chunk := fun b => b;
  b_advance := flat_advance;
  b_copy_to_bytes := flat_copy_to_bytes;
  b_vectored := flat_vectored |}.

(** ** Decoders: functions from the buffer to a result and the buffer left

    The result pairs a [Result] (or panic/divergence) with the state of the
    buffer afterwards.  After a panic inside a [Buf] method the buffer is left
    as before that method. *)
Definition dec (B A : Type) : Type := B -> dres A * B.

Definition d_ret {B A} (a : A) : dec B A := fun b => (DOk a, b).
Definition d_err {B A} (e : decode_error) : dec B A := fun b => (DErr e, b).
Definition d_panic {B A} : dec B A := fun b => (DPanic, b).
(** The [?] operator. *)
Definition d_bind {B A C} (m : dec B A) (k : A -> dec B C) : dec B C := fun b =>
  match m b with
  | (DOk a, b') => k a b'
  | (DErr e, b') => (DErr e, b')
  | (DPanic, b') => (DPanic, b')
  | (DLoop, b') => (DLoop, b')
  end.
Definition d_lift {B A} (f : B -> oc (A * B)) : dec B A := fun b =>
  match f b with
  | Ret (a, b') => (DOk a, b')
  | Panic => (DPanic, b)
  | Loop => (DLoop, b)
  end.
Notation "'let!' x ':=' m 'in' k" := (d_bind m (fun x => k))
  (at level 200, x name, m at level 100, k at level 200, right associativity).
