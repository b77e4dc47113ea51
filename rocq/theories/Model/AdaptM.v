(** * Buffers a caller may hand to [Frame::decode], frame/mod.rs:107

    [Frame::decode] takes any [B: Buf]; here are the other implementations of [Buf] in
    bytes 1.0.1 that a caller is likely to use, as documented there, and a caller that reads
    frames whose lengths it knows.  [copy_to_bytes] is the default one for all of them. *)

From Verif Require Export Model.FrameM Model.AdaptTypes.

(** Default [Buf::copy_to_bytes] (bytes 1.0.1):
    [assert!(len <= self.remaining()); BytesMut::with_capacity(len).put(self.take(len))]. *)
Definition default_copy {B} (remaining : B -> nat) (chunk : B -> bytes) (advance : nat -> B -> oc B)
    (fuel len : nat) (b : B) : oc (bytes * B) :=
  if Nat.leb len (remaining b) then
    put_take (BufOps remaining chunk advance (fun _ _ => Panic) (fun _ _ => [])) fuel len [] b
  else Panic.

Section Adaptors.
  Context {T U : Type} (a : buf_ops T) (b : buf_ops U).

  (** [Buf for Take<T>]: [remaining], [chunk], [advance]. *)
  Definition tk_remaining (t : take T) : nat := Nat.min (b_remaining a (tk_inner t)) (tk_limit t).
  Definition tk_chunk (t : take T) : bytes :=
    firstn (Nat.min (length (b_chunk a (tk_inner t))) (tk_limit t)) (b_chunk a (tk_inner t)).
  Definition tk_advance (cnt : nat) (t : take T) : oc (take T) :=
    if Nat.leb cnt (tk_limit t) then          (* assert!(cnt <= self.limit) *)
      match b_advance a cnt (tk_inner t) with
      | Ret i => Ret (Take i (tk_limit t - cnt))
      | Panic => Panic
      | Loop => Loop
      end
    else Panic.
  Definition take_ops (fuel : nat) : buf_ops (take T) := {|
    b_remaining := tk_remaining;
    b_chunk := tk_chunk;
    b_advance := tk_advance;
    b_copy_to_bytes := default_copy tk_remaining tk_chunk tk_advance fuel;
    b_vectored slots t :=
      match slots, tk_remaining t with O, _ | _, O => [] | S _, S _ => [tk_chunk t] end |}.

  (** [Buf for Chain<T, U>]. *)
  Definition cn_remaining (c : chain T U) : nat := (b_remaining a (cn_a c) + b_remaining b (cn_b c))%nat.
  Definition cn_chunk (c : chain T U) : bytes :=
    match b_remaining a (cn_a c) with S _ => b_chunk a (cn_a c) | O => b_chunk b (cn_b c) end.
  Definition cn_advance (cnt : nat) (c : chain T U) : oc (chain T U) :=
    let rest x k :=
      match b_advance b k (cn_b c) with Ret y => Ret (Chain x y) | Panic => Panic | Loop => Loop end in
    match b_remaining a (cn_a c) with
    | O => rest (cn_a c) cnt
    | S _ as n =>
      if Nat.leb cnt n then
        match b_advance a cnt (cn_a c) with Ret x => Ret (Chain x (cn_b c)) | Panic => Panic | Loop => Loop end
      else
        match b_advance a n (cn_a c) with Ret x => rest x (cnt - n)%nat | Panic => Panic | Loop => Loop end
    end.
  Definition chain_ops (fuel : nat) : buf_ops (chain T U) := {|
    b_remaining := cn_remaining;
    b_chunk := cn_chunk;
    b_advance := cn_advance;
    b_copy_to_bytes := default_copy cn_remaining cn_chunk cn_advance fuel;
    b_vectored slots c :=
      let v := b_vectored a slots (cn_a c) in v ++ b_vectored b (slots - length v)%nat (cn_b c) |}.
End Adaptors.

(** [Buf for VecDeque<u8>]; [advance] is [drain(..cnt)]. *)
Definition dq_remaining (d : deque) : nat := (length (dq_front d) + length (dq_back d))%nat.
Definition dq_chunk (d : deque) : bytes := match dq_front d with [] => dq_back d | s => s end.
Definition dq_advance (cnt : nat) (d : deque) : oc deque :=
  if Nat.leb cnt (dq_remaining d)
  then Ret (Deque (skipn cnt (dq_front d)) (skipn (cnt - length (dq_front d)) (dq_back d)))
  else Panic.
Definition deque_ops (fuel : nat) : buf_ops deque := {|
  b_remaining := dq_remaining;
  b_chunk := dq_chunk;
  b_advance := dq_advance;
  b_copy_to_bytes := default_copy dq_remaining dq_chunk dq_advance fuel;
  b_vectored slots d :=
    match slots, dq_remaining d with O, _ | _, O => [] | S _, S _ => [dq_chunk d] end |}.

(** [Buf for io::Cursor<T>]. *)
Definition cu_remaining (c : cursor) : nat :=
  if Nat.leb (length (cu_data c)) (cu_pos c) then O else (length (cu_data c) - cu_pos c)%nat.
Definition cu_chunk (c : cursor) : bytes :=
  if Nat.leb (length (cu_data c)) (cu_pos c) then [] else skipn (cu_pos c) (cu_data c).
Definition cu_advance (cnt : nat) (c : cursor) : oc cursor :=
  if Nat.leb (cu_pos c + cnt) (length (cu_data c)) then Ret (Cursor (cu_data c) (cu_pos c + cnt)) else Panic.
Definition cursor_ops (fuel : nat) : buf_ops cursor := {|
  b_remaining := cu_remaining;
  b_chunk := cu_chunk;
  b_advance := cu_advance;
  b_copy_to_bytes := default_copy cu_remaining cu_chunk cu_advance fuel;
  b_vectored slots c :=
    match slots, cu_remaining c with O, _ | _, O => [] | S _, S _ => [cu_chunk c] end |}.

(** A caller that knows the lengths of the frames in its buffer: for each length [k] it decodes from
    [(&mut buf).take(k)], advances the [Take] to its end and goes on; it stops at a panic. *)
Fixpoint read_frames {T} (ops : buf_ops T) (fuel : nat) (ks : list nat) (b : T) : list (dres frame) * T :=
  match ks with
  | [] => ([], b)
  | k :: ks' =>
    match frame_decode (take_ops ops fuel) fuel (Take b k) with
    | (DPanic, t) => ([DPanic], tk_inner t)
    | (DLoop, t) => ([DLoop], tk_inner t)
    | (r, t) =>
      match tk_advance ops (tk_remaining ops t) t with
      | Ret t' => let (rs, b') := read_frames ops fuel ks' (tk_inner t') in (r :: rs, b')
      | Panic => ([r; DPanic], tk_inner t)
      | Loop => ([r; DLoop], tk_inner t)
      end
    end
  end.
