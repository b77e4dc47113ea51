(** * [Bytes] with their storage: which parts are shared and which are copied

    [Model/Base.v] sees a [Bytes] as its content.  Here it also has a place: [split_to], [slice]
    and [copy_to_bytes] of [Bytes] make another reference to the same block, the last arm of
    [BufList::copy_to_bytes] makes a new block.  The behaviour of [Bytes] is that of bytes 1.0.1
    to our knowledge; its sources are not at hand. *)

From Verif Require Export Model.ShareTypes Model.BufM Model.ChunkM.

(** A place [n] bytes further on in the same block. *)
Definition at_plus (n : nat) (a : option (nat * nat)) : option (nat * nat) :=
  match a with Some (b, o) => Some (b, (o + n)%nat) | None => None end.
(** [Bytes::new]. *)
Definition h_new : handle := Handle [] None.

(** [Bytes::inc_start]: the first [n] bytes are left behind. *)
Definition h_skip (n : nat) (h : handle) : handle :=
  Handle (skipn n (h_bytes h)) (at_plus n (h_at h)).
(** [Bytes::slice(..n)]: [Bytes::new()] for an empty range, else a clone cut to [n]. *)
Definition h_first (n : nat) (h : handle) : handle :=
  match n with O => h_new | S _ => Handle (firstn n (h_bytes h)) (h_at h) end.

(** [Buf::advance] of [Bytes]. *)
Definition h_advance (cnt : nat) (h : handle) : oc handle :=
  if Nat.leb cnt (length (h_bytes h)) then Ret (h_skip cnt h) else Panic.
(** [Buf::copy_to_bytes] of [Bytes]: the whole is handed out as it is ([mem::replace] with
    [Bytes::new()]), else [slice(..len)] and [advance(len)]. *)
Definition h_copy (len : nat) (h : handle) : oc (handle * handle) :=
  if Nat.eqb len (length (h_bytes h)) then Ret (h, h_new)
  else if Nat.leb len (length (h_bytes h)) then Ret (h_first len h, h_skip len h)
  else Panic.
(** [Bytes::split_to]. *)
Definition h_split_to (n : nat) (h : handle) : oc (handle * handle) :=
  if Nat.leb n (length (h_bytes h)) then
    match n with
    | O => Ret (h_new, h)
    | S _ =>
      if Nat.eqb n (length (h_bytes h)) then Ret (h, h_new)
      else Ret (Handle (firstn n (h_bytes h)) (h_at h), h_skip n h)
    end
  else Panic.                                 (* assert!(at <= self.len()) *)

(** [Buf for Bytes]. *)
Definition handle_ops : buf_ops handle := {|
  b_remaining := fun h => length (h_bytes h);
  b_chunk := h_bytes;
  b_advance := h_advance;
  b_copy_to_bytes := fun len h =>
    match h_copy len h with Ret (r, h') => Ret (h_bytes r, h') | Panic => Panic | Loop => Loop end;
  b_vectored := fun slots h => flat_vectored slots (h_bytes h) |}.

(** ** A single [Bytes] as the buffer, everything handed out on record *)

Definition or_advance (cnt : nat) (r : one_reader) : oc one_reader :=
  match h_advance cnt (or_buf r) with
  | Ret h => Ret (OneReader h (or_out r)) | Panic => Panic | Loop => Loop
  end.
Definition or_copy (len : nat) (r : one_reader) : oc (bytes * one_reader) :=
  match h_copy len (or_buf r) with
  | Ret (x, h) => Ret (h_bytes x, OneReader h (or_out r ++ [(length (h_bytes (or_buf r)), x)]))
  | Panic => Panic
  | Loop => Loop
  end.
Definition one_reader_ops : buf_ops one_reader := {|
  b_remaining := fun r => length (h_bytes (or_buf r));
  b_chunk := fun r => h_bytes (or_buf r);
  b_advance := or_advance;
  b_copy_to_bytes := or_copy;
  b_vectored := fun slots r => flat_vectored slots (h_bytes (or_buf r)) |}.

(** ** [BufList<Bytes>], everything handed out on record *)

(** [BufList::copy_to_bytes], buf.rs:108-128, on [Bytes] with their storage: what is handed out,
    the list left, and the next block.  [BytesMut::with_capacity(0)] takes no block; otherwise
    the capacity is what is put, so that [freeze] keeps the block (see [Model/StoreM.v]). *)
Definition hl_copy (fuel len next : nat) (l : list handle) : oc (handle * list handle * nat) :=
  let slow :=
    match bl_copy_slow handle_ops fuel len l with
    | Ret (b, l') =>
      match len with
      | O => Ret (Handle b None, l', next)
      | S _ => Ret (Handle b (Some (next, O)), l', S next)
      end
    | Panic => Panic
    | Loop => Loop
    end in
  match l with
  | front :: rest =>
    if Nat.eqb (b_remaining handle_ops front) len then
      match h_copy len front with
      | Ret (b, _) => Ret (b, rest, next)     (* pop_front *)
      | Panic => Panic
      | Loop => Loop
      end
    else if Nat.ltb len (b_remaining handle_ops front) then
      match h_copy len front with
      | Ret (b, front') => Ret (b, front' :: rest, next)
      | Panic => Panic
      | Loop => Loop
      end
    else slow
  | [] => slow
  end.

Definition lr_advance (cnt : nat) (r : list_reader) : oc list_reader :=
  match bl_advance handle_ops cnt (lr_bufs r) with
  | Ret l => Ret (ListReader l (lr_next r) (lr_out r)) | Panic => Panic | Loop => Loop
  end.
Definition lr_copy (fuel len : nat) (r : list_reader) : oc (bytes * list_reader) :=
  match hl_copy fuel len (lr_next r) (lr_bufs r) with
  | Ret (x, l, next) =>
    Ret (h_bytes x, ListReader l next (lr_out r ++ [(bl_remaining handle_ops (lr_bufs r), x)]))
  | Panic => Panic
  | Loop => Loop
  end.
Definition list_reader_ops (fuel : nat) : buf_ops list_reader := {|
  b_remaining := fun r => bl_remaining handle_ops (lr_bufs r);
  b_chunk := fun r => bl_chunk handle_ops (lr_bufs r);
  b_advance := lr_advance;
  b_copy_to_bytes := lr_copy fuel;
  b_vectored := fun slots r => bl_vectored handle_ops slots (lr_bufs r) |}.

(** ** [PayloadChunks], payload.rs:191-195, on parts with their storage *)

Record held_chunks : Set := HeldChunks {
  hc_size : N; hc_metadata : option handle; hc_data : option handle }.

(** [Payload::chunks], payload.rs:113-117. *)
Definition held_payload_chunks (p : held_payload) (chunk_size : N) : oc held_chunks :=
  if negb (chunk_size =? 0) then Ret (HeldChunks chunk_size (hp_metadata p) (hp_data p)) else Panic.

(** One part in [next], payload.rs:222-229 and 230-237.  [split_to] does not panic here. *)
Definition held_part_next (chunk_size : N) (o : option handle) : option handle * option handle :=
  match o with
  | Some m =>
    if chunk_size <? blen (h_bytes m)
    then match h_split_to (N.to_nat chunk_size) m with
         | Ret (x, m') => (Some x, Some m')
         | _ => (None, None)                  (* unreachable *)
         end
    else (Some m, None)
  | None => (None, None)
  end.

(** [Iterator::next], payload.rs:215-239. *)
Definition held_next (c : held_chunks) : option held_payload * held_chunks :=
  match hc_metadata c, hc_data c with
  | None, None => (None, c)
  | _, _ =>
    let (meta, metadata') := held_part_next (hc_size c) (hc_metadata c) in
    let (data, data') := held_part_next (hc_size c) (hc_data c) in
    (Some (HeldPayload meta data), HeldChunks (hc_size c) metadata' data')
  end.

(** The results of [k] successive calls of [next], and the iterator afterwards. *)
Fixpoint held_calls (k : nat) (c : held_chunks) : list (option held_payload) * held_chunks :=
  match k with
  | O => ([], c)
  | S k' =>
    let (r, c') := held_next c in
    let (rs, c'') := held_calls k' c' in
    (r :: rs, c'')
  end.

(** What is seen of them without their storage. *)
Definition seen_payload (p : held_payload) : payload :=
  Payload (option_map h_bytes (hp_metadata p)) (option_map h_bytes (hp_data p)).
Definition seen_chunks (c : held_chunks) : chunks :=
  Chunks (hc_size c) (option_map h_bytes (hc_metadata c)) (option_map h_bytes (hc_data c)).
