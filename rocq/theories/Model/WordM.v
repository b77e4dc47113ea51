(** * Lengths computed in [usize]: binate/src/frame/encode.rs, frame/codec/*.rs ([len]), payload.rs, connection/buf.rs

    The other files of the model compute lengths in unbounded integers.  Here the same functions are
    written once more with the additions of a [usize] of [w] bits, which panic in a debug build when
    they overflow and wrap around in a release build. *)

From Verif Require Export Model.BufM Model.ChunkM.

(** [a + b] and [a += b] on [usize] (Rust reference, operator expressions: overflow). *)
Definition add_w (w : N) (bd : build) (x y : N) : oc N :=
  if x + y <? 2 ^ w then Ret (x + y)
  else match bd with Debug => Panic | Release => Ret ((x + y) mod 2 ^ w) end.
(** The operands are evaluated first, the left one before the right one. *)
Definition oc_add (w : N) (bd : build) (a b : oc N) : oc N :=
  match a, b with
  | Ret x, Ret y => add_w w bd x y
  | Ret _, _ => b
  | _, _ => a
  end.
(** [if let Some(x) = o { len += x.len() }]. *)
Definition add_part (w : N) (bd : build) (len : oc N) (o : option bytes) : oc N :=
  match o with Some l => oc_add w bd len (Ret (blen l)) | None => len end.

(** [Payload::len], payload.rs:45-54 (and the identical [Encode::len], 177-186). *)
Definition payload_len_w (w : N) (bd : build) (p : payload) : oc N :=
  add_part w bd (add_part w bd (Ret 0) (p_metadata p)) (p_data p).

(** [SetupFrame::len], setup.rs:164-189. *)
Definition setup_len_w (w : N) (bd : build) (f : setup_frame) : oc N :=
  let add := oc_add w bd in
  let len := add_part w bd (Ret 20) (sf_resume_token f) in
  let len := add len (add (add (add (Ret 1) (Ret (blen (sf_metadata_mimetype f)))) (Ret 1))
                          (Ret (blen (sf_data_mimetype f)))) in
  add len (add (Ret 3) (payload_len_w w bd (sf_payload f))).

(** [Encode for Frame]: [len], frame/mod.rs:85-102, with the [len] of the variants: error.rs:155-167, lease.rs:83-95,
    keepalive.rs:84-95, request_response.rs:86-92, request_fnf.rs:86-92, request_stream.rs:103-110,
    request_channel.rs:114-121, request_n.rs:62-67, cancel.rs:49-53, payload.rs:102-108, metadata_push.rs:53-58,
    resume.rs:101-110, resume_ok.rs:55-60 (all in frame/codec). *)
Definition frame_len_w (w : N) (bd : build) (f : frame) : oc N :=
  let add := oc_add w bd in
  match f with
  | FSetup v => setup_len_w w bd v
  | FError v => add_part w bd (Ret 10) (ef_data v)
  | FLease v => add_part w bd (Ret 14) (lf_metadata v)
  | FKeepalive v => add_part w bd (Ret 14) (kf_data v)
  | FRequestResponse v => add (Ret 9) (payload_len_w w bd (rr_payload v))
  | FRequestFnf v => add (Ret 9) (payload_len_w w bd (fnf_payload v))
  | FRequestStream v => add (Ret 13) (payload_len_w w bd (rs_payload v))
  | FRequestChannel v => add (Ret 13) (payload_len_w w bd (rc_payload v))
  | FRequestN _ => Ret 10
  | FCancel _ => Ret 6
  | FPayload v => add (Ret 9) (payload_len_w w bd (pf_payload v))
  | FMetadataPush v => add (Ret 6) (Ret (blen (mp_metadata v)))
  | FResume v => add (add (Ret 12) (Ret (blen (rf_resume_token v)))) (Ret 16)
  | FResumeOk _ => Ret 14
  end.

(** The largest allocation: [Vec] refuses more than [isize::MAX] bytes with a panic (capacity overflow). *)
Definition vec_max (w : N) : N := 2 ^ (w - 1) - 1.

(** [Encode::to_bytes], encode.rs:20-24.  [BytesMut::with_capacity] and the growth of a [BytesMut] while it is written
    go through [Vec].  Other than that memory is unbounded. *)
Definition to_bytes_w (w : N) (bd : build) (f : frame) : oc bytes :=
  match frame_len_w w bd f with
  | Ret cap =>
    if cap <=? vec_max w then
      match frame_encode f [] with
      | EOk buf => if blen buf <=? vec_max w then Ret buf else Panic
      | EPanic _ => Panic
      end
    else Panic
  | Panic => Panic
  | Loop => Loop
  end.

(** [x as usize] for an [f32] and the [len] of the chunk iterator, payload.rs:200-209. *)
Definition usize_of_f32_w (w : N) (x : SpecFloat.spec_float) : N :=
  match x with
  | SpecFloat.S754_zero _ | SpecFloat.S754_nan | SpecFloat.S754_infinity true | SpecFloat.S754_finite true _ _ => 0
  | SpecFloat.S754_infinity false => 2 ^ w - 1
  | SpecFloat.S754_finite false m e =>
      N.min (2 ^ w - 1)
        (if Z.leb 0 e then N.pos m * 2 ^ Z.to_N e else N.pos m / 2 ^ Z.to_N (- e))
  end.
Definition chunks_len_w (w : N) (c : chunks) : N :=
  let metadata_len := match ch_metadata c with Some b => blen b | None => 0 end in
  let data_len := match ch_data c with Some b => blen b | None => 0 end in
  let len1 := f32_div (f32_of_usize metadata_len) (f32_of_usize (ch_size c)) in
  let len2 := f32_div (f32_of_usize data_len) (f32_of_usize (ch_size c)) in
  N.max (usize_of_f32_w w (f32_ceil len1)) (usize_of_f32_w w (f32_ceil len2)).

Section BufListW.
  Context {T : Type} (ops : buf_ops T).

  (** [Buf::remaining] of [BufList], buf.rs:66-68: [sum] adds from the left, with the overflow checks of the
      crate that calls it. *)
  Definition bl_remaining_w (w : N) (bd : build) (l : buf_list T) : oc N :=
    fold_left (fun acc b => oc_add w bd acc (Ret (N.of_nat (b_remaining ops b)))) l (Ret 0).
  (** The same as a number, for the methods that call it; a debug build does not get there when it panics. *)
  Definition bl_reports (w : N) (bd : build) (l : buf_list T) : nat :=
    match bl_remaining_w w bd l with Ret n => N.to_nat n | _ => O end.

  (** [Buf::copy_to_bytes], buf.rs:108-128. *)
  Definition bl_copy_slow_w (w : N) (bd : build) (fuel len : nat) (l : buf_list T) : oc (bytes * buf_list T) :=
    match bl_remaining_w w bd l with
    | Ret n =>
      if (N.of_nat len <=? n) && (N.of_nat len <=? vec_max w) then     (* the assertion; with_capacity(len) *)
        put_take (BufOps (bl_reports w bd) (bl_chunk ops) (bl_advance ops) (fun _ _ => Panic) (bl_vectored ops)) fuel len [] l
      else Panic
    | Panic => Panic
    | Loop => Loop
    end.
  Definition bl_copy_to_bytes_w (w : N) (bd : build) (fuel len : nat) (l : buf_list T) : oc (bytes * buf_list T) :=
    match l with
    | front :: rest =>
      if Nat.eqb (b_remaining ops front) len then
        match b_copy_to_bytes ops len front with
        | Ret (b, _) => Ret (b, rest)
        | Panic => Panic
        | Loop => Loop
        end
      else if Nat.ltb len (b_remaining ops front) then
        match b_copy_to_bytes ops len front with
        | Ret (b, front') => Ret (b, front' :: rest)
        | Panic => Panic
        | Loop => Loop
        end
      else bl_copy_slow_w w bd fuel len l
    | [] => bl_copy_slow_w w bd fuel len l
    end.

  (** [impl Buf for BufList] with these two; [advance] only subtracts what is there (buf.rs:76-89). *)
  Definition buf_list_ops_w (w : N) (bd : build) (fuel : nat) : buf_ops (buf_list T) := {|
    b_remaining := bl_reports w bd;
    b_chunk := bl_chunk ops;
    b_advance := bl_advance ops;
    b_copy_to_bytes := bl_copy_to_bytes_w w bd fuel;
    b_vectored := bl_vectored ops |}.
End BufListW.
