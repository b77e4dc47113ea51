(** * [BytesMut] with its storage, and [Encode::to_bytes] (binate/src/frame/encode.rs) on it

    The encoders of [Model/CodecM.v] see a [BytesMut] as its bytes.  Here it also has a
    capacity, and every block asked of the allocator is recorded, so that the sentence on
    capacities in the documentation of [to_bytes] (encode.rs:18-19) can be stated. *)

From Verif Require Export Model.FrameM.

(** [BytesMut] (bytes 1.0.1) that owns its storage alone: content, capacity, and the sizes of
    the blocks asked of the allocator so far. *)
Record bytes_mut : Set := BytesMut {
  bm_bytes : bytes; bm_cap : nat; bm_blocks : list nat }.

(** [BytesMut::with_capacity(n)]: [Vec::with_capacity], which takes no block for [n = 0].
    The capacity is taken to be [n] exactly, as the allocator of [std] gives it for bytes. *)
Definition bm_with_capacity (n : nat) : bytes_mut :=
  BytesMut [] n (match n with O => [] | S _ => [n] end).

Section Growth.
  (** [Vec::reserve]: the capacity chosen when [needed] bytes do not fit into [cap]. *)
  Context (grow : nat -> nat -> nat).

  (** [BufMut::put_slice] of [BytesMut]: [reserve], then copy.  [put_u8], [put_u16], [put_u32]
      and [put_u64] are [put_slice] of the big-endian bytes. *)
  Definition bm_put (l : bytes) (b : bytes_mut) : bytes_mut :=
    let needed := (length (bm_bytes b) + length l)%nat in
    if Nat.leb needed (bm_cap b)
    then BytesMut (bm_bytes b ++ l) (bm_cap b) (bm_blocks b)
    else BytesMut (bm_bytes b ++ l) (grow (bm_cap b) needed)
           (bm_blocks b ++ [grow (bm_cap b) needed]).

  (** A sequence of [put] calls; [None] is the panic of [U24::from_usize]. *)
  Fixpoint bm_puts (ps : list (option bytes)) (b : bytes_mut) : oc bytes_mut :=
    match ps with
    | [] => Ret b
    | Some l :: ps' => bm_puts ps' (bm_put l b)
    | None :: _ => Panic
    end.
End Growth.

(** [BytesMut::freeze], as of bytes 1.0.1 to our knowledge: [Vec::into_boxed_slice], which gives back what is not used (another
    request to the allocator unless nothing is left), then [Bytes].  A [Bytes] has no capacity
    of its own: the storage it holds is that block. *)
Definition bm_freeze (b : bytes_mut) : bytes_mut :=
  let n := length (bm_bytes b) in
  if Nat.eqb n (bm_cap b) then b
  else BytesMut (bm_bytes b) n (bm_blocks b ++ match n with O => [] | S _ => [n] end).

(** ** The [put] calls of each [encode], one by one *)

(** [Payload::encode], payload.rs:167-175. *)
Definition payload_puts (p : payload) : list (option bytes) :=
  match p_metadata p with Some m => [Some m] | None => [] end ++
  match p_data p with Some d => [Some d] | None => [] end.
(** [U24::encode], u24.rs:57-60. *)
Definition u24_puts (u : u24) : list (option bytes) :=
  [Some (to_be 1 (u24_hi u)); Some (to_be 2 (u24_lo u))].
(** [Version::encode], version.rs:31-34. *)
Definition version_puts (v : version) : list (option bytes) :=
  [Some (to_be 2 (v_major v)); Some (to_be 2 (v_minor v))].
(** The metadata length (see [put_metadata_len] for the places). *)
Definition metadata_len_puts (p : payload) : list (option bytes) :=
  match u24_from_usize (match payload_metadata p with Some v => blen v | None => 0 end) with
  | Ret u => [Some (to_be 1 (u24_hi u)); Some (to_be 2 (u24_lo u))]
  | _ => [None]
  end.
(** [put_u32(stream_id); put_u16(frame type and flags)], the first two calls of every [encode]. *)
Definition header_puts (stream_id word : N) : list (option bytes) :=
  [Some (to_be 4 stream_id); Some (to_be 2 word)].
(** [if let Some(x) = part { buf.put_slice(x) }] *)
Definition part_puts (o : option bytes) : list (option bytes) :=
  match o with Some l => [Some l] | None => [] end.

(** [Frame::encode], frame/mod.rs:66-83, with the bodies of codec/*.rs (the lines are at the
    [_encode] functions of [Model/CodecM.v]). *)
Definition frame_puts (f : frame) : list (option bytes) :=
  match f with
  | FSetup v =>
    header_puts SETUP_STREAM_ID (N.lor (ft_bits FT_SETUP) (sf_flags v)) ++
    version_puts (sf_version v) ++
    [Some (to_be 4 (sf_keepalive_interval v)); Some (to_be 4 (sf_keepalive_timeout v))] ++
    match sf_resume_token v with
    | Some token => [Some (to_be 2 (as_u16 (blen token))); Some token]
    | None => []
    end ++
    [Some (to_be 1 (as_u8 (blen (sf_metadata_mimetype v)))); Some (sf_metadata_mimetype v);
     Some (to_be 1 (as_u8 (blen (sf_data_mimetype v)))); Some (sf_data_mimetype v)] ++
    metadata_len_puts (sf_payload v) ++ payload_puts (sf_payload v)
  | FError v =>
    header_puts (ef_stream_id v) (ft_bits FT_ERROR) ++ [Some (to_be 4 (ef_code v))] ++
    part_puts (ef_data v)
  | FLease v =>
    header_puts 0 (if is_some (lease_metadata v) then N.lor (ft_bits FT_LEASE) FL_METADATA
                   else ft_bits FT_LEASE) ++
    [Some (to_be 4 (lf_ttl v)); Some (to_be 4 (lf_number_of_requests v))] ++
    part_puts (lf_metadata v)
  | FKeepalive v =>
    header_puts 0 (if kf_respond v then N.lor (ft_bits FT_KEEPALIVE) FL_RESPOND
                   else ft_bits FT_KEEPALIVE) ++
    [Some (to_be 8 (kf_last_received_position v))] ++ part_puts (kf_data v)
  | FRequestResponse v =>
    header_puts (rr_stream_id v) (N.lor (ft_bits FT_REQUEST_RESPONSE) (rr_flags v)) ++
    metadata_len_puts (rr_payload v) ++ payload_puts (rr_payload v)
  | FRequestFnf v =>
    header_puts (fnf_stream_id v) (N.lor (ft_bits FT_REQUEST_FNF) (fnf_flags v)) ++
    metadata_len_puts (fnf_payload v) ++ payload_puts (fnf_payload v)
  | FRequestStream v =>
    header_puts (rs_stream_id v) (N.lor (ft_bits FT_REQUEST_STREAM) (rs_flags v)) ++
    [Some (to_be 4 (rs_initial_request_n v))] ++
    metadata_len_puts (rs_payload v) ++ payload_puts (rs_payload v)
  | FRequestChannel v =>
    header_puts (rc_stream_id v) (N.lor (ft_bits FT_REQUEST_CHANNEL) (rc_flags v)) ++
    [Some (to_be 4 (rc_initial_request_n v))] ++
    metadata_len_puts (rc_payload v) ++ payload_puts (rc_payload v)
  | FRequestN v =>
    header_puts (rn_stream_id v) (ft_bits FT_REQUEST_N) ++ [Some (to_be 4 (rn_request_n v))]
  | FCancel v => header_puts (cf_stream_id v) (ft_bits FT_CANCEL)
  | FPayload v =>
    header_puts (pf_stream_id v) (N.lor (ft_bits FT_PAYLOAD) (pf_flags v)) ++
    metadata_len_puts (pf_payload v) ++ payload_puts (pf_payload v)
  | FMetadataPush v =>
    header_puts 0 (N.lor (ft_bits FT_METADATA_PUSH) FL_METADATA) ++ [Some (mp_metadata v)]
  | FResume v =>
    header_puts 0 (ft_bits FT_RESUME) ++ version_puts (rf_version v) ++
    [Some (to_be 2 (as_u16 (blen (rf_resume_token v)))); Some (rf_resume_token v);
     Some (to_be 8 (rf_last_received_server_position v));
     Some (to_be 8 (rf_first_available_client_position v))]
  | FResumeOk v =>
    header_puts 0 (ft_bits FT_RESUME_OK) ++ [Some (to_be 8 (ro_last_received_client_position v))]
  end.

(** [Encode::to_bytes], encode.rs:20-24, for a value with this [len] and these [put] calls: the
    storage of the [Bytes] returned, which has been obtained by these requests. *)
Definition to_bytes_stored (grow : nat -> nat -> nat) (len : N) (ps : list (option bytes)) : oc bytes_mut :=
  match bm_puts grow ps (bm_with_capacity (N.to_nat len)) with
  | Ret b => Ret (bm_freeze b)
  | Panic => Panic
  | Loop => Loop
  end.
Definition frame_to_bytes_stored (grow : nat -> nat -> nat) (f : frame) : oc bytes_mut :=
  to_bytes_stored grow (frame_len f) (frame_puts f).
