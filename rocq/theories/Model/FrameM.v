(** * binate/src/frame/mod.rs and binate/src/frame/encode.rs *)

From Verif Require Export Model.CodecM.

(** [Encode for Frame]: [encode], frame/mod.rs:66-83. *)
Definition frame_encode (f : frame) : enc :=
  match f with
  | FSetup v => setup_encode v
  | FError v => error_encode v
  | FLease v => lease_encode v
  | FKeepalive v => keepalive_encode v
  | FRequestResponse v => request_response_encode v
  | FRequestFnf v => request_fnf_encode v
  | FRequestStream v => request_stream_encode v
  | FRequestChannel v => request_channel_encode v
  | FRequestN v => request_n_encode v
  | FCancel v => cancel_encode v
  | FPayload v => payload_frame_encode v
  | FMetadataPush v => metadata_push_encode v
  | FResume v => resume_encode v
  | FResumeOk v => resume_ok_encode v
  end.

(** [Encode for Frame]: [len], frame/mod.rs:85-102. *)
Definition frame_len (f : frame) : N :=
  match f with
  | FSetup v => setup_len v
  | FError v => error_len v
  | FLease v => lease_len v
  | FKeepalive v => keepalive_len v
  | FRequestResponse v => request_response_len v
  | FRequestFnf v => request_fnf_len v
  | FRequestStream v => request_stream_len v
  | FRequestChannel v => request_channel_len v
  | FRequestN v => request_n_len v
  | FCancel v => cancel_len v
  | FPayload v => payload_frame_len v
  | FMetadataPush v => metadata_push_len v
  | FResume v => resume_len v
  | FResumeOk v => resume_ok_len v
  end.

(** [Encode::is_empty], encode.rs:12-14. *)
Definition frame_is_empty (f : frame) : bool := frame_len f =? 0.

(** [Encode::to_bytes], encode.rs:20-24: encode into a fresh buffer.
    The buffer capacity is in [StoreM.v], its limit in [WordM.v]. *)
Definition frame_to_bytes (f : frame) : oc bytes :=
  match frame_encode f [] with
  | EOk buf => Ret buf
  | EPanic _ => Panic
  end.

(** [?] on the per-type decoder followed by wrapping in the variant. *)
Definition d_map {B A C} (f : A -> C) (m : dec B A) : dec B C :=
  let! x := m in d_ret (f x).

(** The stream-id check of frame/mod.rs:113-128. *)
Definition needs_stream_zero (t : frame_type) : bool :=
  match t with
  | FT_SETUP | FT_LEASE | FT_KEEPALIVE | FT_METADATA_PUSH | FT_RESUME | FT_RESUME_OK => true
  | _ => false
  end.

(** [Frame::decode], frame/mod.rs:107-177, over any [Buf]. *)
Definition frame_decode {B} (ops : buf_ops B) (fuel : nat) : dec B frame :=
  let! _ := need ops 6 in
  let! stream_id := eat_stream_id ops fuel in
  let! x := eat_flags ops fuel in
  let (frame_type, fl) := x in
  if needs_stream_zero frame_type && negb (stream_id =? 0)
  then d_err (InvalidStreamId "0" stream_id)
  else
    match frame_type with
    | FT_SETUP => d_map FSetup (setup_decode ops fuel stream_id fl)
    | FT_ERROR => d_map FError (error_decode ops fuel stream_id fl)
    | FT_LEASE => d_map FLease (lease_decode ops fuel stream_id fl)
    | FT_KEEPALIVE => d_map FKeepalive (keepalive_decode ops fuel stream_id fl)
    | FT_REQUEST_RESPONSE => d_map FRequestResponse (request_response_decode ops fuel stream_id fl)
    | FT_REQUEST_FNF => d_map FRequestFnf (request_fnf_decode ops fuel stream_id fl)
    | FT_REQUEST_STREAM => d_map FRequestStream (request_stream_decode ops fuel stream_id fl)
    | FT_REQUEST_CHANNEL => d_map FRequestChannel (request_channel_decode ops fuel stream_id fl)
    | FT_REQUEST_N => d_map FRequestN (request_n_decode ops fuel stream_id fl)
    | FT_CANCEL => d_map FCancel (cancel_decode ops fuel stream_id fl)
    | FT_PAYLOAD => d_map FPayload (payload_frame_decode ops fuel stream_id fl)
    | FT_METADATA_PUSH => d_map FMetadataPush (metadata_push_decode ops fuel stream_id fl)
    | FT_RESUME => d_map FResume (resume_decode ops fuel stream_id fl)
    | FT_RESUME_OK => d_map FResumeOk (resume_ok_decode ops fuel stream_id fl)
    | FT_EXT => d_panic                       (* unimplemented!() *)
    end.

(** [Frame::decode] on contiguous bytes ([Bytes] or [&[u8]]).  A contiguous
    buffer never enters a fuelled loop, so no fuel is needed. *)
Definition decode : dec bytes frame := frame_decode flat 0.

(** The [Decode] implementations of the fourteen frame types, codec/*.rs, which may be called
    directly with any stream id and flags (frame/mod.rs:12, codec/mod.rs:38-51).  The result is
    wrapped in the variant of [Frame] to have one type.  There is none for [EXT]. *)
Definition own_decode {B} (ops : buf_ops B) (fuel : nat) (t : frame_type) (stream_id : N) (fl : flags) : dec B frame :=
  match t with
  | FT_SETUP => d_map FSetup (setup_decode ops fuel stream_id fl)
  | FT_ERROR => d_map FError (error_decode ops fuel stream_id fl)
  | FT_LEASE => d_map FLease (lease_decode ops fuel stream_id fl)
  | FT_KEEPALIVE => d_map FKeepalive (keepalive_decode ops fuel stream_id fl)
  | FT_REQUEST_RESPONSE => d_map FRequestResponse (request_response_decode ops fuel stream_id fl)
  | FT_REQUEST_FNF => d_map FRequestFnf (request_fnf_decode ops fuel stream_id fl)
  | FT_REQUEST_STREAM => d_map FRequestStream (request_stream_decode ops fuel stream_id fl)
  | FT_REQUEST_CHANNEL => d_map FRequestChannel (request_channel_decode ops fuel stream_id fl)
  | FT_REQUEST_N => d_map FRequestN (request_n_decode ops fuel stream_id fl)
  | FT_CANCEL => d_map FCancel (cancel_decode ops fuel stream_id fl)
  | FT_PAYLOAD => d_map FPayload (payload_frame_decode ops fuel stream_id fl)
  | FT_METADATA_PUSH => d_map FMetadataPush (metadata_push_decode ops fuel stream_id fl)
  | FT_RESUME => d_map FResume (resume_decode ops fuel stream_id fl)
  | FT_RESUME_OK => d_map FResumeOk (resume_ok_decode ops fuel stream_id fl)
  | FT_EXT => d_panic
  end.
