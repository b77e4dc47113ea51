(** * binate/src/frame/codec/*.rs: constructors, accessors, [Encode], [Decode] *)

From Verif Require Export Model.VisitM.
Open Scope enc_scope.

(** [debug_assert!(cond)]: panics in debug builds only. *)
Definition debug_assert {A} (bd : build) (cond : bool) (k : oc A) : oc A :=
  match bd with
  | Debug => if cond then k else Panic
  | Release => k
  end.
(** [debug_assert_max_u31!], [debug_assert_max_u63!], [debug_assert_non_zero!],
    codec/mod.rs:5-21 (for one variable; several variables are nested). *)
Definition debug_assert_max_u31 {A} bd (v : N) (k : oc A) := debug_assert bd (v <=? MAX_U31) k.
Definition debug_assert_max_u63 {A} bd (v : N) (k : oc A) := debug_assert bd (v <=? MAX_U63) k.
Definition debug_assert_non_zero {A} bd (v : N) (k : oc A) := debug_assert bd (negb (v =? 0)) k.

(** The statements
    [let u24 = U24::from_usize(metadata.map(len).unwrap_or_default());
     buf.put_u8(u24.0); buf.put_u16(u24.1);]
    shared by six [encode] bodies (setup.rs:156-160, payload.rs:94-98,
    request_response.rs:78-82, request_fnf.rs:78-82, request_stream.rs:95-99,
    request_channel.rs:106-110). *)
Definition put_metadata_len (p : payload) : enc :=
  let n := match payload_metadata p with Some v => blen v | None => 0 end in
  match u24_from_usize n with
  | Ret u => put_u8 (u24_hi u) ;; put_u16 (u24_lo u)
  | _ => enc_panic
  end.

(** ** SETUP, codec/setup.rs *)

Definition SETUP_STREAM_ID : N := 0.        (* setup.rs:52 *)

(** Accessors, setup.rs:63-138 (the MIME text accessors are in Utf8M.v). *)
Definition setup_is_lease (f : setup_frame) : bool := fl_contains (sf_flags f) FL_LEASE.
Definition setup_is_resume (f : setup_frame) : bool := fl_contains (sf_flags f) FL_RESUME.
Definition setup_version (f : setup_frame) : version := sf_version f.
(** [Duration]s are modelled as a number of milliseconds. *)
Definition setup_keepalive_interval (f : setup_frame) : N := sf_keepalive_interval f.
Definition setup_keepalive_timeout (f : setup_frame) : N := sf_keepalive_timeout f.
Definition setup_resume_token (f : setup_frame) : option bytes := sf_resume_token f.
Definition setup_metadata (f : setup_frame) : option bytes := payload_metadata (sf_payload f).
Definition setup_data (f : setup_frame) : option bytes := payload_data (sf_payload f).
Definition setup_payload (f : setup_frame) : payload := sf_payload f.

(** [SetupFrame::encode], setup.rs:142-162. *)
Definition setup_encode (f : setup_frame) : enc :=
  put_u32 SETUP_STREAM_ID ;;
  put_u16 (N.lor (ft_bits FT_SETUP) (sf_flags f)) ;;
  version_encode (sf_version f) ;;
  put_u32 (sf_keepalive_interval f) ;;
  put_u32 (sf_keepalive_timeout f) ;;
  enc_opt (sf_resume_token f) (fun token =>
    put_u16 (as_u16 (blen token)) ;;
    put_slice token) ;;
  put_u8 (as_u8 (blen (sf_metadata_mimetype f))) ;;
  put_slice (sf_metadata_mimetype f) ;;
  put_u8 (as_u8 (blen (sf_data_mimetype f))) ;;
  put_slice (sf_data_mimetype f) ;;
  put_metadata_len (sf_payload f) ;;
  payload_encode (sf_payload f).

(** [SetupFrame::len], setup.rs:164-189. *)
Definition setup_len (f : setup_frame) : N :=
  let len := 20 in
  let len := match sf_resume_token f with Some t => len + blen t | None => len end in
  let len := len + (1 + blen (sf_metadata_mimetype f) + 1 + blen (sf_data_mimetype f)) in
  len + (3 + payload_len (sf_payload f)).

(** [SetupFrame::decode], setup.rs:195-220. *)
Definition setup_decode {B} (ops : buf_ops B) (fuel : nat) (stream_id : N) (fl : flags)
  : dec B setup_frame :=
  let! version := eat_version ops fuel in
  let! keepalive := eat_u31 ops fuel in
  let! lifetime := eat_u31 ops fuel in
  let! resume_token := eat_resume_token ops fuel fl in
  let! metadata_mimetype_len := eat_u8 ops in
  let! metadata_mimetype := eat_bytes ops (N.to_nat metadata_mimetype_len) in
  let! data_mimetype_len := eat_u8 ops in
  let! data_mimetype := eat_bytes ops (N.to_nat data_mimetype_len) in
  let! payload := eat_payload ops fuel true in
  d_ret (SetupFrame fl version keepalive lifetime resume_token
           metadata_mimetype data_mimetype payload).

(** ** SETUP builder, setup.rs:225-372 *)

(** [DEFAULT_MIMETYPE], binate/src/mimetype.rs:4, as bytes. *)
Definition DEFAULT_MIMETYPE : string := "application/binary".
Definition string_bytes (s : string) : bytes := list_byte_of_string s.
(** consts.rs:4,8, in milliseconds. *)
Definition DEFAULT_KEEPALIVE_INTERVAL_MS : N := 30 * 1000.
Definition DEFAULT_KEEPALIVE_TIMEOUT_MS : N := 60 * 1000.

(** [SetupFrameBuilder::default], setup.rs:236-249. *)
Definition setup_builder_default : setup_frame :=
  SetupFrame fl_empty version_default
    (as_u32 DEFAULT_KEEPALIVE_INTERVAL_MS) (as_u32 DEFAULT_KEEPALIVE_TIMEOUT_MS)
    None (string_bytes DEFAULT_MIMETYPE) (string_bytes DEFAULT_MIMETYPE) payload_default.

Definition with_flags (b : setup_frame) (fl : flags) : setup_frame :=
  SetupFrame fl (sf_version b) (sf_keepalive_interval b) (sf_keepalive_timeout b)
    (sf_resume_token b) (sf_metadata_mimetype b) (sf_data_mimetype b) (sf_payload b).
Definition with_version (b : setup_frame) (v : version) : setup_frame :=
  SetupFrame (sf_flags b) v (sf_keepalive_interval b) (sf_keepalive_timeout b)
    (sf_resume_token b) (sf_metadata_mimetype b) (sf_data_mimetype b) (sf_payload b).
Definition with_interval (b : setup_frame) (n : N) : setup_frame :=
  SetupFrame (sf_flags b) (sf_version b) n (sf_keepalive_timeout b)
    (sf_resume_token b) (sf_metadata_mimetype b) (sf_data_mimetype b) (sf_payload b).
Definition with_timeout (b : setup_frame) (n : N) : setup_frame :=
  SetupFrame (sf_flags b) (sf_version b) (sf_keepalive_interval b) n
    (sf_resume_token b) (sf_metadata_mimetype b) (sf_data_mimetype b) (sf_payload b).
Definition with_token (b : setup_frame) (t : bytes) : setup_frame :=
  SetupFrame (sf_flags b) (sf_version b) (sf_keepalive_interval b) (sf_keepalive_timeout b)
    (Some t) (sf_metadata_mimetype b) (sf_data_mimetype b) (sf_payload b).
Definition with_metadata_mimetype (b : setup_frame) (m : bytes) : setup_frame :=
  SetupFrame (sf_flags b) (sf_version b) (sf_keepalive_interval b) (sf_keepalive_timeout b)
    (sf_resume_token b) m (sf_data_mimetype b) (sf_payload b).
Definition with_data_mimetype (b : setup_frame) (m : bytes) : setup_frame :=
  SetupFrame (sf_flags b) (sf_version b) (sf_keepalive_interval b) (sf_keepalive_timeout b)
    (sf_resume_token b) (sf_metadata_mimetype b) m (sf_payload b).
Definition with_payload (b : setup_frame) (p : payload) : setup_frame :=
  SetupFrame (sf_flags b) (sf_version b) (sf_keepalive_interval b) (sf_keepalive_timeout b)
    (sf_resume_token b) (sf_metadata_mimetype b) (sf_data_mimetype b) p.

(** One builder call. *)
Definition setup_apply (bd : build) (b : setup_frame) (c : setup_call) : oc setup_frame :=
  match c with
  | SetResumeFlag => Ret (with_flags b (fl_union (sf_flags b) FL_RESUME))          (* 253-256 *)
  | SetLeaseFlag => Ret (with_flags b (fl_union (sf_flags b) FL_LEASE))            (* 259-262 *)
  | SetVersion major minor => Ret (with_version b (version_new major minor))       (* 265-268 *)
  | SetKeepaliveInterval interval =>                                               (* 278-282 *)
      debug_assert_max_u31 bd interval
        (Ret (with_interval b (N.land interval MAX_U31)))
  | SetKeepaliveTimeout timeout =>                                                 (* 286-290 *)
      debug_assert_max_u31 bd timeout
        (Ret (with_timeout b (N.land timeout MAX_U31)))
  | SetResumeToken token =>                                                        (* 297-302 *)
      if blen token <=? 65535 then
        let b := with_token b token in
        Ret (with_flags b (fl_union (sf_flags b) FL_RESUME))
      else Panic
  | SetMetadataMimetype m =>                                                       (* 315-323 *)
      if blen m <=? 256 then Ret (with_metadata_mimetype b m) else Panic
  | SetDataMimetype m =>                                                           (* 336-344 *)
      if blen m <=? 256 then Ret (with_data_mimetype b m) else Panic
  | SetMetadata m =>                                                               (* 347-351 *)
      let b := with_flags b (fl_union (sf_flags b) FL_METADATA) in
      Ret (with_payload b (Payload (Some m) (p_data (sf_payload b))))
  | SetData d =>                                                                   (* 354-357 *)
      Ret (with_payload b (Payload (p_metadata (sf_payload b)) (Some d)))
  end.

(** A chain of builder calls followed by [build], setup.rs:360-371. *)
Fixpoint setup_apply_all (bd : build) (b : setup_frame) (cs : list setup_call) : oc setup_frame :=
  match cs with
  | [] => Ret b
  | c :: cs' =>
    match setup_apply bd b c with
    | Ret b' => setup_apply_all bd b' cs'
    | Panic => Panic
    | Loop => Loop
    end
  end.
Definition setup_build (b : setup_frame) : setup_frame :=
  SetupFrame (sf_flags b) (sf_version b) (sf_keepalive_interval b) (sf_keepalive_timeout b)
    (sf_resume_token b) (sf_metadata_mimetype b) (sf_data_mimetype b) (sf_payload b).
Definition setup_run (bd : build) (cs : list setup_call) : oc setup_frame :=
  match setup_apply_all bd setup_builder_default cs with
  | Ret b => Ret (setup_build b)
  | Panic => Panic
  | Loop => Loop
  end.

(** ** ERROR, codec/error.rs *)

(** error.rs:47-102. *)
Definition EC_INVALID_SETUP : N := 0x00000001.
Definition EC_UNSUPPORTED_SETUP : N := 0x00000002.
Definition EC_REJECTED_SETUP : N := 0x00000003.
Definition EC_REJECTED_RESUME : N := 0x00000004.
Definition EC_CONNECTION_ERROR : N := 0x00000101.
Definition EC_CONNECTION_CLOSE : N := 0x00000102.
Definition EC_APPLICATION_ERROR : N := 0x00000201.
Definition EC_REJECTED : N := 0x00000202.
Definition EC_CANCELED : N := 0x00000203.
Definition EC_INVALID : N := 0x00000204.
Definition EC_MIN_APPLICATION_ERROR_CODE : N := 0x00000301.
Definition EC_MAX_APPLICATION_ERROR_CODE : N := 0xFFFFFFFE.

(** [ErrorFrame::new], error.rs:113-121. *)
Definition error_new (bd : build) (stream_id error_code : N) (data : option bytes)
  : oc error_frame :=
  debug_assert_max_u31 bd stream_id
  (debug_assert_max_u31 bd error_code
  (Ret (ErrorFrame (N.land stream_id MAX_U31) (N.land error_code MAX_U31) data))).

(** Accessors, error.rs:124-136. *)
Definition error_stream_id (f : error_frame) : N := ef_stream_id f.
Definition error_error_code (f : error_frame) : N := ef_code f.
Definition error_data (f : error_frame) : option bytes := ef_data f.

(** [ErrorFrame::encode], error.rs:146-153. *)
Definition error_encode (f : error_frame) : enc :=
  put_u32 (ef_stream_id f) ;;
  put_u16 (ft_bits FT_ERROR) ;;
  put_u32 (ef_code f) ;;
  enc_opt (ef_data f) put_slice.

(** [ErrorFrame::len], error.rs:155-167. *)
Definition error_len (f : error_frame) : N :=
  let len := 10 in
  match ef_data f with Some d => len + blen d | None => len end.

(** [validate_stream_id], error.rs:188-218. *)
Definition validate_stream_id {B} (stream_id code : N) : dec B unit :=
  if (code =? EC_INVALID_SETUP) || (code =? EC_UNSUPPORTED_SETUP)
     || (code =? EC_REJECTED_SETUP) || (code =? EC_REJECTED_RESUME)
     || (code =? EC_CONNECTION_ERROR) || (code =? EC_CONNECTION_CLOSE)
  then
    if negb (stream_id =? 0) then d_err (InvalidStreamId "0" stream_id) else d_ret tt
  else if (code =? EC_APPLICATION_ERROR) || (code =? EC_REJECTED)
     || (code =? EC_CANCELED) || (code =? EC_INVALID)
  then
    if stream_id =? 0 then d_err (InvalidStreamId "> 0" stream_id) else d_ret tt
  else d_ret tt.

(** [ErrorFrame::decode], error.rs:173-185. *)
Definition error_decode {B} (ops : buf_ops B) (fuel : nat) (stream_id : N) (fl : flags)
  : dec B error_frame :=
  let! code := eat_u32 ops fuel in
  let! _ := validate_stream_id stream_id code in
  let! data := eat_rest ops in
  d_ret (ErrorFrame stream_id code data).

(** ** LEASE, codec/lease.rs *)

(** [LeaseFrame::new], lease.rs:43-50 (no masking). *)
Definition lease_new (bd : build) (ttl number_of_requests : N) (metadata : option bytes)
  : oc lease_frame :=
  debug_assert_max_u31 bd ttl
  (debug_assert_max_u31 bd number_of_requests
  (Ret (LeaseFrame ttl number_of_requests metadata))).

(** Accessors, lease.rs:53-65 ([ttl] in milliseconds). *)
Definition lease_ttl (f : lease_frame) : N := lf_ttl f.
Definition lease_number_of_requests (f : lease_frame) : N := lf_number_of_requests f.
Definition lease_metadata (f : lease_frame) : option bytes := lf_metadata f.

(** [LeaseFrame::encode], lease.rs:69-81. *)
Definition lease_encode (f : lease_frame) : enc :=
  put_u32 0 ;;
  (if is_some (lease_metadata f)
   then put_u16 (N.lor (ft_bits FT_LEASE) FL_METADATA)
   else put_u16 (ft_bits FT_LEASE)) ;;
  put_u32 (lf_ttl f) ;;
  put_u32 (lf_number_of_requests f) ;;
  enc_opt (lf_metadata f) put_slice.

(** [LeaseFrame::len], lease.rs:83-95. *)
Definition lease_len (f : lease_frame) : N :=
  let len := 14 in
  match lf_metadata f with Some m => len + blen m | None => len end.

(** [LeaseFrame::decode], lease.rs:101-119. *)
Definition lease_decode {B} (ops : buf_ops B) (fuel : nat) (stream_id : N) (fl : flags)
  : dec B lease_frame :=
  if negb (stream_id =? 0) then d_err (InvalidStreamId "0" stream_id) else
  let! ttl := eat_u31 ops fuel in
  let! number_of_requests := eat_u31 ops fuel in
  let! metadata := eat_rest ops in
  d_ret (LeaseFrame ttl number_of_requests metadata).

(** ** KEEPALIVE, codec/keepalive.rs *)

(** [KeepaliveFrame::new], keepalive.rs:41-52. *)
Definition keepalive_new (bd : build) (last_received_position : N) (data : option bytes)
  (respond : bool) : oc keepalive_frame :=
  debug_assert_max_u63 bd last_received_position
  (Ret (KeepaliveFrame respond (N.land last_received_position MAX_U63) data)).

(** Accessors, keepalive.rs:55-67. *)
Definition keepalive_last_received_position (f : keepalive_frame) : N :=
  kf_last_received_position f.
Definition keepalive_data (f : keepalive_frame) : option bytes := kf_data f.
Definition keepalive_is_respond (f : keepalive_frame) : bool := kf_respond f.

(** [KeepaliveFrame::encode], keepalive.rs:71-82. *)
Definition keepalive_encode (f : keepalive_frame) : enc :=
  put_u32 0 ;;
  (if kf_respond f
   then put_u16 (N.lor (ft_bits FT_KEEPALIVE) FL_RESPOND)
   else put_u16 (ft_bits FT_KEEPALIVE)) ;;
  put_u64 (kf_last_received_position f) ;;
  enc_opt (kf_data f) put_slice.

(** [KeepaliveFrame::len], keepalive.rs:84-95. *)
Definition keepalive_len (f : keepalive_frame) : N :=
  let len := 14 in
  match kf_data f with Some d => len + blen d | None => len end.

(** [KeepaliveFrame::decode], keepalive.rs:101-119. *)
Definition keepalive_decode {B} (ops : buf_ops B) (fuel : nat) (stream_id : N) (fl : flags)
  : dec B keepalive_frame :=
  if negb (stream_id =? 0) then d_err (InvalidStreamId "0" stream_id) else
  let respond := fl_contains fl FL_RESPOND in
  let! last_received_position := eat_u63 ops fuel in
  let! data := eat_rest ops in
  d_ret (KeepaliveFrame respond last_received_position data).

(** ** REQUEST_RESPONSE, codec/request_response.rs *)

(** [RequestResponseFrame::new], request_response.rs:35-46. *)
Definition request_response_new (bd : build) (stream_id : N) (follows : bool) (p : payload)
  : oc request_response_frame :=
  debug_assert_max_u31 bd stream_id
  (let stream_id := N.land stream_id MAX_U31 in
   let fl := fl_empty in
   let fl := if follows then fl_union fl FL_FOLLOWS else fl in
   let fl := if payload_has_metadata p then fl_union fl FL_METADATA else fl in
   Ret (RequestResponseFrame stream_id fl p)).

(** Accessors, request_response.rs:49-71. *)
Definition request_response_stream_id (f : request_response_frame) : N := rr_stream_id f.
Definition request_response_is_follows (f : request_response_frame) : bool :=
  fl_contains (rr_flags f) FL_FOLLOWS.
Definition request_response_metadata (f : request_response_frame) : option bytes :=
  payload_metadata (rr_payload f).
Definition request_response_data (f : request_response_frame) : option bytes :=
  payload_data (rr_payload f).
Definition request_response_payload (f : request_response_frame) : payload := rr_payload f.

(** [RequestResponseFrame::encode], request_response.rs:75-84. *)
Definition request_response_encode (f : request_response_frame) : enc :=
  put_u32 (rr_stream_id f) ;;
  put_u16 (N.lor (ft_bits FT_REQUEST_RESPONSE) (rr_flags f)) ;;
  put_metadata_len (rr_payload f) ;;
  payload_encode (rr_payload f).

(** [RequestResponseFrame::len], request_response.rs:86-92. *)
Definition request_response_len (f : request_response_frame) : N :=
  9 + payload_len (rr_payload f).

(** [RequestResponseFrame::decode], request_response.rs:98-105. *)
Definition request_response_decode {B} (ops : buf_ops B) (fuel : nat) (stream_id : N) (fl : flags)
  : dec B request_response_frame :=
  let! p := eat_payload ops fuel true in
  d_ret (RequestResponseFrame stream_id fl p).

(** ** REQUEST_FNF, codec/request_fnf.rs *)

(** [RequestFnfFrame::new], request_fnf.rs:35-46. *)
Definition request_fnf_new (bd : build) (stream_id : N) (follows : bool) (p : payload)
  : oc request_fnf_frame :=
  debug_assert_max_u31 bd stream_id
  (let stream_id := N.land stream_id MAX_U31 in
   let fl := fl_empty in
   let fl := if follows then fl_union fl FL_FOLLOWS else fl in
   let fl := if payload_has_metadata p then fl_union fl FL_METADATA else fl in
   Ret (RequestFnfFrame stream_id fl p)).

(** Accessors, request_fnf.rs:49-71. *)
Definition request_fnf_stream_id (f : request_fnf_frame) : N := fnf_stream_id f.
Definition request_fnf_is_follows (f : request_fnf_frame) : bool :=
  fl_contains (fnf_flags f) FL_FOLLOWS.
Definition request_fnf_metadata (f : request_fnf_frame) : option bytes :=
  payload_metadata (fnf_payload f).
Definition request_fnf_request_data (f : request_fnf_frame) : option bytes :=
  payload_data (fnf_payload f).
Definition request_fnf_payload (f : request_fnf_frame) : payload := fnf_payload f.

(** [RequestFnfFrame::encode], request_fnf.rs:75-84. *)
Definition request_fnf_encode (f : request_fnf_frame) : enc :=
  put_u32 (fnf_stream_id f) ;;
  put_u16 (N.lor (ft_bits FT_REQUEST_FNF) (fnf_flags f)) ;;
  put_metadata_len (fnf_payload f) ;;
  payload_encode (fnf_payload f).

(** [RequestFnfFrame::len], request_fnf.rs:86-92. *)
Definition request_fnf_len (f : request_fnf_frame) : N :=
  9 + payload_len (fnf_payload f).

(** [RequestFnfFrame::decode], request_fnf.rs:98-105. *)
Definition request_fnf_decode {B} (ops : buf_ops B) (fuel : nat) (stream_id : N) (fl : flags)
  : dec B request_fnf_frame :=
  let! p := eat_payload ops fuel true in
  d_ret (RequestFnfFrame stream_id fl p).

(** ** REQUEST_STREAM, codec/request_stream.rs *)

(** [RequestStreamFrame::new], request_stream.rs:39-57. *)
Definition request_stream_new (bd : build) (stream_id : N) (follows : bool)
  (initial_request_n : N) (p : payload) : oc request_stream_frame :=
  debug_assert_max_u31 bd stream_id
  (debug_assert_max_u31 bd initial_request_n
  (debug_assert_non_zero bd initial_request_n
  (let stream_id := N.land stream_id MAX_U31 in
   let fl := fl_empty in
   let fl := if follows then fl_union fl FL_FOLLOWS else fl in
   let fl := if payload_has_metadata p then fl_union fl FL_METADATA else fl in
   let initial_request_n := N.land initial_request_n MAX_U31 in
   Ret (RequestStreamFrame stream_id fl initial_request_n p)))).

(** Accessors, request_stream.rs:60-87. *)
Definition request_stream_stream_id (f : request_stream_frame) : N := rs_stream_id f.
Definition request_stream_is_follows (f : request_stream_frame) : bool :=
  fl_contains (rs_flags f) FL_FOLLOWS.
Definition request_stream_initial_request_n (f : request_stream_frame) : N :=
  rs_initial_request_n f.
Definition request_stream_metadata (f : request_stream_frame) : option bytes :=
  payload_metadata (rs_payload f).
Definition request_stream_data (f : request_stream_frame) : option bytes :=
  payload_data (rs_payload f).
Definition request_stream_payload (f : request_stream_frame) : payload := rs_payload f.

(** [RequestStreamFrame::encode], request_stream.rs:91-101. *)
Definition request_stream_encode (f : request_stream_frame) : enc :=
  put_u32 (rs_stream_id f) ;;
  put_u16 (N.lor (ft_bits FT_REQUEST_STREAM) (rs_flags f)) ;;
  put_u32 (rs_initial_request_n f) ;;
  put_metadata_len (rs_payload f) ;;
  payload_encode (rs_payload f).

(** [RequestStreamFrame::len], request_stream.rs:103-110. *)
Definition request_stream_len (f : request_stream_frame) : N :=
  13 + payload_len (rs_payload f).

(** [RequestStreamFrame::decode], request_stream.rs:116-124. *)
Definition request_stream_decode {B} (ops : buf_ops B) (fuel : nat) (stream_id : N) (fl : flags)
  : dec B request_stream_frame :=
  let! initial_request_n := eat_u31 ops fuel in
  let! p := eat_payload ops fuel true in
  d_ret (RequestStreamFrame stream_id fl initial_request_n p).

(** ** REQUEST_CHANNEL, codec/request_channel.rs *)

(** [RequestChannelFrame::new], request_channel.rs:41-63. *)
Definition request_channel_new (bd : build) (stream_id : N) (follows complete : bool)
  (initial_request_n : N) (p : payload) : oc request_channel_frame :=
  debug_assert_max_u31 bd stream_id
  (debug_assert_max_u31 bd initial_request_n
  (debug_assert_non_zero bd initial_request_n
  (let stream_id := N.land stream_id MAX_U31 in
   let fl := fl_empty in
   let fl := if follows then fl_union fl FL_FOLLOWS else fl in
   let fl := if complete then fl_union fl FL_COMPLETE else fl in
   let fl := if payload_has_metadata p then fl_union fl FL_METADATA else fl in
   let initial_request_n := N.land initial_request_n MAX_U31 in
   Ret (RequestChannelFrame stream_id fl initial_request_n p)))).

(** Accessors, request_channel.rs:66-98. *)
Definition request_channel_stream_id (f : request_channel_frame) : N := rc_stream_id f.
Definition request_channel_is_follows (f : request_channel_frame) : bool :=
  fl_contains (rc_flags f) FL_FOLLOWS.
Definition request_channel_is_complete (f : request_channel_frame) : bool :=
  fl_contains (rc_flags f) FL_COMPLETE.
Definition request_channel_initial_request_n (f : request_channel_frame) : N :=
  rc_initial_request_n f.
Definition request_channel_metadata (f : request_channel_frame) : option bytes :=
  payload_metadata (rc_payload f).
Definition request_channel_data (f : request_channel_frame) : option bytes :=
  payload_data (rc_payload f).
Definition request_channel_payload (f : request_channel_frame) : payload := rc_payload f.

(** [RequestChannelFrame::encode], request_channel.rs:102-112. *)
Definition request_channel_encode (f : request_channel_frame) : enc :=
  put_u32 (rc_stream_id f) ;;
  put_u16 (N.lor (ft_bits FT_REQUEST_CHANNEL) (rc_flags f)) ;;
  put_u32 (rc_initial_request_n f) ;;
  put_metadata_len (rc_payload f) ;;
  payload_encode (rc_payload f).

(** [RequestChannelFrame::len], request_channel.rs:114-121. *)
Definition request_channel_len (f : request_channel_frame) : N :=
  13 + payload_len (rc_payload f).

(** [RequestChannelFrame::decode], request_channel.rs:127-140. *)
Definition request_channel_decode {B} (ops : buf_ops B) (fuel : nat) (stream_id : N) (fl : flags)
  : dec B request_channel_frame :=
  let! initial_request_n := eat_u31 ops fuel in
  let! p := eat_payload ops fuel true in
  d_ret (RequestChannelFrame stream_id fl initial_request_n p).

(** ** REQUEST_N, codec/request_n.rs *)

(** [RequestNFrame::new], request_n.rs:36-42. *)
Definition request_n_new (bd : build) (stream_id request_n : N) : oc request_n_frame :=
  debug_assert_max_u31 bd stream_id
  (debug_assert_max_u31 bd request_n
  (debug_assert_non_zero bd request_n
  (let stream_id := N.land stream_id MAX_U31 in
   let request_n := N.land request_n MAX_U31 in
   Ret (RequestNFrame stream_id request_n)))).

(** Accessors, request_n.rs:45-52. *)
Definition request_n_stream_id (f : request_n_frame) : N := rn_stream_id f.
Definition request_n_request_n (f : request_n_frame) : N := rn_request_n f.

(** [RequestNFrame::encode], request_n.rs:56-60. *)
Definition request_n_encode (f : request_n_frame) : enc :=
  put_u32 (rn_stream_id f) ;;
  put_u16 (ft_bits FT_REQUEST_N) ;;
  put_u32 (rn_request_n f).

(** [RequestNFrame::len], request_n.rs:62-67. *)
Definition request_n_len (f : request_n_frame) : N := 10.

(** [RequestNFrame::decode], request_n.rs:73-80. *)
Definition request_n_decode {B} (ops : buf_ops B) (fuel : nat) (stream_id : N) (fl : flags)
  : dec B request_n_frame :=
  let! request_n := eat_u31 ops fuel in
  d_ret (RequestNFrame stream_id request_n).

(** ** CANCEL, codec/cancel.rs *)

(** [CancelFrame::new], cancel.rs:31-35; accessor cancel.rs:38-40. *)
Definition cancel_new (bd : build) (stream_id : N) : oc cancel_frame :=
  debug_assert_max_u31 bd stream_id
  (let stream_id := N.land stream_id MAX_U31 in
   Ret (CancelFrame stream_id)).
Definition cancel_stream_id (f : cancel_frame) : N := cf_stream_id f.

(** [CancelFrame::encode], cancel.rs:44-47; [len], 49-53; [decode], 59-65. *)
Definition cancel_encode (f : cancel_frame) : enc :=
  put_u32 (cf_stream_id f) ;;
  put_u16 (ft_bits FT_CANCEL).
Definition cancel_len (f : cancel_frame) : N := 6.
Definition cancel_decode {B} (ops : buf_ops B) (fuel : nat) (stream_id : N) (fl : flags)
  : dec B cancel_frame :=
  d_ret (CancelFrame stream_id).

(** ** PAYLOAD, codec/payload.rs *)

(** [PayloadFrame::new], codec/payload.rs:44-52. *)
Definition payload_frame_new (bd : build) (stream_id : N) (fl : flags) (p : payload)
  : oc payload_frame :=
  debug_assert_max_u31 bd stream_id
  (let stream_id := N.land stream_id MAX_U31 in
   let fl := fl_inter fl (fl_union (fl_union FL_FOLLOWS FL_COMPLETE) FL_NEXT) in
   let fl := if payload_has_metadata p then fl_union fl FL_METADATA else fl in
   Ret (PayloadFrame stream_id fl p)).

(** Accessors, codec/payload.rs:55-87. *)
Definition payload_frame_stream_id (f : payload_frame) : N := pf_stream_id f.
Definition payload_frame_is_follows (f : payload_frame) : bool :=
  fl_contains (pf_flags f) FL_FOLLOWS.
Definition payload_frame_is_complete (f : payload_frame) : bool :=
  fl_contains (pf_flags f) FL_COMPLETE.
Definition payload_frame_is_next (f : payload_frame) : bool :=
  fl_contains (pf_flags f) FL_NEXT.
Definition payload_frame_metadata (f : payload_frame) : option bytes :=
  payload_metadata (pf_payload f).
Definition payload_frame_data (f : payload_frame) : option bytes :=
  payload_data (pf_payload f).
Definition payload_frame_payload (f : payload_frame) : payload := pf_payload f.

(** [PayloadFrame::encode], codec/payload.rs:91-100. *)
Definition payload_frame_encode (f : payload_frame) : enc :=
  put_u32 (pf_stream_id f) ;;
  put_u16 (N.lor (ft_bits FT_PAYLOAD) (pf_flags f)) ;;
  put_metadata_len (pf_payload f) ;;
  payload_encode (pf_payload f).

(** [PayloadFrame::len], codec/payload.rs:102-108. *)
Definition payload_frame_len (f : payload_frame) : N :=
  9 + payload_len (pf_payload f).

(** [PayloadFrame::decode], codec/payload.rs:114-121. *)
Definition payload_frame_decode {B} (ops : buf_ops B) (fuel : nat) (stream_id : N) (fl : flags)
  : dec B payload_frame :=
  let! p := eat_payload ops fuel true in
  d_ret (PayloadFrame stream_id fl p).

(** ** METADATA_PUSH, codec/metadata_push.rs *)

(** [MetadataPushFrame::new], metadata_push.rs:36-38; accessor 41-43. *)
Definition metadata_push_new (metadata : bytes) : metadata_push_frame :=
  MetadataPushFrame metadata.
Definition metadata_push_metadata (f : metadata_push_frame) : bytes := mp_metadata f.

(** [MetadataPushFrame::encode], metadata_push.rs:47-51; [len], 53-58. *)
Definition metadata_push_encode (f : metadata_push_frame) : enc :=
  put_u32 0 ;;
  put_u16 (N.lor (ft_bits FT_METADATA_PUSH) FL_METADATA) ;;
  put_slice (mp_metadata f).
Definition metadata_push_len (f : metadata_push_frame) : N := 6 + blen (mp_metadata f).

(** [MetadataPushFrame::decode], metadata_push.rs:64-71. *)
Definition metadata_push_decode {B} (ops : buf_ops B) (fuel : nat) (stream_id : N) (fl : flags)
  : dec B metadata_push_frame :=
  let! len := d_remaining ops in
  let! metadata := eat_bytes ops len in
  d_ret (MetadataPushFrame metadata).

(** ** RESUME, codec/resume.rs *)

(** [ResumeFrame::new], resume.rs:48-67 (the token length is not checked). *)
Definition resume_new (bd : build) (v : version) (resume_token : bytes)
  (last_received_server_position first_available_client_position : N) : oc resume_frame :=
  debug_assert_max_u63 bd last_received_server_position
  (debug_assert_max_u63 bd first_available_client_position
  (Ret (ResumeFrame v resume_token
          (N.land last_received_server_position MAX_U63)
          (N.land first_available_client_position MAX_U63)))).

(** Accessors, resume.rs:70-87. *)
Definition resume_version (f : resume_frame) : version := rf_version f.
Definition resume_resume_token (f : resume_frame) : bytes := rf_resume_token f.
Definition resume_last_received_server_position (f : resume_frame) : N :=
  rf_last_received_server_position f.
Definition resume_first_available_client_position (f : resume_frame) : N :=
  rf_first_available_client_position f.

(** [ResumeFrame::encode], resume.rs:91-99. *)
Definition resume_encode (f : resume_frame) : enc :=
  put_u32 0 ;;
  put_u16 (ft_bits FT_RESUME) ;;
  version_encode (rf_version f) ;;
  put_u16 (as_u16 (blen (rf_resume_token f))) ;;
  put_slice (rf_resume_token f) ;;
  put_u64 (rf_last_received_server_position f) ;;
  put_u64 (rf_first_available_client_position f).

(** [ResumeFrame::len], resume.rs:101-110. *)
Definition resume_len (f : resume_frame) : N := 12 + blen (rf_resume_token f) + 16.

(** [ResumeFrame::decode], resume.rs:116-132. *)
Definition resume_decode {B} (ops : buf_ops B) (fuel : nat) (stream_id : N) (fl : flags)
  : dec B resume_frame :=
  let! version := eat_version ops fuel in
  let! token_len := eat_u16 ops fuel in
  let! resume_token := eat_bytes ops (N.to_nat token_len) in
  let! last_received_server_position := eat_u63 ops fuel in
  let! first_available_client_position := eat_u63 ops fuel in
  d_ret (ResumeFrame version resume_token last_received_server_position
           first_available_client_position).

(** ** RESUME_OK, codec/resume_ok.rs *)

(** [ResumeOkFrame::new], resume_ok.rs:36-40; accessor 43-45. *)
Definition resume_ok_new (bd : build) (last_received_client_position : N) : oc resume_ok_frame :=
  debug_assert_max_u63 bd last_received_client_position
  (Ret (ResumeOkFrame (N.land last_received_client_position MAX_U63))).
Definition resume_ok_last_received_server_position (f : resume_ok_frame) : N :=
  ro_last_received_client_position f.

(** [ResumeOkFrame::encode], resume_ok.rs:49-53; [len], 55-60; [decode], 66-73. *)
Definition resume_ok_encode (f : resume_ok_frame) : enc :=
  put_u32 0 ;;
  put_u16 (ft_bits FT_RESUME_OK) ;;
  put_u64 (ro_last_received_client_position f).
Definition resume_ok_len (f : resume_ok_frame) : N := 14.
Definition resume_ok_decode {B} (ops : buf_ops B) (fuel : nat) (stream_id : N) (fl : flags)
  : dec B resume_ok_frame :=
  let! last_received_client_position := eat_u63 ops fuel in
  d_ret (ResumeOkFrame last_received_client_position).
