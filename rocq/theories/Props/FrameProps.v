(** * Properties of constructors, builders and value types:
      C10, C17-C22, C48, C49, C54, C65, C82 *)

From Verif Require Import Model.FrameM Spec.Codec Spec.Build Spec.Protocol.
From Verif Require Import Proofs.BuildP Proofs.CtorP Proofs.FlagsP Proofs.ProtocolP.

Definition exb (l : list N) : bytes := map n2b l.
Definition exp_both : payload := Payload (Some (exb [1; 2])) (Some (exb [3])).
Definition exp_data : payload := Payload None (Some (exb [7; 8; 9; 10])).

(** ** C10: flag positions (the claim is false) *)

(** The claim, for one kind of frame: the [M] and [F] bits are where the diagrams draw them. *)
Definition C10_claim : Prop := forall bd sid follows p f bs c w,
  sid < 2 ^ 31 -> size (part (p_metadata p)) < 2 ^ 24 ->
  request_fnf_new bd sid follows p = Ret f ->
  frame_encode (FRequestFnf f) [] = EOk bs -> has_header bs sid c w ->
  N.testbit w drawn_metadata = present (p_metadata p) /\ N.testbit w drawn_follows = follows.

(** Every frame with metadata violates it: a reader of the diagrams sees no
    metadata, always sees [F], and sees the real [F] where [C] is drawn. *)
Theorem C10_refuted : forall bd sid follows p m f, sid < 2 ^ 31 ->
  p_metadata p = Some m -> size m < 2 ^ 24 ->
  request_fnf_new bd sid follows p = Ret f ->
  exists bs w, frame_encode (FRequestFnf f) [] = EOk bs /\ has_header bs sid 5 w /\
    N.testbit w drawn_ignore = false /\ N.testbit w drawn_metadata = false /\
    N.testbit w drawn_follows = true /\ N.testbit w drawn_complete = follows /\
    N.testbit w drawn_next = false.
Proof. exact fnf_misread. Qed.
Print Assumptions C10_refuted.

Theorem C10_claim_refuted : ~ C10_claim.
Proof. exact (fun H => fnf_claim_false H). Qed.
Print Assumptions C10_claim_refuted.

(** Where the flags are: each one bit below its drawn position, in the drawn order. *)
Theorem C10_positions_partial : forall w,
  fl_contains w FL_IGNORE = N.testbit w (drawn_ignore - 1) /\
  fl_contains w FL_METADATA = N.testbit w (drawn_metadata - 1) /\
  fl_contains w FL_FOLLOWS = N.testbit w (drawn_follows - 1) /\
  fl_contains w FL_RESUME = N.testbit w (drawn_follows - 1) /\
  fl_contains w FL_RESPOND = N.testbit w (drawn_follows - 1) /\
  fl_contains w FL_COMPLETE = N.testbit w (drawn_complete - 1) /\
  fl_contains w FL_LEASE = N.testbit w (drawn_complete - 1) /\
  fl_contains w FL_NEXT = N.testbit w (drawn_next - 1).
Proof. exact fl_positions. Qed.
Print Assumptions C10_positions_partial.

Example C10_witness :
  request_fnf_new Debug 9 false exp_both = Ret (RequestFnfFrame 9 0x80 exp_both) /\
  frame_encode (FRequestFnf (RequestFnfFrame 9 0x80 exp_both)) [] =
    EOk (exb [0;0;0;9; 0x14;0x80; 0;0;2;1;2;3]).
Proof. split; vm_compute; reflexivity. Qed.

(** ** C54: the metadata length is always there (the claim is false) *)

(** The claim: without metadata the data follows the fixed fields directly. *)
Definition C54_claim : Prop := forall f p bs, payload_of f = Some p -> p_metadata p = None ->
  in_range f -> frame_encode f [] = EOk bs ->
  bytes_bits bs = render (fixed_fields f) ++ bytes_bits (part (p_data p)).

(** Every frame without metadata violates it: three zero bytes stand in between. *)
Theorem C54_refuted : forall f p, payload_of f = Some p -> p_metadata p = None -> in_range f ->
  exists pre,
    bytes_bits pre = render (fixed_fields f) /\
    forall buf, frame_encode f buf = EOk (buf ++ pre ++ map n2b [0; 0; 0] ++ part (p_data p)).
Proof. exact no_metadata_bytes. Qed.
Print Assumptions C54_refuted.

Theorem C54_claim_refuted : ~ C54_claim.
Proof. exact (fun H => compact_claim_false H). Qed.
Print Assumptions C54_claim_refuted.

(** And data sent the prescribed way directly behind the header of a
    REQUEST_RESPONSE, REQUEST_FNF or PAYLOAD frame is never read back: at least
    three bytes of it are taken for something else. *)
Theorem C54_decode_refuted : forall hd sid c w data f rest p,
  c = 0x04 \/ c = 0x05 \/ c = 0x0A ->
  has_header hd sid c w -> length hd = 6%nat ->
  decode (hd ++ data) = (DOk f, rest) -> payload_of f = Some p ->
  size (part (p_data p)) + 3 <= size data.
Proof. exact compact_misread. Qed.
Print Assumptions C54_decode_refuted.

Example C54_witness_encode :
  in_range (FPayload (PayloadFrame 1 0x10 exp_data)) /\
  frame_encode (FPayload (PayloadFrame 1 0x10 exp_data)) [] =
    EOk (exb [0;0;0;1; 0x28;0x10; 0;0;0; 7;8;9;10]).
Proof. split; [cbn; unfold flags_ok, small_metadata; repeat split|vm_compute; reflexivity]. Qed.
Example C54_witness_decode :
  decode (exb [0;0;0;1; 0x28;0x10; 0;0;1;5;6]) =
    (DOk (FPayload (PayloadFrame 1 0x10 (Payload (Some (exb [5])) (Some (exb [6]))))), []) /\
  fst (decode (exb [0;0;0;1; 0x28;0x10; 7;8])) = DErr InComplete.
Proof. split; vm_compute; reflexivity. Qed.

(** ** C17: accessors return the constructor's arguments, both builds *)

Theorem C17_request_response : forall bd sid follows p, sid < 2 ^ 31 -> exists f,
  request_response_new bd sid follows p = Ret f /\
  request_response_stream_id f = sid /\ request_response_is_follows f = follows /\
  request_response_payload f = p /\
  request_response_metadata f = p_metadata p /\ request_response_data f = p_data p /\
  flag_bits (rr_flags f) [(7, present (p_metadata p)); (6, follows)].
Proof. exact rr_args. Qed.
Print Assumptions C17_request_response.

Theorem C17_request_fnf : forall bd sid follows p, sid < 2 ^ 31 -> exists f,
  request_fnf_new bd sid follows p = Ret f /\
  request_fnf_stream_id f = sid /\ request_fnf_is_follows f = follows /\
  request_fnf_payload f = p /\
  request_fnf_metadata f = p_metadata p /\ request_fnf_request_data f = p_data p /\
  flag_bits (fnf_flags f) [(7, present (p_metadata p)); (6, follows)].
Proof. exact fnf_args. Qed.
Print Assumptions C17_request_fnf.

Theorem C17_request_stream : forall bd sid follows n p,
  sid < 2 ^ 31 -> 0 < n -> n < 2 ^ 31 -> exists f,
  request_stream_new bd sid follows n p = Ret f /\
  request_stream_stream_id f = sid /\ request_stream_is_follows f = follows /\
  request_stream_initial_request_n f = n /\ request_stream_payload f = p /\
  request_stream_metadata f = p_metadata p /\ request_stream_data f = p_data p /\
  flag_bits (rs_flags f) [(7, present (p_metadata p)); (6, follows)].
Proof. exact rs_args. Qed.
Print Assumptions C17_request_stream.

Theorem C17_request_channel : forall bd sid follows complete n p,
  sid < 2 ^ 31 -> 0 < n -> n < 2 ^ 31 -> exists f,
  request_channel_new bd sid follows complete n p = Ret f /\
  request_channel_stream_id f = sid /\
  request_channel_is_follows f = follows /\ request_channel_is_complete f = complete /\
  request_channel_initial_request_n f = n /\ request_channel_payload f = p /\
  request_channel_metadata f = p_metadata p /\ request_channel_data f = p_data p /\
  flag_bits (rc_flags f) [(7, present (p_metadata p)); (6, follows); (5, complete)].
Proof. exact rc_args. Qed.
Print Assumptions C17_request_channel.

(** PAYLOAD takes a flag word: F, C and N are kept, anything else in it is dropped. *)
Theorem C17_payload : forall bd sid w p, sid < 2 ^ 31 -> exists f,
  payload_frame_new bd sid w p = Ret f /\
  payload_frame_stream_id f = sid /\
  payload_frame_is_follows f = N.testbit w 6 /\
  payload_frame_is_complete f = N.testbit w 5 /\
  payload_frame_is_next f = N.testbit w 4 /\
  payload_frame_payload f = p /\
  payload_frame_metadata f = p_metadata p /\ payload_frame_data f = p_data p /\
  flag_bits (pf_flags f) [(7, present (p_metadata p)); (6, N.testbit w 6);
                          (5, N.testbit w 5); (4, N.testbit w 4)].
Proof. exact pf_args. Qed.
Print Assumptions C17_payload.

Theorem C17_request_n : forall bd sid n, sid < 2 ^ 31 -> 0 < n -> n < 2 ^ 31 -> exists f,
  request_n_new bd sid n = Ret f /\ request_n_stream_id f = sid /\ request_n_request_n f = n.
Proof. exact rn_args. Qed.
Print Assumptions C17_request_n.

Theorem C17_cancel : forall bd sid, sid < 2 ^ 31 -> exists f,
  cancel_new bd sid = Ret f /\ cancel_stream_id f = sid.
Proof. exact cancel_args. Qed.
Print Assumptions C17_cancel.

Theorem C17_error : forall bd sid c d, sid < 2 ^ 31 -> c < 2 ^ 31 -> exists f,
  error_new bd sid c d = Ret f /\
  error_stream_id f = sid /\ error_error_code f = c /\ error_data f = d.
Proof. exact error_args. Qed.
Print Assumptions C17_error.

Theorem C17_lease : forall bd ttl n m, ttl < 2 ^ 31 -> n < 2 ^ 31 -> exists f,
  lease_new bd ttl n m = Ret f /\
  lease_ttl f = ttl /\ lease_number_of_requests f = n /\ lease_metadata f = m.
Proof. exact lease_args. Qed.
Print Assumptions C17_lease.

Theorem C17_keepalive : forall bd pos d respond, pos < 2 ^ 63 -> exists f,
  keepalive_new bd pos d respond = Ret f /\
  keepalive_last_received_position f = pos /\ keepalive_data f = d /\
  keepalive_is_respond f = respond.
Proof. exact keepalive_args. Qed.
Print Assumptions C17_keepalive.

Theorem C17_resume : forall bd v t a b, a < 2 ^ 63 -> b < 2 ^ 63 -> exists f,
  resume_new bd v t a b = Ret f /\
  resume_version f = v /\ resume_resume_token f = t /\
  resume_last_received_server_position f = a /\ resume_first_available_client_position f = b.
Proof. exact resume_args. Qed.
Print Assumptions C17_resume.

Theorem C17_resume_ok : forall bd a, a < 2 ^ 63 -> exists f,
  resume_ok_new bd a = Ret f /\ resume_ok_last_received_server_position f = a.
Proof. exact resume_ok_args. Qed.
Print Assumptions C17_resume_ok.

Theorem C17_metadata_push : forall m, metadata_push_metadata (metadata_push_new m) = m.
Proof. exact metadata_push_args. Qed.
Print Assumptions C17_metadata_push.

Example C17_example : exists f,
  request_channel_new Debug 5 true false 3 exp_both = Ret f /\
  request_channel_is_follows f = true /\ request_channel_is_complete f = false /\ rc_flags f = 0xC0.
Proof. eexists. split; [reflexivity|]. repeat split. Qed.
Example C17_payload_drops : exists f,
  payload_frame_new Release 5 0x1B0 exp_data = Ret f /\ pf_flags f = 0x30.
Proof. eexists. split; reflexivity. Qed.

(** ** C18: out-of-range arguments *)

Theorem C18_debug_panics :
  (forall sid follows p, request_response_new Debug sid follows p = Panic <-> 2 ^ 31 <= sid) /\
  (forall sid follows p, request_fnf_new Debug sid follows p = Panic <-> 2 ^ 31 <= sid) /\
  (forall sid follows n p, request_stream_new Debug sid follows n p = Panic <->
     2 ^ 31 <= sid \/ 2 ^ 31 <= n \/ n = 0) /\
  (forall sid follows complete n p, request_channel_new Debug sid follows complete n p = Panic <->
     2 ^ 31 <= sid \/ 2 ^ 31 <= n \/ n = 0) /\
  (forall sid w p, payload_frame_new Debug sid w p = Panic <-> 2 ^ 31 <= sid) /\
  (forall sid n, request_n_new Debug sid n = Panic <-> 2 ^ 31 <= sid \/ 2 ^ 31 <= n \/ n = 0) /\
  (forall sid, cancel_new Debug sid = Panic <-> 2 ^ 31 <= sid) /\
  (forall sid c d, error_new Debug sid c d = Panic <-> 2 ^ 31 <= sid \/ 2 ^ 31 <= c) /\
  (forall ttl n m, lease_new Debug ttl n m = Panic <-> 2 ^ 31 <= ttl \/ 2 ^ 31 <= n) /\
  (forall pos d r, keepalive_new Debug pos d r = Panic <-> 2 ^ 63 <= pos) /\
  (forall v t a b, resume_new Debug v t a b = Panic <-> 2 ^ 63 <= a \/ 2 ^ 63 <= b) /\
  (forall a, resume_ok_new Debug a = Panic <-> 2 ^ 63 <= a).
Proof. exact debug_panics. Qed.
Print Assumptions C18_debug_panics.

(** In release builds arguments count modulo 2^31 or 2^63: the result is that of the
    reduced arguments (which C17 describes), or is shown directly. *)
Theorem C18_release_masks :
  (forall sid follows p, request_response_new Release sid follows p =
     request_response_new Release (sid mod 2 ^ 31) follows p) /\
  (forall sid follows p, request_fnf_new Release sid follows p =
     request_fnf_new Release (sid mod 2 ^ 31) follows p) /\
  (forall sid follows n p, request_stream_new Release sid follows n p =
     request_stream_new Release (sid mod 2 ^ 31) follows (n mod 2 ^ 31) p) /\
  (forall sid follows complete n p, request_channel_new Release sid follows complete n p =
     request_channel_new Release (sid mod 2 ^ 31) follows complete (n mod 2 ^ 31) p) /\
  (forall sid w p, payload_frame_new Release sid w p =
     payload_frame_new Release (sid mod 2 ^ 31) w p) /\
  (forall sid n, request_n_new Release sid n =
     Ret (RequestNFrame (sid mod 2 ^ 31) (n mod 2 ^ 31))) /\
  (forall sid, cancel_new Release sid = Ret (CancelFrame (sid mod 2 ^ 31))) /\
  (forall sid c d, error_new Release sid c d =
     Ret (ErrorFrame (sid mod 2 ^ 31) (c mod 2 ^ 31) d)) /\
  (forall pos d r, keepalive_new Release pos d r = Ret (KeepaliveFrame r (pos mod 2 ^ 63) d)) /\
  (forall v t a b, resume_new Release v t a b =
     Ret (ResumeFrame v t (a mod 2 ^ 63) (b mod 2 ^ 63))) /\
  (forall a, resume_ok_new Release a = Ret (ResumeOkFrame (a mod 2 ^ 63))).
Proof. exact release_masks. Qed.
Print Assumptions C18_release_masks.

Theorem C18_release_request_zero : forall sid follows complete n p, n mod 2 ^ 31 = 0 ->
  (exists f, request_stream_new Release sid follows n p = Ret f /\
     request_stream_initial_request_n f = 0 /\ request_stream_stream_id f = sid mod 2 ^ 31 /\
     request_stream_is_follows f = follows /\ request_stream_payload f = p) /\
  (exists f, request_channel_new Release sid follows complete n p = Ret f /\
     request_channel_initial_request_n f = 0 /\ request_channel_stream_id f = sid mod 2 ^ 31 /\
     request_channel_is_follows f = follows /\ request_channel_is_complete f = complete /\
     request_channel_payload f = p) /\
  (exists f, request_n_new Release sid n = Ret f /\ request_n_request_n f = 0).
Proof. exact release_request_zero. Qed.
Print Assumptions C18_release_request_zero.

Theorem C18_release_lease : forall ttl n m, ttl < 2 ^ 32 -> n < 2 ^ 32 -> exists f bs,
  lease_new Release ttl n m = Ret f /\
  lease_ttl f = ttl /\ lease_number_of_requests f = n /\ lease_metadata f = m /\
  frame_encode (FLease f) [] = EOk bs /\
  (2 ^ 31 <= ttl \/ 2 ^ 31 <= n -> forall rest, decode bs <> (DOk (FLease f), rest)).
Proof. exact release_lease. Qed.
Print Assumptions C18_release_lease.

Example C18_boundary :
  request_n_new Debug (2 ^ 31) 1 = Panic /\ request_n_new Debug 1 0 = Panic /\
  request_n_new Debug (2 ^ 31 - 1) (2 ^ 31 - 1) = Ret (RequestNFrame (2 ^ 31 - 1) (2 ^ 31 - 1)) /\
  request_n_new Release (2 ^ 31 + 5) (2 ^ 31) = Ret (RequestNFrame 5 0).
Proof. vm_compute. repeat split. Qed.
Example C18_lease_witness :
  lease_new Release (2 ^ 31 + 1) 2 None = Ret (LeaseFrame (2 ^ 31 + 1) 2 None) /\
  decode (exb [0;0;0;0; 0x08;0; 0x80;0;0;1; 0;0;0;2]) = (DOk (FLease (LeaseFrame 1 2 None)), []).
Proof. vm_compute. split; reflexivity. Qed.

(** ** C19: U24 *)

Theorem C19_u24 : forall v, v < 2 ^ 24 -> exists u,
  u24_from_u32 v = Ret u /\ u24_from_usize v = Ret u /\
  u24_into_u32 u = v /\ u24_into_usize u = v /\
  u24_hi u < 2 ^ 8 /\ u24_lo u < 2 ^ 16 /\ u24_len u = 3 /\
  (forall buf, exists bs, u24_encode u buf = EOk (buf ++ bs) /\ bytes_bits bs = bits 24 v).
Proof. exact u24_spec. Qed.
Print Assumptions C19_u24.
Theorem C19_from_u32_panics : forall v, u24_from_u32 v = Panic <-> 2 ^ 24 <= v.
Proof. exact u24_from_u32_panic. Qed.
Print Assumptions C19_from_u32_panics.
Theorem C19_from_usize_panics : forall v, u24_from_usize v = Panic <-> 2 ^ 24 <= v.
Proof. exact u24_from_usize_panic. Qed.
Print Assumptions C19_from_usize_panics.
Theorem C19_onto : forall hi lo, hi < 2 ^ 8 -> lo < 2 ^ 16 ->
  exists v, v < 2 ^ 24 /\ u24_from_u32 v = Ret (u24_new hi lo) /\
    forall v', u24_from_u32 v' = Ret (u24_new hi lo) -> v' = v.
Proof. exact u24_onto. Qed.
Print Assumptions C19_onto.

Theorem C19_limits : forall v, U24_MIN <= v <= U24_MAX <-> v < 2 ^ 24.
Proof. exact u24_limits. Qed.
Print Assumptions C19_limits.

Example C19_example :
  u24_from_usize 0xABCDEF = Ret (U24 0xAB 0xCDEF) /\ u24_from_usize (2 ^ 24) = Panic /\
  u24_from_u32 (2 ^ 24 - 1) = Ret (U24 0xFF 0xFFFF).
Proof. vm_compute. repeat split. Qed.

(** ** C20: frame types *)

Theorem C20_laws : forall t,
  ft_value t = type_code t /\ ft_bits t = type_code t * 2 ^ 10 /\ ft_bits t < 2 ^ 16 /\
  ft_from_value (ft_value t) = Some t /\
  forall w, w < 2 ^ 10 -> ft_from_bits (ft_bits t + w) = Some t.
Proof. exact frame_type_laws. Qed.
Print Assumptions C20_laws.
Theorem C20_from_value : forall v t, ft_from_value v = Some t <-> v = type_code t.
Proof. exact from_value_iff. Qed.
Print Assumptions C20_from_value.
Theorem C20_from_bits : forall w t, ft_from_bits w = Some t <-> w / 2 ^ 10 = type_code t.
Proof. exact from_bits_iff. Qed.
Print Assumptions C20_from_bits.
Theorem C20_unknown : forall v,
  (ft_from_value v = None <-> ~ known_code v) /\
  (ft_from_bits v = None <-> ~ known_code (v / 2 ^ 10)).
Proof. exact (fun v => conj (from_value_known v) (from_bits_known v)). Qed.
Print Assumptions C20_unknown.

Example C20_example :
  ft_from_bits 0x2BFF = Some FT_PAYLOAD /\ ft_from_bits 0x3C00 = None /\
  ft_from_value 0 = None /\ ft_from_value 0x3F = Some FT_EXT.
Proof. repeat split. Qed.

(** ** C21: versions *)

Theorem C21_compare : forall a b,
  (version_cmp a b = Lt <-> version_before a b) /\
  (version_cmp a b = Eq <-> a = b) /\
  (version_cmp a b = Gt <-> version_before b a) /\
  version_partial_cmp a b = Some (version_cmp a b).
Proof. exact version_cmp_iff. Qed.
Print Assumptions C21_compare.
Theorem C21_total_order : forall a b c,
  version_cmp a a = Eq /\
  version_cmp b a = CompOpp (version_cmp a b) /\
  (version_cmp a b <> Gt -> version_cmp b c <> Gt -> version_cmp a c <> Gt) /\
  (version_cmp a b <> Gt \/ version_cmp b a <> Gt).
Proof. exact version_order. Qed.
Print Assumptions C21_total_order.
Theorem C21_wire_order : forall a b, typed_version a -> typed_version b -> exists ba bb,
  (forall buf, version_encode a buf = EOk (buf ++ ba)) /\
  (forall buf, version_encode b buf = EOk (buf ++ bb)) /\
  length ba = 4%nat /\ length bb = 4%nat /\
  version_cmp a b = (number ba ?= number bb).
Proof. exact version_bytes_order. Qed.
Print Assumptions C21_wire_order.

Theorem C21_fields : forall major minor,
  version_major (version_new major minor) = major /\ version_minor (version_new major minor) = minor.
Proof. exact version_fields. Qed.
Print Assumptions C21_fields.
Theorem C21_len : forall v buf out, version_encode v buf = EOk out ->
  N.of_nat (length out) = N.of_nat (length buf) + version_len v.
Proof. exact version_reported. Qed.
Print Assumptions C21_len.

Example C21_example :
  version_cmp (Version 1 9) (Version 2 0) = Lt /\ version_cmp (Version 1 9) (Version 1 10) = Lt /\
  typed_version (Version 1 9) /\ version_before (Version 1 9) (Version 1 10).
Proof. unfold typed_version, version_before. cbn. repeat split; right; split; reflexivity. Qed.

(** ** C22: payload builder and queries *)

Theorem C22_history : forall cs,
  is_latest sets_payload_metadata None cs (payload_metadata (payload_run cs)) /\
  is_latest sets_payload_data None cs (payload_data (payload_run cs)).
Proof. exact payload_history. Qed.
Print Assumptions C22_history.
Theorem C22_queries : forall p,
  payload_len p = size (part (payload_metadata p)) + size (part (payload_data p)) /\
  (payload_is_empty p = true <-> part (payload_metadata p) = [] /\ part (payload_data p) = []) /\
  payload_has_metadata p = present (payload_metadata p) /\
  payload_has_data p = present (payload_data p) /\
  payload_split p = (payload_metadata p, payload_data p) /\
  payload_new (fst (payload_split p)) (snd (payload_split p)) = p.
Proof. exact payload_queries. Qed.
Print Assumptions C22_queries.

Example C22_example :
  payload_run [PSetData (exb [1]); PSetMetadata (exb [2; 3]); PSetData (exb [4])] =
    Payload (Some (exb [2; 3])) (Some (exb [4])) /\
  payload_is_empty (Payload (Some []) None) = true.
Proof. split; reflexivity. Qed.

(** ** C48: the SETUP builder *)

Theorem C48_history : forall bd cs f, setup_run bd cs = Ret f ->
  is_latest sets_version (Version 1 0) cs (setup_version f) /\
  is_latest sets_interval 30000 cs (setup_keepalive_interval f) /\
  is_latest sets_timeout 60000 cs (setup_keepalive_timeout f) /\
  is_latest sets_token None cs (setup_resume_token f) /\
  is_latest sets_metadata_mimetype default_mime cs (sf_metadata_mimetype f) /\
  is_latest sets_data_mimetype default_mime cs (sf_data_mimetype f) /\
  is_latest sets_metadata None cs (setup_metadata f) /\
  is_latest sets_data None cs (setup_data f) /\
  flag_bits (sf_flags f) [(7, existsb raises_metadata cs); (6, existsb raises_resume cs);
                          (5, existsb raises_lease cs)].
Proof. exact setup_history. Qed.
Print Assumptions C48_history.
Theorem C48_payload : forall bd cs f, setup_run bd cs = Ret f ->
  is_latest sets_metadata None cs (payload_metadata (setup_payload f)) /\
  is_latest sets_data None cs (payload_data (setup_payload f)).
Proof. exact setup_payload_history. Qed.
Print Assumptions C48_payload.

Theorem C48_flag_queries : forall bd cs f, setup_run bd cs = Ret f ->
  setup_is_resume f = existsb raises_resume cs /\ setup_is_lease f = existsb raises_lease cs.
Proof. exact setup_flag_queries. Qed.
Print Assumptions C48_flag_queries.
Theorem C48_panics : forall bd cs, setup_run bd cs = Panic <-> exists c, In c cs /\ refused bd c.
Proof. exact setup_panics. Qed.
Print Assumptions C48_panics.
Theorem C48_terminates : forall bd cs, setup_run bd cs <> Loop.
Proof. exact setup_no_loop. Qed.
Print Assumptions C48_terminates.

Definition ex_calls : list setup_call :=
  [SetVersion 2 1; SetKeepaliveInterval 5; SetResumeToken (exb [9]); SetMetadata (exb [1]);
   SetKeepaliveInterval 7; SetLeaseFlag].
Example C48_example : exists f, setup_run Debug ex_calls = Ret f /\
  setup_version f = Version 2 1 /\ setup_keepalive_interval f = 7 /\
  setup_keepalive_timeout f = 60000 /\ setup_resume_token f = Some (exb [9]) /\ sf_flags f = 0xE0.
Proof. eexists. split; [vm_compute; reflexivity|]. vm_compute. repeat split. Qed.
Example C48_refused :
  setup_run Debug [SetKeepaliveInterval (2 ^ 31)] = Panic /\
  (exists f, setup_run Release [SetKeepaliveInterval (2 ^ 31 + 3)] = Ret f /\ setup_keepalive_interval f = 3) /\
  setup_run Release [SetDataMimetype (repeat (n2b 97) 257)] = Panic.
Proof.
  split; [reflexivity|]. split; [|vm_compute; reflexivity].
  eexists. split; [vm_compute; reflexivity|reflexivity].
Qed.

(** ** C49: which SETUP frames survive the wire *)

Theorem C49_survives_iff : forall bd cs f, Forall typed_call cs -> setup_run bd cs = Ret f ->
  ((exists bs, (forall buf, frame_encode (FSetup f) buf = EOk (buf ++ bs)) /\
      decode bs = (DOk (FSetup f), [])) <->
    (In SetResumeFlag cs -> exists t, In (SetResumeToken t) cs) /\
    size (sf_metadata_mimetype f) <= 255 /\ size (sf_data_mimetype f) <= 255 /\
    setup_metadata f <> Some [] /\ setup_data f <> Some [] /\
    size (part (setup_metadata f)) < 2 ^ 24).
Proof. exact setup_survives. Qed.
Print Assumptions C49_survives_iff.

Example C49_good : Forall typed_call ex_calls /\ exists f bs, setup_run Debug ex_calls = Ret f /\
  frame_encode (FSetup f) [] = EOk bs /\ decode bs = (DOk (FSetup f), []).
Proof.
  split; [repeat constructor|]. eexists. eexists. split; [vm_compute; reflexivity|].
  split; vm_compute; reflexivity.
Qed.
(** A 256-byte MIME type is accepted, written with length byte 0 and misread. *)
Example C49_long_mime : exists f bs,
  setup_run Debug [SetMetadataMimetype (repeat (n2b 97) 256)] = Ret f /\
  frame_encode (FSetup f) [] = EOk bs /\ decode bs <> (DOk (FSetup f), []).
Proof.
  eexists. eexists. split; [vm_compute; reflexivity|]. split; [vm_compute; reflexivity|].
  intros H. vm_compute in H. discriminate.
Qed.
(** A bare RESUME flag makes the reader take the MIME length for a token length. *)
Example C49_bare_resume : exists f bs,
  setup_run Debug [SetResumeFlag] = Ret f /\
  frame_encode (FSetup f) [] = EOk bs /\ fst (decode bs) = DErr InComplete.
Proof.
  eexists. eexists. split; [vm_compute; reflexivity|]. split; vm_compute; reflexivity.
Qed.

(** ** C65: what the accessors of a received frame answer *)

(** The type, the stream id and the flags are those of the header the frame was read from. *)
Theorem C65_received : forall input f rest sid c w,
  decode input = (DOk f, rest) -> has_header input sid c w ->
  match f with
  | FSetup v => c = 0x01 /\ sid = 0 /\
      setup_is_resume v = N.testbit w 6 /\ setup_is_lease v = N.testbit w 5
  | FLease _ => c = 0x02 /\ sid = 0
  | FKeepalive v => c = 0x03 /\ sid = 0 /\ keepalive_is_respond v = N.testbit w 6
  | FRequestResponse v => c = 0x04 /\ sid = request_response_stream_id v /\
      request_response_is_follows v = N.testbit w 6
  | FRequestFnf v => c = 0x05 /\ sid = request_fnf_stream_id v /\
      request_fnf_is_follows v = N.testbit w 6
  | FRequestStream v => c = 0x06 /\ sid = request_stream_stream_id v /\
      request_stream_is_follows v = N.testbit w 6
  | FRequestChannel v => c = 0x07 /\ sid = request_channel_stream_id v /\
      request_channel_is_follows v = N.testbit w 6 /\ request_channel_is_complete v = N.testbit w 5
  | FRequestN v => c = 0x08 /\ sid = request_n_stream_id v
  | FCancel v => c = 0x09 /\ sid = cancel_stream_id v
  | FPayload v => c = 0x0A /\ sid = payload_frame_stream_id v /\
      payload_frame_is_follows v = N.testbit w 6 /\ payload_frame_is_complete v = N.testbit w 5 /\
      payload_frame_is_next v = N.testbit w 4
  | FError v => c = 0x0B /\ sid = error_stream_id v
  | FMetadataPush _ => c = 0x0C /\ sid = 0
  | FResume _ => c = 0x0D /\ sid = 0
  | FResumeOk _ => c = 0x0E /\ sid = 0
  end.
Proof. exact decoded_queries. Qed.
Print Assumptions C65_received.

(** The queries of [Flags] look at one bit each. *)
Theorem C65_flags : forall w,
  fl_is_ignore w = N.testbit w 8 /\ fl_is_metadata w = N.testbit w 7 /\
  fl_is_follows w = N.testbit w 6 /\ fl_is_resume w = N.testbit w 6 /\
  fl_is_respond w = N.testbit w 6 /\
  fl_is_complete w = N.testbit w 5 /\ fl_is_lease w = N.testbit w 5 /\
  fl_is_next w = N.testbit w 4.
Proof. exact fl_queries. Qed.
Print Assumptions C65_flags.

(** Bits that are not assigned are dropped. *)
Theorem C65_truncate : forall w i,
  N.testbit (fl_from_bits_truncate w) i = N.testbit w i && (4 <=? i) && (i <=? 8).
Proof. exact truncate_bits. Qed.
Print Assumptions C65_truncate.

(** A PAYLOAD frame on stream 5 with F, N and the unassigned bits set, but not C. *)
Example C65_example : exists f,
  decode (exb [0;0;0;5; 0x2A;0x5F; 0;0;0; 7]) = (DOk (FPayload f), []) /\
  has_header (exb [0;0;0;5; 0x2A;0x5F; 0;0;0; 7]) 5 0x0A 0x25F /\
  payload_frame_stream_id f = 5 /\ payload_frame_is_follows f = true /\
  payload_frame_is_complete f = false /\ payload_frame_is_next f = true.
Proof.
  eexists. split; [vm_compute; reflexivity|]. split.
  - exists 0, (exb [0;0;0;5; 0x2A;0x5F]), (exb [0;0;0; 7]). vm_compute. repeat split.
  - vm_compute. repeat split.
Qed.

(** ** C82: which frames cross between the library and a peer that follows the diagrams *)

Theorem C82_written : forall f bs, in_range f -> announces f -> frame_encode f [] = EOk bs ->
  (bytes_bits bs = render (prescribed f) <-> written_as_drawn f).
Proof. exact written_iff. Qed.
Print Assumptions C82_written.

Theorem C82_read : forall f, fits f -> announces f -> exists bs,
  bytes_bits bs = render (prescribed f) /\ (fst (decode bs) = DOk f <-> read_as_drawn f).
Proof. exact read_prescribed. Qed.
Print Assumptions C82_read.

(** A REQUEST_FNF frame with metadata arrives as prescribed, with M and F set, but is
    read with IGNORE and METADATA set and without FOLLOWS; a LEASE frame with metadata
    is not written as prescribed but is read from that form. *)
Example C82_example :
  let f := FRequestFnf (RequestFnfFrame 9 0xC0 exp_both) in
  let l := FLease (LeaseFrame 5 6 (Some (exb [7]))) in
  fits f /\ announces f /\ fits l /\ announces l /\
  render (prescribed f) = bytes_bits (exb [0;0;0;9; 0x15;0x80; 0;0;2;1;2;3]) /\
  decode (exb [0;0;0;9; 0x15;0x80; 0;0;2;1;2;3]) = (DOk (FRequestFnf (RequestFnfFrame 9 0x180 exp_both)), []) /\
  frame_encode l [] = EOk (exb [0;0;0;0; 0x08;0x80; 0;0;0;5; 0;0;0;6; 7]) /\
  render (prescribed l) = bytes_bits (exb [0;0;0;0; 0x09;0; 0;0;0;5; 0;0;0;6; 7]) /\
  decode (exb [0;0;0;0; 0x09;0; 0;0;0;5; 0;0;0;6; 7]) = (DOk l, []).
Proof.
  cbn [fits announces]. split.
  { split; cbn; unfold flags_ok, small_metadata, solid_payload, solid; repeat split; discriminate. }
  split. { intros p H. injection H as <-. reflexivity. }
  split. { split; cbn; unfold solid; repeat split; discriminate. }
  split. { intros p H. discriminate H. }
  repeat split.
Qed.
