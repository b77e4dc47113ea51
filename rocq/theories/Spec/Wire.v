(** * Specification of the wire format, bit by bit

    Independent of the model: uses only the data types of [Model/Types.v].
    A frame on the wire is a sequence of fields as drawn in the diagrams of
    binate/src/frame/codec/*.rs: bit fields (most significant bit first) and raw
    byte strings. *)

From Verif Require Export Model.Types.

(** The [w] low bits of [n], most significant first. *)
Fixpoint bits (w : nat) (n : N) : list bool :=
  match w with
  | O => []
  | S w' => N.testbit n (N.of_nat w') :: bits w' n
  end.

Definition byte_bits (b : byte) : list bool := bits 8 (Coq.Strings.Byte.to_N b).
Definition bytes_bits (l : bytes) : list bool := flat_map byte_bits l.

Inductive field : Set :=
| Bits (w : nat) (n : N)
| Raw (l : bytes).

Definition field_bits (f : field) : list bool :=
  match f with
  | Bits w n => bits w n
  | Raw l => bytes_bits l
  end.
Definition render (fs : list field) : list bool := flat_map field_bits fs.

(** Number of bytes, and the bytes of an optional part. *)
Definition size (l : bytes) : N := N.of_nat (length l).
Definition part (o : option bytes) : bytes := match o with Some l => l | None => [] end.
Definition present {A} (o : option A) : bool := match o with Some _ => true | None => false end.

(** Header: reserved bit, 31-bit stream id, 6-bit type, 10-bit flag word. *)
Definition header (r sid code w : N) : list field :=
  [Bits 1 r; Bits 31 sid; Bits 6 code; Bits 10 w].

(** 24-bit metadata length, metadata, data. *)
Definition payload_fields (p : payload) : list field :=
  [Bits 24 (size (part (p_metadata p))); Raw (part (p_metadata p)); Raw (part (p_data p))].

(** The fields of each kind of frame.  [r] is the reserved bit in front of the
    stream id, [w] the flag word, [r1] and [r2] the reserved bits in front of the
    first and second 31/63-bit field of the body. *)
Definition wire (r w r1 r2 : N) (f : frame) : list field :=
  match f with
  | FSetup s =>
      header r 0 0x01 w ++
      [Bits 16 (v_major (sf_version s)); Bits 16 (v_minor (sf_version s));
       Bits 1 r1; Bits 31 (sf_keepalive_interval s);
       Bits 1 r2; Bits 31 (sf_keepalive_timeout s)] ++
      match sf_resume_token s with
      | Some t => [Bits 16 (size t); Raw t]
      | None => []
      end ++
      [Bits 8 (size (sf_metadata_mimetype s)); Raw (sf_metadata_mimetype s);
       Bits 8 (size (sf_data_mimetype s)); Raw (sf_data_mimetype s)] ++
      payload_fields (sf_payload s)
  | FLease l =>
      header r 0 0x02 w ++
      [Bits 1 r1; Bits 31 (lf_ttl l); Bits 1 r2; Bits 31 (lf_number_of_requests l);
       Raw (part (lf_metadata l))]
  | FKeepalive k =>
      header r 0 0x03 w ++
      [Bits 1 r1; Bits 63 (kf_last_received_position k); Raw (part (kf_data k))]
  | FRequestResponse q => header r (rr_stream_id q) 0x04 w ++ payload_fields (rr_payload q)
  | FRequestFnf q => header r (fnf_stream_id q) 0x05 w ++ payload_fields (fnf_payload q)
  | FRequestStream q =>
      header r (rs_stream_id q) 0x06 w ++
      [Bits 1 r1; Bits 31 (rs_initial_request_n q)] ++ payload_fields (rs_payload q)
  | FRequestChannel q =>
      header r (rc_stream_id q) 0x07 w ++
      [Bits 1 r1; Bits 31 (rc_initial_request_n q)] ++ payload_fields (rc_payload q)
  | FRequestN q =>
      header r (rn_stream_id q) 0x08 w ++ [Bits 1 r1; Bits 31 (rn_request_n q)]
  | FCancel c => header r (cf_stream_id c) 0x09 w
  | FPayload q => header r (pf_stream_id q) 0x0A w ++ payload_fields (pf_payload q)
  | FError e =>
      header r (ef_stream_id e) 0x0B w ++ [Bits 32 (ef_code e); Raw (part (ef_data e))]
  | FMetadataPush m => header r 0 0x0C w ++ [Raw (mp_metadata m)]
  | FResume q =>
      header r 0 0x0D w ++
      [Bits 16 (v_major (rf_version q)); Bits 16 (v_minor (rf_version q));
       Bits 16 (size (rf_resume_token q)); Raw (rf_resume_token q);
       Bits 1 r1; Bits 63 (rf_last_received_server_position q);
       Bits 1 r2; Bits 63 (rf_first_available_client_position q)]
  | FResumeOk q => header r 0 0x0E w ++ [Bits 1 r1; Bits 63 (ro_last_received_client_position q)]
  end.

(** The flag word an encoder must write. *)
Definition flag_word (f : frame) : N :=
  match f with
  | FSetup s => sf_flags s
  | FLease l => if present (lf_metadata l) then 0x080 else 0
  | FKeepalive k => if kf_respond k then 0x040 else 0
  | FRequestResponse q => rr_flags q
  | FRequestFnf q => fnf_flags q
  | FRequestStream q => rs_flags q
  | FRequestChannel q => rc_flags q
  | FPayload q => pf_flags q
  | FMetadataPush _ => 0x080
  | FRequestN _ | FCancel _ | FError _ | FResume _ | FResumeOk _ => 0
  end.

(** What an encoder must produce: reserved bits are 0. *)
Definition layout (f : frame) : list field := wire 0 (flag_word f) 0 0 f.

(** ** Ranges *)

(** A value of the bitflags type: some of the five assigned bits 0x1F0. *)
Definition flags_ok (w : flags) : Prop := w < 512 /\ w mod 16 = 0.

(** What the Rust types guarantee. *)
Definition typed_version (v : version) : Prop := v_major v < 2 ^ 16 /\ v_minor v < 2 ^ 16.
Definition typed (f : frame) : Prop :=
  match f with
  | FSetup s =>
      flags_ok (sf_flags s) /\ typed_version (sf_version s) /\
      sf_keepalive_interval s < 2 ^ 32 /\ sf_keepalive_timeout s < 2 ^ 32
  | FLease l => lf_ttl l < 2 ^ 32 /\ lf_number_of_requests l < 2 ^ 32
  | FKeepalive k => kf_last_received_position k < 2 ^ 64
  | FRequestResponse q => rr_stream_id q < 2 ^ 32 /\ flags_ok (rr_flags q)
  | FRequestFnf q => fnf_stream_id q < 2 ^ 32 /\ flags_ok (fnf_flags q)
  | FRequestStream q =>
      rs_stream_id q < 2 ^ 32 /\ flags_ok (rs_flags q) /\ rs_initial_request_n q < 2 ^ 32
  | FRequestChannel q =>
      rc_stream_id q < 2 ^ 32 /\ flags_ok (rc_flags q) /\ rc_initial_request_n q < 2 ^ 32
  | FRequestN q => rn_stream_id q < 2 ^ 32 /\ rn_request_n q < 2 ^ 32
  | FCancel c => cf_stream_id c < 2 ^ 32
  | FPayload q => pf_stream_id q < 2 ^ 32 /\ flags_ok (pf_flags q)
  | FError e => ef_stream_id e < 2 ^ 32 /\ ef_code e < 2 ^ 32
  | FMetadataPush _ => True
  | FResume q =>
      typed_version (rf_version q) /\
      rf_last_received_server_position q < 2 ^ 64 /\
      rf_first_available_client_position q < 2 ^ 64
  | FResumeOk q => ro_last_received_client_position q < 2 ^ 64
  end.

(** All numeric fields fit the widths drawn in the diagrams, lengths fit their
    length fields.  Parts may be present but empty. *)
Definition small_metadata (p : payload) : Prop := size (part (p_metadata p)) < 2 ^ 24.
Definition in_range (f : frame) : Prop :=
  match f with
  | FSetup s =>
      flags_ok (sf_flags s) /\ typed_version (sf_version s) /\
      sf_keepalive_interval s < 2 ^ 31 /\ sf_keepalive_timeout s < 2 ^ 31 /\
      size (part (sf_resume_token s)) < 2 ^ 16 /\
      size (sf_metadata_mimetype s) < 2 ^ 8 /\ size (sf_data_mimetype s) < 2 ^ 8 /\
      small_metadata (sf_payload s)
  | FLease l => lf_ttl l < 2 ^ 31 /\ lf_number_of_requests l < 2 ^ 31
  | FKeepalive k => kf_last_received_position k < 2 ^ 63
  | FRequestResponse q =>
      rr_stream_id q < 2 ^ 31 /\ flags_ok (rr_flags q) /\ small_metadata (rr_payload q)
  | FRequestFnf q =>
      fnf_stream_id q < 2 ^ 31 /\ flags_ok (fnf_flags q) /\ small_metadata (fnf_payload q)
  | FRequestStream q =>
      rs_stream_id q < 2 ^ 31 /\ flags_ok (rs_flags q) /\ rs_initial_request_n q < 2 ^ 31 /\
      small_metadata (rs_payload q)
  | FRequestChannel q =>
      rc_stream_id q < 2 ^ 31 /\ flags_ok (rc_flags q) /\ rc_initial_request_n q < 2 ^ 31 /\
      small_metadata (rc_payload q)
  | FRequestN q => rn_stream_id q < 2 ^ 31 /\ rn_request_n q < 2 ^ 31
  | FCancel c => cf_stream_id c < 2 ^ 31
  | FPayload q =>
      pf_stream_id q < 2 ^ 31 /\ flags_ok (pf_flags q) /\ small_metadata (pf_payload q)
  | FError e => ef_stream_id e < 2 ^ 31 /\ ef_code e < 2 ^ 32
  | FMetadataPush _ => True
  | FResume q =>
      typed_version (rf_version q) /\ size (rf_resume_token q) < 2 ^ 16 /\
      rf_last_received_server_position q < 2 ^ 63 /\
      rf_first_available_client_position q < 2 ^ 63
  | FResumeOk q => ro_last_received_client_position q < 2 ^ 63
  end.

(** A part that is absent or non-empty. *)
Definition solid (o : option bytes) : Prop := o <> Some [].
Definition solid_payload (p : payload) : Prop := solid (p_metadata p) /\ solid (p_data p).

(** Connection-level and stream-level error codes of the protocol. *)
Definition connection_code (c : N) : Prop :=
  c = 0x001 \/ c = 0x002 \/ c = 0x003 \/ c = 0x004 \/ c = 0x101 \/ c = 0x102.
Definition stream_code (c : N) : Prop :=
  c = 0x201 \/ c = 0x202 \/ c = 0x203 \/ c = 0x204.

(** Consistency between fields. *)
Definition consistent (f : frame) : Prop :=
  match f with
  | FSetup s =>
      (N.testbit (sf_flags s) 6 = true <-> sf_resume_token s <> None) /\
      solid_payload (sf_payload s)
  | FLease l => solid (lf_metadata l)
  | FKeepalive k => solid (kf_data k)
  | FRequestResponse q => solid_payload (rr_payload q)
  | FRequestFnf q => solid_payload (fnf_payload q)
  | FRequestStream q => solid_payload (rs_payload q)
  | FRequestChannel q => solid_payload (rc_payload q)
  | FPayload q => solid_payload (pf_payload q)
  | FError e =>
      (connection_code (ef_code e) -> ef_stream_id e = 0) /\
      (stream_code (ef_code e) -> ef_stream_id e <> 0) /\
      solid (ef_data e)
  | FRequestN _ | FCancel _ | FMetadataPush _ | FResume _ | FResumeOk _ => True
  end.

(** The frames the wire can represent faithfully. *)
Definition fits (f : frame) : Prop := in_range f /\ consistent f.

(** ** What a decoder must accept *)

(** The assigned flag bits of a flag word. *)
Definition assigned (w : N) : N := (w / 16) mod 32 * 16.

(** The flag word [w] says what frame [f] records about flags. *)
Definition carries (w : N) (f : frame) : Prop :=
  match f with
  | FSetup s => sf_flags s = assigned w
  | FKeepalive k => kf_respond k = N.testbit w 6
  | FRequestResponse q => rr_flags q = assigned w
  | FRequestFnf q => fnf_flags q = assigned w
  | FRequestStream q => rs_flags q = assigned w
  | FRequestChannel q => rc_flags q = assigned w
  | FPayload q => pf_flags q = assigned w
  | FLease _ | FRequestN _ | FCancel _ | FError _ | FMetadataPush _ | FResume _ | FResumeOk _ => True
  end.

(** Kinds whose last field extends to the end of the input. *)
Definition open_ended (f : frame) : Prop :=
  match f with
  | FRequestN _ | FCancel _ | FResume _ | FResumeOk _ => False
  | _ => True
  end.

(** [input] starts with a wire image of [f], with arbitrary reserved bits, and
    [rest] is what follows it. *)
Definition parses (input : bytes) (f : frame) (rest : bytes) : Prop :=
  exists pre r w r1 r2,
    r < 2 /\ w < 1024 /\ r1 < 2 /\ r2 < 2 /\
    carries w f /\ fits f /\
    input = pre ++ rest /\
    bytes_bits pre = render (wire r w r1 r2 f) /\
    (open_ended f -> rest = []).

(** ** Why a decoder must reject *)

(** The header of an input of at least six bytes. *)
Definition has_header (input : bytes) (sid code w : N) : Prop :=
  exists r hd body,
    r < 2 /\ sid < 2 ^ 31 /\ code < 64 /\ w < 1024 /\
    input = hd ++ body /\ bytes_bits hd = render (header r sid code w).
(** Header followed by a 32-bit word. *)
Definition has_error_code (input : bytes) (c : N) : Prop :=
  exists hd w32 body,
    input = hd ++ w32 ++ body /\ length hd = 6%nat /\
    c < 2 ^ 32 /\ bytes_bits w32 = bits 32 c.

Definition known_code (c : N) : Prop := (0x01 <= c <= 0x0E) \/ c = 0x3F.
(** SETUP, LEASE, KEEPALIVE, METADATA_PUSH, RESUME, RESUME_OK *)
Definition connection_kind (c : N) : Prop :=
  c = 0x01 \/ c = 0x02 \/ c = 0x03 \/ c = 0x0C \/ c = 0x0D \/ c = 0x0E.

(** The outcome of decoding, by the first rule that applies. *)
Inductive outcome (input : bytes) : dres frame -> Prop :=
| O_short :
    (length input < 6)%nat -> outcome input (DErr InComplete)
| O_unknown sid code w :
    has_header input sid code w -> ~ known_code code ->
    outcome input (DErr (UnrecognizedFrameType code))
| O_ext sid w :
    has_header input sid 0x3F w -> outcome input DPanic
| O_connection sid code w :
    has_header input sid code w -> connection_kind code -> sid <> 0 ->
    outcome input (DErr (InvalidStreamId "0" sid))
| O_error_connection sid w c :
    has_header input sid 0x0B w -> has_error_code input c ->
    connection_code c -> sid <> 0 ->
    outcome input (DErr (InvalidStreamId "0" sid))
| O_error_stream w c :
    has_header input 0 0x0B w -> has_error_code input c ->
    stream_code c ->
    outcome input (DErr (InvalidStreamId "> 0" 0))
| O_ok f rest :
    parses input f rest -> outcome input (DOk f)
| O_body sid code w :
    has_header input sid code w -> known_code code -> code <> 0x3F ->
    (connection_kind code -> sid = 0) ->
    (forall c, code = 0x0B -> ~ has_error_code input c) ->
    (forall f rest, ~ parses input f rest) ->
    outcome input (DErr InComplete).
