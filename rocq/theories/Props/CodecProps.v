(** * Properties of the frame codec: C01-C09, C11-C16, C51, C56, C61, C84, C85 *)

From Verif Require Import Model.FrameM Spec.Codec Proofs.BitsP Proofs.DecodeP Proofs.StableP Proofs.BackP Proofs.SegmentP Proofs.StallP Proofs.FlagsP.

(** Concrete frames used by the examples. *)
Definition ex_payload : payload := Payload (Some (map n2b [1; 2])) (Some (map n2b [3; 4; 5])).
Definition ex_setup : frame :=
  FSetup (SetupFrame 0xC0 (Version 1 0) 30000 60000 (Some (map n2b [9; 9]))
            (map n2b [0x61]) (map n2b [0x62; 0x63]) ex_payload).
Definition ex_stream : frame := FRequestStream (RequestStreamFrame 7 0x80 10 ex_payload).
Definition ex_error : frame := FError (ErrorFrame 5 0x201 (Some (map n2b [0x6f; 0x6f]))).
Definition ex_resume : frame := FResume (ResumeFrame (Version 1 0) (map n2b [1; 2; 3]) 77 88).
Definition ex_hollow : frame :=
  FPayload (PayloadFrame 3 0x20 (Payload (Some []) (Some (map n2b [1])))).

Ltac decide_all :=
  repeat match goal with |- _ /\ _ => split end;
  try reflexivity; try discriminate; try (intros; discriminate); try (intros; congruence).

(** ** C01: a frame survives the wire exactly when its fields fit *)

Theorem C01_roundtrip : forall f, fits f ->
  exists bs, (forall buf, frame_encode f buf = EOk (buf ++ bs)) /\ decode bs = (DOk f, []).
Proof. exact roundtrip. Qed.
Print Assumptions C01_roundtrip.

Theorem C01_roundtrip_only_fitting : forall f bs rest,
  frame_encode f [] = EOk bs -> decode bs = (DOk f, rest) -> fits f.
Proof. exact roundtrip_only. Qed.
Print Assumptions C01_roundtrip_only_fitting.

Example C01_setup_fits : fits ex_setup.
Proof.
  unfold fits, ex_setup. cbn [in_range consistent]. cbn. unfold flags_ok, typed_version, small_metadata, solid_payload, solid.
  cbn. decide_all; split; intros; congruence.
Qed.
Example C01_setup_bytes : frame_encode ex_setup [] = EOk (map n2b
  [0;0;0;0; 0x04;0xC0; 0;1;0;0; 0;0;0x75;0x30; 0;0;0xEA;0x60; 0;2;9;9; 1;0x61; 2;0x62;0x63;
   0;0;2;1;2;3;4;5]).
Proof. vm_compute. reflexivity. Qed.
Example C01_error_fits : fits ex_error.
Proof.
  unfold fits. cbn. unfold connection_code, stream_code, solid. decide_all; lia.
Qed.
Example C01_resume_fits : fits ex_resume.
Proof. unfold fits. cbn. unfold typed_version. decide_all. Qed.

(** ** C02: present-but-empty parts come back absent, everything else is kept *)

Theorem C02_empty_parts : forall f, in_range f -> coherent f ->
  exists bs, (forall buf, frame_encode f buf = EOk (buf ++ bs)) /\
    decode bs = (DOk (drop_empty_parts f), []).
Proof. exact roundtrip_drop. Qed.
Print Assumptions C02_empty_parts.

Theorem C02_exact_iff : forall f bs, in_range f -> coherent f -> frame_encode f [] = EOk bs ->
  (decode bs = (DOk f, []) <-> ~ has_empty_part f).
Proof. exact roundtrip_exact_iff. Qed.
Print Assumptions C02_exact_iff.

Example C02_hollow : in_range ex_hollow /\ coherent ex_hollow /\ has_empty_part ex_hollow /\
  drop_empty_parts ex_hollow = FPayload (PayloadFrame 3 0x20 (Payload None (Some (map n2b [1])))).
Proof.
  unfold ex_hollow, has_empty_part, drop_empty_parts. cbn. unfold flags_ok, small_metadata. decide_all. auto.
Qed.

(** ** C03: decoding any bytes terminates and panics only on extension frames *)

Theorem C03_panic_iff_ext : forall input,
  fst (decode input) = DPanic <-> exists sid w, has_header input sid 0x3F w.
Proof. exact decode_panic_iff. Qed.
Print Assumptions C03_panic_iff_ext.

Theorem C03_total : forall input,
  match fst (decode input) with
  | DOk _ => True
  | DErr _ => True
  | DPanic => exists sid w, has_header input sid 0x3F w
  | DLoop => False
  end.
Proof. exact decode_total. Qed.
Print Assumptions C03_total.

Example C03_ext : fst (decode (map n2b [0;0;0;1; 0xFC;0; 1;2;3])) = DPanic.
Proof. vm_compute. reflexivity. Qed.
Example C03_garbage : fst (decode (map n2b [0xFF;0xFF;0xFF;0xFF; 0x10;0xFF; 0xFF;0xFF;0xFF])) = DErr InComplete.
Proof. vm_compute. reflexivity. Qed.

(** ** C04: what is left is a suffix of the input; exact consumption per kind *)

Theorem C04_consumption : forall input, exists consumed,
  input = consumed ++ snd (decode input) /\
  ((length input < 6)%nat -> consumed = []) /\
  forall f, fst (decode input) = DOk f ->
    match f with
    | FCancel _ => length consumed = 6%nat
    | FRequestN _ => length consumed = 10%nat
    | FResumeOk _ => length consumed = 14%nat
    | FResume q => length consumed = (28 + length (rf_resume_token q))%nat
    | _ => snd (decode input) = []
    end.
Proof. exact decode_consumes. Qed.
Print Assumptions C04_consumption.

Example C04_cancel : decode (map n2b [0;0;0;5; 0x24;0; 0xAA;0xBB]) =
  (DOk (FCancel (CancelFrame 5)), map n2b [0xAA; 0xBB]).
Proof. vm_compute. reflexivity. Qed.

(** ** C05, C06: decoded frames re-encode to the size consumed and decode again *)

Theorem C05_C06_reencode : forall input f rest, decode input = (DOk f, rest) ->
  exists bs, frame_encode f [] = EOk bs /\ decode bs = (DOk f, []) /\
    length input = (length bs + length rest)%nat.
Proof. exact decode_stable. Qed.
Print Assumptions C05_C06_reencode.

(** Non-canonical input (reserved bits set) that is accepted. *)
Example C05_noncanonical : decode (map n2b [0x80;0;0;5; 0x22;0x0F; 0x80;0;0;9; 7]) =
  (DOk (FRequestN (RequestNFrame 5 9)), map n2b [7]).
Proof. vm_compute. reflexivity. Qed.

(** ** C07: len() is the number of bytes encoded, plus 2 for SETUP without token *)

Theorem C07_len : forall f buf out, typed f -> frame_encode f buf = EOk out ->
  exists bs, out = buf ++ bs /\ frame_to_bytes f = Ret bs /\
    frame_len f = size bs + (match f with
                             | FSetup s => if present (sf_resume_token s) then 0 else 2
                             | _ => 0
                             end) /\
    frame_is_empty f = false.
Proof. exact encode_len. Qed.
Print Assumptions C07_len.

Example C07_setup_without_token :
  let f := FSetup (SetupFrame 0 (Version 1 0) 30000 60000 None [] [] (Payload None None)) in
  typed f /\ frame_len f = 25 /\
  match frame_encode f [] with EOk bs => size bs = 23 | EPanic _ => False end.
Proof. vm_compute. decide_all. Qed.

(** ** C08: encoding appends, and panics only on metadata of 2^24 bytes or more *)

Theorem C08_appends_or_oversized : forall f, typed f ->
  ((forall p, payload_of f = Some p -> size (part (p_metadata p)) < 2 ^ 24) /\
   exists bs, forall buf, frame_encode f buf = EOk (buf ++ bs)) \/
  (exists p pre, payload_of f = Some p /\ 2 ^ 24 <= size (part (p_metadata p)) /\
     forall buf, frame_encode f buf = EPanic (buf ++ pre) /\
       frame_encode (set_payload f (Payload None None)) buf = EOk (buf ++ pre ++ map n2b [0; 0; 0])).
Proof. exact encode_total. Qed.
Print Assumptions C08_appends_or_oversized.

(** [to_bytes] returns what [encode] appends, and panics on the same frames. *)
Theorem C08_to_bytes : forall f, typed f ->
  ((forall p, payload_of f = Some p -> size (part (p_metadata p)) < 2 ^ 24) /\
   exists bs, frame_to_bytes f = Ret bs /\ forall buf, frame_encode f buf = EOk (buf ++ bs)) \/
  (frame_to_bytes f = Panic /\
   exists p, payload_of f = Some p /\ 2 ^ 24 <= size (part (p_metadata p))).
Proof. exact to_bytes_total. Qed.
Print Assumptions C08_to_bytes.

(** Both branches occur. *)
Example C08_small : typed ex_stream /\ frame_encode ex_stream [n2b 0xAA] = EOk (map n2b
  [0xAA; 0;0;0;7; 0x18;0x80; 0;0;0;10; 0;0;2;1;2;3;4;5]).
Proof. split; [vm_compute; decide_all|vm_compute; reflexivity]. Qed.
Example C08_oversized : forall m, size m = 2 ^ 24 ->
  frame_encode (FPayload (PayloadFrame 1 0x80 (Payload (Some m) None))) [] =
  EPanic (map n2b [0;0;0;1; 0x28;0x80]).
Proof.
  intros m H. cbn [frame_encode]. unfold payload_frame_encode, enc_seq, put_u32, put_u16.
  unfold put_metadata_len. cbn [payload_metadata p_metadata pf_payload].
  change (blen m) with (size m). rewrite H. reflexivity.
Qed.

Example C08_to_bytes_example : typed ex_stream /\ frame_to_bytes ex_stream = Ret (map n2b
  [0;0;0;7; 0x18;0x80; 0;0;0;10; 0;0;2;1;2;3;4;5]).
Proof. split; [vm_compute; decide_all|vm_compute; reflexivity]. Qed.

(** ** C09: the bytes are the documented fields, in order, big-endian *)

Theorem C09_layout : forall f buf, in_range f -> exists bs,
  frame_encode f buf = EOk (buf ++ bs) /\ bytes_bits bs = render (layout f).
Proof. exact encode_layout. Qed.
Print Assumptions C09_layout.

Example C09_example : in_range ex_stream /\
  layout ex_stream =
  [Bits 1 0; Bits 31 7; Bits 6 6; Bits 10 0x80; Bits 1 0; Bits 31 10;
   Bits 24 2; Raw (map n2b [1; 2]); Raw (map n2b [3; 4; 5])].
Proof. split; [cbn; unfold flags_ok, small_metadata; decide_all|reflexivity]. Qed.

(** ** C11: the decoder is exactly the grammar; every rejection has its reason *)

Theorem C11_accepts_iff_parses : forall input f rest,
  decode input = (DOk f, rest) <-> parses input f rest.
Proof. exact decode_ok_iff. Qed.
Print Assumptions C11_accepts_iff_parses.

Theorem C11_outcome : forall input o, outcome input o <-> fst (decode input) = o.
Proof. exact outcome_iff. Qed.
Print Assumptions C11_outcome.

Example C11_parse : parses (map n2b [0x80;0;0;5; 0x22;0x0F; 0x80;0;0;9; 7])
  (FRequestN (RequestNFrame 5 9)) (map n2b [7]).
Proof.
  exists (map n2b [0x80;0;0;5; 0x22;0x0F; 0x80;0;0;9]), 1, 0x20F, 1, 0.
  unfold fits. cbn [carries in_range consistent rn_stream_id rn_request_n].
  repeat match goal with |- _ /\ _ => split end; try reflexivity; try exact I. intros [].
Qed.

(** ** C12: connection-level kinds require stream id 0 *)

Theorem C12_stream_zero : forall input sid c w, has_header input sid c w -> c <> 0x0B ->
  forall e s, fst (decode input) = DErr (InvalidStreamId e s) <->
    connection_kind c /\ sid <> 0 /\ e = "0"%string /\ s = sid.
Proof. exact invalid_stream_id_iff. Qed.
Print Assumptions C12_stream_zero.

Example C12_keepalive_on_stream_4 :
  has_header (map n2b [0;0;0;4; 0x0C;0]) 4 0x03 0 /\
  fst (decode (map n2b [0;0;0;4; 0x0C;0])) = DErr (InvalidStreamId "0" 4).
Proof.
  split; [|reflexivity]. exists 0, (map n2b [0;0;0;4; 0x0C;0]), [].
  decide_all.
Qed.

(** ** C13: ERROR codes against stream ids *)

Theorem C13_error_rules : forall input sid w c,
  has_header input sid 0x0B w -> has_error_code input c ->
  (connection_code c -> sid <> 0 -> fst (decode input) = DErr (InvalidStreamId "0" sid)) /\
  (stream_code c -> sid = 0 -> fst (decode input) = DErr (InvalidStreamId "> 0" 0)) /\
  ((connection_code c -> sid = 0) -> (stream_code c -> sid <> 0) ->
     exists d, fst (decode input) = DOk (FError (ErrorFrame sid c d))).
Proof. exact error_frame_iff. Qed.
Print Assumptions C13_error_rules.

Theorem C13_error_sound : forall input e rest, decode input = (DOk (FError e), rest) ->
  (connection_code (ef_code e) -> ef_stream_id e = 0) /\
  (stream_code (ef_code e) -> ef_stream_id e <> 0).
Proof. exact error_frame_sound. Qed.
Print Assumptions C13_error_sound.

Example C13_custom_code_any_stream :
  fst (decode (map n2b [0;0;0;4; 0x2C;0; 0;0;3;1; 0x6f])) =
    DOk (FError (ErrorFrame 4 0x301 (Some (map n2b [0x6f])))) /\
  fst (decode (map n2b [0;0;0;4; 0x2C;0; 0;0;1;1])) = DErr (InvalidStreamId "0" 4) /\
  fst (decode (map n2b [0;0;0;0; 0x2C;0; 0;0;2;1])) = DErr (InvalidStreamId "> 0" 0).
Proof. vm_compute. decide_all. Qed.

(** ** C14: unknown types *)

Theorem C14_unknown_type : forall input sid c w, has_header input sid c w ->
  forall v, fst (decode input) = DErr (UnrecognizedFrameType v) <-> ~ known_code c /\ v = c.
Proof. exact unknown_type_iff. Qed.
Print Assumptions C14_unknown_type.

Theorem C14_unknown_needs_header : forall input v,
  fst (decode input) = DErr (UnrecognizedFrameType v) -> exists sid w, has_header input sid v w.
Proof. exact unknown_type_needs_header. Qed.
Print Assumptions C14_unknown_needs_header.

Example C14_type_zero : fst (decode (map n2b [0;0;0;1; 0;0])) = DErr (UnrecognizedFrameType 0) /\
  fst (decode (map n2b [0;0;0;1; 0x3C;0])) = DErr (UnrecognizedFrameType 0x0F).
Proof. vm_compute. decide_all. Qed.

(** ** C15: what happens when more bytes arrive *)

Theorem C15_errors_stable : forall input ext o,
  fst (decode input) = o -> o <> DErr InComplete -> (forall f, o <> DOk f) ->
  fst (decode (input ++ ext)) = o.
Proof. exact decode_error_stable. Qed.
Print Assumptions C15_errors_stable.

Theorem C15_accepted_extends : forall input f rest ext, decode input = (DOk f, rest) ->
  decode (input ++ ext) =
  (DOk (extend f ext),
   match f with FRequestN _ | FCancel _ | FResume _ | FResumeOk _ => rest ++ ext | _ => [] end).
Proof. exact decode_extend. Qed.
Print Assumptions C15_accepted_extends.

(** No input of 2^24 + 2^17 bytes or more is ever incomplete. *)
Theorem C15_incomplete_bounded : forall input, 2 ^ 24 + 2 ^ 17 <= size input ->
  fst (decode input) <> DErr InComplete.
Proof. exact decode_plenty. Qed.
Print Assumptions C15_incomplete_bounded.

Theorem C15_incomplete_can_be_completed : forall input, exists ext,
  fst (decode (input ++ ext)) <> DErr InComplete.
Proof. exact incomplete_extension. Qed.
Print Assumptions C15_incomplete_can_be_completed.

Example C15_example :
  let input := map n2b [0;0;0;1; 0x28;0x80; 0;0;2; 1] in
  fst (decode input) = DErr InComplete /\
  fst (decode (input ++ map n2b [2])) =
    DOk (FPayload (PayloadFrame 1 0x80 (Payload (Some (map n2b [1; 2])) None))) /\
  extend (FPayload (PayloadFrame 1 0x80 (Payload (Some (map n2b [1; 2])) None))) (map n2b [3]) =
    FPayload (PayloadFrame 1 0x80 (Payload (Some (map n2b [1; 2])) (Some (map n2b [3])))).
Proof. vm_compute. decide_all. Qed.

(** ** C16: reserved bits are ignored *)

Theorem C16_header : forall hd hd' body r r' sid c w w',
  r < 2 -> r' < 2 -> sid < 2 ^ 31 -> c < 64 -> w < 1024 -> w' < 1024 -> assigned w = assigned w' ->
  bytes_bits hd = render (header r sid c w) -> bytes_bits hd' = render (header r' sid c w') ->
  decode (hd ++ body) = decode (hd' ++ body).
Proof. exact header_reserved_spec. Qed.
Print Assumptions C16_header.

Theorem C16_body : forall pre x y post sid c w,
  has_header (pre ++ x :: post) sid c w ->
  reserved_at (pre ++ x :: post) c (length pre) ->
  bits 7 (Coq.Strings.Byte.to_N x) = bits 7 (Coq.Strings.Byte.to_N y) ->
  fst (decode (pre ++ x :: post)) = fst (decode (pre ++ y :: post)).
Proof. exact body_reserved. Qed.
Print Assumptions C16_body.
(** An accepted input is accepted as the same frame with the same rest. *)
Theorem C16_body_accepted : forall pre x y post sid c w f rest,
  has_header (pre ++ x :: post) sid c w -> reserved_at (pre ++ x :: post) c (length pre) ->
  bits 7 (Coq.Strings.Byte.to_N x) = bits 7 (Coq.Strings.Byte.to_N y) ->
  decode (pre ++ x :: post) = (DOk f, rest) -> decode (pre ++ y :: post) = (DOk f, rest).
Proof. exact body_reserved_all. Qed.
Print Assumptions C16_body_accepted.

Example C16_example : assigned 0x30F = assigned 0x100 /\
  decode (map n2b [0x80;0;0;1; 0x2B;0x0F; 0;0;0;1]) = decode (map n2b [0;0;0;1; 0x29;0x00; 0;0;0;1]) /\
  fst (decode (map n2b [0;0;0;0; 0x38;0; 0x80;0;0;0;0;0;0;1])) =
    DOk (FResumeOk (ResumeOkFrame 1)).
Proof. vm_compute. decide_all. Qed.
Example C16_body_example :
  let pre := map n2b [0;0;0;0; 0x34;0; 0;1;0;0; 0;1; 0xEE] in
  let post := map n2b [0;0;0;0;0;0;1; 0;0;0;0;0;0;0;2] in
  reserved_at (pre ++ n2b 0x80 :: post) 0x0D (length pre) /\
  has_header (pre ++ n2b 0x80 :: post) 0 0x0D 0 /\
  decode (pre ++ n2b 0x80 :: post ++ map n2b [9]) =
    (DOk (FResume (ResumeFrame (Version 1 0) (map n2b [0xEE]) 1 2)), map n2b [9]).
Proof.
  cbv zeta. split.
  - apply (R_resume_server _ (map n2b [0;0;0;0; 0x34;0; 0;1;0;0]) (map n2b [0;1])
      (map n2b [0xEE; 0x80;0;0;0;0;0;0;1; 0;0;0;0;0;0;0;2])) with (n := 1); reflexivity.
  - split; [|vm_compute; reflexivity]. exists 0, (map n2b [0;0;0;0; 0x34;0]),
      (map n2b [0;1;0;0; 0;1; 0xEE; 0x80;0;0;0;0;0;0;1; 0;0;0;0;0;0;0;2]). decide_all.
Qed.

(** ** C51: unambiguous encoding *)

Theorem C51_injective : forall f g bs, fits f -> fits g ->
  frame_encode f [] = EOk bs -> frame_encode g [] = EOk bs -> f = g.
Proof. exact encode_injective. Qed.
Print Assumptions C51_injective.

Theorem C51_prefix_free : forall f g bs ext, fits f -> fits g -> ~ open_ended f ->
  frame_encode f [] = EOk bs -> frame_encode g [] = EOk (bs ++ ext) -> f = g /\ ext = [].
Proof. exact encode_prefix_free. Qed.
Print Assumptions C51_prefix_free.

(** Two frames that meet the hypotheses, of which one has no end of its own, and their encodings. *)
Example C51_example : fits (FCancel (CancelFrame 7)) /\ ~ open_ended (FCancel (CancelFrame 7)) /\ fits ex_error /\ open_ended ex_error /\
  frame_encode (FCancel (CancelFrame 7)) [] = EOk (map n2b [0; 0; 0; 7; 0x24; 0]) /\
  frame_encode ex_error [] = EOk (map n2b [0; 0; 0; 5; 0x2C; 0; 0; 0; 2; 1; 0x6f; 0x6f]).
Proof.
  split; [unfold fits; cbn; decide_all|]. split; [intros []|]. split; [exact C01_error_fits|]. split; [exact I|].
  split; vm_compute; reflexivity.
Qed.

(** Without [fits] it fails: present-but-empty data encodes like absent data. *)
Example C51_needs_fits :
  frame_encode (FPayload (PayloadFrame 1 0 (Payload None (Some [])))) [] =
  frame_encode (FPayload (PayloadFrame 1 0 (Payload None None))) [].
Proof. reflexivity. Qed.

(** ** C56: truncation *)

Theorem C56_truncation : forall f bs, fits f -> frame_encode f [] = EOk bs ->
  exists pre, bs = pre ++ open_tail f /\
    (forall l m, open_tail f = l ++ m -> decode (pre ++ l) = (DOk (with_open_tail f l), [])) /\
    (forall a b, pre = a ++ b -> b <> [] -> fst (decode a) = DErr InComplete).
Proof. exact decode_truncate. Qed.
Print Assumptions C56_truncation.

Example C56_example : fits ex_stream /\ frame_encode ex_stream [] = EOk (map n2b [0;0;0;7; 0x18;0x80; 0;0;0;10; 0;0;2;1;2;3;4;5]) /\
  open_tail ex_stream = map n2b [3; 4] ++ map n2b [5] /\
  fst (decode (map n2b [0;0;0;7; 0x18;0x80; 0;0;0;10; 0;0;2;1;2;3;4])) =
    DOk (FRequestStream (RequestStreamFrame 7 0x80 10
      (Payload (Some (map n2b [1; 2])) (Some (map n2b [3; 4]))))) /\
  fst (decode (map n2b [0;0;0;7; 0x18;0x80; 0;0;0;10; 0;0;2;1])) = DErr InComplete.
Proof. vm_compute. decide_all. Qed.

(** ** C61: frames encoded one after the other *)

(** Frames written into one buffer are recovered by decoding until it is empty
    exactly when all but the last have a fixed end. *)
Theorem C61_back_to_back : forall fs bs, Forall fits fs -> writes frame_encode [] fs bs ->
  (reads decode bs fs <-> forall l f r, fs = l ++ f :: r -> r <> [] -> ~ open_ended f).
Proof. exact back_to_back. Qed.
Print Assumptions C61_back_to_back.

(** Otherwise the open-ended frame takes everything that follows as its own content. *)
Theorem C61_swallows : forall f fs bs, Forall fits (f :: fs) -> open_ended f ->
  writes frame_encode [] (f :: fs) bs ->
  exists ext, writes frame_encode [] fs ext /\ decode bs = (DOk (extend f ext), []).
Proof. exact swallows. Qed.
Print Assumptions C61_swallows.

Definition ex_two : list frame := [FRequestN (RequestNFrame 7 3); FCancel (CancelFrame 7); ex_error].
Example C61_example : Forall fits ex_two /\
  exists bs, writes frame_encode [] ex_two bs /\ reads decode bs ex_two /\ size bs = 28.
Proof.
  split.
  - unfold ex_two. constructor; [|constructor; [|constructor; [exact C01_error_fits|constructor]]];
      unfold fits; cbn; decide_all.
  - eexists. split; [|split].
    + unfold ex_two. do 3 (econstructor; [vm_compute; reflexivity|]). constructor.
    + unfold ex_two. do 3 (econstructor; [vm_compute; reflexivity|]). constructor.
    + reflexivity.
Qed.
Example C61_swallow_example : exists bs, writes frame_encode [] [ex_error; FCancel (CancelFrame 7)] bs /\
  decode bs = (DOk (FError (ErrorFrame 5 0x201 (Some (map n2b [0x6f; 0x6f; 0; 0; 0; 7; 0x24; 0])))), []).
Proof. eexists. split; [do 2 (econstructor; [vm_compute; reflexivity|]); constructor|vm_compute; reflexivity]. Qed.

(** ** C84: frames arriving in segments *)

(** A reader decodes what has arrived after each segment and keeps what is not yet a frame.  It
    gets the same frames and the same rest or error as from all bytes at once, however they
    are cut, as long as the frames have a fixed end. *)
Theorem C84_segments : forall segs fs e, Forall (fun f => ~ open_ended f) fs ->
  (receives decode [] segs fs e <-> drains decode (concat segs) fs e).
Proof. intros segs fs e. exact (segments_iff segs [] fs e decode_nothing). Qed.
Print Assumptions C84_segments.
(** For all segments it gets something, and one thing only. *)
Theorem C84_one : forall segs, exists fs e, receives decode [] segs fs e /\
  forall fs' e', receives decode [] segs fs' e' -> fs' = fs /\ e' = e.
Proof. exact receives_one. Qed.
Print Assumptions C84_one.
(** Of frames with a fixed end, exactly those have been delivered which have arrived completely. *)
Theorem C84_arrived : forall fs bs segs missing, Forall fits fs -> Forall (fun f => ~ open_ended f) fs ->
  writes frame_encode [] fs bs -> concat segs ++ missing = bs ->
  exists done todo pending, fs = done ++ todo /\ receives decode [] segs done (Waiting pending) /\
    (exists b, writes frame_encode [] done b /\ concat segs = b ++ pending) /\
    match todo with
    | [] => pending = []
    | g :: _ => exists b, frame_encode g [] = EOk b /\ (length pending < length b)%nat
    end.
Proof. exact segments_arrived. Qed.
Print Assumptions C84_arrived.
(** Any other frame cut in its last part is delivered without the bytes that have not arrived. *)
Theorem C84_early : forall f bs seg m, fits f -> frame_encode f [] = EOk bs -> bs = seg ++ m ->
  (length m <= length (open_tail f))%nat -> m <> [] ->
  exists l, open_tail f = l ++ m /\ with_open_tail f l <> f /\
    receives decode [] [seg] [with_open_tail f l] (Waiting []).
Proof. exact segments_early. Qed.
Print Assumptions C84_early.

(** REQUEST_N and CANCEL in three segments, then an unknown type. *)
Definition ex_segs : list bytes :=
  [map n2b [0;0;0;7; 0x20]; []; map n2b [0; 0;0;0;3; 0;0;0;7; 0x24]; map n2b [0; 0;0;0;1; 0x3C;0]; map n2b [9]].
Example C84_example :
  receives decode [] ex_segs [FRequestN (RequestNFrame 7 3); FCancel (CancelFrame 7)] (Stopped (DErr (UnrecognizedFrameType 15))) /\
  receives decode [] (firstn 3 ex_segs) [FRequestN (RequestNFrame 7 3)] (Waiting (map n2b [0;0;0;7; 0x24])).
Proof.
  split; apply C84_segments; try (repeat constructor; cbn; tauto).
  - eapply Dr_frame; [vm_compute; reflexivity|]. eapply Dr_frame; [vm_compute; reflexivity|].
    apply Dr_stop; [vm_compute; reflexivity|discriminate|discriminate].
  - eapply Dr_frame; [vm_compute; reflexivity|]. now apply Dr_wait.
Qed.
(** An ERROR frame cut in its data. *)
Example C84_early_example : exists bs, fits ex_error /\ frame_encode ex_error [] = EOk (bs ++ map n2b [0x6f]) /\
  open_tail ex_error = map n2b [0x6f; 0x6f] /\
  receives decode [] [bs] [FError (ErrorFrame 5 0x201 (Some (map n2b [0x6f])))] (Waiting []).
Proof.
  exists (map n2b [0;0;0;5; 0x2C;0; 0;0;2;1; 0x6f]). split; [exact C01_error_fits|]. split; [vm_compute; reflexivity|]. split; [reflexivity|].
  apply (Rc_more decode [] _ [] [_] [] []); [|constructor]. eapply Dr_frame; [vm_compute; reflexivity|]. now apply Dr_wait.
Qed.

(** ** C85: where a failed decoding leaves the buffer *)

Theorem C85_stalled : forall input rest, decode input = (DErr InComplete, rest) <-> stalls input rest.
Proof. exact stall_iff. Qed.
Print Assumptions C85_stalled.

(** After any other error the header is gone, of an ERROR frame its code too. *)
Theorem C85_rejected : forall input e rest sid code w, decode input = (DErr e, rest) -> e <> InComplete ->
  has_header input sid code w -> rest = skipn (if code =? 0x0B then 10 else 6) input.
Proof. exact rejected_at. Qed.
Print Assumptions C85_rejected.

(** Once the header has arrived, decoding what is left again when the missing bytes are there does not give the frame. *)
Theorem C85_retry : forall f bs seg m rest, frame_encode f [] = EOk bs -> bs = seg ++ m ->
  decode seg = (DErr InComplete, rest) -> (6 <= length seg)%nat -> fst (decode (rest ++ m)) <> DOk f.
Proof. exact retry_lost. Qed.
Print Assumptions C85_retry.

(** A PAYLOAD frame whose metadata has the form of a CANCEL frame of another stream: cut behind the length, the
    second attempt delivers that frame. *)
Definition ex_smuggle : bytes := map n2b [0;0;0;5; 0x24;0].
Example C85_smuggled : exists seg,
  let f := FPayload (PayloadFrame 1 0x80 (Payload (Some ex_smuggle) None)) in
  fits f /\ frame_encode f [] = EOk (seg ++ ex_smuggle) /\ (6 <= length seg)%nat /\
  decode seg = (DErr InComplete, []) /\ decode ex_smuggle = (DOk (FCancel (CancelFrame 5)), []).
Proof. exists (map n2b [0;0;0;1; 0x28;0x80; 0;0;6]). vm_compute. decide_all. lia. Qed.
(** A SETUP frame that ends in its first length. *)
Example C85_example : let b := map n2b [0;0;0;0; 4;0; 0;1;0;0; 0;0;0x75;0x30; 0;0;0xea;0x60; 3] in
  stalls b (map n2b [3]) /\ stalls (b ++ map n2b [0x61]) (map n2b [0x61]).
Proof. split; apply C85_stalled; vm_compute; reflexivity. Qed.
(** An ERROR frame with a stream code on stream 0. *)
Example C85_rejected_example :
  decode (map n2b [0;0;0;0; 0x2C;0; 0;0;2;1; 7; 8]) = (DErr (InvalidStreamId "> 0" 0), map n2b [7; 8]).
Proof. vm_compute. reflexivity. Qed.
