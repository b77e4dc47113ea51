(** * Texts: C44-C47, C50, C55, C57, C64, C80 *)

From Coq Require Import Ascii.
From Verif Require Import Model.MimeM Model.ErrorM Model.Utf8M Spec.Text.
From Verif Require Import Proofs.TextP Proofs.Utf8P Proofs.Utf8ErrP Proofs.TextsP Proofs.DebugP.

(** ** C44: recognising MIME types *)

(** A string is recognised as a type exactly when the table says so. *)
Theorem C44_recognised : forall v t, t <> M_UNPARSEABLE ->
  (mime_from v = t <-> In (v, t) mime_table).
Proof. exact mime_from_iff. Qed.
Print Assumptions C44_recognised.

(** All others are unparseable. *)
Theorem C44_others : forall v, mime_from v = M_UNPARSEABLE <-> ~ In v (map fst mime_table).
Proof. exact mime_unparseable_iff. Qed.
Print Assumptions C44_others.

Theorem C44_distinct : forall v w,
  mime_from v <> M_UNPARSEABLE -> mime_from v = mime_from w -> v = w.
Proof. exact mime_from_inj. Qed.
Print Assumptions C44_distinct.

(** There are 47 strings, and every type but UNPARSEABLE has one. *)
Theorem C44_complete : length mime_table = 47%nat /\
  forall t, t <> M_UNPARSEABLE -> exists v, mime_from v = t.
Proof. exact mime_complete. Qed.
Print Assumptions C44_complete.

Example C44_example :
  mime_from "audio/mpeg" = M_AUDIO_MPEG /\ mime_from "audio/mpeg3" = M_AUDIO_MPEG3 /\
  mime_from "Audio/mpeg" = M_UNPARSEABLE /\ mime_from DEFAULT_MIMETYPE = M_UNPARSEABLE.
Proof. repeat split. Qed.

(** ** C45: back to a string *)

(** The conversion calls itself on the same value. *)
Theorem C45_diverges : forall t, t <> M_UNPARSEABLE -> forall fuel, mime_into fuel t = Loop.
Proof. exact mime_into_loops. Qed.
Print Assumptions C45_diverges.

(** So the claim fails, and it fails for every string recognised. *)
Theorem C45_refuted : ~ forall v, mime_from v <> M_UNPARSEABLE ->
  exists fuel, mime_into fuel (mime_from v) = Ret v.
Proof. exact mime_round_trip_fails. Qed.
Print Assumptions C45_refuted.

Theorem C45_never : forall v fuel, mime_from v <> M_UNPARSEABLE ->
  mime_into fuel (mime_from v) <> Ret v.
Proof. exact mime_never_returns. Qed.
Print Assumptions C45_never.

(** Strings that are not recognised give the empty string, which is one of them. *)
Theorem C45_unparseable_partial : forall v fuel, ~ In v (map fst mime_table) -> (0 < fuel)%nat ->
  mime_into fuel (mime_from v) = Ret EmptyString.
Proof. exact mime_unparseable_into. Qed.
Print Assumptions C45_unparseable_partial.

Example C45_example : mime_into 1000 (mime_from "text/css") = Loop /\
  mime_into 1 (mime_from "text/c") = Ret EmptyString.
Proof. split; reflexivity. Qed.

(** ** C46: classes of errors *)

Theorem C46_classes : forall e,
  (is_decode e = true /\ is_protocol e = false /\ er_kind e <> KIo) \/
  (is_decode e = false /\ is_protocol e = true /\ er_kind e <> KIo) \/
  (is_decode e = false /\ is_protocol e = false /\ er_kind e = KIo).
Proof. exact error_classes. Qed.
Print Assumptions C46_classes.

Theorem C46_protocol : forall e,
  is_protocol e = true <-> In (er_kind e) (map fst protocol_errors).
Proof. exact protocol_iff. Qed.
Print Assumptions C46_protocol.

(** Exactly one of the ten predicates holds of a protocol error, none of the others. *)
Theorem C46_one : forall e,
  count_occ Bool.bool_dec
    [is_invalid_setup e; is_unsupported_setup e; is_rejected_setup e; is_rejected_resume e;
     is_connection_error e; is_connection_close e; is_application_error e; is_rejected e;
     is_cancel e; is_invalid e] true
  = if is_protocol e then 1%nat else 0%nat.
Proof. exact error_specific. Qed.
Print Assumptions C46_one.

(** It is the one of the kind. *)
Theorem C46_which : forall e,
  (is_invalid_setup e = true <-> er_kind e = KInvalidSetup) /\
  (is_unsupported_setup e = true <-> er_kind e = KUnsupportedSetup) /\
  (is_rejected_setup e = true <-> er_kind e = KRejectedSetup) /\
  (is_rejected_resume e = true <-> er_kind e = KRejectedResume) /\
  (is_connection_error e = true <-> er_kind e = KConnectionError) /\
  (is_connection_close e = true <-> er_kind e = KConnectionClose) /\
  (is_application_error e = true <-> er_kind e = KApplicationError) /\
  (is_rejected e = true <-> er_kind e = KRejected) /\
  (is_cancel e = true <-> er_kind e = KCanceled) /\
  (is_invalid e = true <-> er_kind e = KInvalid) /\
  (is_setup e = true <->
     er_kind e = KInvalidSetup \/ er_kind e = KUnsupportedSetup \/ er_kind e = KRejectedSetup).
Proof. exact error_predicates. Qed.
Print Assumptions C46_which.

Theorem C46_setup : forall e,
  is_setup e = is_invalid_setup e || is_unsupported_setup e || is_rejected_setup e.
Proof. exact error_is_setup. Qed.
Print Assumptions C46_setup.

(** Converted errors. *)
Theorem C46_conversions : forall d text,
  (is_decode (error_from_decode d) = true /\ is_protocol (error_from_decode d) = false /\
   er_kind (error_from_decode d) = KDecode d /\
   error_source (error_from_decode d) = Some (decode_error_display d)) /\
  (is_decode (error_from_io text) = false /\ is_protocol (error_from_io text) = false /\
   er_kind (error_from_io text) = KIo /\ error_source (error_from_io text) = Some text).
Proof. exact error_conversions. Qed.
Print Assumptions C46_conversions.

Example C46_example :
  let e := err_new KRejectedSetup (Some "no"%string) in
  is_protocol e = true /\ is_setup e = true /\ is_rejected_setup e = true /\ is_rejected e = false.
Proof. repeat split. Qed.

(** ** C47: descriptions *)

(** The full claim: the description of a protocol error is its name and code. *)
Definition C47_claim : Prop := forall k src name c value,
  In (k, (name, (c, value))) protocol_errors -> describes (description (err_new k src)) name value.

(** It fails for REJECTED alone. *)
Theorem C47_refuted : ~ C47_claim.
Proof. exact description_fails. Qed.
Print Assumptions C47_refuted.

(** Missing from the claim: REJECTED. *)
Theorem C47_names_partial : forall k src name c value,
  In (k, (name, (c, value))) protocol_errors -> k <> KRejected ->
  describes (description (err_new k src)) name value.
Proof. exact description_describes. Qed.
Print Assumptions C47_names_partial.

(** REJECTED is described by its own code under the name of another error. *)
Theorem C47_rejected : forall src,
  describes (description (err_new KRejected src)) "CONNECTION_ERROR" 0x202 /\
  forall value, ~ describes (description (err_new KRejected src)) "REJECTED" value.
Proof. exact rejected_describes. Qed.
Print Assumptions C47_rejected.

(** [Code] agrees with the table, and so do the constants of [ErrorFrame]. *)
Theorem C47_codes : forall k name c value,
  In (k, (name, (c, value))) protocol_errors -> code_value c = value.
Proof. exact code_values. Qed.
Print Assumptions C47_codes.

Theorem C47_codes_distinct : forall c d, code_value c = code_value d -> c = d.
Proof. exact code_value_inj. Qed.
Print Assumptions C47_codes_distinct.

Theorem C47_constants :
  map (fun row => snd (snd (snd row))) protocol_errors
  = [EC_INVALID_SETUP; EC_UNSUPPORTED_SETUP; EC_REJECTED_SETUP; EC_REJECTED_RESUME;
     EC_CONNECTION_ERROR; EC_CONNECTION_CLOSE; EC_APPLICATION_ERROR; EC_REJECTED; EC_CANCELED;
     EC_INVALID] /\
  (forall row, In row protocol_errors -> snd (snd (snd row)) < EC_MIN_APPLICATION_ERROR_CODE) /\
  (forall c, EC_MIN_APPLICATION_ERROR_CODE <= c <= EC_MAX_APPLICATION_ERROR_CODE <-> 0x300 < c < 2 ^ 32 - 1).
Proof. exact error_constants. Qed.
Print Assumptions C47_constants.

Example C47_example : exists h,
  description (err_new KCanceled None) = ("CANCELED" ++ " (0x" ++ h ++ ")")%string /\
  String.length h = 8%nat /\ reads 16 h 0x203.
Proof. exists "00000203"%string. repeat split; (reflexivity || discriminate). Qed.

(** ** C50: text accessors *)

(** A part that is present is returned unchanged if it is UTF-8 and refused if not;
    an absent part is the empty text. *)
Theorem C50_payload : forall p s,
  (payload_data_utf8 p = inl s <->
   match p_data p with Some d => utf8 d /\ s = d | None => s = [] end) /\
  (payload_metadata_utf8 p = inl s <->
   match p_metadata p with Some m => utf8 m /\ s = m | None => s = [] end).
Proof. exact payload_utf8. Qed.
Print Assumptions C50_payload.

(** An ERROR frame without data has no text. *)
Theorem C50_error : forall f s,
  error_data_utf8 f = Some s <-> exists d, ef_data f = Some d /\ utf8 d /\ s = d.
Proof. exact error_utf8. Qed.
Print Assumptions C50_error.

Theorem C50_mimetype : forall f s,
  (setup_metadata_mimetype f = Some s <->
   ascii_only (sf_metadata_mimetype f) /\ s = sf_metadata_mimetype f) /\
  (setup_data_mimetype f = Some s <->
   ascii_only (sf_data_mimetype f) /\ s = sf_data_mimetype f).
Proof. exact setup_mimetypes. Qed.
Print Assumptions C50_mimetype.

(** The text returned has one reading. *)
Theorem C50_text : forall l cs ds, spells cs l -> spells ds l -> cs = ds.
Proof. exact spells_unique. Qed.
Print Assumptions C50_text.

(** 'é€😀' is spelled in 2, 3 and 4 bytes; a surrogate, an overlong form, a lone
    continuation and a cut sequence are refused. *)
Example C50_example :
  let t := map n2b [0xC3; 0xA9; 0xE2; 0x82; 0xAC; 0xF0; 0x9F; 0x98; 0x80] in
  spells [0xE9; 0x20AC; 0x1F600] t /\
  payload_data_utf8 (Payload None (Some t)) = inl t /\
  payload_metadata_utf8 (Payload None (Some t)) = inl [] /\
  payload_data_utf8 (Payload None (Some (map n2b [0xED; 0xA0; 0x80]))) = inr (Utf8Error 0 (Some 1%nat)) /\
  payload_data_utf8 (Payload None (Some (map n2b [0xC0; 0xAF]))) = inr (Utf8Error 0 (Some 1%nat)) /\
  payload_data_utf8 (Payload None (Some (map n2b [0x41; 0x80]))) = inr (Utf8Error 1 (Some 1%nat)) /\
  payload_data_utf8 (Payload None (Some (map n2b [0xE2; 0x82]))) = inr (Utf8Error 0 None).
Proof.
  repeat split.
  assert (S1 : scalar 0xE9) by (left; reflexivity).
  assert (S2 : scalar 0x20AC) by (left; reflexivity).
  assert (S3 : scalar 0x1F600) by (right; split; [discriminate|reflexivity]).
  repeat (constructor; [assumption|]). constructor.
Qed.

(** ** C80: where a part stops being text *)

(** The error of the text accessors: the longest prefix that is text, and whether the part ends in
    the middle of a character or else how many bytes of it cannot be part of one. *)
Theorem C80_where : forall p e,
  (payload_data_utf8 p = inr e <-> exists d, p_data p = Some d /\ ~ utf8 d /\ fault d e) /\
  (payload_metadata_utf8 p = inr e <-> exists m, p_metadata p = Some m /\ ~ utf8 m /\ fault m e).
Proof. exact payload_utf8_error. Qed.
Print Assumptions C80_where.

(** The bytes it points at are there, and are at most three. *)
Theorem C80_within : forall p e,
  let fits l :=
    match ue_error_len e with
    | None => (ue_valid_up_to e < length l <= ue_valid_up_to e + 3)%nat
    | Some n => (1 <= n <= 3 /\ ue_valid_up_to e + n <= length l)%nat
    end in
  (payload_data_utf8 p = inr e -> exists d, p_data p = Some d /\ fits d) /\
  (payload_metadata_utf8 p = inr e -> exists m, p_metadata p = Some m /\ fits m).
Proof. exact payload_utf8_within. Qed.
Print Assumptions C80_within.

(** 'aé' followed by: the first three bytes of '😀' and a letter; the same at the end; a byte that
    never occurs in UTF-8. *)
Example C80_example :
  let bad l := payload_data_utf8 (Payload None (Some (map n2b ([0x61; 0xC3; 0xA9] ++ l)))) in
  bad [0xF0; 0x9F; 0x98; 0x41] = inr (Utf8Error 3 (Some 3%nat)) /\
  bad [0xF0; 0x9F; 0x98] = inr (Utf8Error 3 None) /\
  bad [0xFF; 0x41] = inr (Utf8Error 3 (Some 1%nat)) /\
  bad [0xF0; 0x9F; 0x98; 0x80] = inl (map n2b [0x61; 0xC3; 0xA9; 0xF0; 0x9F; 0x98; 0x80]).
Proof. repeat split; reflexivity. Qed.

(** ** C55: versions and decode errors *)

Theorem C55_version : forall v, exists a b,
  version_display v = (a ++ "." ++ b)%string /\ numeral 10 a (v_major v) /\ numeral 10 b (v_minor v).
Proof. exact version_display_text. Qed.
Print Assumptions C55_version.

Theorem C55_version_distinct : forall v w, version_display v = version_display w -> v = w.
Proof. exact version_display_inj. Qed.
Print Assumptions C55_version_distinct.

Theorem C55_decode_error : forall e,
  match e with
  | InComplete => decode_error_display e = "incomplete frame"%string
  | UnrecognizedFrameType v => exists h,
      decode_error_display e = ("unrecognized frame type 0x" ++ h)%string /\ numeral 16 h v
  | InvalidStreamId expected found => exists d,
      decode_error_display e
      = ("invalid stream ID (expected " ++ expected ++ ", found " ++ d ++ ")")%string
      /\ numeral 10 d found
  end.
Proof. exact decode_error_display_text. Qed.
Print Assumptions C55_decode_error.

Theorem C55_decode_error_distinct : forall e e',
  decode_error_display e = decode_error_display e' -> e = e'.
Proof. exact decode_error_display_inj. Qed.
Print Assumptions C55_decode_error_distinct.

(** A numeral is determined by its number, so the theorems above give the whole text. *)
Theorem C55_numeral : forall base a b n, 0 < base -> numeral base a n -> numeral base b n -> a = b.
Proof. exact numeral_unique. Qed.
Print Assumptions C55_numeral.

Example C55_example :
  version_display (Version 1 65535) = "1.65535"%string /\
  decode_error_display (UnrecognizedFrameType 0x3A0) = "unrecognized frame type 0x3a0"%string /\
  decode_error_display (InvalidStreamId "0, found 1)" 20)
  = "invalid stream ID (expected 0, found 1), found 20)"%string.
Proof. repeat split. Qed.

(** ** C57: displayed errors *)

(** The text of an error gives back its description and its source. *)
Theorem C57_display : forall e e', error_display e = error_display e' ->
  description e = description e' /\ er_source e = er_source e'.
Proof. exact error_display_inj. Qed.
Print Assumptions C57_display.

(** The description gives the kind; decode errors share one. *)
Theorem C57_description : forall e e', description e = description e' ->
  er_kind e = er_kind e' \/ is_decode e = true /\ is_decode e' = true.
Proof. exact description_inj. Qed.
Print Assumptions C57_description.

(** A converted decode error can still be read off the text. *)
Theorem C57_decode : forall d d',
  error_display (error_from_decode d) = error_display (error_from_decode d') -> d = d'.
Proof. exact error_from_decode_inj. Qed.
Print Assumptions C57_decode.

Example C57_example :
  error_display (error_from_decode (UnrecognizedFrameType 0x10))
  = "error decoding frame: unrecognized frame type 0x10"%string /\
  error_display (err_new KRejected (Some "busy: 3"%string))
  = "CONNECTION_ERROR (0x00000202): busy: 3"%string /\
  error_display (err_new KIo None) = "I/O error"%string.
Proof. repeat split. Qed.

(** ** C64: debug texts *)

Theorem C64_text : forall s e, exists kd, shows (er_kind e) kd /\
  error_debug s e =
  ("binate::Error(" ++ kd ++ match er_source e with Some _ => ", " ++ s ++ ")" | None => ")" end)%string.
Proof. exact error_debug_text. Qed.
Print Assumptions C64_text.

(** The debug text of an error gives back its kind, with the decode error inside, and whether
    there is a source and which text it has. *)
Theorem C64_error : forall s s' e e', error_debug s e = error_debug s' e' ->
  er_kind e = er_kind e' /\ (er_source e = None <-> er_source e' = None) /\ (er_source e <> None -> s = s').
Proof. exact error_debug_inj. Qed.
Print Assumptions C64_error.

Theorem C64_decode_error : forall e e', decode_error_debug e = decode_error_debug e' -> e = e'.
Proof. exact decode_error_debug_inj. Qed.
Print Assumptions C64_decode_error.

Example C64_example :
  error_debug (str_debug "busy") (err_new KRejected (Some "busy"%string)) =
    ("binate::Error(Rejected, " ++ quote ++ "busy" ++ quote ++ ")")%string /\
  error_debug "" (err_new KRejectedSetup None) = "binate::Error(RejectedSetup)"%string /\
  error_debug "x" (err_new (KDecode (InvalidStreamId "> 0" 12)) (Some "y"%string)) =
    ("binate::Error(Decode(InvalidStreamId { expected: " ++ quote ++ "> 0" ++ quote ++ ", found: 12 }), x)")%string.
Proof. repeat split. Qed.
