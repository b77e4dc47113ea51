(** * [Debug] of frames, payloads and their parts, in the form [{:#?}]; [Debug] of the enums left

    The derived code is that of DebugM.v; the formatter is told to use the alternate form. *)

From Coq Require Import Ascii.
From Verif Require Export Model.DebugM.
Open Scope string_scope.
Open Scope N_scope.

(** ** [core::fmt] with the [#] flag *)

Definition line_feed : ascii := ascii_of_N 10.
Definition newline : string := String line_feed "".
(** [PadAdapter::write_str]: four blanks before what is written at the start of a line; [bol] says
    that what comes next starts one ([on_newline]). *)
Fixpoint pad_from (bol : bool) (s : string) : string :=
  match s with
  | "" => ""
  | String c s' => (if bol then "    " else "") ++ String c (pad_from (Ascii.eqb c line_feed) s')
  end.
(** A new adapter for each field. *)
Definition pad (s : string) : string := pad_from true s.
(** [DebugStruct::field] and [finish]: the first field opens the brace; each one is a line (or more)
    with a comma. *)
Definition pretty_struct (name : string) (fields : list (string * string)) : string :=
  name ++ " {" ++ newline ++
  fold_right (fun f s => pad (fst f ++ ": " ++ snd f ++ "," ++ newline) ++ s) "}" fields.
(** [DebugTuple::field] and [finish]. *)
Definition pretty_tuple (name : string) (fields : list string) : string :=
  name ++ "(" ++ newline ++
  fold_right (fun f s => pad (f ++ "," ++ newline) ++ s) ")" fields.
(** [Option<T>] (derived in [core]).  [bool], integers and [Bytes] do not depend on the flag. *)
Definition option_pretty {A : Type} (show : A -> string) (o : option A) : string :=
  match o with
  | Some a => pretty_tuple "Some" [show a]
  | None => "None"
  end.

(** ** The types of the crate *)

(** [Debug for Flags] ([bitflags] 1.2.1) writes [0x] and then the bits without a name by
    [LowerHex::fmt] with the same formatter, which writes [0x] again under the [#] flag. *)
Definition flags_pretty (f : flags) : string :=
  let names := map snd (filter (fun x => fl_contains f (fst x)) flag_names) in
  let extra := N.ldiff f fl_all in
  let words := (names ++ (if extra =? 0 then [] else [("0x" ++ "0x" ++ fmt_base 16 extra)%string]))%list in
  match words with
  | [] => "(empty)"
  | _ => join " | " words
  end.

(** [{:#?}] of [U24] (derived), frame/u24.rs:6-7. *)
Definition u24_pretty (u : u24) : string := pretty_tuple "U24" [fmt_dec (u24_hi u); fmt_dec (u24_lo u)].
(** [{:#?}] of [Version] (derived), frame/version.rs:7-11. *)
Definition version_pretty (v : version) : string :=
  pretty_struct "Version" [("major", fmt_dec (v_major v)); ("minor", fmt_dec (v_minor v))].
(** [{:#?}] of [Payload] (derived), payload.rs:27-31. *)
Definition payload_pretty (p : payload) : string :=
  pretty_struct "Payload" [ ("metadata", option_pretty bytes_debug (p_metadata p));
                           ("data", option_pretty bytes_debug (p_data p)) ].
(** [{:#?}] of [PayloadBuilder] (derived), payload.rs:131-132; its content is the payload. *)
Definition payload_builder_pretty (p : payload) : string := pretty_tuple "PayloadBuilder" [payload_pretty p].
(** [{:#?}] of [PayloadChunks] (derived), payload.rs:190-195. *)
Definition chunks_pretty (c : chunks) : string :=
  pretty_struct "PayloadChunks" [ ("chunk_size", fmt_dec (ch_size c));
                                 ("metadata", option_pretty bytes_debug (ch_metadata c));
                                 ("data", option_pretty bytes_debug (ch_data c)) ].

(** The fields of [SetupFrame], frame/codec/setup.rs:39-48, and of [SetupFrameBuilder],
    setup.rs:225-234, which are the same. *)
Definition setup_pretty_fields (s : setup_frame) : list (string * string) :=
  [ ("flags", flags_pretty (sf_flags s));
    ("version", version_pretty (sf_version s));
    ("keepalive_interval", fmt_dec (sf_keepalive_interval s));
    ("keepalive_timeout", fmt_dec (sf_keepalive_timeout s));
    ("resume_token", option_pretty bytes_debug (sf_resume_token s));
    ("metadata_mimetype", bytes_debug (sf_metadata_mimetype s));
    ("data_mimetype", bytes_debug (sf_data_mimetype s));
    ("payload", payload_pretty (sf_payload s)) ].
(** [{:#?}] of [SetupFrame] (derived), setup.rs:38. *)
Definition setup_pretty (s : setup_frame) : string := pretty_struct "SetupFrame" (setup_pretty_fields s).
(** [{:#?}] of [SetupFrameBuilder] (derived), setup.rs:224. *)
Definition setup_builder_pretty (s : setup_frame) : string := pretty_struct "SetupFrameBuilder" (setup_pretty_fields s).
(** [{:#?}] of [ErrorFrame] (derived), error.rs:35-40. *)
Definition error_frame_pretty (e : error_frame) : string :=
  pretty_struct "ErrorFrame" [ ("stream_id", fmt_dec (ef_stream_id e)); ("code", fmt_dec (ef_code e));
                              ("data", option_pretty bytes_debug (ef_data e)) ].
(** [{:#?}] of [LeaseFrame] (derived), lease.rs:28-33. *)
Definition lease_pretty (l : lease_frame) : string :=
  pretty_struct "LeaseFrame" [ ("ttl", fmt_dec (lf_ttl l));
                              ("number_of_requests", fmt_dec (lf_number_of_requests l));
                              ("metadata", option_pretty bytes_debug (lf_metadata l)) ].
(** [{:#?}] of [KeepaliveFrame] (derived), keepalive.rs:24-29. *)
Definition keepalive_pretty (k : keepalive_frame) : string :=
  pretty_struct "KeepaliveFrame" [ ("respond", bool_debug (kf_respond k));
                                  ("last_received_position", fmt_dec (kf_last_received_position k));
                                  ("data", option_pretty bytes_debug (kf_data k)) ].
(** [{:#?}] of [RequestResponseFrame] (derived), request_response.rs:20-25. *)
Definition request_response_pretty (q : request_response_frame) : string :=
  pretty_struct "RequestResponseFrame" [ ("stream_id", fmt_dec (rr_stream_id q));
    ("flags", flags_pretty (rr_flags q)); ("payload", payload_pretty (rr_payload q)) ].
(** [{:#?}] of [RequestFnfFrame] (derived), request_fnf.rs:20-25. *)
Definition request_fnf_pretty (q : request_fnf_frame) : string :=
  pretty_struct "RequestFnfFrame" [ ("stream_id", fmt_dec (fnf_stream_id q));
    ("flags", flags_pretty (fnf_flags q)); ("payload", payload_pretty (fnf_payload q)) ].
(** [{:#?}] of [RequestStreamFrame] (derived), request_stream.rs:22-28. *)
Definition request_stream_pretty (q : request_stream_frame) : string :=
  pretty_struct "RequestStreamFrame" [ ("stream_id", fmt_dec (rs_stream_id q));
    ("flags", flags_pretty (rs_flags q)); ("initial_request_n", fmt_dec (rs_initial_request_n q));
    ("payload", payload_pretty (rs_payload q)) ].
(** [{:#?}] of [RequestChannelFrame] (derived), request_channel.rs:22-28. *)
Definition request_channel_pretty (q : request_channel_frame) : string :=
  pretty_struct "RequestChannelFrame" [ ("stream_id", fmt_dec (rc_stream_id q));
    ("flags", flags_pretty (rc_flags q)); ("initial_request_n", fmt_dec (rc_initial_request_n q));
    ("payload", payload_pretty (rc_payload q)) ].
(** [{:#?}] of [RequestNFrame] (derived), request_n.rs:21-25. *)
Definition request_n_pretty (q : request_n_frame) : string :=
  pretty_struct "RequestNFrame" [ ("stream_id", fmt_dec (rn_stream_id q)); ("request_n", fmt_dec (rn_request_n q)) ].
(** [{:#?}] of [CancelFrame] (derived), cancel.rs:19-22. *)
Definition cancel_pretty (c : cancel_frame) : string :=
  pretty_struct "CancelFrame" [ ("stream_id", fmt_dec (cf_stream_id c)) ].
(** [{:#?}] of [PayloadFrame] (derived), frame/codec/payload.rs:20-25. *)
Definition payload_frame_pretty (q : payload_frame) : string :=
  pretty_struct "PayloadFrame" [ ("stream_id", fmt_dec (pf_stream_id q));
    ("flags", flags_pretty (pf_flags q)); ("payload", payload_pretty (pf_payload q)) ].
(** [{:#?}] of [MetadataPushFrame] (derived), metadata_push.rs:23-26. *)
Definition metadata_push_pretty (m : metadata_push_frame) : string :=
  pretty_struct "MetadataPushFrame" [ ("metadata", bytes_debug (mp_metadata m)) ].
(** [{:#?}] of [ResumeFrame] (derived), resume.rs:31-37. *)
Definition resume_pretty (r : resume_frame) : string :=
  pretty_struct "ResumeFrame" [ ("version", version_pretty (rf_version r));
    ("resume_token", bytes_debug (rf_resume_token r));
    ("last_received_server_position", fmt_dec (rf_last_received_server_position r));
    ("first_available_client_position", fmt_dec (rf_first_available_client_position r)) ].
(** [{:#?}] of [ResumeOkFrame] (derived), resume_ok.rs:23-26. *)
Definition resume_ok_pretty (r : resume_ok_frame) : string :=
  pretty_struct "ResumeOkFrame" [ ("last_received_client_position", fmt_dec (ro_last_received_client_position r)) ].

(** [{:#?}] of [Frame] (derived), frame/mod.rs:33-63. *)
Definition frame_pretty (f : frame) : string :=
  match f with
  | FSetup v => pretty_tuple "Setup" [setup_pretty v]
  | FError v => pretty_tuple "Error" [error_frame_pretty v]
  | FLease v => pretty_tuple "Lease" [lease_pretty v]
  | FKeepalive v => pretty_tuple "Keepalive" [keepalive_pretty v]
  | FRequestResponse v => pretty_tuple "RequestResponse" [request_response_pretty v]
  | FRequestFnf v => pretty_tuple "RequestFnf" [request_fnf_pretty v]
  | FRequestStream v => pretty_tuple "RequestStream" [request_stream_pretty v]
  | FRequestChannel v => pretty_tuple "RequestChannel" [request_channel_pretty v]
  | FRequestN v => pretty_tuple "RequestN" [request_n_pretty v]
  | FCancel v => pretty_tuple "Cancel" [cancel_pretty v]
  | FPayload v => pretty_tuple "Payload" [payload_frame_pretty v]
  | FMetadataPush v => pretty_tuple "MetadataPush" [metadata_push_pretty v]
  | FResume v => pretty_tuple "Resume" [resume_pretty v]
  | FResumeOk v => pretty_tuple "ResumeOk" [resume_ok_pretty v]
  end.

(** ** The other enums; the flag changes nothing *)

(** [Debug for WellKnownMimeType] (derived), mimetype.rs:11-61. *)
Definition mime_debug (m : mime) : string :=
  match m with
  | M_UNPARSEABLE => "UNPARSEABLE"
  | M_APPLICATION_AVRO => "APPLICATION_AVRO"
  | M_APPLICATION_CBOR => "APPLICATION_CBOR"
  | M_APPLICATION_GRAPHQL => "APPLICATION_GRAPHQL"
  | M_APPLICATION_GZIP => "APPLICATION_GZIP"
  | M_APPLICATION_JAVASCRIPT => "APPLICATION_JAVASCRIPT"
  | M_APPLICATION_JSON => "APPLICATION_JSON"
  | M_APPLICATION_OCTET_STREAM => "APPLICATION_OCTET_STREAM"
  | M_APPLICATION_PDF => "APPLICATION_PDF"
  | M_APPLICATION_VND_APACHE_THRIFT_BINARY => "APPLICATION_VND_APACHE_THRIFT_BINARY"
  | M_APPLICATION_VND_GOOGLE_PROTOBUF => "APPLICATION_VND_GOOGLE_PROTOBUF"
  | M_APPLICATION_XML => "APPLICATION_XML"
  | M_APPLICATION_ZIP => "APPLICATION_ZIP"
  | M_AUDIO_AAC => "AUDIO_AAC"
  | M_AUDIO_MP3 => "AUDIO_MP3"
  | M_AUDIO_MP4 => "AUDIO_MP4"
  | M_AUDIO_MPEG3 => "AUDIO_MPEG3"
  | M_AUDIO_MPEG => "AUDIO_MPEG"
  | M_AUDIO_OGG => "AUDIO_OGG"
  | M_AUDIO_OPUS => "AUDIO_OPUS"
  | M_AUDIO_VORBIS => "AUDIO_VORBIS"
  | M_IMAGE_BMP => "IMAGE_BMP"
  | M_IMAGE_GIF => "IMAGE_GIF"
  | M_IMAGE_HEIC_SEQUENCE => "IMAGE_HEIC_SEQUENCE"
  | M_IMAGE_HEIC => "IMAGE_HEIC"
  | M_IMAGE_HEIF_SEQUENCE => "IMAGE_HEIF_SEQUENCE"
  | M_IMAGE_HEIF => "IMAGE_HEIF"
  | M_IMAGE_JPEG => "IMAGE_JPEG"
  | M_IMAGE_PNG => "IMAGE_PNG"
  | M_IMAGE_TIFF => "IMAGE_TIFF"
  | M_MULTIPART_MIXED => "MULTIPART_MIXED"
  | M_TEXT_CSS => "TEXT_CSS"
  | M_TEXT_CSV => "TEXT_CSV"
  | M_TEXT_HTML => "TEXT_HTML"
  | M_TEXT_PLAIN => "TEXT_PLAIN"
  | M_TEXT_XML => "TEXT_XML"
  | M_VIDEO_H264 => "VIDEO_H264"
  | M_VIDEO_H265 => "VIDEO_H265"
  | M_VIDEO_VP8 => "VIDEO_VP8"
  | M_APPLICATION_X_HESSIAN => "APPLICATION_X_HESSIAN"
  | M_APPLICATION_X_JAVA_OBJECT => "APPLICATION_X_JAVA_OBJECT"
  | M_APPLICATION_CLOUDEVENTS_JSON => "APPLICATION_CLOUDEVENTS_JSON"
  | M_MESSAGE_X_RSOCKET_MIME_TYPE_V0 => "MESSAGE_X_RSOCKET_MIME_TYPE_V0"
  | M_MESSAGE_X_RSOCKET_ACCEPT_TIME_TYPES_V0 => "MESSAGE_X_RSOCKET_ACCEPT_TIME_TYPES_V0"
  | M_MESSAGE_X_RSOCKET_AUTHENTICATION_V0 => "MESSAGE_X_RSOCKET_AUTHENTICATION_V0"
  | M_MESSAGE_X_RSOCKET_TRACING_ZIPKIN_V0 => "MESSAGE_X_RSOCKET_TRACING_ZIPKIN_V0"
  | M_MESSAGE_X_RSOCKET_ROUTING_V0 => "MESSAGE_X_RSOCKET_ROUTING_V0"
  | M_MESSAGE_X_RSOCKET_COMPOSITE_METADATA_V0 => "MESSAGE_X_RSOCKET_COMPOSITE_METADATA_V0"
  end.
(** [Debug for Code] (derived), error.rs:65-102. *)
Definition code_debug (c : code) : string :=
  match c with
  | CInvalidSetup => "InvalidSetup"
  | CUnsupportedSetup => "UnsupportedSetup"
  | CRejectedSetup => "RejectedSetup"
  | CRejectedResume => "RejectedResume"
  | CConnectionError => "ConnectionError"
  | CConnectionClose => "ConnectionClose"
  | CApplicationError => "ApplicationError"
  | CRejected => "Rejected"
  | CCanceled => "Canceled"
  | CInvalid => "Invalid"
  end.
