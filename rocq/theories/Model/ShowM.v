(** * [{:#?}] of errors, [Debug] of connection statuses and counters, derived [==] of the rest *)

From Coq Require Import Ascii.
From Verif Require Export Model.PrettyM Model.StreamIdM Model.MimeM.
Open Scope string_scope.
Open Scope N_scope.

(** ** Errors in the form [{:#?}] *)

(** [{:#?}] of [DecodeError] (derived), frame/decode.rs:20-34.  Strings do not depend on the flag. *)
Definition decode_error_pretty (e : decode_error) : string :=
  match e with
  | InComplete => "InComplete"
  | UnrecognizedFrameType v => pretty_tuple "UnrecognizedFrameType" [fmt_dec v]
  | InvalidStreamId expected found =>
    pretty_struct "InvalidStreamId" [("expected", str_debug expected); ("found", fmt_dec found)]
  end.
(** [{:#?}] of [Kind] (derived), error.rs:24-44. *)
Definition kind_pretty (k : kind) : string :=
  match k with
  | KDecode e => pretty_tuple "Decode" [decode_error_pretty e]
  | KInvalidSetup => "InvalidSetup"
  | KUnsupportedSetup => "UnsupportedSetup"
  | KRejectedSetup => "RejectedSetup"
  | KRejectedResume => "RejectedResume"
  | KConnectionError => "ConnectionError"
  | KConnectionClose => "ConnectionClose"
  | KApplicationError => "ApplicationError"
  | KRejected => "Rejected"
  | KCanceled => "Canceled"
  | KInvalid => "Invalid"
  | KIo => "Io"
  end.
(** [{:#?}] of [Error], error.rs:233-242.  The [{:#?}] text of the source, whose type is not known
    here, is the argument; it is not used without a source. *)
Definition error_pretty (source_pretty : string) (e : error) : string :=
  pretty_tuple "binate::Error"
    (kind_pretty (er_kind e) :: match er_source e with Some _ => [source_pretty] | None => [] end).

(** ** [Debug for str] on all characters

    A text is the list of its characters, as numbers. *)

Definition chars (s : string) : list N := map N_of_ascii (list_ascii_of_string s).
(** [char::escape_debug_ext] as [Debug for str] uses it, in [core] of the compiler at hand: [nul]
    says that NUL is written with a backslash and a zero (older versions write its number), and
    [table] which of the characters not treated before are written as they are: the printable ones
    of that version of Unicode that do not extend the character before.  Both are parameters. *)
Definition char_debug (nul : bool) (table : N -> bool) (c : N) : list N :=
  if (c =? 0) && nul then chars "\0"
  else if c =? 9 then chars "\t"
  else if c =? 13 then chars "\r"
  else if c =? 10 then chars "\n"
  else if (c =? 92) || (c =? 34) then 92 :: [c]
  else if table c then [c]
  else (chars "\u{" ++ chars (fmt_base 16 c) ++ chars "}")%list.
Definition text_debug (nul : bool) (table : N -> bool) (cs : list N) : list N :=
  34 :: (flat_map (char_debug nul table) cs ++ [34])%list.

(** ** [ConnectionStatus], connection/conn.rs:38-50, its [String] as characters *)

Inductive status : Set :=
| SUnconnected | SConnecting | SConnected | SClosed | SError (reason : list N).
(** [Debug for ConnectionStatus] (derived), conn.rs:38. *)
Definition status_debug (nul : bool) (table : N -> bool) (s : status) : list N :=
  match s with
  | SUnconnected => chars "Unconnected"
  | SConnecting => chars "Connecting"
  | SConnected => chars "Connected"
  | SClosed => chars "Closed"
  | SError r => (chars "Error(" ++ text_debug nul table r ++ chars ")")%list
  end.
(** [PadAdapter] on characters. *)
Fixpoint pad_chars (bol : bool) (l : list N) : list N :=
  match l with
  | [] => []
  | c :: l' => ((if bol then chars "    " else []) ++ c :: pad_chars (c =? 10) l')%list
  end.
(** The same in the form [{:#?}]. *)
Definition status_pretty (nul : bool) (table : N -> bool) (s : status) : list N :=
  match s with
  | SError r =>
    (chars "Error(" ++ [10] ++ pad_chars true (text_debug nul table r ++ chars "," ++ [10]) ++ chars ")")%list
  | _ => status_debug nul table s
  end.

(** ** [StreamIdProvider] and [RequestCounter] *)

(** [{}] of [i32]; [Debug for AtomicI32] is that of the value loaded. *)
Definition fmt_int (z : Z) : string :=
  if (z <? 0)%Z then "-" ++ fmt_dec (Z.abs_N z) else fmt_dec (Z.abs_N z).
(** [Debug for StreamIdProvider] (derived), connection/stream_id.rs:12-13, in both forms. *)
Definition provider_debug (c : Z) : string := debug_tuple "StreamIdProvider" [fmt_int c].
Definition provider_pretty (c : Z) : string := pretty_tuple "StreamIdProvider" [fmt_int c].
(** [Debug for RequestCounter] (derived), connection/counter.rs:6-7, in both forms. *)
Definition counter_debug (c : Z) : string := debug_tuple "RequestCounter" [fmt_int c].
Definition counter_pretty (c : Z) : string := pretty_tuple "RequestCounter" [fmt_int c].

(** ** Derived [==] of the types not in DebugM.v

    [derive(PartialEq)] on an enum compares the discriminants and then the fields of the variant. *)

(** The discriminants of [FrameType], frame/flags.rs:6-37: the position. *)
Definition frame_type_tag (t : frame_type) : N :=
  match t with
  | FT_SETUP => 0 | FT_LEASE => 1 | FT_KEEPALIVE => 2 | FT_REQUEST_RESPONSE => 3 | FT_REQUEST_FNF => 4
  | FT_REQUEST_STREAM => 5 | FT_REQUEST_CHANNEL => 6 | FT_REQUEST_N => 7 | FT_CANCEL => 8
  | FT_PAYLOAD => 9 | FT_ERROR => 10 | FT_METADATA_PUSH => 11 | FT_RESUME => 12 | FT_RESUME_OK => 13
  | FT_EXT => 14
  end.
(** [FrameType], frame/flags.rs:5. *)
Definition frame_type_eq (a b : frame_type) : bool := frame_type_tag a =? frame_type_tag b.
(** The discriminants of [WellKnownMimeType], mimetype.rs:12-61: the position. *)
Definition mime_tag (m : mime) : N :=
  match m with
  | M_UNPARSEABLE => 0 | M_APPLICATION_AVRO => 1 | M_APPLICATION_CBOR => 2 | M_APPLICATION_GRAPHQL => 3
  | M_APPLICATION_GZIP => 4 | M_APPLICATION_JAVASCRIPT => 5 | M_APPLICATION_JSON => 6
  | M_APPLICATION_OCTET_STREAM => 7 | M_APPLICATION_PDF => 8
  | M_APPLICATION_VND_APACHE_THRIFT_BINARY => 9 | M_APPLICATION_VND_GOOGLE_PROTOBUF => 10
  | M_APPLICATION_XML => 11 | M_APPLICATION_ZIP => 12 | M_AUDIO_AAC => 13 | M_AUDIO_MP3 => 14
  | M_AUDIO_MP4 => 15 | M_AUDIO_MPEG3 => 16 | M_AUDIO_MPEG => 17 | M_AUDIO_OGG => 18
  | M_AUDIO_OPUS => 19 | M_AUDIO_VORBIS => 20 | M_IMAGE_BMP => 21 | M_IMAGE_GIF => 22
  | M_IMAGE_HEIC_SEQUENCE => 23 | M_IMAGE_HEIC => 24 | M_IMAGE_HEIF_SEQUENCE => 25
  | M_IMAGE_HEIF => 26 | M_IMAGE_JPEG => 27 | M_IMAGE_PNG => 28 | M_IMAGE_TIFF => 29
  | M_MULTIPART_MIXED => 30 | M_TEXT_CSS => 31 | M_TEXT_CSV => 32 | M_TEXT_HTML => 33
  | M_TEXT_PLAIN => 34 | M_TEXT_XML => 35 | M_VIDEO_H264 => 36 | M_VIDEO_H265 => 37
  | M_VIDEO_VP8 => 38 | M_APPLICATION_X_HESSIAN => 39 | M_APPLICATION_X_JAVA_OBJECT => 40
  | M_APPLICATION_CLOUDEVENTS_JSON => 41 | M_MESSAGE_X_RSOCKET_MIME_TYPE_V0 => 42
  | M_MESSAGE_X_RSOCKET_ACCEPT_TIME_TYPES_V0 => 43 | M_MESSAGE_X_RSOCKET_AUTHENTICATION_V0 => 44
  | M_MESSAGE_X_RSOCKET_TRACING_ZIPKIN_V0 => 45 | M_MESSAGE_X_RSOCKET_ROUTING_V0 => 46
  | M_MESSAGE_X_RSOCKET_COMPOSITE_METADATA_V0 => 47
  end.
(** [WellKnownMimeType], mimetype.rs:11. *)
Definition mime_eq (a b : mime) : bool := mime_tag a =? mime_tag b.
(** [Code], error.rs:65: the discriminants are the codes. *)
Definition code_eq (a b : code) : bool := code_value a =? code_value b.
(** [Role], connection/socket.rs:21-25. *)
Definition role_tag (r : role) : N := match r with Client => 0 | Server => 1 end.
Definition role_eq (a b : role) : bool := role_tag a =? role_tag b.
(** [U24], frame/u24.rs:6-7. *)
Definition u24_eq (a b : u24) : bool := N.eqb (u24_hi a) (u24_hi b) && N.eqb (u24_lo a) (u24_lo b).
(** [PartialEq for str]: the lengths and the bytes. *)
Fixpoint str_eq (a b : string) : bool :=
  match a, b with
  | EmptyString, EmptyString => true
  | String x a', String y b' => (N_of_ascii x =? N_of_ascii y) && str_eq a' b'
  | _, _ => false
  end.
(** [DecodeError], frame/decode.rs:20. *)
Definition decode_error_eq (a b : decode_error) : bool :=
  match a, b with
  | InComplete, InComplete => true
  | UnrecognizedFrameType v, UnrecognizedFrameType w => v =? w
  | InvalidStreamId x n, InvalidStreamId y m => str_eq x y && (n =? m)
  | _, _ => false
  end.
(** [Kind], error.rs:24. *)
Definition kind_tag (k : kind) : N :=
  match k with
  | KDecode _ => 0 | KInvalidSetup => 1 | KUnsupportedSetup => 2 | KRejectedSetup => 3
  | KRejectedResume => 4 | KConnectionError => 5 | KConnectionClose => 6 | KApplicationError => 7
  | KRejected => 8 | KCanceled => 9 | KInvalid => 10 | KIo => 11
  end.
Definition kind_eq (a b : kind) : bool :=
  (kind_tag a =? kind_tag b) &&
  match a, b with
  | KDecode x, KDecode y => decode_error_eq x y
  | _, _ => true
  end.
(** [ConnectionStatus], connection/conn.rs:38. *)
Definition status_tag (s : connection_status) : N :=
  match s with Unconnected => 0 | Connecting => 1 | Connected => 2 | Closed => 3 | StatusError _ => 4 end.
Definition status_eq (a b : connection_status) : bool :=
  (status_tag a =? status_tag b) &&
  match a, b with
  | StatusError x, StatusError y => str_eq x y
  | _, _ => true
  end.
