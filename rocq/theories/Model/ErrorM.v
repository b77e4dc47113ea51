(** * binate/src/error.rs, and the [Display] of decode errors and versions *)

From Coq Require Import Ascii.
From Verif Require Export Model.U24M Model.CodecM.

(** ** Integers in text: [{}] and [{:x}] of [core::fmt] *)

(** Digit [d < 16] in lower case. *)
Definition digit (d : N) : ascii :=
  ascii_of_N (if d <? 10 then 48 + d else 87 + d).
(** Digits are produced from the last one, dividing by the base until the quotient is 0;
    [fuel] bounds their number. *)
Fixpoint fmt_loop (fuel : nat) (base n : N) (acc : string) : string :=
  match fuel with
  | O => acc
  | S fuel' =>
    let acc' := String (digit (n mod base)) acc in
    if n / base =? 0 then acc' else fmt_loop fuel' base (n / base) acc'
  end.
Definition fmt_base (base n : N) : string := fmt_loop (S (N.to_nat (N.log2 n))) base n EmptyString.
(** [{}] *)
Definition fmt_dec (n : N) : string := fmt_base 10 n.
(** [{:#x}] *)
Definition fmt_hex (n : N) : string := ("0x" ++ fmt_base 16 n)%string.

(** ** [Display] *)

(** [Display for Version], frame/version.rs:57-61. *)
Definition version_display (v : version) : string :=
  (fmt_dec (v_major v) ++ "." ++ fmt_dec (v_minor v))%string.

(** [Display for DecodeError], frame/decode.rs:36-51. *)
Definition decode_error_display (e : decode_error) : string :=
  match e with
  | InComplete => "incomplete frame"
  | UnrecognizedFrameType v => ("unrecognized frame type " ++ fmt_hex v)%string
  | InvalidStreamId expected found =>
    ("invalid stream ID (expected " ++ expected ++ ", found " ++ fmt_dec found ++ ")")%string
  end.

(** ** [Code], error.rs:66-102: the discriminants *)

Definition code_value (c : code) : N :=
  match c with
  | CInvalidSetup => 0x00000001
  | CUnsupportedSetup => 0x00000002
  | CRejectedSetup => 0x00000003
  | CRejectedResume => 0x00000004
  | CConnectionError => 0x00000101
  | CConnectionClose => 0x00000102
  | CApplicationError => 0x00000201
  | CRejected => 0x00000202
  | CCanceled => 0x00000203
  | CInvalid => 0x00000204
  end.

(** ** [Error] *)

(** [Error::new], error.rs:105-115; the source is already its text. *)
Definition err_new (k : kind) (source : option string) : error := Error k source.

(** Predicates, error.rs:118-202. *)
Definition is_decode (e : error) : bool := match er_kind e with KDecode _ => true | _ => false end.
Definition is_protocol (e : error) : bool :=
  match er_kind e with
  | KInvalidSetup | KUnsupportedSetup | KRejectedSetup | KRejectedResume | KConnectionError
  | KConnectionClose | KApplicationError | KRejected | KCanceled | KInvalid => true
  | _ => false
  end.
Definition is_setup (e : error) : bool :=
  match er_kind e with KInvalidSetup | KUnsupportedSetup | KRejectedSetup => true | _ => false end.
Definition is_invalid_setup (e : error) : bool := match er_kind e with KInvalidSetup => true | _ => false end.
Definition is_unsupported_setup (e : error) : bool := match er_kind e with KUnsupportedSetup => true | _ => false end.
Definition is_rejected_setup (e : error) : bool := match er_kind e with KRejectedSetup => true | _ => false end.
Definition is_rejected_resume (e : error) : bool := match er_kind e with KRejectedResume => true | _ => false end.
Definition is_connection_error (e : error) : bool := match er_kind e with KConnectionError => true | _ => false end.
Definition is_connection_close (e : error) : bool := match er_kind e with KConnectionClose => true | _ => false end.
Definition is_application_error (e : error) : bool := match er_kind e with KApplicationError => true | _ => false end.
Definition is_rejected (e : error) : bool := match er_kind e with KRejected => true | _ => false end.
Definition is_cancel (e : error) : bool := match er_kind e with KCanceled => true | _ => false end.
Definition is_invalid (e : error) : bool := match er_kind e with KInvalid => true | _ => false end.

(** [Error::description], error.rs:204-220. *)
Definition description (e : error) : string :=
  match er_kind e with
  | KInvalidSetup => "INVALID_SETUP (0x00000001)"
  | KUnsupportedSetup => "UNSUPPORTED_SETUP (0x00000002)"
  | KRejectedSetup => "REJECTED_SETUP (0x00000003)"
  | KRejectedResume => "REJECTED_RESUME (0x00000004)"
  | KConnectionError => "CONNECTION_ERROR (0x00000101)"
  | KConnectionClose => "CONNECTION_CLOSE (0x00000102)"
  | KApplicationError => "APPLICATION_ERROR (0x00000201)"
  | KRejected => "CONNECTION_ERROR (0x00000202)"
  | KCanceled => "CANCELED (0x00000203)"
  | KInvalid => "INVALID (0x00000204)"
  | KDecode _ => "error decoding frame"
  | KIo => "I/O error"
  end.

(** [Display for Error], error.rs:223-231. *)
Definition error_display (e : error) : string :=
  match er_source e with
  | Some source => (description e ++ ": " ++ source)%string
  | None => description e
  end.

(** [StdError::source], error.rs:244-248. *)
Definition error_source (e : error) : option string := er_source e.

(** [From<DecodeError> for Error], error.rs:250-255. *)
Definition error_from_decode (e : decode_error) : error :=
  err_new (KDecode e) (Some (decode_error_display e)).
(** [From<io::Error> for Error], error.rs:257-261; the argument is the text of the [io::Error]. *)
Definition error_from_io (text : string) : error := err_new KIo (Some text).

(** ** [Debug], in the compact form [{:?}] *)

(** [Debug for str]: quotes around it, a backslash before a quote or a backslash.  Other
    characters are left alone: what Rust does to control characters and to some of those
    outside ASCII is not modelled. *)
Fixpoint escape (s : string) : string :=
  match s with
  | EmptyString => EmptyString
  | String c s' =>
    if (N_of_ascii c =? 34) || (N_of_ascii c =? 92) then String "\" (String c (escape s'))
    else String c (escape s')
  end.
Definition quote : string := String "034" EmptyString.
Definition str_debug (s : string) : string := (quote ++ escape s ++ quote)%string.

(** [Debug for DecodeError] (derived), frame/decode.rs:20-34. *)
Definition decode_error_debug (e : decode_error) : string :=
  match e with
  | InComplete => "InComplete"
  | UnrecognizedFrameType v => ("UnrecognizedFrameType(" ++ fmt_dec v ++ ")")%string
  | InvalidStreamId expected found =>
    ("InvalidStreamId { expected: " ++ str_debug expected ++ ", found: " ++ fmt_dec found ++ " }")%string
  end.
(** [Debug for Kind] (derived), error.rs:24-44. *)
Definition kind_debug (k : kind) : string :=
  match k with
  | KDecode e => ("Decode(" ++ decode_error_debug e ++ ")")%string
  | KInvalidSetup => "InvalidSetup"
  | KUnsupportedSetup => "UnsupportedSetup"
  | KRejectedSetup => "RejectedSetup"
  | KRejectedResume => "RejectedResume"
  | KConnectionError => "ConnectionError"
  | KConnectionClose => "ConnectionClose"
  | KApplicationError => "ApplicationError"
  | KRejected => "Rejected"
  | KCanceled => "Canceled"
  | KInvalid => "Invalid"
  | KIo => "Io"
  end.
(** [Debug for Error], error.rs:233-242.  The [Debug] text of the source, whose type is
    not known here, is the argument; it is not used without a source. *)
Definition error_debug (source_debug : string) (e : error) : string :=
  match er_source e with
  | Some _ => ("binate::Error(" ++ kind_debug (er_kind e) ++ ", " ++ source_debug ++ ")")%string
  | None => ("binate::Error(" ++ kind_debug (er_kind e) ++ ")")%string
  end.
