(** * Specification of displayed texts, error names and UTF-8

    Independent of the model: uses only its data types. *)

From Coq Require Import Ascii.
From Verif Require Export Spec.Mime.

(** ** Numbers *)

(** The digits 0-9 and a-f. *)
Definition digit_value (c : ascii) : option N :=
  let x := N_of_ascii c in
  if (48 <=? x) && (x <=? 57) then Some (x - 48)
  else if (97 <=? x) && (x <=? 102) then Some (x - 87)
  else None.
(** The number read from left to right after [acc]. *)
Fixpoint number_from (base acc : N) (s : string) : option N :=
  match s with
  | EmptyString => Some acc
  | String c s' =>
    match digit_value c with
    | Some d => if d <? base then number_from base (acc * base + d) s' else None
    | None => None
    end
  end.
(** [s] is a numeral of [n]. *)
Definition reads (base : N) (s : string) (n : N) : Prop :=
  s <> EmptyString /\ number_from base 0 s = Some n.
(** Without leading zeros. *)
Definition plain (s : string) : Prop :=
  s = "0"%string \/ forall r, s <> String "0" r.
Definition numeral (base : N) (s : string) (n : N) : Prop := reads base s n /\ plain s.

(** ** Errors *)

(** The protocol errors, their names and their codes. *)
Definition protocol_errors : list (kind * (string * (code * N))) :=
  [ (KInvalidSetup,     ("INVALID_SETUP",     (CInvalidSetup,     0x001)));
    (KUnsupportedSetup, ("UNSUPPORTED_SETUP", (CUnsupportedSetup, 0x002)));
    (KRejectedSetup,    ("REJECTED_SETUP",    (CRejectedSetup,    0x003)));
    (KRejectedResume,   ("REJECTED_RESUME",   (CRejectedResume,   0x004)));
    (KConnectionError,  ("CONNECTION_ERROR",  (CConnectionError,  0x101)));
    (KConnectionClose,  ("CONNECTION_CLOSE",  (CConnectionClose,  0x102)));
    (KApplicationError, ("APPLICATION_ERROR", (CApplicationError, 0x201)));
    (KRejected,         ("REJECTED",          (CRejected,         0x202)));
    (KCanceled,         ("CANCELED",          (CCanceled,         0x203)));
    (KInvalid,          ("INVALID",           (CInvalid,          0x204))) ]%string.
(** [text] is [name] followed by the code in eight hexadecimal digits. *)
Definition describes (text name : string) (value : N) : Prop :=
  exists h, text = (name ++ " (0x" ++ h ++ ")")%string
    /\ String.length h = 8%nat /\ reads 16 h value.

(** The names in debug texts. *)
Definition kind_names : list (kind * string) :=
  [ (KInvalidSetup, "InvalidSetup"); (KUnsupportedSetup, "UnsupportedSetup"); (KRejectedSetup, "RejectedSetup");
    (KRejectedResume, "RejectedResume"); (KConnectionError, "ConnectionError"); (KConnectionClose, "ConnectionClose");
    (KApplicationError, "ApplicationError"); (KRejected, "Rejected"); (KCanceled, "Canceled"); (KInvalid, "Invalid");
    (KIo, "Io") ]%string.
(** [q] is [s] with a backslash before each quote (34) and each backslash (92). *)
Inductive escaped : string -> string -> Prop :=
| Esc_nil : escaped EmptyString EmptyString
| Esc_plain : forall c s q, N_of_ascii c <> 34 -> N_of_ascii c <> 92 -> escaped s q ->
    escaped (String c s) (String c q)
| Esc_back : forall c s q, N_of_ascii c = 34 \/ N_of_ascii c = 92 -> escaped s q ->
    escaped (String c s) (String (ascii_of_N 92) (String c q)).
(** The debug text of a kind. *)
Inductive shows : kind -> string -> Prop :=
| Shows_name : forall k n, In (k, n) kind_names -> shows k n
| Shows_incomplete : shows (KDecode InComplete) "Decode(InComplete)"
| Shows_type : forall v d, numeral 10 d v ->
    shows (KDecode (UnrecognizedFrameType v)) ("Decode(UnrecognizedFrameType(" ++ d ++ "))")
| Shows_id : forall x q f d, escaped x q -> numeral 10 d f ->
    shows (KDecode (InvalidStreamId x f))
      ("Decode(InvalidStreamId { expected: " ++ String (ascii_of_N 34) q ++ String (ascii_of_N 34) ", found: " ++ d ++ " })").

(** ** UTF-8 *)

(** Unicode scalar values. *)
Definition scalar (c : N) : Prop := c < 0xD800 \/ 0xE000 <= c < 0x110000.
Definition utf8_of (c : N) : list N :=
  if c <? 0x80 then [c]
  else if c <? 0x800 then [0xC0 + c / 64; 0x80 + c mod 64]
  else if c <? 0x10000 then [0xE0 + c / 4096; 0x80 + c / 64 mod 64; 0x80 + c mod 64]
  else [0xF0 + c / 262144; 0x80 + c / 4096 mod 64; 0x80 + c / 64 mod 64; 0x80 + c mod 64].
(** The text [cs] is encoded as [l]. *)
Definition spells (cs : list N) (l : bytes) : Prop :=
  Forall scalar cs /\ map Byte.to_N l = concat (map utf8_of cs).
Definition utf8 (l : bytes) : Prop := exists cs, spells cs l.
Definition ascii_only (l : bytes) : Prop := Forall (fun b => Byte.to_N b < 128) l.

(** What can be continued to a text. *)
Definition completable (l : bytes) : Prop := exists r, utf8 (l ++ r).
(** [k] is the length of the longest prefix of [l] with [P]. *)
Definition longest (P : bytes -> Prop) (l : bytes) (k : nat) : Prop :=
  (k <= length l)%nat /\ P (firstn k l) /\ forall k', (k < k' <= length l)%nat -> ~ P (firstn k' l).
(** Where [l] stops being a text: the longest prefix that is one, and whether [l] ends too early
    or else how far beyond that prefix [l] could still become a text, but at least one byte. *)
Definition fault (l : bytes) (e : utf8_error) : Prop :=
  longest utf8 l (ue_valid_up_to e) /\
  match ue_error_len e with
  | None => completable l
  | Some n => ~ completable l /\ exists k, longest completable l k /\ n = Nat.max 1 (k - ue_valid_up_to e)
  end.
