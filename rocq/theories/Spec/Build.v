(** * Specification of constructors, builders and small value types

    Independent of the model: uses only its data types. *)

From Verif Require Export Spec.Wire.

(** ** Flag words, bit by bit *)

(** The word [w] has exactly the listed bits, each when its condition holds. *)
Definition flag_bits (w : flags) (l : list (N * bool)) : Prop :=
  forall i, N.testbit w i = existsb (fun kb => (fst kb =? i) && snd kb) l.

(** Positions inside the 10-bit flag word as drawn in the header diagrams
    (flags.rs:70-76, codec/*.rs): the word follows the 6-bit frame type, its most
    significant bit is [I], then [M], then [F]/[R], then [C]/[L], then [N]. *)
Definition drawn_ignore : N := 9.
Definition drawn_metadata : N := 8.
Definition drawn_follows : N := 7.
Definition drawn_complete : N := 6.
Definition drawn_next : N := 5.

(** The fields in front of the payload (length, metadata, data come last). *)
Definition fixed_fields (f : frame) : list field := firstn (length (layout f) - 3) (layout f).

(** ** Call histories *)

(** [a] is what the last call selected by [sel] set, or [dflt] when there was none. *)
Definition is_latest {C A : Type} (sel : C -> option A) (dflt : A) (h : list C) (a : A) : Prop :=
  (exists h1 c h2, h = h1 ++ c :: h2 /\ sel c = Some a /\ forall c', In c' h2 -> sel c' = None) \/
  ((forall c, In c h -> sel c = None) /\ a = dflt).

Definition sets_payload_data (c : payload_call) : option (option bytes) :=
  match c with PSetData d => Some (Some d) | _ => None end.
Definition sets_payload_metadata (c : payload_call) : option (option bytes) :=
  match c with PSetMetadata m => Some (Some m) | _ => None end.

Definition sets_version (c : setup_call) : option version :=
  match c with SetVersion major minor => Some (Version major minor) | _ => None end.
Definition sets_interval (c : setup_call) : option N :=
  match c with SetKeepaliveInterval n => Some (n mod 2 ^ 31) | _ => None end.
Definition sets_timeout (c : setup_call) : option N :=
  match c with SetKeepaliveTimeout n => Some (n mod 2 ^ 31) | _ => None end.
Definition sets_token (c : setup_call) : option (option bytes) :=
  match c with SetResumeToken t => Some (Some t) | _ => None end.
Definition sets_metadata_mimetype (c : setup_call) : option bytes :=
  match c with SetMetadataMimetype m => Some m | _ => None end.
Definition sets_data_mimetype (c : setup_call) : option bytes :=
  match c with SetDataMimetype m => Some m | _ => None end.
Definition sets_metadata (c : setup_call) : option (option bytes) :=
  match c with SetMetadata m => Some (Some m) | _ => None end.
Definition sets_data (c : setup_call) : option (option bytes) :=
  match c with SetData d => Some (Some d) | _ => None end.
Definition raises_metadata (c : setup_call) : bool :=
  match c with SetMetadata _ => true | _ => false end.
Definition raises_resume (c : setup_call) : bool :=
  match c with SetResumeFlag | SetResumeToken _ => true | _ => false end.
Definition raises_lease (c : setup_call) : bool :=
  match c with SetLeaseFlag => true | _ => false end.

(** The text [application/binary]. *)
Definition default_mime : bytes := list_byte_of_string "application/binary".

(** The calls that must panic. *)
Definition refused (bd : build) (c : setup_call) : Prop :=
  match c with
  | SetResumeToken t => 65535 < size t
  | SetMetadataMimetype m | SetDataMimetype m => 256 < size m
  | SetKeepaliveInterval n | SetKeepaliveTimeout n => bd = Debug /\ 2 ^ 31 <= n
  | _ => False
  end.

(** What the Rust argument types guarantee. *)
Definition typed_call (c : setup_call) : Prop :=
  match c with
  | SetVersion major minor => major < 2 ^ 16 /\ minor < 2 ^ 16
  | SetKeepaliveInterval n | SetKeepaliveTimeout n => n < 2 ^ 32
  | _ => True
  end.

(** ** Frame types *)

Definition type_code (t : frame_type) : N :=
  match t with
  | FT_SETUP => 1 | FT_LEASE => 2 | FT_KEEPALIVE => 3 | FT_REQUEST_RESPONSE => 4
  | FT_REQUEST_FNF => 5 | FT_REQUEST_STREAM => 6 | FT_REQUEST_CHANNEL => 7
  | FT_REQUEST_N => 8 | FT_CANCEL => 9 | FT_PAYLOAD => 10 | FT_ERROR => 11
  | FT_METADATA_PUSH => 12 | FT_RESUME => 13 | FT_RESUME_OK => 14 | FT_EXT => 63
  end.

(** ** Versions *)

Definition version_before (a b : version) : Prop :=
  v_major a < v_major b \/ (v_major a = v_major b /\ v_minor a < v_minor b).

(** Unsigned big-endian value of a byte string. *)
Fixpoint number (l : bytes) : N :=
  match l with
  | [] => 0
  | b :: l' => Coq.Strings.Byte.to_N b * 256 ^ size l' + number l'
  end.
