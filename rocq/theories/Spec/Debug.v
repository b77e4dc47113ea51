(** * Specification of the debug texts of frames and their parts

    Independent of the model: uses only its data types. *)

From Coq Require Import Ascii.
From Verif Require Export Spec.Text.
Open Scope string_scope.
Open Scope N_scope.

Definition dquote : ascii := ascii_of_N 34.

(** The two-character escapes: the byte and the character after the backslash. *)
Definition short_escapes : list (N * ascii) :=
  [ (10, "n"%char); (13, "r"%char); (9, "t"%char); (0, "0"%char); (34, dquote); (92, "\"%char) ].
(** One byte inside a byte string literal. *)
Inductive byte_shown (b : byte) : string -> Prop :=
| Shown_self : forall c, N_of_ascii c = Byte.to_N b -> 32 <= Byte.to_N b < 127 ->
    ~ In (Byte.to_N b) (map fst short_escapes) -> byte_shown b (String c "")
| Shown_short : forall c, In (Byte.to_N b, c) short_escapes -> byte_shown b (String "\" (String c ""))
| Shown_hex : forall h, ~ 32 <= Byte.to_N b < 127 -> ~ In (Byte.to_N b) (map fst short_escapes) ->
    String.length h = 2%nat -> reads 16 h (Byte.to_N b) -> byte_shown b ("\x" ++ h).
Inductive bytes_shown : bytes -> string -> Prop :=
| Shown_nil : bytes_shown [] ""
| Shown_cons : forall b x l s, byte_shown b x -> bytes_shown l s -> bytes_shown (b :: l) (x ++ s).

(** The flags: the position of each bit and its names. *)
Definition bit_names : list (N * string) :=
  [ (8, "IGNORE"); (7, "METADATA"); (6, "FOLLOWS"); (6, "RESUME"); (6, "RESPOND"); (5, "COMPLETE");
    (5, "LEASE"); (4, "NEXT") ].
(** Words with bars between them. *)
Inductive barred : list string -> string -> Prop :=
| Barred_one : forall w, barred [w] w
| Barred_more : forall w l s, barred l s -> barred (w :: l) (w ++ " | " ++ s).
(** All bits set are named, those without a name as one number. *)
Inductive bits_shown (f : N) : string -> Prop :=
| Bits_none : (forall i, N.testbit f i = false) -> bits_shown f "(empty)"
| Bits_named : forall s,
    (forall i, N.testbit f i = true -> In i (map fst bit_names)) ->
    barred (map snd (filter (fun x => N.testbit f (fst x)) bit_names)) s -> bits_shown f s
| Bits_extra : forall e h s, e <> 0 -> numeral 16 h e ->
    (forall i, N.testbit e i = true <-> N.testbit f i = true /\ ~ In i (map fst bit_names)) ->
    barred (map snd (filter (fun x => N.testbit f (fst x)) bit_names) ++ ["0x" ++ h]%string)%list s -> bits_shown f s.

(** What is shown: a number, a byte string, flags, a word, a struct with named fields, a
    named tuple. *)
Inductive tree : Set :=
| Number (n : N)
| Blob (l : bytes)
| Bits (f : N)
| Word (w : string)
| Struct (name : string) (fields : list (string * tree))
| Tuple (name : string) (t : tree).
Inductive shown : tree -> string -> Prop :=
| Shown_number : forall n s, numeral 10 s n -> shown (Number n) s
| Shown_blob : forall l s, bytes_shown l s -> shown (Blob l) (String "b" (String dquote (s ++ String dquote "")))
| Shown_bits : forall f s, bits_shown f s -> shown (Bits f) s
| Shown_word : forall w, shown (Word w) w
| Shown_struct : forall name fs s, fields_shown fs s -> shown (Struct name fs) (name ++ " { " ++ s ++ " }")
| Shown_tuple : forall name t s, shown t s -> shown (Tuple name t) (name ++ "(" ++ s ++ ")")
with fields_shown : list (string * tree) -> string -> Prop :=
| Fields_one : forall k t s, shown t s -> fields_shown [(k, t)] (k ++ ": " ++ s)
| Fields_more : forall k t s fs r, shown t s -> fields_shown fs r ->
    fields_shown ((k, t) :: fs) (k ++ ": " ++ s ++ ", " ++ r).

(** The names of the types and of their fields. *)
Definition maybe (o : option bytes) : tree :=
  match o with Some b => Tuple "Some" (Blob b) | None => Word "None" end.
Definition truth (b : bool) : tree := Word (if b then "true" else "false").
Definition version_tree (v : version) : tree :=
  Struct "Version" [ ("major", Number (v_major v)); ("minor", Number (v_minor v)) ].
Definition payload_tree (p : payload) : tree :=
  Struct "Payload" [ ("metadata", maybe (p_metadata p)); ("data", maybe (p_data p)) ].
Definition setup_tree (name : string) (s : setup_frame) : tree :=
  Struct name
    [ ("flags", Bits (sf_flags s)); ("version", version_tree (sf_version s));
      ("keepalive_interval", Number (sf_keepalive_interval s));
      ("keepalive_timeout", Number (sf_keepalive_timeout s));
      ("resume_token", maybe (sf_resume_token s));
      ("metadata_mimetype", Blob (sf_metadata_mimetype s));
      ("data_mimetype", Blob (sf_data_mimetype s)); ("payload", payload_tree (sf_payload s)) ].
Definition frame_tree (f : frame) : tree :=
  match f with
  | FSetup s => Tuple "Setup" (setup_tree "SetupFrame" s)
  | FError e => Tuple "Error" (Struct "ErrorFrame"
      [ ("stream_id", Number (ef_stream_id e)); ("code", Number (ef_code e)); ("data", maybe (ef_data e)) ])
  | FLease l => Tuple "Lease" (Struct "LeaseFrame"
      [ ("ttl", Number (lf_ttl l)); ("number_of_requests", Number (lf_number_of_requests l));
        ("metadata", maybe (lf_metadata l)) ])
  | FKeepalive k => Tuple "Keepalive" (Struct "KeepaliveFrame"
      [ ("respond", truth (kf_respond k)); ("last_received_position", Number (kf_last_received_position k));
        ("data", maybe (kf_data k)) ])
  | FRequestResponse q => Tuple "RequestResponse" (Struct "RequestResponseFrame"
      [ ("stream_id", Number (rr_stream_id q)); ("flags", Bits (rr_flags q)); ("payload", payload_tree (rr_payload q)) ])
  | FRequestFnf q => Tuple "RequestFnf" (Struct "RequestFnfFrame"
      [ ("stream_id", Number (fnf_stream_id q)); ("flags", Bits (fnf_flags q)); ("payload", payload_tree (fnf_payload q)) ])
  | FRequestStream q => Tuple "RequestStream" (Struct "RequestStreamFrame"
      [ ("stream_id", Number (rs_stream_id q)); ("flags", Bits (rs_flags q));
        ("initial_request_n", Number (rs_initial_request_n q)); ("payload", payload_tree (rs_payload q)) ])
  | FRequestChannel q => Tuple "RequestChannel" (Struct "RequestChannelFrame"
      [ ("stream_id", Number (rc_stream_id q)); ("flags", Bits (rc_flags q));
        ("initial_request_n", Number (rc_initial_request_n q)); ("payload", payload_tree (rc_payload q)) ])
  | FRequestN q => Tuple "RequestN" (Struct "RequestNFrame"
      [ ("stream_id", Number (rn_stream_id q)); ("request_n", Number (rn_request_n q)) ])
  | FCancel c => Tuple "Cancel" (Struct "CancelFrame" [ ("stream_id", Number (cf_stream_id c)) ])
  | FPayload q => Tuple "Payload" (Struct "PayloadFrame"
      [ ("stream_id", Number (pf_stream_id q)); ("flags", Bits (pf_flags q)); ("payload", payload_tree (pf_payload q)) ])
  | FMetadataPush m => Tuple "MetadataPush" (Struct "MetadataPushFrame" [ ("metadata", Blob (mp_metadata m)) ])
  | FResume r => Tuple "Resume" (Struct "ResumeFrame"
      [ ("version", version_tree (rf_version r)); ("resume_token", Blob (rf_resume_token r));
        ("last_received_server_position", Number (rf_last_received_server_position r));
        ("first_available_client_position", Number (rf_first_available_client_position r)) ])
  | FResumeOk r => Tuple "ResumeOk" (Struct "ResumeOkFrame"
      [ ("last_received_client_position", Number (ro_last_received_client_position r)) ])
  end.

(** The names of the frame types. *)
Definition type_names : list (frame_type * string) :=
  [ (FT_SETUP, "SETUP"); (FT_LEASE, "LEASE"); (FT_KEEPALIVE, "KEEPALIVE");
    (FT_REQUEST_RESPONSE, "REQUEST_RESPONSE"); (FT_REQUEST_FNF, "REQUEST_FNF");
    (FT_REQUEST_STREAM, "REQUEST_STREAM"); (FT_REQUEST_CHANNEL, "REQUEST_CHANNEL");
    (FT_REQUEST_N, "REQUEST_N"); (FT_CANCEL, "CANCEL"); (FT_PAYLOAD, "PAYLOAD"); (FT_ERROR, "ERROR");
    (FT_METADATA_PUSH, "METADATA_PUSH"); (FT_RESUME, "RESUME"); (FT_RESUME_OK, "RESUME_OK"); (FT_EXT, "EXT") ].

(** Only printable ASCII: no line feed, no control character. *)
Definition printable (s : string) : Prop :=
  forall i c, String.get i s = Some c -> 32 <= N_of_ascii c < 127.
