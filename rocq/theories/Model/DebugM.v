(** * [Debug] of frames, payloads and their parts, in the compact form [{:?}] *)

From Coq Require Import Ascii.
From Verif Require Export Model.ErrorM Model.ChunkM.
Open Scope string_scope.
Open Scope N_scope.

(** ** [core::fmt] and the crates used *)

(** [a] between the elements. *)
Fixpoint join (a : string) (l : list string) : string :=
  match l with
  | [] => ""
  | [x] => x
  | x :: l' => x ++ a ++ join a l'
  end.
(** [Formatter::debug_struct(name).field(..)…finish()]: what [derive(Debug)] writes for a
    struct with named fields, of which there is at least one. *)
Definition debug_struct (name : string) (fields : list (string * string)) : string :=
  name ++ " { " ++ join ", " (map (fun f => fst f ++ ": " ++ snd f) fields) ++ " }".
(** [Formatter::debug_tuple(name).field(..)…finish()]: the same for a tuple struct or variant. *)
Definition debug_tuple (name : string) (fields : list string) : string :=
  name ++ "(" ++ join ", " fields ++ ")".
(** [Debug] for [bool] and [Option<T>] (derived in [core]). *)
Definition bool_debug (b : bool) : string := if b then "true" else "false".
Definition option_debug {A : Type} (show : A -> string) (o : option A) : string :=
  match o with
  | Some a => debug_tuple "Some" [show a]
  | None => "None"
  end.

(** [Debug for Bytes] ([bytes] 1.0.1, src/fmt/debug.rs): the cases in the order of the source. *)
Definition byte_debug (b : byte) : string :=
  let n := b2n b in
  if n =? 10 then "\n"
  else if n =? 13 then "\r"
  else if n =? 9 then "\t"
  else if (n =? 92) || (n =? 34) then String "\" (String (ascii_of_N n) "")
  else if n =? 0 then "\0"
  else if (32 <=? n) && (n <? 127) then String (ascii_of_N n) ""
  else "\x" ++ (if n <? 16 then "0" else "") ++ fmt_base 16 n.    (* [{:02x}] *)
Definition bytes_debug (l : bytes) : string :=
  "b" ++ quote ++ fold_right (fun b s => byte_debug b ++ s) "" l ++ quote.

(** ** The types of the crate *)

(** [Debug for Flags] ([bitflags] 1.2.1, for the constants of frame/flags.rs:156-172 in their
    order): the names of the constants contained, then the bits that belong to none. *)
Definition flag_names : list (flags * string) :=
  [ (FL_IGNORE, "IGNORE"); (FL_METADATA, "METADATA"); (FL_FOLLOWS, "FOLLOWS"); (FL_RESUME, "RESUME");
    (FL_RESPOND, "RESPOND"); (FL_COMPLETE, "COMPLETE"); (FL_LEASE, "LEASE"); (FL_NEXT, "NEXT") ].
Definition flags_debug (f : flags) : string :=
  let names := map snd (filter (fun x => fl_contains f (fst x)) flag_names) in
  let extra := N.ldiff f fl_all in
  let words := (names ++ (if extra =? 0 then [] else [("0x" ++ fmt_base 16 extra)%string]))%list in
  match words with
  | [] => "(empty)"
  | _ => join " | " words
  end.

(** [Debug for FrameType] (derived), frame/flags.rs:5-37. *)
Definition frame_type_debug (t : frame_type) : string :=
  match t with
  | FT_SETUP => "SETUP"
  | FT_LEASE => "LEASE"
  | FT_KEEPALIVE => "KEEPALIVE"
  | FT_REQUEST_RESPONSE => "REQUEST_RESPONSE"
  | FT_REQUEST_FNF => "REQUEST_FNF"
  | FT_REQUEST_STREAM => "REQUEST_STREAM"
  | FT_REQUEST_CHANNEL => "REQUEST_CHANNEL"
  | FT_REQUEST_N => "REQUEST_N"
  | FT_CANCEL => "CANCEL"
  | FT_PAYLOAD => "PAYLOAD"
  | FT_ERROR => "ERROR"
  | FT_METADATA_PUSH => "METADATA_PUSH"
  | FT_RESUME => "RESUME"
  | FT_RESUME_OK => "RESUME_OK"
  | FT_EXT => "EXT"
  end.
(** [Debug for U24] (derived), frame/u24.rs:6-7. *)
Definition u24_debug (u : u24) : string := debug_tuple "U24" [fmt_dec (u24_hi u); fmt_dec (u24_lo u)].
(** [Debug for Version] (derived), frame/version.rs:7-11. *)
Definition version_debug (v : version) : string :=
  debug_struct "Version" [("major", fmt_dec (v_major v)); ("minor", fmt_dec (v_minor v))].
(** [Debug for Payload] (derived), payload.rs:27-31. *)
Definition payload_debug (p : payload) : string :=
  debug_struct "Payload" [ ("metadata", option_debug bytes_debug (p_metadata p));
                           ("data", option_debug bytes_debug (p_data p)) ].
(** [Debug for PayloadBuilder] (derived), payload.rs:131-132; its content is the payload. *)
Definition payload_builder_debug (p : payload) : string := debug_tuple "PayloadBuilder" [payload_debug p].
(** [Debug for PayloadChunks] (derived), payload.rs:190-195. *)
Definition chunks_debug (c : chunks) : string :=
  debug_struct "PayloadChunks" [ ("chunk_size", fmt_dec (ch_size c));
                                 ("metadata", option_debug bytes_debug (ch_metadata c));
                                 ("data", option_debug bytes_debug (ch_data c)) ].

(** The fields of [SetupFrame], frame/codec/setup.rs:39-48, and of [SetupFrameBuilder],
    setup.rs:225-234, which are the same. *)
Definition setup_fields (s : setup_frame) : list (string * string) :=
  [ ("flags", flags_debug (sf_flags s));
    ("version", version_debug (sf_version s));
    ("keepalive_interval", fmt_dec (sf_keepalive_interval s));
    ("keepalive_timeout", fmt_dec (sf_keepalive_timeout s));
    ("resume_token", option_debug bytes_debug (sf_resume_token s));
    ("metadata_mimetype", bytes_debug (sf_metadata_mimetype s));
    ("data_mimetype", bytes_debug (sf_data_mimetype s));
    ("payload", payload_debug (sf_payload s)) ].
(** [Debug for SetupFrame] (derived), setup.rs:38. *)
Definition setup_debug (s : setup_frame) : string := debug_struct "SetupFrame" (setup_fields s).
(** [Debug for SetupFrameBuilder] (derived), setup.rs:224. *)
Definition setup_builder_debug (s : setup_frame) : string := debug_struct "SetupFrameBuilder" (setup_fields s).
(** [Debug for ErrorFrame] (derived), error.rs:35-40. *)
Definition error_frame_debug (e : error_frame) : string :=
  debug_struct "ErrorFrame" [ ("stream_id", fmt_dec (ef_stream_id e)); ("code", fmt_dec (ef_code e));
                              ("data", option_debug bytes_debug (ef_data e)) ].
(** [Debug for LeaseFrame] (derived), lease.rs:28-33. *)
Definition lease_debug (l : lease_frame) : string :=
  debug_struct "LeaseFrame" [ ("ttl", fmt_dec (lf_ttl l));
                              ("number_of_requests", fmt_dec (lf_number_of_requests l));
                              ("metadata", option_debug bytes_debug (lf_metadata l)) ].
(** [Debug for KeepaliveFrame] (derived), keepalive.rs:24-29. *)
Definition keepalive_debug (k : keepalive_frame) : string :=
  debug_struct "KeepaliveFrame" [ ("respond", bool_debug (kf_respond k));
                                  ("last_received_position", fmt_dec (kf_last_received_position k));
                                  ("data", option_debug bytes_debug (kf_data k)) ].
(** [Debug for RequestResponseFrame] (derived), request_response.rs:20-25. *)
Definition request_response_debug (q : request_response_frame) : string :=
  debug_struct "RequestResponseFrame" [ ("stream_id", fmt_dec (rr_stream_id q));
    ("flags", flags_debug (rr_flags q)); ("payload", payload_debug (rr_payload q)) ].
(** [Debug for RequestFnfFrame] (derived), request_fnf.rs:20-25. *)
Definition request_fnf_debug (q : request_fnf_frame) : string :=
  debug_struct "RequestFnfFrame" [ ("stream_id", fmt_dec (fnf_stream_id q));
    ("flags", flags_debug (fnf_flags q)); ("payload", payload_debug (fnf_payload q)) ].
(** [Debug for RequestStreamFrame] (derived), request_stream.rs:22-28. *)
Definition request_stream_debug (q : request_stream_frame) : string :=
  debug_struct "RequestStreamFrame" [ ("stream_id", fmt_dec (rs_stream_id q));
    ("flags", flags_debug (rs_flags q)); ("initial_request_n", fmt_dec (rs_initial_request_n q));
    ("payload", payload_debug (rs_payload q)) ].
(** [Debug for RequestChannelFrame] (derived), request_channel.rs:22-28. *)
Definition request_channel_debug (q : request_channel_frame) : string :=
  debug_struct "RequestChannelFrame" [ ("stream_id", fmt_dec (rc_stream_id q));
    ("flags", flags_debug (rc_flags q)); ("initial_request_n", fmt_dec (rc_initial_request_n q));
    ("payload", payload_debug (rc_payload q)) ].
(** [Debug for RequestNFrame] (derived), request_n.rs:21-25. *)
Definition request_n_debug (q : request_n_frame) : string :=
  debug_struct "RequestNFrame" [ ("stream_id", fmt_dec (rn_stream_id q)); ("request_n", fmt_dec (rn_request_n q)) ].
(** [Debug for CancelFrame] (derived), cancel.rs:19-22. *)
Definition cancel_debug (c : cancel_frame) : string :=
  debug_struct "CancelFrame" [ ("stream_id", fmt_dec (cf_stream_id c)) ].
(** [Debug for PayloadFrame] (derived), frame/codec/payload.rs:20-25. *)
Definition payload_frame_debug (q : payload_frame) : string :=
  debug_struct "PayloadFrame" [ ("stream_id", fmt_dec (pf_stream_id q));
    ("flags", flags_debug (pf_flags q)); ("payload", payload_debug (pf_payload q)) ].
(** [Debug for MetadataPushFrame] (derived), metadata_push.rs:23-26. *)
Definition metadata_push_debug (m : metadata_push_frame) : string :=
  debug_struct "MetadataPushFrame" [ ("metadata", bytes_debug (mp_metadata m)) ].
(** [Debug for ResumeFrame] (derived), resume.rs:31-37. *)
Definition resume_debug (r : resume_frame) : string :=
  debug_struct "ResumeFrame" [ ("version", version_debug (rf_version r));
    ("resume_token", bytes_debug (rf_resume_token r));
    ("last_received_server_position", fmt_dec (rf_last_received_server_position r));
    ("first_available_client_position", fmt_dec (rf_first_available_client_position r)) ].
(** [Debug for ResumeOkFrame] (derived), resume_ok.rs:23-26. *)
Definition resume_ok_debug (r : resume_ok_frame) : string :=
  debug_struct "ResumeOkFrame" [ ("last_received_client_position", fmt_dec (ro_last_received_client_position r)) ].

(** [Debug for Frame] (derived), frame/mod.rs:33-63. *)
Definition frame_debug (f : frame) : string :=
  match f with
  | FSetup v => debug_tuple "Setup" [setup_debug v]
  | FError v => debug_tuple "Error" [error_frame_debug v]
  | FLease v => debug_tuple "Lease" [lease_debug v]
  | FKeepalive v => debug_tuple "Keepalive" [keepalive_debug v]
  | FRequestResponse v => debug_tuple "RequestResponse" [request_response_debug v]
  | FRequestFnf v => debug_tuple "RequestFnf" [request_fnf_debug v]
  | FRequestStream v => debug_tuple "RequestStream" [request_stream_debug v]
  | FRequestChannel v => debug_tuple "RequestChannel" [request_channel_debug v]
  | FRequestN v => debug_tuple "RequestN" [request_n_debug v]
  | FCancel v => debug_tuple "Cancel" [cancel_debug v]
  | FPayload v => debug_tuple "Payload" [payload_frame_debug v]
  | FMetadataPush v => debug_tuple "MetadataPush" [metadata_push_debug v]
  | FResume v => debug_tuple "Resume" [resume_debug v]
  | FResumeOk v => debug_tuple "ResumeOk" [resume_ok_debug v]
  end.

(** ** Derived [PartialEq] ([==])

    [derive(PartialEq)] compares the fields in their order, and for an enum the variants first;
    [Bytes] compares its contents, [Option] its variants and then the contents. *)
Fixpoint bytes_eq (a b : bytes) : bool :=
  match a, b with
  | [], [] => true
  | x :: a', y :: b' => (b2n x =? b2n y) && bytes_eq a' b'
  | _, _ => false
  end.
Definition option_eq (a b : option bytes) : bool :=
  match a, b with
  | Some x, Some y => bytes_eq x y
  | None, None => true
  | _, _ => false
  end.
(** version.rs:7, payload.rs:27. *)
Definition version_eq (a b : version) : bool :=
  N.eqb (v_major a) (v_major b) && N.eqb (v_minor a) (v_minor b).
Definition payload_eq (a b : payload) : bool :=
  option_eq (p_metadata a) (p_metadata b) && option_eq (p_data a) (p_data b).
(** frame/mod.rs:33 and the [derive] in front of each frame type. *)
Definition frame_eq (f g : frame) : bool :=
  match f, g with
  | FSetup a, FSetup b =>
      N.eqb (sf_flags a) (sf_flags b) && version_eq (sf_version a) (sf_version b)
      && N.eqb (sf_keepalive_interval a) (sf_keepalive_interval b)
      && N.eqb (sf_keepalive_timeout a) (sf_keepalive_timeout b)
      && option_eq (sf_resume_token a) (sf_resume_token b)
      && bytes_eq (sf_metadata_mimetype a) (sf_metadata_mimetype b)
      && bytes_eq (sf_data_mimetype a) (sf_data_mimetype b)
      && payload_eq (sf_payload a) (sf_payload b)
  | FError a, FError b =>
      N.eqb (ef_stream_id a) (ef_stream_id b) && N.eqb (ef_code a) (ef_code b)
      && option_eq (ef_data a) (ef_data b)
  | FLease a, FLease b =>
      N.eqb (lf_ttl a) (lf_ttl b) && N.eqb (lf_number_of_requests a) (lf_number_of_requests b)
      && option_eq (lf_metadata a) (lf_metadata b)
  | FKeepalive a, FKeepalive b =>
      Bool.eqb (kf_respond a) (kf_respond b)
      && N.eqb (kf_last_received_position a) (kf_last_received_position b)
      && option_eq (kf_data a) (kf_data b)
  | FRequestResponse a, FRequestResponse b =>
      N.eqb (rr_stream_id a) (rr_stream_id b) && N.eqb (rr_flags a) (rr_flags b)
      && payload_eq (rr_payload a) (rr_payload b)
  | FRequestFnf a, FRequestFnf b =>
      N.eqb (fnf_stream_id a) (fnf_stream_id b) && N.eqb (fnf_flags a) (fnf_flags b)
      && payload_eq (fnf_payload a) (fnf_payload b)
  | FRequestStream a, FRequestStream b =>
      N.eqb (rs_stream_id a) (rs_stream_id b) && N.eqb (rs_flags a) (rs_flags b)
      && N.eqb (rs_initial_request_n a) (rs_initial_request_n b) && payload_eq (rs_payload a) (rs_payload b)
  | FRequestChannel a, FRequestChannel b =>
      N.eqb (rc_stream_id a) (rc_stream_id b) && N.eqb (rc_flags a) (rc_flags b)
      && N.eqb (rc_initial_request_n a) (rc_initial_request_n b) && payload_eq (rc_payload a) (rc_payload b)
  | FRequestN a, FRequestN b =>
      N.eqb (rn_stream_id a) (rn_stream_id b) && N.eqb (rn_request_n a) (rn_request_n b)
  | FCancel a, FCancel b => N.eqb (cf_stream_id a) (cf_stream_id b)
  | FPayload a, FPayload b =>
      N.eqb (pf_stream_id a) (pf_stream_id b) && N.eqb (pf_flags a) (pf_flags b)
      && payload_eq (pf_payload a) (pf_payload b)
  | FMetadataPush a, FMetadataPush b => bytes_eq (mp_metadata a) (mp_metadata b)
  | FResume a, FResume b =>
      version_eq (rf_version a) (rf_version b) && bytes_eq (rf_resume_token a) (rf_resume_token b)
      && N.eqb (rf_last_received_server_position a) (rf_last_received_server_position b)
      && N.eqb (rf_first_available_client_position a) (rf_first_available_client_position b)
  | FResumeOk a, FResumeOk b =>
      N.eqb (ro_last_received_client_position a) (ro_last_received_client_position b)
  | _, _ => false
  end.
