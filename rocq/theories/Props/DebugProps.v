(** * Debug texts and comparison of frames *)

From Coq Require Import Ascii.
From Verif Require Import Model.DebugM Model.FrameM Spec.Debug.
From Verif Require Import Proofs.TextP Proofs.StableP Proofs.FrameDebugP Proofs.FrameEqP.
Open Scope string_scope.
Open Scope N_scope.

(** ** C77: the debug text of a frame shows every field, on one line, without ambiguity *)

Theorem C77_shown : forall f, shown (frame_tree f) (frame_debug f).
Proof. exact frame_shown. Qed.
Print Assumptions C77_shown.

Theorem C77_parts :
  (forall l, shown (Blob l) (bytes_debug l)) /\
  (forall x, shown (Bits x) (flags_debug x)) /\
  (forall v, shown (version_tree v) (version_debug v)) /\
  (forall p, shown (payload_tree p) (payload_debug p)) /\
  (forall p, shown (Tuple "PayloadBuilder" (payload_tree p)) (payload_builder_debug p)) /\
  (forall c, shown (Struct "PayloadChunks" [ ("chunk_size", Number (ch_size c));
     ("metadata", maybe (ch_metadata c)); ("data", maybe (ch_data c)) ]) (chunks_debug c)) /\
  (forall s, shown (setup_tree "SetupFrameBuilder" s) (setup_builder_debug s)) /\
  (forall u, exists a b, u24_debug u = ("U24(" ++ a ++ ", " ++ b ++ ")")%string /\
     numeral 10 a (u24_hi u) /\ numeral 10 b (u24_lo u)) /\
  (forall t, In (t, frame_type_debug t) type_names).
Proof. exact parts_shown. Qed.
Print Assumptions C77_parts.

Theorem C77_determines : forall f g, frame_debug f = frame_debug g -> f = g.
Proof. exact frame_debug_inj. Qed.
Print Assumptions C77_determines.

Theorem C77_determines_parts :
  (forall a b, bytes_debug a = bytes_debug b -> a = b) /\
  (forall a b, flags_debug a = flags_debug b -> a = b) /\
  (forall a b, frame_type_debug a = frame_type_debug b -> a = b) /\
  (forall a b, u24_debug a = u24_debug b -> a = b) /\
  (forall a b, version_debug a = version_debug b -> a = b) /\
  (forall a b, payload_debug a = payload_debug b -> a = b) /\
  (forall a b, payload_builder_debug a = payload_builder_debug b -> a = b) /\
  (forall a b, chunks_debug a = chunks_debug b -> a = b) /\
  (forall a b, setup_builder_debug a = setup_builder_debug b -> a = b).
Proof. exact parts_determined. Qed.
Print Assumptions C77_determines_parts.

Theorem C77_printable : forall f, printable (frame_debug f).
Proof. exact frame_printable. Qed.
Print Assumptions C77_printable.

Definition q : string := String (ascii_of_N 34) "".
Example C77_example :
  frame_debug (FSetup (SetupFrame 0xE0 (Version 1 0) 3 500 (Some [n2b 10; n2b 0x41; n2b 34])
    (map n2b [97]) [] (Payload (Some []) (Some [n2b 0; n2b 9; n2b 13; n2b 92; n2b 0x7F; n2b 0xE2])))) =
  "Setup(SetupFrame { flags: METADATA | FOLLOWS | RESUME | RESPOND | COMPLETE | LEASE, " ++
  "version: Version { major: 1, minor: 0 }, keepalive_interval: 3, keepalive_timeout: 500, " ++
  "resume_token: Some(b" ++ q ++ "\nA\" ++ q ++ q ++ "), metadata_mimetype: b" ++ q ++ "a" ++ q ++
  ", data_mimetype: b" ++ q ++ q ++ ", payload: Payload { metadata: Some(b" ++ q ++ q ++
  "), data: Some(b" ++ q ++ "\0\t\r\\\x7f\xe2" ++ q ++ ") } })" /\
  frame_debug (FKeepalive (KeepaliveFrame true 18446744073709551615 None)) =
  "Keepalive(KeepaliveFrame { respond: true, last_received_position: 18446744073709551615, data: None })" /\
  frame_debug (FCancel (CancelFrame 7)) = "Cancel(CancelFrame { stream_id: 7 })" /\
  flags_debug 0 = "(empty)" /\ flags_debug 0x30F = "IGNORE | 0x20f" /\
  u24_debug (U24 1 2) = "U24(1, 2)" /\ frame_type_debug FT_REQUEST_FNF = "REQUEST_FNF".
Proof. vm_compute. repeat split. Qed.

(** What a peer sends cannot forge a line or hide the end of a field: data that reads like the rest
    of the text is still shown as data. *)
Example C77_forged : exists f g, f <> g /\
  decode (map n2b [0;0;0;1; 0x28;0x20; 0;0;0; 97; 34; 10]) = (DOk f, []) /\
  decode (map n2b [0;0;0;1; 0x28;0x20; 0;0;0; 97]) = (DOk g, []) /\
  frame_debug f = "Payload(PayloadFrame { stream_id: 1, flags: COMPLETE | LEASE, " ++
    "payload: Payload { metadata: None, data: Some(b" ++ q ++ "a\" ++ q ++ "\n" ++ q ++ ") } })" /\
  frame_debug g = "Payload(PayloadFrame { stream_id: 1, flags: COMPLETE | LEASE, " ++
    "payload: Payload { metadata: None, data: Some(b" ++ q ++ "a" ++ q ++ ") } })".
Proof.
  exists (FPayload (PayloadFrame 1 0x20 (Payload None (Some (map n2b [97; 34; 10]))))),
         (FPayload (PayloadFrame 1 0x20 (Payload None (Some (map n2b [97]))))).
  split; [discriminate|]. vm_compute. repeat split.
Qed.

(** ** C78: [==] on frames, payloads and versions *)

Theorem C78_frames : forall f g, frame_eq f g = true <-> f = g.
Proof. exact frame_eq_spec. Qed.
Print Assumptions C78_frames.

Theorem C78_parts :
  (forall a b, bytes_eq a b = true <-> a = b) /\
  (forall a b, payload_eq a b = true <-> a = b) /\
  (forall a b, version_eq a b = true <-> a = b) /\
  (forall a b, version_partial_cmp a b = Some Eq <-> version_eq a b = true).
Proof. exact parts_eq. Qed.
Print Assumptions C78_parts.

(** Decoded frames are equal exactly if they are written as the same bytes. *)
Theorem C78_decoded : forall i j f g r s, decode i = (DOk f, r) -> decode j = (DOk g, s) ->
  exists x y, frame_encode f [] = EOk x /\ frame_encode g [] = EOk y /\
    (frame_eq f g = true <-> x = y) /\ (frame_eq f g = true <-> frame_debug f = frame_debug g).
Proof. exact decoded_eq. Qed.
Print Assumptions C78_decoded.

(** Different input bytes, the reserved bits set, the same frame; and one field apart. *)
Example C78_example :
  exists i j k f g, i <> j /\ decode i = (DOk f, []) /\ decode j = (DOk f, []) /\ decode k = (DOk g, []) /\
    frame_eq f f = true /\ frame_eq f g = false.
Proof.
  exists (map n2b [0x80;0;0;5; 0x22;0x0F; 0x80;0;0;9]), (map n2b [0;0;0;5; 0x20;0; 0;0;0;9]),
    (map n2b [0;0;0;5; 0x20;0; 0;0;0;8]), (FRequestN (RequestNFrame 5 9)), (FRequestN (RequestNFrame 5 8)).
  split; [discriminate|]. vm_compute. repeat split.
Qed.
(** Frames not obtained by decoding may be different and still be written as the same bytes. *)
Example C78_not_decoded : frame_eq (FPayload (PayloadFrame 1 0 (Payload None (Some []))))
    (FPayload (PayloadFrame 1 0 (Payload None None))) = false /\
  frame_encode (FPayload (PayloadFrame 1 0 (Payload None (Some [])))) [] =
  frame_encode (FPayload (PayloadFrame 1 0 (Payload None None))) [].
Proof. vm_compute. split; reflexivity. Qed.
