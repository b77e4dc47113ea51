(** * Properties of debug texts over several lines and of the other enums: C87, C88 *)

From Coq Require Import Ascii.
From Verif Require Import Model.PrettyM Model.FrameM Spec.Wire Spec.Mime.
From Verif Require Import Proofs.PrettyP.
From Verif Require Import Spec.Pretty Spec.Debug.
Open Scope string_scope.
Open Scope N_scope.

(** ** C87: [{:#?}] *)

(** For every frame the types permit: each field on lines of its own, indented. *)
Theorem C87_laid : forall f, typed f -> exists ls, laid (frame_tree f) ls /\ frame_pretty f = lines_text ls.
Proof. exact typed_laid. Qed.
Print Assumptions C87_laid.

(** Joining the lines gives the compact text. *)
Theorem C87_joined : forall f, typed f -> joined None (frame_pretty f) = frame_debug f.
Proof. exact typed_joined. Qed.
Print Assumptions C87_joined.

Theorem C87_determines : forall f g, typed f -> typed g -> frame_pretty f = frame_pretty g -> f = g.
Proof. exact typed_pretty_inj. Qed.
Print Assumptions C87_determines.

Theorem C87_decoded : forall input f rest, decode input = (DOk f, rest) -> typed f.
Proof. exact decoded_typed. Qed.
Print Assumptions C87_decoded.

Theorem C87_parts :
  (forall v, exists ls, laid (version_tree v) ls /\ version_pretty v = lines_text ls) /\
  (forall p, exists ls, laid (payload_tree p) ls /\ payload_pretty p = lines_text ls) /\
  (forall p, exists ls, laid (Tuple "PayloadBuilder" (payload_tree p)) ls /\ payload_builder_pretty p = lines_text ls) /\
  (forall c, exists ls, laid (Struct "PayloadChunks" [ ("chunk_size", Number (ch_size c));
     ("metadata", maybe (ch_metadata c)); ("data", maybe (ch_data c)) ]) ls /\ chunks_pretty c = lines_text ls) /\
  (forall s, flags_ok (sf_flags s) ->
     exists ls, laid (setup_tree "SetupFrameBuilder" s) ls /\ setup_builder_pretty s = lines_text ls) /\
  (forall u, exists a b, u24_pretty u = lines_text [ "U24("; "    " ++ a ++ ","; "    " ++ b ++ ","; ")" ] /\
     numeral 10 a (u24_hi u) /\ numeral 10 b (u24_lo u)).
Proof. exact parts_laid. Qed.
Print Assumptions C87_parts.

Theorem C87_joined_parts :
  (forall v, joined None (version_pretty v) = version_debug v) /\
  (forall p, joined None (payload_pretty p) = payload_debug p) /\
  (forall p, joined None (payload_builder_pretty p) = payload_builder_debug p) /\
  (forall c, joined None (chunks_pretty c) = chunks_debug c) /\
  (forall s, flags_ok (sf_flags s) -> joined None (setup_builder_pretty s) = setup_builder_debug s).
Proof. exact parts_joined. Qed.
Print Assumptions C87_joined_parts.

Definition q : string := String (ascii_of_N 34) "".
(** A line feed and blanks in the payload are not broken lines. *)
Definition px_frame : frame :=
  FPayload (PayloadFrame 7 0x60 (Payload (Some []) (Some (map n2b [44; 10; 32; 32; 125])))).
Example C87_example : typed px_frame /\
  frame_pretty px_frame = lines_text
    [ "Payload("; "    PayloadFrame {"; "        stream_id: 7,";
      "        flags: FOLLOWS | RESUME | RESPOND | COMPLETE | LEASE,"; "        payload: Payload {";
      "            metadata: Some("; "                b" ++ q ++ q ++ ","; "            ),";
      "            data: Some("; "                b" ++ q ++ ",\n  }" ++ q ++ ","; "            ),"; "        },"; "    },"; ")" ] /\
  frame_debug px_frame = "Payload(PayloadFrame { stream_id: 7, flags: FOLLOWS | RESUME | RESPOND | COMPLETE | LEASE, " ++
    "payload: Payload { metadata: Some(b" ++ q ++ q ++ "), data: Some(b" ++ q ++ ",\n  }" ++ q ++ ") } })" /\
  joined None (frame_pretty px_frame) = frame_debug px_frame.
Proof. vm_compute. repeat split. Qed.
(** Flags with bits that have no name, which only unsafe code can make, are not shown as in the compact text. *)
Example C87_doubled : flags_pretty 0x30F = "IGNORE | 0x0x20f" /\ flags_debug 0x30F = "IGNORE | 0x20f" /\ ~ flags_ok 0x30F.
Proof. split; [reflexivity|]. split; [reflexivity|]. intros [H _]. discriminate H. Qed.

(** ** C88: the names of MIME types and error codes *)

Theorem C88_mime : mime_debug M_UNPARSEABLE = "UNPARSEABLE" /\
  (forall s m, In (s, m) mime_table -> mime_debug m = shouted s) /\
  (forall m m', mime_debug m = mime_debug m' -> m = m').
Proof. exact mime_shouted. Qed.
Print Assumptions C88_mime.

Theorem C88_code : (forall c, In (c, code_debug c) code_names) /\
  (forall c c', code_debug c = code_debug c' -> c = c').
Proof. exact code_named. Qed.
Print Assumptions C88_code.

Example C88_example : shouted "application/vnd.apache.thrift.binary" = "APPLICATION_VND_APACHE_THRIFT_BINARY" /\
  In ("video/H264", M_VIDEO_H264) mime_table /\ mime_debug M_VIDEO_H264 = "VIDEO_H264" /\
  code_debug CConnectionClose = "ConnectionClose".
Proof. vm_compute. intuition. Qed.
