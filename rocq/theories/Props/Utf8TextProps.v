(** * Properties of the texts of the errors of the text accessors: C110 *)

From Verif Require Import Model.Utf8TextM Spec.Utf8Text.
From Verif Require Import Proofs.Utf8TextP.
Local Open Scope string_scope.

(** ** C110: the error says where the text ends *)

(** What the error of an accessor displays: exactly the sentences about the part. *)
Theorem C110_display : forall p t,
  ((exists e, payload_data_utf8 p = inr e /\ t = utf8_error_display e) <-> exists d, p_data p = Some d /\ sentence d t) /\
  ((exists e, payload_metadata_utf8 p = inr e /\ t = utf8_error_display e) <-> exists m, p_metadata p = Some m /\ sentence m t).
Proof. exact payload_sentence. Qed.
Print Assumptions C110_display.

(** The same of [{:?}]. *)
Theorem C110_debug : forall p t,
  ((exists e, payload_data_utf8 p = inr e /\ t = utf8_error_debug e) <-> exists d, p_data p = Some d /\ value d t) /\
  ((exists e, payload_metadata_utf8 p = inr e /\ t = utf8_error_debug e) <-> exists m, p_metadata p = Some m /\ value m t).
Proof. exact payload_value. Qed.
Print Assumptions C110_debug.

(** Different errors have different texts, of either kind. *)
Theorem C110_distinct : forall e e',
  (utf8_error_display e = utf8_error_display e' -> e = e') /\ (utf8_error_debug e = utf8_error_debug e' -> e = e').
Proof. split; [apply display_inj|apply debug_inj]. Qed.
Print Assumptions C110_distinct.

(** There is one sentence about a part; parts it is about alike are text up to the same place, and more bytes can
    mend both or neither. *)
Theorem C110_sentence : forall l t t', sentence l t -> sentence l t' -> t = t'.
Proof. exact sentence_unique. Qed.
Print Assumptions C110_sentence.
Theorem C110_tells : forall l l' t, sentence l t -> sentence l' t ->
  exists i, longest utf8 l i /\ longest utf8 l' i /\ (completable l <-> completable l').
Proof. exact sentence_tells. Qed.
Print Assumptions C110_tells.

(** 'aé' followed by: three bytes of '😀' and a letter; the same at the end. *)
Example C110_example :
  let bad l := payload_data_utf8 (Payload None (Some (map n2b ([0x61; 0xC3; 0xA9] ++ l)))) in
  let say r := match r with inl _ => None | inr e => Some (utf8_error_display e, utf8_error_debug e) end in
  say (bad [0xF0; 0x9F; 0x98; 0x41]) =
    Some ("invalid utf-8 sequence of 3 bytes from index 3", "Utf8Error { valid_up_to: 3, error_len: Some(3) }") /\
  say (bad [0xF0; 0x9F; 0x98]) =
    Some ("incomplete utf-8 byte sequence from index 3", "Utf8Error { valid_up_to: 3, error_len: None }") /\
  say (bad [0xF0; 0x9F; 0x98; 0x80]) = None.
Proof. repeat split; reflexivity. Qed.
Example C110_example_sentence :
  sentence (map n2b [0x61; 0xFF]) "invalid utf-8 sequence of 1 bytes from index 1" /\
  sentence (map n2b [0x61; 0xC3]) "incomplete utf-8 byte sequence from index 1".
Proof. split; apply from_utf8_sentence; eexists; split; reflexivity. Qed.
