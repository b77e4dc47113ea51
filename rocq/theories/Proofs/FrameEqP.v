(** * Parts of debug texts, and comparison of decoded frames *)

From Coq Require Import Lia ZifyBool Ascii.
From Verif Require Import Model.DebugM Model.FrameM Spec.Debug.
From Verif Require Import Proofs.TextP Proofs.DecodeP Proofs.StableP Proofs.FrameDebugP.
Open Scope string_scope.
Open Scope N_scope.

Lemma parts_shown :
  (forall l, shown (Blob l) (bytes_debug l)) /\
  (forall x, shown (Bits x) (flags_debug x)) /\
  (forall v, shown (version_tree v) (version_debug v)) /\
  (forall p, shown (payload_tree p) (payload_debug p)) /\
  (forall p, shown (Tuple "PayloadBuilder" (payload_tree p)) (payload_builder_debug p)) /\
  (forall c, shown (Struct "PayloadChunks" [ ("chunk_size", Number (ch_size c));
     ("metadata", maybe (ch_metadata c)); ("data", maybe (ch_data c)) ]) (chunks_debug c)) /\
  (forall s, shown (setup_tree "SetupFrameBuilder" s) (setup_builder_debug s)) /\
  (forall u, exists a b, u24_debug u = ("U24(" ++ a ++ ", " ++ b ++ ")")%string /\
     numeral 10 a (u24_hi u) /\ numeral 10 b (u24_lo u)) /\
  (forall t, In (t, frame_type_debug t) type_names).
Proof.
  split; [exact blob_shown|]. split; [exact flags_shown|]. split; [exact version_shown|].
  split; [exact payload_shown|]. split; [|split; [|split; [|split]]].
  - intros p. apply Shown_tuple, payload_shown.
  - intros c. struct; leaf.
  - intros s. apply setup_shown.
  - intros u. exists (fmt_dec (u24_hi u)), (fmt_dec (u24_lo u)). split; [|split; apply fmt_dec_numeral].
    unfold u24_debug, debug_tuple. cbn [join]. now rewrite !sapp_assoc.
  - intros t. destruct t; cbn; tauto.
Qed.

Lemma parts_determined :
  (forall a b, bytes_debug a = bytes_debug b -> a = b) /\
  (forall a b, flags_debug a = flags_debug b -> a = b) /\
  (forall a b, frame_type_debug a = frame_type_debug b -> a = b) /\
  (forall a b, u24_debug a = u24_debug b -> a = b) /\
  (forall a b, version_debug a = version_debug b -> a = b) /\
  (forall a b, payload_debug a = payload_debug b -> a = b) /\
  (forall a b, payload_builder_debug a = payload_builder_debug b -> a = b) /\
  (forall a b, chunks_debug a = chunks_debug b -> a = b) /\
  (forall a b, setup_builder_debug a = setup_builder_debug b -> a = b).
Proof.
  split; [|split; [exact flags_debug_inj|split; [exact frame_type_debug_inj|split; [exact u24_debug_inj|
    split; [exact version_debug_inj|split; [exact payload_debug_inj|split; [exact payload_builder_debug_inj|
    split; [exact chunks_debug_inj|exact setup_builder_debug_inj]]]]]]]].
  intros a b H. apply (f_equal (fun s => s ++ "")) in H. now apply bytes_debug_split in H as [-> _].
Qed.

Lemma parts_eq :
  (forall a b, bytes_eq a b = true <-> a = b) /\
  (forall a b, payload_eq a b = true <-> a = b) /\
  (forall a b, version_eq a b = true <-> a = b) /\
  (forall a b, version_partial_cmp a b = Some Eq <-> version_eq a b = true).
Proof.
  split; [exact bytes_eq_spec|]. split; [exact payload_eq_spec|]. split; [exact version_eq_spec|].
  intros [a1 a2] [b1 b2]. unfold version_partial_cmp, version_cmp, version_eq. cbn [v_major v_minor].
  rewrite andb_true_iff, !N.eqb_eq, <- !N.compare_eq_iff.
  destruct (a1 ?= b1); intuition congruence.
Qed.

Lemma decoded_eq : forall i j f g r s, decode i = (DOk f, r) -> decode j = (DOk g, s) ->
  exists x y, frame_encode f [] = EOk x /\ frame_encode g [] = EOk y /\
    (frame_eq f g = true <-> x = y) /\ (frame_eq f g = true <-> frame_debug f = frame_debug g).
Proof.
  intros i j f g r s Hi Hj.
  destruct (decode_stable _ _ _ Hi) as (x & X & DX & _). destruct (decode_stable _ _ _ Hj) as (y & Y & DY & _).
  exists x, y. split; [exact X|]. split; [exact Y|]. rewrite frame_eq_spec. split; split.
  - intros ->. congruence.
  - intros ->. congruence.
  - now intros ->.
  - apply frame_debug_inj.
Qed.
