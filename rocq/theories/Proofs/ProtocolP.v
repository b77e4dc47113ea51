(** * Frames as the protocol draws them (C82) *)

From Verif Require Import Model.FrameM Spec.Codec Spec.Build Spec.Protocol.
From Verif Require Import Proofs.BitsP Proofs.EatP Proofs.CodecP Proofs.DecodeP Proofs.StableP.

Lemma drawn_small : forall w, drawn_word w < 1024.
Proof.
  intros w. unfold drawn_word, raised.
  destruct (N.testbit w 8), (N.testbit w 7), (N.testbit w 6), (N.testbit w 5), (N.testbit w 4); reflexivity.
Qed.

Lemma drawn_bits : forall w,
  N.testbit (drawn_word w) 9 = N.testbit w 8 /\ N.testbit (drawn_word w) 8 = N.testbit w 7 /\
  N.testbit (drawn_word w) 7 = N.testbit w 6 /\ N.testbit (drawn_word w) 6 = N.testbit w 5 /\
  N.testbit (drawn_word w) 5 = N.testbit w 4 /\ N.testbit (drawn_word w) 4 = false.
Proof.
  intros w. unfold drawn_word, raised.
  destruct (N.testbit w 8), (N.testbit w 7), (N.testbit w 6), (N.testbit w 5), (N.testbit w 4);
    repeat split; reflexivity.
Qed.

Lemma assigned_low : forall w i, 4 <= i -> i <= 8 -> N.testbit (assigned w) i = N.testbit w i.
Proof.
  intros w i H1 H2. unfold assigned. change 16 with (2 ^ 4). change 32 with (2 ^ 5).
  rewrite N.mul_pow2_bits_high by assumption.
  rewrite N.mod_pow2_bits_low by lia. rewrite N.div_pow2_bits. f_equal. lia.
Qed.

Lemma flags_high : forall w i, flags_ok w -> 9 <= i -> N.testbit w i = false.
Proof. intros w i [H _] Hi. apply (testbit_high _ 9); assumption. Qed.

(** The payload kinds. *)
Lemma front_payload : forall f p r w r1 r2, payload_of f = Some p ->
  exists front, wire r w r1 r2 f = front ++ payload_fields p.
Proof.
  intros f p r w r1 r2 H.
  destruct f; inversion H; subst p; cbn [wire]; eexists; rewrite ?app_assoc; reflexivity.
Qed.

Lemma firstn_front : forall (A : Type) (a b : list A),
  firstn (length (a ++ b) - length b) (a ++ b) = a.
Proof.
  intros. rewrite app_length. replace (length a + length b - length b)%nat with (length a) by lia.
  rewrite firstn_app, Nat.sub_diag, firstn_all. apply app_nil_r.
Qed.

Lemma prescribed_with : forall f p m, payload_of f = Some p -> p_metadata p = Some m ->
  prescribed f = wire 0 (drawn_word (flag_word f)) 0 0 f.
Proof.
  intros f p m H M. unfold prescribed. rewrite H, M.
  destruct (front_payload f p 0 (drawn_word (flag_word f)) 0 0 H) as [front ->].
  change 3%nat with (length (payload_fields p)). rewrite firstn_front.
  unfold payload_fields. rewrite M. reflexivity.
Qed.

Lemma prescribed_without : forall f p, payload_of f = Some p -> p_metadata p = None ->
  (length (render (prescribed f)) + 24)%nat =
  length (render (wire 0 (drawn_word (flag_word f)) 0 0 f)).
Proof.
  intros f p H M. unfold prescribed. rewrite H, M.
  destruct (front_payload f p 0 (drawn_word (flag_word f)) 0 0 H) as [front ->].
  change 3%nat with (length (payload_fields p)). rewrite firstn_front.
  rewrite !render_app, !app_length. unfold payload_fields. rewrite M.
  unfold render. cbn [flat_map field_bits part]. rewrite !app_length, !bits_length. cbn. lia.
Qed.

Lemma wire_same_length : forall f r w r1 r2 r' w' r1' r2',
  length (render (wire r w r1 r2 f)) = length (render (wire r' w' r1' r2' f)).
Proof.
  intros [] *; cbn [wire]; unfold header, payload_fields; rewrite ?render_app, ?app_length; unfold render;
    cbn [flat_map field_bits app]; rewrite ?app_length, ?bits_length; reflexivity.
Qed.

Lemma same_words : forall f w w', in_range f -> w < 1024 -> w' < 1024 ->
  render (wire 0 w 0 0 f) = render (wire 0 w' 0 0 f) -> w = w'.
Proof.
  intros f w w' R H H' E. rewrite <- !wire_bits in E by assumption. apply bytes_bits_inj in E.
  unfold wire_bytes in E. apply header_bytes_inj in E; try assumption; try reflexivity; try apply in_range_sid; try assumption.
  - apply E.
  - destruct f; reflexivity.
  - destruct f; reflexivity.
Qed.

Lemma flag_word_ok : forall f, in_range f -> flags_ok (flag_word f).
Proof.
  intros [s|e|l|k|q|q|q|q|q|q|q|q|q|q] R; cbn [in_range flag_word] in *; try apply R;
    try (split; reflexivity).
  - destruct (lf_metadata l); split; reflexivity.
  - destruct (kf_respond k); split; reflexivity.
Qed.

Lemma word_small : forall w, flags_ok w -> w < 1024.
Proof. intros w [H _]. lia. Qed.

(** ** Writing *)

Lemma written_iff : forall f bs, in_range f -> announces f -> frame_encode f [] = EOk bs ->
  (bytes_bits bs = render (prescribed f) <-> written_as_drawn f).
Proof.
  intros f bs R A E. destruct (encode_layout f [] R) as (bs' & E' & B). cbn [app] in E'.
  rewrite E in E'. injection E' as <-. rewrite B. clear E.
  pose proof (flag_word_ok f R) as FO. pose proof (word_small _ FO) as FW.
  unfold layout. destruct (payload_of f) as [p|] eqn:P.
  - assert (W : ~ written_as_drawn f) by (destruct f; try discriminate P; intros []).
    split; [|intros X; now contradiction W]. intros X. exfalso.
    destruct (p_metadata p) as [m|] eqn:M.
    + rewrite (prescribed_with f p m P M) in X.
      apply same_words in X; [|exact R|exact FW|apply drawn_small].
      destruct (drawn_bits (flag_word f)) as (B9 & B8 & _).
      rewrite <- X in B9, B8. rewrite (A p P), M in B8. cbn [present] in B8. rewrite B8 in B9.
      rewrite (flags_high _ 9 FO) in B9 by lia. discriminate.
    + pose proof (prescribed_without f p P M) as L. rewrite <- X in L.
      rewrite (wire_same_length f 0 (drawn_word (flag_word f)) 0 0 0 (flag_word f) 0 0) in L. lia.
  - assert (X : prescribed f = wire 0 (drawn_word (flag_word f)) 0 0 f)
      by (unfold prescribed; rewrite P; reflexivity).
    rewrite X. split.
    + intros Y. apply same_words in Y; [|exact R|exact FW|apply drawn_small].
      destruct f as [s|e|l|k|q|q|q|q|q|q|q|q|q|q]; try discriminate P; cbn [written_as_drawn flag_word] in *;
        try exact I.
      * destruct (lf_metadata l); [discriminate Y|reflexivity].
      * destruct (kf_respond k); [discriminate Y|reflexivity].
      * discriminate Y.
    + intros W. destruct f as [s|e|l|k|q|q|q|q|q|q|q|q|q|q]; try discriminate P; try (exact (False_ind _ W));
        cbn [written_as_drawn flag_word] in *; try reflexivity.
      * rewrite W. reflexivity.
      * rewrite W. reflexivity.
Qed.

(** ** Reading *)

Lemma shifted_flags : forall w, flags_ok w -> w = assigned (drawn_word w) -> N.testbit w 7 = false.
Proof.
  intros w F E. destruct (drawn_bits w) as (_ & _ & B7 & B6 & B5 & B4).
  assert (X : forall i, 4 <= i -> i <= 8 -> N.testbit w i = N.testbit (drawn_word w) i).
  { intros i H1 H2. rewrite E at 1. now apply assigned_low. }
  rewrite (X 7), B7, (X 6), B6, (X 5), B5, (X 4) by lia. exact B4.
Qed.

Lemma carried_flags : forall f p w, payload_of f = Some p -> carries w f -> flag_word f = assigned w.
Proof. intros [] p w P C; try discriminate P; exact C. Qed.

Lemma read_iff : forall f bs, fits f -> announces f -> bytes_bits bs = render (prescribed f) ->
  (fst (decode bs) = DOk f <-> read_as_drawn f).
Proof.
  intros f bs F A B. pose proof (proj1 F) as R.
  pose proof (flag_word_ok f R) as FO. pose proof (drawn_small (flag_word f)) as DW.
  assert (Key : fst (decode bs) = DOk f -> exists r w r1 r2 rest, r < 2 /\ w < 1024 /\ carries w f /\
            bs = wire_bytes r w r1 r2 f ++ rest).
  { intros D. destruct (decode bs) as [o rest] eqn:E. cbn [fst] in D. subst o.
    apply decode_ok_iff in E. apply parses_iff in E.
    destruct E as (r & w & r1 & r2 & H1 & H2 & _ & _ & _ & C & _ & E).
    exists r, w, r1, r2, rest. repeat split; assumption. }
  assert (Same : prescribed f = wire 0 (drawn_word (flag_word f)) 0 0 f ->
            bs = wire_bytes 0 (drawn_word (flag_word f)) 0 0 f).
  { intros X. apply bytes_bits_inj. rewrite B, X, wire_bits; [reflexivity|exact R|exact DW]. }
  assert (Word : prescribed f = wire 0 (drawn_word (flag_word f)) 0 0 f ->
            fst (decode bs) = DOk f -> carries (drawn_word (flag_word f)) f).
  { intros X D. destruct (Key D) as (r & w & r1 & r2 & rest & Hr & Hw & C & E).
    rewrite (Same X) in E. unfold wire_bytes in E. rewrite <- app_assoc in E.
    apply header_bytes_inj in E; try assumption; try reflexivity; try (now apply in_range_sid);
      try (destruct f; reflexivity).
    destruct E as (_ & _ & _ & -> & _). exact C. }
  destruct (payload_of f) as [p|] eqn:P.
  - assert (W : ~ read_as_drawn f) by (destruct f; try discriminate P; intros []).
    split; [|intros X; now contradiction W]. intros D. exfalso.
    destruct (p_metadata p) as [m|] eqn:M.
    + pose proof (Word (prescribed_with f p m P M) D) as C. apply (carried_flags f p) in C; [|exact P].
      apply shifted_flags in C; [|exact FO]. rewrite (A p P), M in C. discriminate.
    + destruct (Key D) as (r & w & r1 & r2 & rest & Hr & Hw & C & E).
      pose proof (prescribed_without f p P M) as L. rewrite <- B, E in L.
      rewrite bytes_bits_app, app_length, wire_bits in L by assumption.
      rewrite (wire_same_length f 0 (drawn_word (flag_word f)) 0 0 r w r1 r2) in L. lia.
  - assert (X : prescribed f = wire 0 (drawn_word (flag_word f)) 0 0 f)
      by (unfold prescribed; rewrite P; reflexivity).
    split.
    + intros D. pose proof (Word X D) as C.
      destruct f as [s|e|l|k|q|q|q|q|q|q|q|q|q|q]; try discriminate P; cbn [read_as_drawn written_as_drawn carries flag_word] in *;
        try exact I.
      destruct (kf_respond k); [discriminate C|reflexivity].
    + intros W. pose proof (Same X) as E.
      assert (Y : decode bs = (DOk f, [])).
      { apply decode_ok_iff, parses_iff. exists 0, (drawn_word (flag_word f)), 0, 0.
        repeat (split; [reflexivity || assumption|]). split.
        - destruct f as [s|e|l|k|q|q|q|q|q|q|q|q|q|q]; try discriminate P; cbn [read_as_drawn written_as_drawn carries flag_word] in *;
            try exact I. rewrite W. reflexivity.
        - split; [reflexivity|]. rewrite app_nil_r. exact E. }
      rewrite Y. reflexivity.
Qed.

(** Every frame in range has a prescribed form in whole bytes. *)
Lemma prescribed_exists : forall f, in_range f -> exists bs, bytes_bits bs = render (prescribed f).
Proof.
  intros f R. pose proof (drawn_small (flag_word f)) as DW.
  pose proof (wire_bits 0 _ 0 0 f R DW) as B.
  destruct (payload_of f) as [p|] eqn:P.
  - destruct (p_metadata p) as [m|] eqn:M.
    + eexists. rewrite (prescribed_with f p m P M). exact B.
    + unfold prescribed. rewrite P, M.
      assert (X : exists pre, wire_bytes 0 (drawn_word (flag_word f)) 0 0 f = pre ++ payload_bytes p).
      { unfold wire_bytes. destruct f; inversion P; subst p; cbn [body_bytes]; eexists;
          rewrite ?app_assoc; reflexivity. }
      destruct X as [pre X]. rewrite X in B.
      destruct (front_payload f p 0 (drawn_word (flag_word f)) 0 0 P) as [front W].
      rewrite W in *. rewrite bytes_bits_app, payload_bits, render_app in B. apply app_inv_tail in B.
      exists (pre ++ part (p_data p)). change 3%nat with (length (payload_fields p)).
      rewrite firstn_front, bytes_bits_app, B, render_app. f_equal. unfold render. cbn. now rewrite app_nil_r.
  - eexists. unfold prescribed. rewrite P. exact B.
Qed.

Lemma read_prescribed : forall f, fits f -> announces f -> exists bs,
  bytes_bits bs = render (prescribed f) /\ (fst (decode bs) = DOk f <-> read_as_drawn f).
Proof.
  intros f F A. destruct (prescribed_exists f (proj1 F)) as [bs B]. exists bs.
  split; [exact B|now apply read_iff].
Qed.
