(** * Texts of the errors of the text accessors *)

From Coq Require Import Lia ZifyBool Ascii.
From Verif Require Import Model.Utf8TextM Spec.Utf8Text.
From Verif Require Import Proofs.TextP Proofs.TextsP Proofs.DebugP Proofs.Utf8ErrP.
Open Scope string_scope.

Lemma fault_cases : forall l e, ~ utf8 l /\ fault l e <->
  match ue_error_len e with
  | Some n => broken_at l (ue_valid_up_to e) n
  | None => cut_at l (ue_valid_up_to e)
  end.
Proof.
  intros l [i [n|]]; unfold fault, broken_at, cut_at; cbn [ue_error_len ue_valid_up_to]; [|tauto].
  split; [tauto|]. intros (A & B & C). repeat split; try tauto.
  all: try (intros U; apply B; exists []; now rewrite app_nil_r). all: apply A.
Qed.

Lemma numeral_dec : forall a n, numeral 10 a n -> a = fmt_dec n.
Proof. intros a n H. apply (numeral_unique 10 _ _ n); [lia|exact H|apply fmt_dec_numeral]. Qed.

Lemma from_utf8_sentence : forall l t,
  (exists e, from_utf8 l = inr e /\ t = utf8_error_display e) <-> sentence l t.
Proof.
  intros l t. split.
  - intros (e & H & ->). apply from_utf8_error in H. apply fault_cases in H.
    unfold utf8_error_display. destruct (ue_error_len e) as [n|].
    + apply (Sentence_broken l _ _ _ _ H); apply fmt_dec_numeral.
    + apply (Sentence_cut l _ _ H). apply fmt_dec_numeral.
  - intros H. destruct H as [i n a b H A B|i b H B].
    + exists (Utf8Error i (Some n)). split; [apply from_utf8_error, fault_cases; exact H|].
      apply numeral_dec in A. apply numeral_dec in B. subst. reflexivity.
    + exists (Utf8Error i None). split; [apply from_utf8_error, fault_cases; exact H|].
      apply numeral_dec in B. subst. reflexivity.
Qed.

Lemma debug_some : forall i n,
  utf8_error_debug (Utf8Error i (Some n)) =
  "Utf8Error { valid_up_to: " ++ fmt_dec (N.of_nat i) ++ ", error_len: Some(" ++ fmt_dec (N.of_nat n) ++ ") }".
Proof.
  intros. unfold utf8_error_debug, debug_struct, option_debug, debug_tuple.
  cbn [map join fst snd ue_valid_up_to ue_error_len append]. rewrite !sapp_assoc. cbn [append]. rewrite ?sapp_assoc. reflexivity.
Qed.
Lemma debug_none : forall i,
  utf8_error_debug (Utf8Error i None) =
  "Utf8Error { valid_up_to: " ++ fmt_dec (N.of_nat i) ++ ", error_len: None }".
Proof.
  intros. unfold utf8_error_debug, debug_struct, option_debug, debug_tuple.
  cbn [map join fst snd ue_valid_up_to ue_error_len append]. rewrite !sapp_assoc. reflexivity.
Qed.

Lemma from_utf8_value : forall l t,
  (exists e, from_utf8 l = inr e /\ t = utf8_error_debug e) <-> value l t.
Proof.
  intros l t. split.
  - intros (e & H & ->). apply from_utf8_error in H. apply fault_cases in H.
    destruct e as [i [n|]]; cbn [ue_error_len ue_valid_up_to] in H.
    + rewrite debug_some. apply (Value_broken l _ _ _ _ H); apply fmt_dec_numeral.
    + rewrite debug_none. apply (Value_cut l _ _ H). apply fmt_dec_numeral.
  - intros H. destruct H as [i n a b H A B|i b H B].
    + exists (Utf8Error i (Some n)). split; [apply from_utf8_error, fault_cases; exact H|].
      apply numeral_dec in A. apply numeral_dec in B. subst. now rewrite debug_some.
    + exists (Utf8Error i None). split; [apply from_utf8_error, fault_cases; exact H|].
      apply numeral_dec in B. subst. now rewrite debug_none.
Qed.

Lemma payload_utf8_texts : forall (show : utf8_error -> string) (text : bytes -> string -> Prop),
  (forall l t, (exists e, from_utf8 l = inr e /\ t = show e) <-> text l t) -> forall p t,
  ((exists e, payload_data_utf8 p = inr e /\ t = show e) <-> exists d, p_data p = Some d /\ text d t) /\
  ((exists e, payload_metadata_utf8 p = inr e /\ t = show e) <-> exists m, p_metadata p = Some m /\ text m t).
Proof.
  intros show text X.
  assert (Y : forall o t, (exists e, match o with Some d => from_utf8 d | None => inl [] end = inr e /\ t = show e) <->
    exists d, o = Some d /\ text d t).
  { intros [d|] t.
    - rewrite X. split; [intros H; exists d; auto|]. intros (d' & E & H). injection E as <-. exact H.
    - split; [intros (e & E & _); discriminate|]. intros (d & E & _). discriminate. }
  intros p t. split; apply Y.
Qed.

Lemma payload_sentence : forall p t,
  ((exists e, payload_data_utf8 p = inr e /\ t = utf8_error_display e) <-> exists d, p_data p = Some d /\ sentence d t) /\
  ((exists e, payload_metadata_utf8 p = inr e /\ t = utf8_error_display e) <-> exists m, p_metadata p = Some m /\ sentence m t).
Proof. apply payload_utf8_texts. apply from_utf8_sentence. Qed.
Lemma payload_value : forall p t,
  ((exists e, payload_data_utf8 p = inr e /\ t = utf8_error_debug e) <-> exists d, p_data p = Some d /\ value d t) /\
  ((exists e, payload_metadata_utf8 p = inr e /\ t = utf8_error_debug e) <-> exists m, p_metadata p = Some m /\ value m t).
Proof. apply payload_utf8_texts. apply from_utf8_value. Qed.

Lemma dec_inj : forall n m, fmt_dec n = fmt_dec m -> n = m.
Proof. intros n m H. apply (fmt_base_inj 10); [lia|exact H]. Qed.

Lemma display_inj : forall e e', utf8_error_display e = utf8_error_display e' -> e = e'.
Proof.
  intros [i [n|]] [i' [n'|]] H; unfold utf8_error_display in H; cbn [ue_error_len ue_valid_up_to] in H.
  - apply sapp_inv_head in H. change (" bytes from index " ++ fmt_dec (N.of_nat i)) with (String " " ("bytes from index " ++ fmt_dec (N.of_nat i))) in H.
    change (" bytes from index " ++ fmt_dec (N.of_nat i')) with (String " " ("bytes from index " ++ fmt_dec (N.of_nat i'))) in H.
    apply dec_split in H as [A B]; [|reflexivity]. apply sapp_inv_head in B. apply dec_inj in B. f_equal; [lia|f_equal; lia].
  - discriminate H.
  - discriminate H.
  - apply sapp_inv_head in H. apply dec_inj in H. f_equal. lia.
Qed.

Lemma debug_inj : forall e e', utf8_error_debug e = utf8_error_debug e' -> e = e'.
Proof.
  intros [i [n|]] [i' [n'|]] H; rewrite ?debug_some, ?debug_none in H; apply sapp_inv_head in H; cbn [append] in H;
    (apply dec_split in H as [A B]; [|reflexivity]); try discriminate B.
  - repeat (injection B as B). apply dec_split in B as [B _]; [|reflexivity]. f_equal; [lia|f_equal; lia].
  - f_equal. lia.
Qed.

Lemma sentence_unique : forall l t t', sentence l t -> sentence l t' -> t = t'.
Proof.
  intros l t t' H H'. apply from_utf8_sentence in H as (e & A & ->). apply from_utf8_sentence in H' as (e' & B & ->).
  congruence.
Qed.

Lemma sentence_tells : forall l l' t, sentence l t -> sentence l' t ->
  exists i, longest utf8 l i /\ longest utf8 l' i /\ (completable l <-> completable l').
Proof.
  intros l l' t H H'. apply from_utf8_sentence in H as (e & A & ->). apply from_utf8_sentence in H' as (e' & B & E).
  apply display_inj in E. subst e'. apply from_utf8_error in A as [_ [A A']]. apply from_utf8_error in B as [_ [B B']].
  exists (ue_valid_up_to e). split; [exact A|]. split; [exact B|].
  destruct (ue_error_len e) as [n|]; tauto.
Qed.
