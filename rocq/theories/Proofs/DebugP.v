(** * Debug texts *)

From Coq Require Import Lia ZifyBool Ascii.
From Verif Require Import Model.ErrorM Spec.Text.
From Verif Require Import Proofs.TextP Proofs.TextsP.

(** The text that follows a name. *)
Definition after (s : string) : Prop := (exists r, s = String ")" r) \/ (exists r, s = String "," r).

Lemma escape_split : forall a b r r', (escape a ++ quote ++ r = escape b ++ quote ++ r')%string -> a = b /\ r = r'.
Proof.
  induction a as [|c a IH]; intros [|d b] r r' H.
  - cbn in H. injection H as H. auto.
  - exfalso. cbn [escape] in H. destruct ((N_of_ascii d =? 34) || (N_of_ascii d =? 92)) eqn:D; cbn in H; [discriminate|].
    injection H as H _. subst d. discriminate D.
  - exfalso. cbn [escape] in H. destruct ((N_of_ascii c =? 34) || (N_of_ascii c =? 92)) eqn:D; cbn in H; [discriminate|].
    injection H as H _. subst c. discriminate D.
  - cbn [escape] in H.
    destruct ((N_of_ascii c =? 34) || (N_of_ascii c =? 92)) eqn:C;
    destruct ((N_of_ascii d =? 34) || (N_of_ascii d =? 92)) eqn:D; cbn [append] in H.
    + injection H as -> H. apply IH in H as [-> ->]. auto.
    + injection H as H _. subst d. discriminate D.
    + injection H as H _. subst c. discriminate C.
    + injection H as -> H. apply IH in H as [-> ->]. auto.
Qed.

Lemma dec_split : forall c n m r r', digit_value c = None ->
  (fmt_dec n ++ String c r = fmt_dec m ++ String c r')%string -> n = m /\ r = r'.
Proof.
  intros c n m r r' Hc H. apply split_first in H as [A B]; [|apply fmt_base_has; [lia|exact Hc]..].
  apply fmt_base_inj in A; [|lia]. auto.
Qed.

Lemma decode_debug_split : forall e e' r r',
  (decode_error_debug e ++ String ")" r = decode_error_debug e' ++ String ")" r')%string -> e = e' /\ r = r'.
Proof.
  intros [|v|x f] [|v'|x' f'] r r' H; cbn in H; try discriminate H.
  - injection H as H. auto.
  - injection H as H. rewrite !sapp_assoc in H. cbn [append] in H.
    apply dec_split in H as [-> H]; [|reflexivity]. injection H as H. auto.
  - injection H as H. unfold quote in H. rewrite !sapp_assoc in H. cbn [append] in H.
    apply (escape_split x x') in H as [-> H]. injection H as H. rewrite !sapp_assoc in H. cbn [append] in H.
    apply dec_split in H as [-> H]; [|reflexivity]. injection H as H. auto.
Qed.

Lemma kind_debug_split : forall k k' r r', after r -> after r' ->
  (kind_debug k ++ r = kind_debug k' ++ r')%string -> k = k' /\ r = r'.
Proof.
  intros k k' r r' Hr Hr' H.
  destruct k as [e| | | | | | | | | | |], k' as [e'| | | | | | | | | | |]; cbn in H; try discriminate H;
    try (injection H as H; solve [auto|exfalso; destruct Hr as [(x & ->)|(x & ->)]; discriminate H
                                 |exfalso; destruct Hr' as [(x & ->)|(x & ->)]; discriminate H]).
  injection H as H. rewrite !sapp_assoc in H. cbn [append] in H. apply decode_debug_split in H as [-> ->]. auto.
Qed.

Lemma error_debug_inj : forall s s' e e', error_debug s e = error_debug s' e' ->
  er_kind e = er_kind e' /\ (er_source e = None <-> er_source e' = None) /\ (er_source e <> None -> s = s').
Proof.
  intros s s' [k o] [k' o'] H. unfold error_debug in H. cbn [er_kind er_source] in *.
  destruct o as [x|], o' as [x'|]; cbn in H; injection H as H;
    (apply kind_debug_split in H as [-> H]; [|unfold after; eauto..]); cbn in H; try discriminate H.
  - injection H as H. split; [reflexivity|]. split; [split; discriminate|]. intros _.
    assert (X : forall a b : string, (a ++ ")" = b ++ ")")%string -> a = b).
    { clear. induction a as [|c a IH]; intros [|d b] H; cbn in H; [reflexivity|exfalso|exfalso|].
      - injection H as _ H. destruct b; discriminate H.
      - injection H as _ H. destruct a; discriminate H.
      - injection H as -> H. f_equal. auto. }
    now apply X.
  - split; [reflexivity|]. split; [tauto|]. intros H0. now elim H0.
Qed.

Lemma decode_error_debug_inj : forall e e', decode_error_debug e = decode_error_debug e' -> e = e'.
Proof.
  intros e e' H. apply (f_equal (fun s => (s ++ String ")" "")%string)) in H. now apply decode_debug_split in H as [H _].
Qed.

Lemma from_decode_debug_inj : forall d d',
  error_debug (str_debug (decode_error_display d)) (error_from_decode d) =
  error_debug (str_debug (decode_error_display d')) (error_from_decode d') -> d = d'.
Proof. intros d d' H. apply error_debug_inj in H as [H _]. cbn in H. now injection H. Qed.

Lemma escape_ok : forall s, escaped s (escape s).
Proof.
  induction s as [|c s IH]; [constructor|]. cbn [escape].
  destruct ((N_of_ascii c =? 34) || (N_of_ascii c =? 92)) eqn:C.
  - change "\"%char with (ascii_of_N 92). constructor; [lia|exact IH].
  - constructor; [lia|lia|exact IH].
Qed.
Lemma kind_shows : forall k, shows k (kind_debug k).
Proof.
  intros [[|v|x f]| | | | | | | | | | |]; try (apply Shows_name; unfold kind_names; cbn [In kind_debug]; tauto).
  - apply Shows_incomplete.
  - cbn [kind_debug decode_error_debug].
    replace ("Decode(" ++ ("UnrecognizedFrameType(" ++ fmt_dec v ++ ")") ++ ")")%string
      with ("Decode(UnrecognizedFrameType(" ++ fmt_dec v ++ "))")%string.
    { apply Shows_type, fmt_dec_numeral. }
    cbn. rewrite sapp_assoc. reflexivity.
  - cbn [kind_debug decode_error_debug]. unfold str_debug, quote.
    replace ("Decode(" ++ ("InvalidStreamId { expected: " ++ (String "034" "" ++ escape x ++ String "034" "") ++ ", found: " ++ fmt_dec f ++ " }") ++ ")")%string
      with ("Decode(InvalidStreamId { expected: " ++ String (ascii_of_N 34) (escape x) ++ String (ascii_of_N 34) ", found: " ++ fmt_dec f ++ " })")%string.
    { apply Shows_id; [apply escape_ok|apply fmt_dec_numeral]. }
    change (ascii_of_N 34) with "034"%char. cbn. rewrite !sapp_assoc. cbn. rewrite sapp_assoc. reflexivity.
Qed.
Lemma error_debug_text : forall s e, exists kd, shows (er_kind e) kd /\
  error_debug s e =
  ("binate::Error(" ++ kd ++ match er_source e with Some _ => ", " ++ s ++ ")" | None => ")" end)%string.
Proof.
  intros s e. exists (kind_debug (er_kind e)). split; [apply kind_shows|]. unfold error_debug. now destruct (er_source e).
Qed.
