(** * Consequences used by the properties of texts *)

From Coq Require Import Lia ZifyBool Ascii.
From Verif Require Import Model.ErrorM Model.MimeM Model.Utf8M Spec.Text.
From Verif Require Import Proofs.BitsP Proofs.TextP Proofs.Utf8P.

(** ** MIME types *)

Lemma mime_complete : length mime_table = 47%nat /\
  forall t, t <> M_UNPARSEABLE -> exists v, mime_from v = t.
Proof.
  split; [reflexivity|]. intros t Ht. destruct (mime_all_named t) as [H|H]; [congruence|].
  apply in_map_iff in H as [[v t'] [E H]]. cbn in E. subst t'.
  exists v. now apply mime_from_table.
Qed.

Lemma mime_never_returns : forall v fuel, mime_from v <> M_UNPARSEABLE ->
  mime_into fuel (mime_from v) <> Ret v.
Proof. intros v fuel H. rewrite mime_into_loops by exact H. discriminate. Qed.

Lemma mime_round_trip_fails : ~ forall v, mime_from v <> M_UNPARSEABLE ->
  exists fuel, mime_into fuel (mime_from v) = Ret v.
Proof.
  intros H. destruct (H "text/css"%string) as [fuel E]; [discriminate|].
  revert E. apply mime_never_returns. discriminate.
Qed.

Lemma mime_unparseable_into : forall v fuel, ~ In v (map fst mime_table) -> (0 < fuel)%nat ->
  mime_into fuel (mime_from v) = Ret EmptyString.
Proof.
  intros v fuel H Hf. apply mime_unparseable_iff in H. rewrite H.
  destruct fuel; [lia|reflexivity].
Qed.

(** ** Errors *)

Lemma error_conversions : forall d text,
  (is_decode (error_from_decode d) = true /\ is_protocol (error_from_decode d) = false /\
   er_kind (error_from_decode d) = KDecode d /\
   error_source (error_from_decode d) = Some (decode_error_display d)) /\
  (is_decode (error_from_io text) = false /\ is_protocol (error_from_io text) = false /\
   er_kind (error_from_io text) = KIo /\ error_source (error_from_io text) = Some text).
Proof. repeat split. Qed.

Lemma description_fails : ~ forall k src name c value,
  In (k, (name, (c, value))) protocol_errors -> describes (description (err_new k src)) name value.
Proof.
  intros H. apply (proj2 (rejected_describes None) 0x202).
  apply (H KRejected None "REJECTED"%string CRejected). unfold protocol_errors. cbn [In]. tauto.
Qed.

Lemma error_constants :
  map (fun row => snd (snd (snd row))) protocol_errors
  = [EC_INVALID_SETUP; EC_UNSUPPORTED_SETUP; EC_REJECTED_SETUP; EC_REJECTED_RESUME;
     EC_CONNECTION_ERROR; EC_CONNECTION_CLOSE; EC_APPLICATION_ERROR; EC_REJECTED; EC_CANCELED;
     EC_INVALID] /\
  (forall row, In row protocol_errors -> snd (snd (snd row)) < EC_MIN_APPLICATION_ERROR_CODE) /\
  (forall c, EC_MIN_APPLICATION_ERROR_CODE <= c <= EC_MAX_APPLICATION_ERROR_CODE <-> 0x300 < c < 2 ^ 32 - 1).
Proof.
  split; [reflexivity|]. split; [|unfold EC_MIN_APPLICATION_ERROR_CODE, EC_MAX_APPLICATION_ERROR_CODE; intros c; lia].
  intros [k [name [c value]]] H. table H; reflexivity.
Qed.

(** ** UTF-8 *)

Lemma payload_utf8 : forall p s,
  (payload_data_utf8 p = inl s <->
   match p_data p with Some d => utf8 d /\ s = d | None => s = [] end) /\
  (payload_metadata_utf8 p = inl s <->
   match p_metadata p with Some m => utf8 m /\ s = m | None => s = [] end).
Proof.
  intros [m d] s. unfold payload_data_utf8, payload_metadata_utf8. cbn [p_data p_metadata].
  split.
  - destruct d; [apply from_utf8_iff|].
    split; [intros H; injection H as <-|intros ->]; reflexivity.
  - destruct m; [apply from_utf8_iff|].
    split; [intros H; injection H as <-|intros ->]; reflexivity.
Qed.

Lemma error_utf8 : forall f s,
  error_data_utf8 f = Some s <-> exists d, ef_data f = Some d /\ utf8 d /\ s = d.
Proof.
  intros f s. unfold error_data_utf8. destruct (ef_data f) as [d|].
  - rewrite ok_from_utf8_iff. split.
    + intros H. exists d. tauto.
    + intros [d' [E H]]. injection E as ->. exact H.
  - split; [discriminate|]. intros [d [E _]]. discriminate.
Qed.

Lemma ascii_text : forall v s,
  (if is_ascii v then Some v else None) = Some s <-> ascii_only v /\ s = v.
Proof.
  intros v s. rewrite <- is_ascii_iff. destruct (is_ascii v); split.
  - intros H. injection H as <-. auto.
  - intros [_ ->]. reflexivity.
  - discriminate.
  - intros [H _]. discriminate.
Qed.

Lemma setup_mimetypes : forall f s,
  (setup_metadata_mimetype f = Some s <->
   ascii_only (sf_metadata_mimetype f) /\ s = sf_metadata_mimetype f) /\
  (setup_data_mimetype f = Some s <->
   ascii_only (sf_data_mimetype f) /\ s = sf_data_mimetype f).
Proof.
  intros f s. unfold setup_metadata_mimetype, setup_data_mimetype. rewrite !mimetype_text.
  split; apply ascii_text.
Qed.

Lemma spells_unique : forall l cs ds, spells cs l -> spells ds l -> cs = ds.
Proof. intros l cs ds. apply spells_inj. Qed.

(** ** Numerals *)

Notation pw base s := (base ^ N.of_nat (String.length s)).

Lemma pw_cons : forall base c s, pw base (String c s) = base * pw base s.
Proof. intros. cbn [String.length]. now rewrite Nat2N.inj_succ, N.pow_succ_r'. Qed.

Lemma number_from_shift : forall base s acc,
  number_from base acc s = option_map (fun v => acc * pw base s + v) (number_from base 0 s).
Proof.
  intros base. induction s as [|c s IH]; intros acc.
  - cbn. f_equal. lia.
  - cbn [number_from]. destruct (digit_value c) as [d|]; [|reflexivity].
    destruct (d <? base); [|reflexivity].
    rewrite (IH (acc * base + d)), (IH (0 * base + d)).
    destruct (number_from base 0 s); [|reflexivity]. cbn [option_map]. f_equal.
    rewrite pw_cons. lia.
Qed.

Lemma number_cons : forall base c s n, number_from base 0 (String c s) = Some n ->
  exists d v, digit_value c = Some d /\ d < base /\ number_from base 0 s = Some v
    /\ n = d * pw base s + v.
Proof.
  intros base c s n H. cbn [number_from] in H. destruct (digit_value c) as [d|]; [|discriminate].
  destruct (d <? base) eqn:E; [|discriminate]. rewrite number_from_shift in H.
  destruct (number_from base 0 s) as [v|]; [|discriminate]. cbn [option_map] in H.
  injection H as <-. exists d, v. repeat split; lia.
Qed.

Lemma number_lt : forall base s n, number_from base 0 s = Some n -> n < pw base s.
Proof.
  intros base. induction s as [|c s IH]; intros n H.
  - cbn in *. injection H as <-. lia.
  - apply number_cons in H as [d [v [_ [Hd [Hv ->]]]]]. apply IH in Hv. rewrite pw_cons.
    assert (d * pw base s + pw base s <= base * pw base s) by nia. lia.
Qed.

Lemma digit_value_inj : forall a b d, digit_value a = Some d -> digit_value b = Some d -> a = b.
Proof.
  intros a b d Ha Hb. rewrite <- (ascii_N_embedding a), <- (ascii_N_embedding b). f_equal.
  unfold digit_value in *.
  destruct ((48 <=? N_of_ascii a) && (N_of_ascii a <=? 57)) eqn:A1;
  destruct ((48 <=? N_of_ascii b) && (N_of_ascii b <=? 57)) eqn:B1;
  destruct ((97 <=? N_of_ascii a) && (N_of_ascii a <=? 102)) eqn:A2;
  destruct ((97 <=? N_of_ascii b) && (N_of_ascii b <=? 102)) eqn:B2;
    try discriminate; injection Ha as Ha; injection Hb as Hb; lia.
Qed.

Lemma number_inj : forall base a b n, String.length a = String.length b ->
  number_from base 0 a = Some n -> number_from base 0 b = Some n -> a = b.
Proof.
  intros base. induction a as [|c a IH]; intros [|c' b] n L Ha Hb; try discriminate; [reflexivity|].
  injection L as L.
  apply number_cons in Ha as [d [v [Hc [Hd [Hv E]]]]].
  apply number_cons in Hb as [d' [v' [Hc' [Hd' [Hv' E']]]]].
  pose proof (number_lt _ _ _ Hv) as Lv. pose proof (number_lt _ _ _ Hv') as Lv'.
  rewrite <- L in Lv', E'. rewrite E in E'. clear E n Hd Hd'.
  assert (D : d = d' /\ v = v').
  { remember (pw base a) as B. clear -Lv Lv' E'.
    assert (d = d') by (destruct (N.lt_trichotomy d d') as [X|[X|X]]; [nia|exact X|nia]).
    subst. split; [reflexivity|lia]. }
  destruct D as [-> ->]. rewrite (digit_value_inj c c' d' Hc Hc'). f_equal. eauto.
Qed.

Lemma plain_large : forall base c s n, plain (String c s) ->
  number_from base 0 (String c s) = Some n -> s = EmptyString \/ pw base s <= n.
Proof.
  intros base c s n [P|P] H.
  - injection P as _ ->. now left.
  - right. apply number_cons in H as [d [v [Hc [_ [_ ->]]]]].
    destruct (N.eq_dec d 0) as [->|Z]; [|nia].
    exfalso. apply (P s). f_equal. now apply (digit_value_inj c "0"%char 0).
Qed.

Lemma numeral_shorter : forall base a b n, 0 < base -> numeral base a n -> numeral base b n ->
  ~ (String.length a < String.length b)%nat.
Proof.
  intros base a b n Hbase [[Na Ha] _] [[Nb Hb] Pb] L.
  destruct b as [|c b]; [congruence|]. apply number_lt in Ha.
  destruct (plain_large _ _ _ _ Pb Hb) as [->|Hn].
  - destruct a; [congruence|]. cbn in L. lia.
  - assert (pw base a <= pw base b); [|lia].
    apply N.pow_le_mono_r; [lia|]. cbn [String.length] in L. lia.
Qed.

Lemma numeral_unique : forall base a b n, 0 < base ->
  numeral base a n -> numeral base b n -> a = b.
Proof.
  intros base a b n Hbase Ha Hb.
  pose proof (numeral_shorter base a b n Hbase Ha Hb).
  pose proof (numeral_shorter base b a n Hbase Hb Ha).
  apply (number_inj base a b n); [lia|apply Ha|apply Hb].
Qed.
