(** * Displayed texts, errors and MIME types *)

From Coq Require Import Lia ZifyBool Ascii.
From Verif Require Import Model.ErrorM Model.MimeM Spec.Text Proofs.BitsP.

(** ** Numerals *)

Lemma digit_ok : forall d, d < 16 -> digit_value (digit d) = Some d.
Proof.
  intros d H. unfold digit_value, digit.
  rewrite N_ascii_embedding by (destruct (d <? 10); lia).
  destruct (d <? 10) eqn:E.
  - destruct ((48 <=? 48 + d) && (48 + d <=? 57)) eqn:F; [f_equal; lia|lia].
  - destruct ((48 <=? 87 + d) && (87 + d <=? 57)) eqn:F; [lia|].
    destruct ((97 <=? 87 + d) && (87 + d <=? 102)) eqn:G; [f_equal; lia|lia].
Qed.

Lemma digit_zero : forall d, d < 16 -> digit d = "0"%char -> d = 0.
Proof.
  intros d H E. apply digit_ok in H. rewrite E in H. now injection H.
Qed.

Lemma fmt_loop_reads : forall base fuel n acc, 2 <= base <= 16 -> n < base ^ N.of_nat fuel ->
  (0 < fuel)%nat -> number_from base 0 (fmt_loop fuel base n acc) = number_from base n acc.
Proof.
  intros base. induction fuel as [|fuel IH]; intros n acc Hb Hn Hf; [lia|].
  assert (Hm : n mod base < base) by (apply N.mod_lt; lia).
  assert (Hd : n = base * (n / base) + n mod base) by (apply N.div_mod; lia).
  cbn [fmt_loop]. destruct (n / base =? 0) eqn:E.
  - apply N.eqb_eq in E. cbn [number_from]. rewrite digit_ok by lia.
    destruct (n mod base <? base) eqn:F; [|lia]. f_equal. rewrite E in Hd. lia.
  - apply N.eqb_neq in E. rewrite Nat2N.inj_succ, N.pow_succ_r' in Hn.
    rewrite IH.
    + cbn [number_from]. rewrite digit_ok by lia.
      destruct (n mod base <? base) eqn:F; [|lia]. f_equal. lia.
    + exact Hb.
    + apply N.div_lt_upper_bound; lia.
    + destruct fuel; [|lia]. cbn in Hn.
      exfalso. apply E. apply N.div_small. lia.
Qed.

Lemma fmt_loop_nonempty : forall base fuel n acc, (0 < fuel)%nat ->
  fmt_loop fuel base n acc <> EmptyString.
Proof.
  intros base. assert (H : forall fuel n c s, fmt_loop fuel base n (String c s) <> EmptyString).
  { induction fuel; intros; cbn [fmt_loop]; [discriminate|].
    destruct (n / base =? 0); [discriminate|apply IHfuel]. }
  intros [|fuel] n acc Hf; [lia|]. cbn [fmt_loop]. destruct (n / base =? 0); [discriminate|apply H].
Qed.

Lemma fmt_loop_plain : forall base fuel n acc, 2 <= base <= 16 -> n < base ^ N.of_nat fuel ->
  (0 < fuel)%nat -> n <> 0 -> forall r, fmt_loop fuel base n acc <> String "0" r.
Proof.
  intros base. induction fuel as [|fuel IH]; intros n acc Hb Hn Hf Hz r; [lia|].
  assert (Hm : n mod base < base) by (apply N.mod_lt; lia).
  assert (Hd : n = base * (n / base) + n mod base) by (apply N.div_mod; lia).
  cbn [fmt_loop]. destruct (n / base =? 0) eqn:E.
  - apply N.eqb_eq in E. intros H. injection H as H _. apply digit_zero in H; [|lia].
    rewrite E in Hd. lia.
  - apply N.eqb_neq in E. rewrite Nat2N.inj_succ, N.pow_succ_r' in Hn.
    apply IH; [exact Hb| | |exact E].
    + apply N.div_lt_upper_bound; lia.
    + destruct fuel; [|lia]. cbn in Hn. exfalso. apply E. apply N.div_small. lia.
Qed.

Lemma log2_fuel : forall base n, 2 <= base -> n < base ^ N.of_nat (S (N.to_nat (N.log2 n))).
Proof.
  intros base n Hb. rewrite Nat2N.inj_succ, N2Nat.id.
  apply N.lt_le_trans with (2 ^ N.succ (N.log2 n)).
  - destruct n as [|p]; [reflexivity|]. apply N.log2_spec. lia.
  - apply N.pow_le_mono_l. exact Hb.
Qed.

Lemma fmt_base_numeral : forall base n, 2 <= base <= 16 -> numeral base (fmt_base base n) n.
Proof.
  intros base n Hb. pose proof (log2_fuel base n ltac:(lia)) as Hn. unfold fmt_base.
  assert (Hf : (0 < S (N.to_nat (N.log2 n)))%nat) by lia.
  remember (S (N.to_nat (N.log2 n))) as fuel.
  split; [split|].
  - now apply fmt_loop_nonempty.
  - now rewrite fmt_loop_reads by assumption.
  - destruct (N.eq_dec n 0) as [->|Hz].
    + left. subst fuel. cbn [N.log2 N.to_nat fmt_loop].
      rewrite N.mod_0_l, N.div_0_l by lia. reflexivity.
    + right. now apply fmt_loop_plain.
Qed.

Lemma fmt_dec_numeral : forall n, numeral 10 (fmt_dec n) n.
Proof. intros n. apply fmt_base_numeral. lia. Qed.

Lemma numeral_reads : forall base s n m, numeral base s n -> numeral base s m -> n = m.
Proof. intros base s n m [[_ H] _] [[_ H'] _]. congruence. Qed.

Lemma fmt_base_inj : forall base n m, 2 <= base <= 16 -> fmt_base base n = fmt_base base m -> n = m.
Proof.
  intros base n m Hb H. apply (numeral_reads base (fmt_base base n)).
  - now apply fmt_base_numeral.
  - rewrite H. now apply fmt_base_numeral.
Qed.

(** ** Characters of a text *)

Fixpoint has (c : ascii) (s : string) : Prop :=
  match s with EmptyString => False | String d s' => c = d \/ has c s' end.

Lemma reads_has : forall base s acc n c, number_from base acc s = Some n -> has c s ->
  digit_value c <> None.
Proof.
  intros base. induction s as [|d s IH]; intros acc n c H Hc; [destruct Hc|].
  cbn in H. destruct (digit_value d) as [v|] eqn:E; [|discriminate].
  destruct Hc as [->|Hc]; [congruence|].
  destruct (v <? base); [|discriminate]. eauto.
Qed.

Lemma fmt_base_has : forall base n c, 2 <= base <= 16 -> digit_value c = None -> ~ has c (fmt_base base n).
Proof.
  intros base n c Hb Hc H. destruct (fmt_base_numeral base n Hb) as [[_ Hr] _].
  now apply (reads_has _ _ _ _ _ Hr) in H.
Qed.

Lemma has_app : forall c a b, has c (a ++ b) <-> has c a \/ has c b.
Proof. intros c. induction a as [|d a IH]; intros b; cbn; [tauto|]. rewrite IH. tauto. Qed.

(** The first occurrence of [c] splits a text. *)
Lemma split_first : forall c a b a' b', ~ has c a -> ~ has c a' ->
  (a ++ String c b = a' ++ String c b')%string -> a = a' /\ b = b'.
Proof.
  intros c. induction a as [|d a IH]; intros b [|d' a'] b' Ha Ha' H; cbn in *.
  - injection H as H. auto.
  - injection H as H _. subst. tauto.
  - injection H as H _. subst. tauto.
  - injection H as H1 H2. apply IH in H2; [|tauto..]. destruct H2. subst. auto.
Qed.

(** So does the last one. *)
Lemma split_last : forall c a b a' b', ~ has c b -> ~ has c b' ->
  (a ++ String c b = a' ++ String c b')%string -> a = a' /\ b = b'.
Proof.
  intros c. induction a as [|d a IH]; intros b [|d' a'] b' Hb Hb' H; cbn in *.
  - injection H as H. auto.
  - injection H as H1 H2. subst b. exfalso. apply Hb. apply has_app. right. cbn. auto.
  - injection H as H1 H2. subst b'. exfalso. apply Hb'. apply has_app. right. cbn. auto.
  - injection H as H1 H2. apply IH in H2; [|assumption..]. destruct H2. subst. auto.
Qed.

Lemma sapp_assoc : forall a b c : string, ((a ++ b) ++ c = a ++ (b ++ c))%string.
Proof. induction a as [|d a IH]; intros; cbn; [reflexivity|]. now rewrite IH. Qed.

Lemma sapp_inv_head : forall a b c : string, (a ++ b = a ++ c)%string -> b = c.
Proof. induction a as [|d a IH]; intros b c H; cbn in H; [exact H|]. injection H. auto. Qed.

Lemma sapp_nil_r : forall a : string, (a ++ "")%string = a.
Proof. induction a as [|d a IH]; cbn; [reflexivity|]. now rewrite IH. Qed.

(** ** Display *)

Lemma version_display_text : forall v, exists a b,
  version_display v = (a ++ "." ++ b)%string /\ numeral 10 a (v_major v) /\ numeral 10 b (v_minor v).
Proof.
  intros v. exists (fmt_dec (v_major v)), (fmt_dec (v_minor v)).
  repeat split; apply fmt_dec_numeral.
Qed.

Lemma version_display_inj : forall v w, version_display v = version_display w -> v = w.
Proof.
  intros [a b] [c d] H. unfold version_display, fmt_dec in H. cbn [v_major v_minor append] in H.
  apply split_first in H; [|apply fmt_base_has; [lia|reflexivity]..].
  destruct H as [H1 H2]. apply fmt_base_inj in H1, H2; [|lia..]. now subst.
Qed.

Lemma found_inj : forall e f e' f',
  (e ++ ", found " ++ fmt_dec f ++ ")" = e' ++ ", found " ++ fmt_dec f' ++ ")")%string ->
  e = e' /\ f = f'.
Proof.
  intros e f e' f' H. unfold fmt_dec in H. cbn [append] in H.
  assert (K : forall x y, (x ++ String "," (String " " (String "f" (String "o" (String "u"
                 (String "n" (String "d" (String " " y))))))))%string
              = ((x ++ ", found") ++ String " " y)%string).
  { intros x y. rewrite sapp_assoc. reflexivity. }
  rewrite !K in H.
  assert (D : forall n, ~ has " " (fmt_base 10 n ++ ")")).
  { intros n. rewrite has_app. intros [X|X].
    - revert X. apply fmt_base_has; [lia|reflexivity].
    - cbn in X. destruct X as [X|X]; [discriminate|exact X]. }
  apply split_last in H; [|apply D..]. destruct H as [H1 H2].
  apply split_first in H2; [|apply fmt_base_has; [lia|reflexivity]..].
  destruct H2 as [H2 _]. apply fmt_base_inj in H2; [|lia].
  apply split_last in H1; [|cbn; intuition discriminate..]. tauto.
Qed.

Lemma decode_error_display_inj : forall e e',
  decode_error_display e = decode_error_display e' -> e = e'.
Proof.
  intros [|v|e f] [|v'|e' f'] H; cbn in H; try discriminate; try reflexivity.
  - apply (sapp_inv_head "unrecognized frame type 0x") in H. apply fmt_base_inj in H; [|lia].
    now subst.
  - apply (sapp_inv_head "invalid stream ID (expected ") in H. apply found_inj in H.
    destruct H. now subst.
Qed.

Lemma decode_error_display_text : forall e,
  match e with
  | InComplete => decode_error_display e = "incomplete frame"%string
  | UnrecognizedFrameType v => exists h,
      decode_error_display e = ("unrecognized frame type 0x" ++ h)%string /\ numeral 16 h v
  | InvalidStreamId expected found => exists d,
      decode_error_display e
      = ("invalid stream ID (expected " ++ expected ++ ", found " ++ d ++ ")")%string
      /\ numeral 10 d found
  end.
Proof.
  intros [|v|e f].
  - reflexivity.
  - exists (fmt_base 16 v). split; [reflexivity|]. apply fmt_base_numeral. lia.
  - exists (fmt_dec f). split; [reflexivity|]. apply fmt_dec_numeral.
Qed.

(** ** Errors *)

Lemma description_plain : forall e, ~ has ":" (description e).
Proof. intros [k s] H. destruct k; cbn in H; intuition discriminate. Qed.

(** The kind, up to the decode error it carries. *)
Lemma description_inj : forall e e', description e = description e' ->
  er_kind e = er_kind e' \/ is_decode e = true /\ is_decode e' = true.
Proof.
  intros [k s] [k' s'] H. cbn [er_kind].
  destruct k, k'; cbn in H; try discriminate; auto.
Qed.

Lemma error_display_inj : forall e e', error_display e = error_display e' ->
  description e = description e' /\ er_source e = er_source e'.
Proof.
  intros e e' H. unfold error_display in H.
  destruct (er_source e) as [s|], (er_source e') as [s'|]; cbn [append] in H.
  - apply split_first in H; [|apply description_plain..]. destruct H as [H1 H2].
    injection H2 as H2. subst. auto.
  - exfalso. apply (description_plain e'). rewrite <- H. apply has_app. right. cbn. auto.
  - exfalso. apply (description_plain e). rewrite H. apply has_app. right. cbn. auto.
  - auto.
Qed.

Lemma error_from_decode_inj : forall e e',
  error_display (error_from_decode e) = error_display (error_from_decode e') -> e = e'.
Proof.
  intros e e' H. apply error_display_inj in H. destruct H as [_ H].
  injection H as H. now apply decode_error_display_inj.
Qed.

(** ** MIME types *)

Lemma mime_from_table : forall v t, In (v, t) mime_table -> mime_from v = t.
Proof.
  intros v t H. unfold mime_table in H. cbn [In] in H.
  repeat (destruct H as [H|H]; [injection H as <- <-; reflexivity|]). destruct H.
Qed.

Fixpoint lookup (v : string) (l : list (string * mime)) : mime :=
  match l with
  | [] => M_UNPARSEABLE
  | (s, t) :: l' => if (v =? s)%string then t else lookup v l'
  end.

Lemma mime_from_lookup : forall v, mime_from v = lookup v mime_table.
Proof. reflexivity. Qed.

Lemma lookup_cases : forall v l, lookup v l <> M_UNPARSEABLE -> In (v, lookup v l) l.
Proof.
  intros v. induction l as [|[s t] l IH]; cbn; intros H; [congruence|].
  destruct (v =? s)%string eqn:E; [|now auto]. apply String.eqb_eq in E. subst. now left.
Qed.

Lemma mime_from_cases : forall v, mime_from v <> M_UNPARSEABLE -> In (v, mime_from v) mime_table.
Proof. intros v. rewrite mime_from_lookup. apply lookup_cases. Qed.

Lemma mime_table_known : forall v t, In (v, t) mime_table -> t <> M_UNPARSEABLE.
Proof.
  intros v t H. unfold mime_table in H. cbn [In] in H.
  repeat (destruct H as [H|H]; [injection H as <- <-; discriminate|]). destruct H.
Qed.

Lemma mime_from_iff : forall v t, t <> M_UNPARSEABLE -> (mime_from v = t <-> In (v, t) mime_table).
Proof.
  intros v t Ht. split.
  - intros <-. now apply mime_from_cases.
  - apply mime_from_table.
Qed.

Lemma mime_unparseable_iff : forall v,
  mime_from v = M_UNPARSEABLE <-> ~ In v (map fst mime_table).
Proof.
  intros v. split.
  - intros H Hin. apply in_map_iff in Hin as [[v' t] [E Hin]]. cbn in E. subst v'.
    pose proof (mime_table_known v t Hin). apply mime_from_table in Hin. congruence.
  - intros H. destruct (mime_eq_dec (mime_from v) M_UNPARSEABLE) as [E|E]; [exact E|].
    exfalso. apply H. apply mime_from_cases in E. now apply (in_map fst) in E.
Qed.

Lemma mime_table_types : NoDup (map snd mime_table).
Proof.
  unfold mime_table. cbn [map snd].
  repeat (constructor; [cbn [In]; intuition discriminate|]). constructor.
Qed.

Lemma NoDup_snd : forall (A B : Type) (l : list (A * B)) a a' b,
  NoDup (map snd l) -> In (a, b) l -> In (a', b) l -> a = a'.
Proof.
  intros A B. induction l as [|[x y] l IH]; intros a a' b Hn H H'; [destruct H|].
  cbn in Hn. inversion Hn as [|? ? Hy Hl]. subst.
  destruct H as [H|H], H' as [H'|H'].
  - congruence.
  - injection H as -> ->. exfalso. apply Hy. now apply (in_map snd) in H'.
  - injection H' as -> ->. exfalso. apply Hy. now apply (in_map snd) in H.
  - eauto.
Qed.

Lemma mime_from_inj : forall v w, mime_from v <> M_UNPARSEABLE -> mime_from v = mime_from w -> v = w.
Proof.
  intros v w Hv E. pose proof (mime_from_cases v Hv) as H.
  rewrite E in Hv. pose proof (mime_from_cases w Hv) as H'. rewrite <- E in H'.
  apply (NoDup_snd _ _ mime_table v w (mime_from v)); auto using mime_table_types.
Qed.

Lemma mime_all_named : forall t, t = M_UNPARSEABLE \/ In t (map snd mime_table).
Proof. intros t. destruct t; (now left) || (right; unfold mime_table; cbn [map snd In]; tauto). Qed.

Lemma mime_into_loops : forall t, t <> M_UNPARSEABLE -> forall fuel, mime_into fuel t = Loop.
Proof.
  intros t Ht. induction fuel as [|fuel IH]; [reflexivity|].
  cbn. destruct (mime_eq_dec t M_UNPARSEABLE); [congruence|exact IH].
Qed.

(** ** Tables *)

Definition specific (e : error) : list bool :=
  [is_invalid_setup e; is_unsupported_setup e; is_rejected_setup e; is_rejected_resume e;
   is_connection_error e; is_connection_close e; is_application_error e; is_rejected e;
   is_cancel e; is_invalid e].

Lemma protocol_iff : forall e, is_protocol e = true <-> In (er_kind e) (map fst protocol_errors).
Proof.
  intros [k s]. unfold is_protocol, protocol_errors. cbn [er_kind map fst In].
  destruct k; intuition (discriminate || reflexivity).
Qed.

Lemma decode_iff : forall e, is_decode e = true <-> exists d, er_kind e = KDecode d.
Proof.
  intros [k s]. unfold is_decode. cbn [er_kind].
  destruct k; split; try discriminate; try (intros [d H]; discriminate); eauto.
Qed.

Lemma error_classes : forall e,
  (is_decode e = true /\ is_protocol e = false /\ er_kind e <> KIo) \/
  (is_decode e = false /\ is_protocol e = true /\ er_kind e <> KIo) \/
  (is_decode e = false /\ is_protocol e = false /\ er_kind e = KIo).
Proof.
  intros [k s]. unfold is_decode, is_protocol. cbn [er_kind].
  destruct k; try (left; repeat split; (reflexivity || discriminate));
    right; (left; repeat split; (reflexivity || discriminate)) || (right; repeat split; reflexivity).
Qed.

Lemma error_specific : forall e,
  count_occ Bool.bool_dec (specific e) true = if is_protocol e then 1%nat else 0%nat.
Proof. intros [k s]. destruct k; reflexivity. Qed.

Lemma error_predicates : forall e,
  (is_invalid_setup e = true <-> er_kind e = KInvalidSetup) /\
  (is_unsupported_setup e = true <-> er_kind e = KUnsupportedSetup) /\
  (is_rejected_setup e = true <-> er_kind e = KRejectedSetup) /\
  (is_rejected_resume e = true <-> er_kind e = KRejectedResume) /\
  (is_connection_error e = true <-> er_kind e = KConnectionError) /\
  (is_connection_close e = true <-> er_kind e = KConnectionClose) /\
  (is_application_error e = true <-> er_kind e = KApplicationError) /\
  (is_rejected e = true <-> er_kind e = KRejected) /\
  (is_cancel e = true <-> er_kind e = KCanceled) /\
  (is_invalid e = true <-> er_kind e = KInvalid) /\
  (is_setup e = true <->
     er_kind e = KInvalidSetup \/ er_kind e = KUnsupportedSetup \/ er_kind e = KRejectedSetup).
Proof.
  intros [k s].
  unfold is_invalid_setup, is_unsupported_setup, is_rejected_setup, is_rejected_resume,
    is_connection_error, is_connection_close, is_application_error, is_rejected, is_cancel,
    is_invalid, is_setup. cbn [er_kind].
  destruct k; intuition (discriminate || reflexivity).
Qed.

Lemma error_is_setup : forall e,
  is_setup e = is_invalid_setup e || is_unsupported_setup e || is_rejected_setup e.
Proof. intros [k s]. destruct k; reflexivity. Qed.

Ltac table H :=
  unfold protocol_errors in H; cbn [In] in H;
  repeat match type of H with _ \/ _ => destruct H as [H|H] end;
  [injection H as <- <- <- <-..|destruct H].

Lemma description_describes : forall k src name c value,
  In (k, (name, (c, value))) protocol_errors -> k <> KRejected ->
  describes (description (err_new k src)) name value.
Proof.
  intros k src name c value H Hr.
  assert (D : exists h, description (err_new k src) = (name ++ " (0x" ++ h ++ ")")%string
            /\ String.length h = 8%nat /\ h <> EmptyString /\ number_from 16 0 h = Some value).
  { table H; try congruence;
      match goal with
      | |- context [description (err_new KInvalidSetup _)] => exists "00000001"%string
      | |- context [description (err_new KUnsupportedSetup _)] => exists "00000002"%string
      | |- context [description (err_new KRejectedSetup _)] => exists "00000003"%string
      | |- context [description (err_new KRejectedResume _)] => exists "00000004"%string
      | |- context [description (err_new KConnectionError _)] => exists "00000101"%string
      | |- context [description (err_new KConnectionClose _)] => exists "00000102"%string
      | |- context [description (err_new KApplicationError _)] => exists "00000201"%string
      | |- context [description (err_new KCanceled _)] => exists "00000203"%string
      | |- context [description (err_new KInvalid _)] => exists "00000204"%string
      end; repeat split; (reflexivity || discriminate). }
  destruct D as [h [D1 [D2 [D3 D4]]]]. exists h. repeat split; assumption.
Qed.

Lemma rejected_describes : forall src,
  describes (description (err_new KRejected src)) "CONNECTION_ERROR" 0x202 /\
  forall value, ~ describes (description (err_new KRejected src)) "REJECTED" value.
Proof.
  intros src. split.
  - exists "00000202"%string. repeat split; (reflexivity || discriminate).
  - intros value [h [H _]]. discriminate.
Qed.

Lemma code_values : forall k name c value,
  In (k, (name, (c, value))) protocol_errors -> code_value c = value.
Proof. intros k name c value H. table H; reflexivity. Qed.

Lemma code_value_inj : forall c d, code_value c = code_value d -> c = d.
Proof. intros c d H. destruct c, d; try reflexivity; discriminate. Qed.
