(** * Constructors, builders, U24, FrameType, Version *)

From Verif Require Import Model.FrameM Spec.Codec Spec.Build.
From Verif Require Import Proofs.BitsP Proofs.EatP Proofs.CodecP Proofs.DecodeP Proofs.StableP.

(** ** Histories *)

Lemma is_latest_nil : forall {C A} (sel : C -> option A) d, is_latest sel d [] d.
Proof. intros. right. split; [intros c []|reflexivity]. Qed.

Lemma is_latest_snoc : forall {C A} (sel : C -> option A) d h c a,
  is_latest sel d h a ->
  is_latest sel d (h ++ [c]) (match sel c with Some x => x | None => a end).
Proof.
  intros C A sel d h c a H. destruct (sel c) as [x|] eqn:E.
  - left. exists h, c, []. split; [reflexivity|]. split; [exact E|]. intros c' [].
  - destruct H as [(h1 & c1 & h2 & -> & E1 & R)|[R ->]].
    + left. exists h1, c1, (h2 ++ [c]). rewrite <- app_assoc. split; [reflexivity|].
      split; [exact E1|]. intros c' Hc. apply in_app_iff in Hc. destruct Hc as [Hc|[<-|[]]]; auto.
    + right. split; [|reflexivity]. intros c' Hc. apply in_app_iff in Hc.
      destruct Hc as [Hc|[<-|[]]]; auto.
Qed.

Lemma is_latest_keep : forall {C A} (sel : C -> option A) d h c a,
  is_latest sel d h a -> sel c = None -> is_latest sel d (h ++ [c]) a.
Proof. intros C A sel d h c a H E. pose proof (is_latest_snoc sel d h c a H) as X. rewrite E in X. exact X. Qed.
Lemma is_latest_set : forall {C A} (sel : C -> option A) d h c a x,
  is_latest sel d h a -> sel c = Some x -> is_latest sel d (h ++ [c]) x.
Proof. intros C A sel d h c a x H E. pose proof (is_latest_snoc sel d h c a H) as X. rewrite E in X. exact X. Qed.

(** ** Flag words *)

Lemma testbit_pow2 : forall k i, N.testbit (2 ^ k) i = (k =? i).
Proof.
  intros k i. destruct (N.eqb_spec k i) as [->|H].
  - apply N.pow2_bits_true.
  - apply N.pow2_bits_false. congruence.
Qed.

Lemma flag_bits_nil : flag_bits 0 [].
Proof. intros i. apply N.bits_0. Qed.

Lemma flag_bits_union : forall w l k (c : bool), flag_bits w l ->
  flag_bits (if c then N.lor w (2 ^ k) else w) (l ++ [(k, c)]).
Proof.
  intros w l k c H i. rewrite existsb_app. cbn [existsb fst snd]. rewrite <- H.
  destruct c.
  - rewrite N.lor_spec, testbit_pow2. rewrite andb_true_r, orb_false_r. reflexivity.
  - rewrite andb_false_r, !orb_false_r. reflexivity.
Qed.

Lemma flag_bits_perm : forall w l l', flag_bits w l ->
  (forall i, existsb (fun kb => (fst kb =? i) && snd kb) l = existsb (fun kb => (fst kb =? i) && snd kb) l') ->
  flag_bits w l'.
Proof. intros w l l' H E i. rewrite <- E. apply H. Qed.

Lemma contains_pow2 : forall w k, fl_contains w (2 ^ k) = N.testbit w k.
Proof.
  intros w k. unfold fl_contains. destruct (N.testbit w k) eqn:E.
  - apply N.eqb_eq. apply N.bits_inj. intros i. rewrite N.land_spec, testbit_pow2.
    destruct (N.eqb_spec k i) as [->|]; rewrite ?E, ?andb_false_r; reflexivity.
  - apply N.eqb_neq. intros H. assert (X : N.testbit (N.land w (2 ^ k)) k = true).
    { rewrite H. apply N.pow2_bits_true. }
    rewrite N.land_spec, E in X. discriminate.
Qed.

Lemma contains_flag : forall w l k, flag_bits w l ->
  fl_contains w (2 ^ k) = existsb (fun kb => (fst kb =? k) && snd kb) l.
Proof. intros w l k H. rewrite contains_pow2. apply H. Qed.

(** ** debug_assert *)

Lemma max_u31_ok : forall {A} bd v (k : oc A), v < 2 ^ 31 -> debug_assert_max_u31 bd v k = k.
Proof.
  intros A bd v k H. unfold debug_assert_max_u31, debug_assert. destruct bd; [|reflexivity].
  destruct (N.leb_spec v MAX_U31) as [_|L]; [reflexivity|]. change MAX_U31 with (2 ^ 31 - 1) in L. lia.
Qed.
Lemma max_u63_ok : forall {A} bd v (k : oc A), v < 2 ^ 63 -> debug_assert_max_u63 bd v k = k.
Proof.
  intros A bd v k H. unfold debug_assert_max_u63, debug_assert. destruct bd; [|reflexivity].
  destruct (N.leb_spec v MAX_U63) as [_|L]; [reflexivity|]. change MAX_U63 with (2 ^ 63 - 1) in L. lia.
Qed.
Lemma non_zero_ok : forall {A} bd v (k : oc A), 0 < v -> debug_assert_non_zero bd v k = k.
Proof.
  intros A bd v k H. unfold debug_assert_non_zero, debug_assert. destruct bd; [|reflexivity].
  destruct (N.eqb_spec v 0) as [->|_]; [lia|reflexivity].
Qed.
Lemma max_u31_panic : forall {A} v (k : oc A),
  debug_assert_max_u31 Debug v k = Panic <-> 2 ^ 31 <= v \/ k = Panic.
Proof.
  intros A v k. unfold debug_assert_max_u31, debug_assert.
  destruct (N.leb_spec v MAX_U31) as [L|L]; change MAX_U31 with (2 ^ 31 - 1) in L.
  - split; [auto|]. intros [H|H]; [lia|exact H].
  - split; [|reflexivity]. intros _. left. lia.
Qed.
Lemma max_u63_panic : forall {A} v (k : oc A),
  debug_assert_max_u63 Debug v k = Panic <-> 2 ^ 63 <= v \/ k = Panic.
Proof.
  intros A v k. unfold debug_assert_max_u63, debug_assert.
  destruct (N.leb_spec v MAX_U63) as [L|L]; change MAX_U63 with (2 ^ 63 - 1) in L.
  - split; [auto|]. intros [H|H]; [lia|exact H].
  - split; [|reflexivity]. intros _. left. lia.
Qed.
Lemma non_zero_panic : forall {A} v (k : oc A),
  debug_assert_non_zero Debug v k = Panic <-> v = 0 \/ k = Panic.
Proof.
  intros A v k. unfold debug_assert_non_zero, debug_assert.
  destruct (N.eqb_spec v 0) as [->|L].
  - split; auto.
  - cbn [negb]. split; [auto|]. intros [H|H]; [congruence|exact H].
Qed.
Lemma max_u31_release : forall {A} v (k : oc A), debug_assert_max_u31 Release v k = k.
Proof. reflexivity. Qed.
Lemma max_u63_release : forall {A} v (k : oc A), debug_assert_max_u63 Release v k = k.
Proof. reflexivity. Qed.
Lemma non_zero_release : forall {A} v (k : oc A), debug_assert_non_zero Release v k = k.
Proof. reflexivity. Qed.

Lemma land31_id : forall n, n < 2 ^ 31 -> N.land n MAX_U31 = n.
Proof. intros n H. rewrite land_max_u31. apply N.mod_small. exact H. Qed.
Lemma land63_id : forall n, n < 2 ^ 63 -> N.land n MAX_U63 = n.
Proof. intros n H. rewrite land_max_u63. apply N.mod_small. exact H. Qed.

(** ** U24 *)

Lemma u24_from_u32_iff : forall v u, u24_from_u32 v = Ret u <-> v < 2 ^ 24 /\ u = U24 (v / 2 ^ 16) (v mod 2 ^ 16).
Proof.
  intros v u. unfold u24_from_u32. rewrite u24_max. destruct (N.leb_spec v (2 ^ 24 - 1)) as [L|L].
  - assert (H : v < 2 ^ 24) by lia. rewrite shiftr_16.
    assert (X : as_u8 (v / 2 ^ 16) = v / 2 ^ 16).
    { apply N.mod_small. apply N.div_lt_upper_bound; [discriminate|]. exact H. }
    rewrite X. split; [intros [= <-]; auto|]. intros [_ ->]. reflexivity.
  - split; [discriminate|]. intros [H _]. lia.
Qed.
Lemma u24_from_usize_iff : forall v u, u24_from_usize v = Ret u <-> v < 2 ^ 24 /\ u = U24 (v / 2 ^ 16) (v mod 2 ^ 16).
Proof.
  intros v u. rewrite <- u24_from_u32_iff. unfold u24_from_usize, u24_from_u32. rewrite u24_max.
  destruct (N.leb_spec v (2 ^ 24 - 1)) as [L|L]; [|reflexivity].
  assert (X : as_u32 v = v) by (apply N.mod_small; change (2 ^ 32) with (2 ^ 24 * 2 ^ 8); lia).
  rewrite X. reflexivity.
Qed.
Lemma u24_from_u32_panic : forall v, u24_from_u32 v = Panic <-> 2 ^ 24 <= v.
Proof.
  intros v. unfold u24_from_u32. rewrite u24_max. destruct (N.leb_spec v (2 ^ 24 - 1)) as [L|L].
  - split; [discriminate|]. intros; lia.
  - split; [intros; lia|reflexivity].
Qed.
Lemma u24_from_usize_panic : forall v, u24_from_usize v = Panic <-> 2 ^ 24 <= v.
Proof.
  intros v. unfold u24_from_usize. rewrite u24_max. destruct (N.leb_spec v (2 ^ 24 - 1)) as [L|L].
  - split; [discriminate|]. intros; lia.
  - split; [intros; lia|reflexivity].
Qed.
Lemma u24_into_value : forall u, u24_lo u < 2 ^ 16 -> u24_into_u32 u = u24_hi u * 2 ^ 16 + u24_lo u.
Proof.
  intros u H. unfold u24_into_u32. rewrite N.shiftl_mul_pow2.
  assert (Z : N.land (u24_hi u * 2 ^ 16) (u24_lo u) = 0);
    [|rewrite <- N.lxor_lor, <- N.add_nocarry_lxor by exact Z; reflexivity].
  apply N.bits_inj. intros i. rewrite N.land_spec, N.bits_0. destruct (N.lt_ge_cases i 16) as [L|L].
  - rewrite N.mul_pow2_bits_low by exact L. reflexivity.
  - rewrite (testbit_high (u24_lo u) 16 i H L). apply andb_false_r.
Qed.

Lemma number_of_be : forall l, number l = of_be l.
Proof.
  induction l as [|b l IH]; [reflexivity|]. rewrite of_be_cons. cbn [number]. rewrite IH. reflexivity.
Qed.

Lemma u24_spec : forall v, v < 2 ^ 24 -> exists u,
  u24_from_u32 v = Ret u /\ u24_from_usize v = Ret u /\
  u24_into_u32 u = v /\ u24_into_usize u = v /\
  u24_hi u < 2 ^ 8 /\ u24_lo u < 2 ^ 16 /\ u24_len u = 3 /\
  (forall buf, exists bs, u24_encode u buf = EOk (buf ++ bs) /\ bytes_bits bs = bits 24 v).
Proof.
  intros v H. exists (U24 (v / 2 ^ 16) (v mod 2 ^ 16)).
  assert (D : v / 2 ^ 16 < 2 ^ 8) by (apply N.div_lt_upper_bound; [discriminate|exact H]).
  assert (M : v mod 2 ^ 16 < 2 ^ 16) by (apply N.mod_lt; discriminate).
  split; [apply u24_from_u32_iff; auto|]. split; [apply u24_from_usize_iff; auto|].
  assert (E : u24_into_u32 (U24 (v / 2 ^ 16) (v mod 2 ^ 16)) = v).
  { rewrite u24_into_value by exact M. cbn [u24_hi u24_lo]. rewrite N.mul_comm. symmetry.
    apply N.div_mod. discriminate. }
  split; [exact E|]. split; [exact E|]. cbn [u24_hi u24_lo].
  split; [exact D|]. split; [exact M|]. split; [reflexivity|].
  intros buf. exists (to_be 1 (v / 2 ^ 16) ++ to_be 2 (v mod 2 ^ 16)).
  split; [unfold u24_encode, enc_seq, put_u8, put_u16; cbn [u24_hi u24_lo]; rewrite <- app_assoc; reflexivity|].
  rewrite bytes_bits_app, !bytes_bits_to_be.
  change (8 * 1)%nat with 8%nat. change (8 * 2)%nat with 16%nat.
  pose proof (bits_join 8 16 (v / 2 ^ 16) (v mod 2 ^ 16) M) as J. etransitivity; [exact J|].
  change (N.of_nat 16) with 16. rewrite N.mul_comm, <- N.div_mod by discriminate. reflexivity.
Qed.

Lemma u24_onto : forall hi lo, hi < 2 ^ 8 -> lo < 2 ^ 16 ->
  exists v, v < 2 ^ 24 /\ u24_from_u32 v = Ret (u24_new hi lo) /\
    forall v', u24_from_u32 v' = Ret (u24_new hi lo) -> v' = v.
Proof.
  intros hi lo Hh Hl. exists (hi * 2 ^ 16 + lo).
  assert (L : hi * 2 ^ 16 + lo < 2 ^ 24).
  { change (2 ^ 24) with (2 ^ 8 * 2 ^ 16). nia. }
  assert (D : (hi * 2 ^ 16 + lo) / 2 ^ 16 = hi).
  { rewrite N.div_add_l by discriminate. rewrite (N.div_small lo) by exact Hl. apply N.add_0_r. }
  assert (M : (hi * 2 ^ 16 + lo) mod 2 ^ 16 = lo).
  { rewrite N.add_comm, N.mod_add by discriminate. apply N.mod_small. exact Hl. }
  split; [exact L|]. split.
  - apply u24_from_u32_iff. split; [exact L|]. rewrite D, M. reflexivity.
  - intros v' H. apply u24_from_u32_iff in H. destruct H as [_ H]. injection H as E1 E2.
    rewrite E1, E2. rewrite (N.mul_comm (v' / _)). apply N.div_mod. discriminate.
Qed.

(** ** FrameType *)

Lemma value_code : forall t, ft_value t = type_code t.
Proof. intros []; reflexivity. Qed.

Lemma from_value_iff : forall v t, ft_from_value v = Some t <-> v = type_code t.
Proof. intros v t. rewrite <- value_code. apply ft_from_value_some. Qed.
Lemma from_bits_iff : forall w t, ft_from_bits w = Some t <-> w / 2 ^ 10 = type_code t.
Proof. intros w t. rewrite ft_from_bits_value. apply from_value_iff. Qed.
Lemma from_value_known : forall v, ft_from_value v = None <-> ~ known_code v.
Proof. exact ft_from_value_none. Qed.
Lemma from_bits_known : forall w, ft_from_bits w = None <-> ~ known_code (w / 2 ^ 10).
Proof. intros w. rewrite ft_from_bits_value. apply ft_from_value_none. Qed.
Lemma bits_code : forall t, ft_bits t = type_code t * 2 ^ 10.
Proof. intros []; reflexivity. Qed.
Lemma frame_type_laws : forall t,
  ft_value t = type_code t /\ ft_bits t = type_code t * 2 ^ 10 /\ ft_bits t < 2 ^ 16 /\
  ft_from_value (ft_value t) = Some t /\
  forall w, w < 2 ^ 10 -> ft_from_bits (ft_bits t + w) = Some t.
Proof.
  intros t. split; [apply value_code|]. split; [apply bits_code|].
  split; [destruct t; reflexivity|]. split; [apply from_value_iff; apply value_code|].
  intros w H. apply from_bits_iff. rewrite bits_code. rewrite N.div_add_l by discriminate.
  rewrite N.div_small by exact H. apply N.add_0_r.
Qed.

(** ** Version *)

Lemma version_cmp_spec : forall a b,
  match version_cmp a b with
  | Lt => version_before a b
  | Eq => a = b
  | Gt => version_before b a
  end.
Proof.
  intros [a1 a2] [b1 b2]. unfold version_cmp, version_before. cbn [v_major v_minor].
  destruct (N.compare_spec a1 b1) as [->|H|H]; [|left; exact H|left; exact H].
  destruct (N.compare_spec a2 b2) as [->|H|H]; [reflexivity|right; auto|right; auto].
Qed.
Lemma version_cmp_iff : forall a b,
  (version_cmp a b = Lt <-> version_before a b) /\
  (version_cmp a b = Eq <-> a = b) /\
  (version_cmp a b = Gt <-> version_before b a) /\
  version_partial_cmp a b = Some (version_cmp a b).
Proof.
  intros a b. pose proof (version_cmp_spec a b) as H. unfold version_before in *.
  destruct (version_cmp a b) eqn:E; (split; [|split; [|split; [|unfold version_partial_cmp; rewrite E; reflexivity]]]);
  split; intros X; try discriminate; try reflexivity; try exact H;
  try (subst b; exfalso; lia); exfalso; lia.
Qed.
Lemma version_order : forall a b c,
  version_cmp a a = Eq /\
  version_cmp b a = CompOpp (version_cmp a b) /\
  (version_cmp a b <> Gt -> version_cmp b c <> Gt -> version_cmp a c <> Gt) /\
  (version_cmp a b <> Gt \/ version_cmp b a <> Gt).
Proof.
  intros a b c. split; [|split; [|split]].
  - apply (version_cmp_iff a a). reflexivity.
  - pose proof (version_cmp_spec a b) as H. destruct (version_cmp a b); cbn [CompOpp].
    + subst. apply (version_cmp_iff b b). reflexivity.
    + apply (version_cmp_iff b a). exact H.
    + apply (version_cmp_iff b a). exact H.
  - intros H1 H2 H3. pose proof (version_cmp_spec a b) as A. pose proof (version_cmp_spec b c) as B.
    pose proof (version_cmp_spec a c) as C. rewrite H3 in C. unfold version_before in *.
    destruct (version_cmp a b); [subst b| |congruence]; (destruct (version_cmp b c) || destruct (version_cmp a c));
    try congruence; try (subst c); try lia.
  - pose proof (version_cmp_spec a b) as A. destruct (version_cmp a b) eqn:E; try (left; discriminate).
    right. intros X. apply (version_cmp_iff b a) in X. unfold version_before in *. lia.
Qed.
Lemma version_bytes_order : forall a b, typed_version a -> typed_version b -> exists ba bb,
  (forall buf, version_encode a buf = EOk (buf ++ ba)) /\
  (forall buf, version_encode b buf = EOk (buf ++ bb)) /\
  length ba = 4%nat /\ length bb = 4%nat /\
  version_cmp a b = (number ba ?= number bb).
Proof.
  intros a b [A1 A2] [B1 B2]. exists (version_bytes a), (version_bytes b).
  split; [intros; apply version_encode_ok|]. split; [intros; apply version_encode_ok|].
  split; [apply version_bytes_length|]. split; [apply version_bytes_length|].
  rewrite !number_of_be. unfold version_bytes. rewrite !of_be_app.
  rewrite !to_be_length. change (256 ^ N.of_nat 2) with (2 ^ 16).
  rewrite !of_be_to_be by (change (256 ^ N.of_nat 2) with (2 ^ 16); assumption).
  pose proof (version_cmp_spec a b) as H. unfold version_before in H. symmetry.
  destruct (version_cmp a b).
  - subst. apply N.compare_refl.
  - apply N.compare_lt_iff. nia.
  - apply N.compare_gt_iff. nia.
Qed.

(** ** Payload builder *)

Lemma payload_fold : forall cs b h,
  is_latest sets_payload_metadata None h (p_metadata b) ->
  is_latest sets_payload_data None h (p_data b) ->
  let p := fold_left payload_apply cs b in
  is_latest sets_payload_metadata None (h ++ cs) (p_metadata p) /\
  is_latest sets_payload_data None (h ++ cs) (p_data p).
Proof.
  induction cs as [|c cs IH]; intros b h H1 H2; cbn [fold_left]; cbv zeta.
  - rewrite app_nil_r. auto.
  - specialize (IH (payload_apply b c) (h ++ [c])). rewrite <- !app_assoc in IH. cbn [app] in IH.
    apply IH.
    + destruct c; cbn [payload_apply payload_set_data payload_set_metadata p_metadata].
      * apply is_latest_keep; [exact H1|reflexivity].
      * eapply is_latest_set; [exact H1|reflexivity].
    + destruct c; cbn [payload_apply payload_set_data payload_set_metadata p_data].
      * eapply is_latest_set; [exact H2|reflexivity].
      * apply is_latest_keep; [exact H2|reflexivity].
Qed.
Lemma payload_history : forall cs,
  is_latest sets_payload_metadata None cs (payload_metadata (payload_run cs)) /\
  is_latest sets_payload_data None cs (payload_data (payload_run cs)).
Proof. intros cs. apply (payload_fold cs payload_default []); apply is_latest_nil. Qed.

Lemma payload_queries : forall p,
  payload_len p = size (part (payload_metadata p)) + size (part (payload_data p)) /\
  (payload_is_empty p = true <-> part (payload_metadata p) = [] /\ part (payload_data p) = []) /\
  payload_has_metadata p = present (payload_metadata p) /\
  payload_has_data p = present (payload_data p) /\
  payload_split p = (payload_metadata p, payload_data p) /\
  payload_new (fst (payload_split p)) (snd (payload_split p)) = p.
Proof.
  intros [m d].
  assert (L : payload_len (Payload m d) = size (part m) + size (part d)).
  { unfold payload_len. cbn [p_metadata p_data]. destruct m, d; cbn [part]; unfold blen, size; cbn [length]; lia. }
  split; [exact L|]. split; [|repeat split].
  unfold payload_is_empty. rewrite L. cbn [payload_metadata payload_data p_metadata p_data].
  rewrite N.eqb_eq. unfold size. destruct (part m), (part d); cbn [length]; split;
    try (intros [? ?]; discriminate); try (intros; lia); auto.
Qed.

(** ** SETUP builder *)

Definition setup_hist (h : list setup_call) (b : setup_frame) : Prop :=
  is_latest sets_version (Version 1 0) h (sf_version b) /\
  is_latest sets_interval 30000 h (sf_keepalive_interval b) /\
  is_latest sets_timeout 60000 h (sf_keepalive_timeout b) /\
  is_latest sets_token None h (sf_resume_token b) /\
  is_latest sets_metadata_mimetype default_mime h (sf_metadata_mimetype b) /\
  is_latest sets_data_mimetype default_mime h (sf_data_mimetype b) /\
  is_latest sets_metadata None h (p_metadata (sf_payload b)) /\
  is_latest sets_data None h (p_data (sf_payload b)) /\
  flag_bits (sf_flags b) [(7, existsb raises_metadata h); (6, existsb raises_resume h);
                          (5, existsb raises_lease h)].

Lemma flag3_step : forall w a b c a' b' c' (k : N),
  flag_bits w [(7, a); (6, b); (5, c)] ->
  (a' = a || (k =? 7)) -> (b' = b || (k =? 6)) -> (c' = c || (k =? 5)) ->
  k = 7 \/ k = 6 \/ k = 5 ->
  flag_bits (N.lor w (2 ^ k)) [(7, a'); (6, b'); (5, c')].
Proof.
  intros w a b c a' b' c' k H -> -> -> Hk i.
  rewrite N.lor_spec, H, testbit_pow2. cbn [existsb fst snd].
  destruct Hk as [ -> | [ -> | -> ]]; generalize (7 =? i), (6 =? i), (5 =? i);
  intros [] [] []; destruct a, b, c; reflexivity.
Qed.

Lemma flag3_same : forall w a b c a' b' c', flag_bits w [(7, a); (6, b); (5, c)] ->
  a' = a -> b' = b -> c' = c -> flag_bits w [(7, a'); (6, b'); (5, c')].
Proof. intros; subst; assumption. Qed.

Lemma exb_snoc : forall {A} (f : A -> bool) h c, existsb f (h ++ [c]) = existsb f h || f c.
Proof. intros. rewrite existsb_app. cbn [existsb]. rewrite orb_false_r. reflexivity. Qed.

Ltac hist_step :=
  match goal with
  | |- is_latest _ _ (_ ++ [_]) _ =>
      first [ apply is_latest_keep; [assumption|reflexivity]
            | eapply is_latest_set; [eassumption|cbn; rewrite ?land_max_u31; reflexivity] ]
  end.

Lemma setup_apply_hist : forall bd b c b' h, setup_hist h b -> setup_apply bd b c = Ret b' ->
  setup_hist (h ++ [c]) b' /\ ~ refused bd c.
Proof.
  intros bd b c b' h (H1 & H2 & H3 & H4 & H5 & H6 & H7 & H8 & H9) E.
  destruct c; cbn [setup_apply] in E.
  - injection E as <-. split; [|cbn; auto]. unfold setup_hist. cbn [with_flags sf_version sf_keepalive_interval sf_keepalive_timeout sf_resume_token sf_metadata_mimetype sf_data_mimetype sf_payload sf_flags].
    repeat match goal with |- _ /\ _ => split end; try hist_step.
    rewrite !exb_snoc. cbn [raises_metadata raises_resume raises_lease].
    apply (flag3_step _ _ _ _ _ _ _ 6 H9); auto.
  - injection E as <-. split; [|cbn; auto]. unfold setup_hist. cbn [with_flags sf_version sf_keepalive_interval sf_keepalive_timeout sf_resume_token sf_metadata_mimetype sf_data_mimetype sf_payload sf_flags].
    repeat match goal with |- _ /\ _ => split end; try hist_step.
    rewrite !exb_snoc. cbn [raises_metadata raises_resume raises_lease].
    apply (flag3_step _ _ _ _ _ _ _ 5 H9); auto.
  - injection E as <-. split; [|cbn; auto]. unfold setup_hist. cbn [with_version sf_version sf_keepalive_interval sf_keepalive_timeout sf_resume_token sf_metadata_mimetype sf_data_mimetype sf_payload sf_flags].
    repeat match goal with |- _ /\ _ => split end; try hist_step.
    rewrite !exb_snoc. apply (flag3_same _ _ _ _ _ _ _ H9); apply orb_false_r.
  - assert (E' : ~ refused bd (SetKeepaliveInterval interval) /\ b' = with_interval b (N.land interval MAX_U31)).
    { destruct bd; cbn [debug_assert_max_u31 debug_assert refused] in *.
      - unfold debug_assert_max_u31, debug_assert in E. destruct (N.leb_spec interval MAX_U31) as [L|L]; [|discriminate].
        change MAX_U31 with (2 ^ 31 - 1) in L. split; [intros [_ X]; lia|]. injection E as <-. reflexivity.
      - split; [intros [X _]; discriminate|]. injection E as <-. reflexivity. }
    destruct E' as [R ->]. split; [|exact R]. unfold setup_hist. cbn [with_interval sf_version sf_keepalive_interval sf_keepalive_timeout sf_resume_token sf_metadata_mimetype sf_data_mimetype sf_payload sf_flags].
    repeat match goal with |- _ /\ _ => split end; try hist_step.
    rewrite !exb_snoc. apply (flag3_same _ _ _ _ _ _ _ H9); apply orb_false_r.
  - assert (E' : ~ refused bd (SetKeepaliveTimeout timeout) /\ b' = with_timeout b (N.land timeout MAX_U31)).
    { destruct bd; cbn [debug_assert_max_u31 debug_assert refused] in *.
      - unfold debug_assert_max_u31, debug_assert in E. destruct (N.leb_spec timeout MAX_U31) as [L|L]; [|discriminate].
        change MAX_U31 with (2 ^ 31 - 1) in L. split; [intros [_ X]; lia|]. injection E as <-. reflexivity.
      - split; [intros [X _]; discriminate|]. injection E as <-. reflexivity. }
    destruct E' as [R ->]. split; [|exact R]. unfold setup_hist. cbn [with_timeout sf_version sf_keepalive_interval sf_keepalive_timeout sf_resume_token sf_metadata_mimetype sf_data_mimetype sf_payload sf_flags].
    repeat match goal with |- _ /\ _ => split end; try hist_step.
    rewrite !exb_snoc. apply (flag3_same _ _ _ _ _ _ _ H9); apply orb_false_r.
  - destruct (N.leb_spec (blen token) 65535) as [L|L]; [|discriminate]. injection E as <-.
    split; [|cbn [refused]; unfold size, blen in *; lia].
    unfold setup_hist. cbn [with_flags with_token sf_version sf_keepalive_interval sf_keepalive_timeout sf_resume_token sf_metadata_mimetype sf_data_mimetype sf_payload sf_flags].
    repeat match goal with |- _ /\ _ => split end; try hist_step.
    rewrite !exb_snoc. cbn [raises_metadata raises_resume raises_lease].
    apply (flag3_step _ _ _ _ _ _ _ 6 H9); auto.
  - destruct (N.leb_spec (blen mimetype) 256) as [L|L]; [|discriminate]. injection E as <-.
    split; [|cbn [refused]; unfold size, blen in *; lia].
    unfold setup_hist. cbn [with_metadata_mimetype sf_version sf_keepalive_interval sf_keepalive_timeout sf_resume_token sf_metadata_mimetype sf_data_mimetype sf_payload sf_flags].
    repeat match goal with |- _ /\ _ => split end; try hist_step.
    rewrite !exb_snoc. apply (flag3_same _ _ _ _ _ _ _ H9); apply orb_false_r.
  - destruct (N.leb_spec (blen mimetype) 256) as [L|L]; [|discriminate]. injection E as <-.
    split; [|cbn [refused]; unfold size, blen in *; lia].
    unfold setup_hist. cbn [with_data_mimetype sf_version sf_keepalive_interval sf_keepalive_timeout sf_resume_token sf_metadata_mimetype sf_data_mimetype sf_payload sf_flags].
    repeat match goal with |- _ /\ _ => split end; try hist_step.
    rewrite !exb_snoc. apply (flag3_same _ _ _ _ _ _ _ H9); apply orb_false_r.
  - injection E as <-. split; [|cbn; auto]. unfold setup_hist. cbn [with_flags with_payload p_metadata p_data sf_version sf_keepalive_interval sf_keepalive_timeout sf_resume_token sf_metadata_mimetype sf_data_mimetype sf_payload sf_flags].
    repeat match goal with |- _ /\ _ => split end; try hist_step.
    rewrite !exb_snoc. cbn [raises_metadata raises_resume raises_lease].
    apply (flag3_step _ _ _ _ _ _ _ 7 H9); auto.
  - injection E as <-. split; [|cbn; auto]. unfold setup_hist. cbn [with_payload p_metadata p_data sf_version sf_keepalive_interval sf_keepalive_timeout sf_resume_token sf_metadata_mimetype sf_data_mimetype sf_payload sf_flags].
    repeat match goal with |- _ /\ _ => split end; try hist_step.
    rewrite !exb_snoc. apply (flag3_same _ _ _ _ _ _ _ H9); apply orb_false_r.
Qed.

Lemma setup_apply_panic : forall bd b c, setup_apply bd b c = Panic <-> refused bd c.
Proof.
  intros bd b c. destruct c; cbn [setup_apply refused]; try (split; [discriminate|intros []]).
  - destruct bd.
    + rewrite max_u31_panic. split; [intros [H|H]; [auto|discriminate]|intros [_ H]; auto].
    + split; [discriminate|intros [H _]; discriminate].
  - destruct bd.
    + rewrite max_u31_panic. split; [intros [H|H]; [auto|discriminate]|intros [_ H]; auto].
    + split; [discriminate|intros [H _]; discriminate].
  - destruct (N.leb_spec (blen token) 65535) as [L|L]; unfold blen, size in *.
    + split; [discriminate|intros; lia].
    + split; [intros; exact L|reflexivity].
  - destruct (N.leb_spec (blen mimetype) 256) as [L|L]; unfold blen, size in *.
    + split; [discriminate|intros; lia].
    + split; [intros; exact L|reflexivity].
  - destruct (N.leb_spec (blen mimetype) 256) as [L|L]; unfold blen, size in *.
    + split; [discriminate|intros; lia].
    + split; [intros; exact L|reflexivity].
Qed.
Lemma setup_apply_no_loop : forall bd b c, setup_apply bd b c <> Loop.
Proof.
  intros bd b c. destruct c; cbn [setup_apply]; try discriminate;
  try (destruct (_ <=? _); discriminate);
  destruct bd; unfold debug_assert_max_u31, debug_assert; try destruct (_ <=? _); discriminate.
Qed.

Lemma setup_all : forall bd cs b h, setup_hist h b ->
  match setup_apply_all bd b cs with
  | Ret f => setup_hist (h ++ cs) f /\ forall c, In c cs -> ~ refused bd c
  | Panic => exists c, In c cs /\ refused bd c
  | Loop => False
  end.
Proof.
  intros bd cs. induction cs as [|c cs IH]; intros b h H; cbn [setup_apply_all].
  - rewrite app_nil_r. split; [exact H|]. intros c [].
  - destruct (setup_apply bd b c) as [b'| |] eqn:E.
    + destruct (setup_apply_hist _ _ _ _ _ H E) as [H' R]. specialize (IH b' (h ++ [c]) H').
      rewrite <- app_assoc in IH. cbn [app] in IH.
      destruct (setup_apply_all bd b' cs).
      * destruct IH as [A B]. split; [exact A|]. intros c' [<-|I]; auto.
      * destruct IH as (c' & I & R'). exists c'. split; [right; exact I|exact R'].
      * exact IH.
    + exists c. split; [left; reflexivity|]. apply setup_apply_panic in E. exact E.
    + exact (setup_apply_no_loop bd b c E).
Qed.

Lemma setup_default_hist : setup_hist [] setup_builder_default.
Proof.
  unfold setup_hist, setup_builder_default. cbn [sf_version sf_keepalive_interval sf_keepalive_timeout sf_resume_token sf_metadata_mimetype sf_data_mimetype sf_payload sf_flags].
  repeat match goal with |- _ /\ _ => split end; try apply is_latest_nil.
  intros i. cbn. rewrite !andb_false_r. reflexivity.
Qed.

Lemma setup_build_id : forall b, setup_build b = b.
Proof. intros []; reflexivity. Qed.

Lemma setup_run_spec : forall bd cs,
  match setup_run bd cs with
  | Ret f => setup_hist cs f /\ forall c, In c cs -> ~ refused bd c
  | Panic => exists c, In c cs /\ refused bd c
  | Loop => False
  end.
Proof.
  intros bd cs. unfold setup_run. pose proof (setup_all bd cs _ [] setup_default_hist) as H.
  cbn [app] in H. destruct (setup_apply_all bd setup_builder_default cs); rewrite ?setup_build_id; exact H.
Qed.

Lemma setup_history : forall bd cs f, setup_run bd cs = Ret f -> setup_hist cs f.
Proof. intros bd cs f E. pose proof (setup_run_spec bd cs) as H. rewrite E in H. apply H. Qed.

Lemma setup_panics : forall bd cs, setup_run bd cs = Panic <-> exists c, In c cs /\ refused bd c.
Proof.
  intros bd cs. pose proof (setup_run_spec bd cs) as H. destruct (setup_run bd cs).
  - split; [discriminate|]. intros (c & I & R). destruct H as [_ H]. exfalso. exact (H c I R).
  - split; [intros _; exact H|reflexivity].
  - destruct H.
Qed.
Lemma setup_no_loop : forall bd cs, setup_run bd cs <> Loop.
Proof. intros bd cs E. pose proof (setup_run_spec bd cs) as H. rewrite E in H. exact H. Qed.

(** Values picked by [is_latest] come from the history. *)
Lemma is_latest_from : forall {C A} (sel : C -> option A) d h a, is_latest sel d h a ->
  a = d \/ exists c, In c h /\ sel c = Some a.
Proof.
  intros C A sel d h a [(h1 & c & h2 & -> & E & _)|[_ ->]]; [right|left; reflexivity].
  exists c. split; [apply in_app_iff; right; left; reflexivity|exact E].
Qed.
Lemma is_latest_default : forall {C A} (sel : C -> option (option A)) h, is_latest sel None h None ->
  (forall c x, sel c = Some x -> x <> None) -> forall c, In c h -> sel c = None.
Proof.
  intros C A sel h [(h1 & c & h2 & -> & E & _)|[R _]] F c' I; [|exact (R c' I)].
  exfalso. exact (F c None E eq_refl).
Qed.

Lemma flag_bits_ok : forall w a b c, flag_bits w [(7, a); (6, b); (5, c)] -> flags_ok w.
Proof.
  intros w a b c H.
  assert (E : w = (if a then 2 ^ 7 else 0) + (if b then 2 ^ 6 else 0) + (if c then 2 ^ 5 else 0)).
  { apply N.bits_inj. intros i. rewrite H. cbn [existsb fst snd].
    destruct (N.lt_ge_cases i 8) as [L|L].
    - assert (X : i = 0 \/ i = 1 \/ i = 2 \/ i = 3 \/ i = 4 \/ i = 5 \/ i = 6 \/ i = 7) by lia.
      destruct X as [X|[X|[X|[X|[X|[X|[X|X]]]]]]]; subst i; destruct a, b, c; reflexivity.
    - rewrite (testbit_high _ 8 i) by (destruct a, b, c; vm_compute; reflexivity || exact L).
      destruct (N.eqb_spec 7 i), (N.eqb_spec 6 i), (N.eqb_spec 5 i); try lia. }
  rewrite E. destruct a, b, c; vm_compute; auto.
Qed.

Definition survives (f : setup_frame) : Prop :=
  exists bs, (forall buf, frame_encode (FSetup f) buf = EOk (buf ++ bs)) /\
    decode bs = (DOk (FSetup f), []).

Lemma setup_token_of : forall h b, setup_hist h b ->
  (sf_resume_token b <> None <-> exists t, In (SetResumeToken t) h).
Proof.
  intros h b (_ & _ & _ & H4 & _). split.
  - intros N. destruct (is_latest_from _ _ _ _ H4) as [E|(c & I & E)]; [congruence|].
    destruct c; try discriminate. eauto.
  - intros (t & I) E. rewrite E in H4.
    pose proof (is_latest_default _ _ H4) as X.
    assert (Y : forall c x, sets_token c = Some x -> x <> None)
      by (intros c x Hc; destruct c; try discriminate; injection Hc as <-; discriminate).
    specialize (X Y _ I). discriminate.
Qed.

Lemma setup_survives : forall bd cs f, Forall typed_call cs -> setup_run bd cs = Ret f ->
  (survives f <->
    (In SetResumeFlag cs -> exists t, In (SetResumeToken t) cs) /\
    size (sf_metadata_mimetype f) <= 255 /\ size (sf_data_mimetype f) <= 255 /\
    setup_metadata f <> Some [] /\ setup_data f <> Some [] /\
    size (part (setup_metadata f)) < 2 ^ 24).
Proof.
  intros bd cs f T E. pose proof (setup_history _ _ _ E) as H.
  pose proof (setup_token_of _ _ H) as HT.
  pose proof (setup_run_spec bd cs) as HR. rewrite E in HR. destruct HR as [_ HR].
  destruct H as (H1 & H2 & H3 & H4 & H5 & H6 & H7 & H8 & H9).
  assert (S : survives f <-> fits (FSetup f)).
  { split.
    - intros (bs & Eb & D). apply (roundtrip_only _ bs [] (Eb []) D).
    - intros F. destruct (roundtrip _ F) as (bs & Eb & D). exists bs. auto. }
  rewrite S. clear S.
  assert (HF : flags_ok (sf_flags f)) by exact (flag_bits_ok _ _ _ _ H9).
  assert (HV : typed_version (sf_version f)).
  { destruct (is_latest_from _ _ _ _ H1) as [->|(c & I & Ec)]; [split; reflexivity|].
    rewrite Forall_forall in T. specialize (T c I). destruct c; try discriminate.
    injection Ec as <-. exact T. }
  assert (HI : sf_keepalive_interval f < 2 ^ 31).
  { destruct (is_latest_from _ _ _ _ H2) as [->|(c & I & Ec)]; [reflexivity|].
    destruct c; try discriminate. cbn [sets_interval] in Ec. injection Ec as <-.
    apply N.mod_lt. discriminate. }
  assert (HO : sf_keepalive_timeout f < 2 ^ 31).
  { destruct (is_latest_from _ _ _ _ H3) as [->|(c & I & Ec)]; [reflexivity|].
    destruct c; try discriminate. cbn [sets_timeout] in Ec. injection Ec as <-.
    apply N.mod_lt. discriminate. }
  assert (HK : size (part (sf_resume_token f)) < 2 ^ 16).
  { destruct (is_latest_from _ _ _ _ H4) as [->|(c & I & Ec)]; [reflexivity|].
    specialize (HR c I). destruct c; try discriminate. cbn [sets_token] in Ec. injection Ec as <-.
    cbn [part refused] in *. change (2 ^ 16) with 65536. lia. }
  assert (HB : N.testbit (sf_flags f) 6 = true <-> In SetResumeFlag cs \/ exists t, In (SetResumeToken t) cs).
  { rewrite H9. cbn [existsb fst snd N.eqb Pos.eqb andb orb]. rewrite orb_false_r.
    rewrite existsb_exists. split.
    - intros (c & I & R). destruct c; try discriminate; eauto.
    - intros [I|(t & I)]; eexists; (split; [exact I|reflexivity]). }
  unfold fits. cbn [in_range consistent]. unfold small_metadata, solid_payload, solid, setup_metadata, setup_data, payload_metadata, payload_data.
  rewrite HB, HT. change (2 ^ 8) with 256. split.
  - intros ((_ & _ & _ & _ & _ & M1 & M2 & SM) & (R & S1 & S2)).
    split; [intros I; apply R; left; exact I|].
    split; [lia|]. split; [lia|]. auto.
  - intros (R & M1 & M2 & S1 & S2 & SM).
    repeat match goal with |- _ /\ _ => split end; auto; try lia.
    split; [intros [I|I]; auto|intros I; right; exact I].
Qed.
