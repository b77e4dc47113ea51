(** * The count of chunks, computed in [f32]

    Rounding is described with integers: a rational [N / D] rounds to the integer [rne N D]. *)

From Coq Require Import ZArith Lia SpecFloat.
From Verif Require Import Model.ChunkM.

Local Open Scope Z_scope.

(** ** Rounding a quotient to an integer, ties to even *)

Definition loc (N D : Z) : location :=
  if N mod D =? 0 then loc_Exact else loc_Inexact (2 * (N mod D) ?= D).
Definition rne (N D : Z) : Z := round_nearest_even (N / D) (loc N D).

Lemma rne_cases : forall N D, 0 < D ->
  exists q r, N = D * q + r /\ 0 <= r < D /\ q = N / D /\
    ((2 * r <= D /\ rne N D = q) \/ (D <= 2 * r /\ rne N D = q + 1)) /\
    (2 * r < D -> rne N D = q) /\ (D < 2 * r -> rne N D = q + 1) /\
    (2 * r = D -> rne N D = if Z.even q then q else q + 1).
Proof.
  intros N D H. exists (N / D), (N mod D). pose proof (Z.div_mod N D ltac:(lia)) as E.
  pose proof (Z.mod_pos_bound N D H) as B. unfold rne, loc.
  split; [exact E|]. split; [exact B|]. split; [reflexivity|].
  destruct (Z.eqb_spec (N mod D) 0) as [Z0|Z0]; cbn [round_nearest_even].
  - repeat split; intros; lia.
  - destruct (Z.compare_spec (2 * (N mod D)) D) as [C|C|C].
    + split; [|repeat split; intros; lia]. destruct (Z.even (N / D)); lia.
    + repeat split; intros; lia.
    + repeat split; intros; lia.
Qed.
Lemma rne_close : forall N D, 0 < D -> - D <= 2 * (D * rne N D - N) <= D.
Proof. intros N D H. destruct (rne_cases N D H) as (q & r & -> & B & _ & [[L ->]|[L ->]] & _); lia. Qed.
Lemma rne_exact : forall k D, 0 < D -> rne (k * D) D = k.
Proof.
  intros k D H. unfold rne, loc. rewrite Z.mod_mul, Z.div_mul by lia. reflexivity.
Qed.
Lemma rne_mono : forall N N' D, 0 < D -> N <= N' -> rne N D <= rne N' D.
Proof.
  intros N N' D H L. destruct (rne_cases N D H) as (q & r & E & B & _ & C & C1 & C2 & C3).
  destruct (rne_cases N' D H) as (q' & r' & E' & B' & _ & C' & C1' & C2' & C3').
  assert (q <= q') by nia. destruct (Z.eq_dec q q') as [->|]; [|lia].
  assert (r <= r') by lia.
  destruct (Z.lt_trichotomy (2 * r) D) as [X|[X|X]].
  - rewrite (C1 X). lia.
  - destruct (Z.lt_trichotomy (2 * r') D) as [Y|[Y|Y]]; [lia| |].
    + rewrite (C3 X), (C3' Y). lia.
    + rewrite (C2' Y). lia.
  - rewrite (C2 X), C2' by lia. lia.
Qed.
Lemma rne_le : forall N D k, 0 < D -> N <= k * D -> rne N D <= k.
Proof. intros N D k H L. rewrite <- (rne_exact k D H). now apply rne_mono. Qed.
Lemma rne_ge : forall N D k, 0 < D -> k * D <= N -> k <= rne N D.
Proof. intros N D k H L. rewrite <- (rne_exact k D H). now apply rne_mono. Qed.

(** ** SpecFloat's shifting *)

Definition rec_ok (mrs : shr_record) (N D : Z) : Prop :=
  shr_m mrs = N / D /\ loc_of_shr_record mrs = loc N D.

Lemma rec_of_loc : forall N D, rec_ok (shr_record_of_loc (N / D) (loc N D)) N D.
Proof. intros N D. split; destruct (loc N D) as [|[| |]]; reflexivity. Qed.

Lemma shr_1_ok : forall mrs N D, 0 <= N -> 0 < D -> rec_ok mrs N D -> rec_ok (shr_1 mrs) N (D * 2).
Proof.
  intros [m r s] N D HN HD [Em El]. cbn [shr_m] in Em.
  pose proof (Z.div_mod N D ltac:(lia)) as E. pose proof (Z.mod_pos_bound N D HD) as B.
  assert (Hm : 0 <= m) by (rewrite Em; apply Z.div_pos; lia).
  rewrite <- Em in E. set (x := N mod D) in *.
  assert (Es : orb r s = negb (x =? 0)).
  { unfold loc in El. fold x in El. destruct (x =? 0), r, s; cbn in El |- *; congruence. }
  assert (K : forall (h : Z) (b : bool), m = 2 * h + (if b then 1 else 0) ->
    rec_ok (Build_shr_record h b (orb r s)) N (D * 2)).
  { intros h b Eh.
    assert (Q : N / (D * 2) = h /\ N mod (D * 2) = x + (if b then D else 0)).
    { assert (P : N = (D * 2) * h + (x + (if b then D else 0))) by (destruct b; nia).
      split; symmetry.
      - apply (Z.div_unique_pos N (D * 2) h (x + (if b then D else 0))); [destruct b; lia|exact P].
      - apply (Z.mod_unique_pos N (D * 2) h (x + (if b then D else 0))); [destruct b; lia|exact P]. }
    destruct Q as [Q1 Q2]. split; cbn [shr_m]; [now rewrite Q1|]. unfold loc. rewrite Q2, Es.
    destruct (Z.eqb_spec x 0) as [X|X]; cbn [negb]; destruct b; cbn [loc_of_shr_record].
    - rewrite (proj2 (Z.eqb_neq _ _)) by lia. f_equal. symmetry. apply Z.compare_eq_iff. lia.
    - now rewrite (proj2 (Z.eqb_eq _ _)) by lia.
    - rewrite (proj2 (Z.eqb_neq _ _)) by lia. f_equal. symmetry. apply Z.compare_gt_iff. lia.
    - rewrite (proj2 (Z.eqb_neq _ _)) by lia. f_equal. symmetry. apply Z.compare_lt_iff. lia. }
  destruct m as [|[p|p|]|p]; cbn [shr_1]; try (apply K; lia). lia.
Qed.

Lemma iter_plus : forall {A} (f : A -> A) a b x, Nat.iter (a + b) f x = Nat.iter a f (Nat.iter b f x).
Proof. intros A f a b x. induction a as [|a IH]; [reflexivity|]. cbn. unfold Nat.iter in IH. now rewrite IH. Qed.
Lemma iter_pos_nat : forall {A} (f : A -> A) p x, SpecFloat.iter_pos f p x = Nat.iter (Pos.to_nat p) f x.
Proof.
  intros A f p. induction p as [p IH|p IH|]; intros x; cbn [SpecFloat.iter_pos].
  - rewrite !IH, Pos2Nat.inj_xI. replace (S (2 * Pos.to_nat p))%nat with (Pos.to_nat p + (Pos.to_nat p + 1))%nat by lia.
    rewrite !iter_plus. reflexivity.
  - rewrite !IH, Pos2Nat.inj_xO. replace (2 * Pos.to_nat p)%nat with (Pos.to_nat p + Pos.to_nat p)%nat by lia.
    now rewrite iter_plus.
  - reflexivity.
Qed.

Lemma iter_ok : forall n mrs N D, 0 <= N -> 0 < D -> rec_ok mrs N D ->
  rec_ok (Nat.iter n shr_1 mrs) N (D * 2 ^ Z.of_nat n).
Proof.
  induction n as [|n IH]; intros mrs N D HN HD R.
  - cbn. now rewrite Z.mul_1_r.
  - rewrite Nat2Z.inj_succ, Z.pow_succ_r by lia. cbn [Nat.iter nat_rect].
    replace (D * (2 * 2 ^ Z.of_nat n)) with (D * 2 ^ Z.of_nat n * 2) by lia.
    apply shr_1_ok; [exact HN| |now apply IH]. pose proof (Z.pow_pos_nonneg 2 (Z.of_nat n)). nia.
Qed.

Lemma shr_ok : forall mrs N D e s, 0 <= N -> 0 < D -> 0 <= s -> rec_ok mrs N D ->
  rec_ok (fst (shr mrs e s)) N (D * 2 ^ s) /\ snd (shr mrs e s) = e + s.
Proof.
  intros mrs N D e [|p|p] HN HD Hs R; [| |lia]; cbn [shr fst snd].
  - rewrite Z.pow_0_r, Z.mul_1_r. split; [exact R|lia].
  - split; [|reflexivity]. rewrite iter_pos_nat. rewrite <- (positive_nat_Z p). now apply iter_ok.
Qed.

Lemma digits_log2 : forall p, Zpos (digits2_pos p) = Z.log2 (Zpos p) + 1.
Proof.
  assert (D : forall p, 2 ^ (Zpos (digits2_pos p) - 1) <= Zpos p < 2 ^ Zpos (digits2_pos p)).
  { induction p as [p IH|p IH|]; cbn [digits2_pos]; [| |cbn; lia];
      rewrite Pos2Z.inj_succ; replace (Z.succ (Zpos (digits2_pos p)) - 1) with (Z.succ (Zpos (digits2_pos p) - 1)) by lia;
      rewrite !Z.pow_succ_r by lia; lia. }
  intros p. specialize (D p). set (d := Zpos (digits2_pos p)) in *.
  assert (P : 2 ^ d = 2 * 2 ^ (d - 1)) by (rewrite <- Z.pow_succ_r by lia; f_equal; lia).
  rewrite (Z.log2_unique' (Zpos p) (d - 1) (Zpos p - 2 ^ (d - 1))); lia.
Qed.
Lemma Zdigits_log2 : forall m, 0 < m -> Zdigits2 m = Z.log2 m + 1.
Proof. intros [|p|p] H; try lia. apply digits_log2. Qed.

(** The rounding of a value in [m, m + 1) times [2 ^ e], away from the subnormal numbers
    and the infinities. *)
Lemma round_aux_spec : forall e N D, 0 < D -> 0 < N / D ->
  let s := Z.log2 (N / D) - 23 in
  0 <= s -> -149 <= e + s -> e + s <= 103 ->
  exists m e', SpecFloat.binary_round_aux 24 128 false (N / D) e (loc N D) = S754_finite false m e' /\
    2 ^ 23 <= Zpos m < 2 ^ 24 /\ e + s <= e' <= e + s + 1 /\
    Zpos m * 2 ^ (e' - (e + s)) = rne N (D * 2 ^ s).
Proof.
  intros e N D HD Hm s Hs Lo Hi. set (m0 := N / D) in *.
  pose proof (Z.log2_spec m0 Hm) as Lg. set (d := Z.log2 m0) in *.
  assert (HN : 0 <= N). { pose proof (Z.div_mod N D ltac:(lia)). pose proof (Z.mod_pos_bound N D HD). fold m0 in H. nia. }
  assert (Ps : 0 < 2 ^ s) by (apply Z.pow_pos_nonneg; lia).
  assert (Bq : 2 ^ 23 <= N / (D * 2 ^ s) < 2 ^ 24).
  { rewrite <- Z.div_div by lia. fold m0.
    replace (2 ^ d) with (2 ^ 23 * 2 ^ s) in Lg by (rewrite <- Z.pow_add_r by lia; f_equal; lia).
    replace (2 ^ Z.succ d) with (2 ^ 24 * 2 ^ s) in Lg by (rewrite <- Z.pow_add_r by lia; f_equal; lia).
    split; [apply Z.div_le_lower_bound|apply Z.div_lt_upper_bound]; lia. }
  assert (BM : 2 ^ 23 <= rne N (D * 2 ^ s) <= 2 ^ 24).
  { destruct (rne_cases N (D * 2 ^ s)) as (q & r & E & B & Eq & C & _); [lia|]. rewrite <- Eq in Bq. lia. }
  unfold SpecFloat.binary_round_aux, shr_fexp. rewrite Zdigits_log2 by exact Hm. fold d.
  replace (fexp 24 128 (d + 1 + e) - e) with s by (unfold fexp, emin; lia).
  destruct (shr_ok (shr_record_of_loc m0 (loc N D)) N D e s HN HD Hs (rec_of_loc N D)) as [[R1 R2] R3].
  destruct (shr (shr_record_of_loc m0 (loc N D)) e s) as [mrs e1]. cbn [fst snd] in *. subst e1.
  rewrite R1, R2. fold (rne N (D * 2 ^ s)). set (M := rne N (D * 2 ^ s)) in *.
  destruct (Z.eq_dec M (2 ^ 24)) as [E|NE].
  - rewrite E. change (Zdigits2 (2 ^ 24)) with 25.
    replace (fexp 24 128 (25 + (e + s)) - (e + s)) with 1 by (unfold fexp, emin; lia).
    cbn [shr_record_of_loc shr SpecFloat.iter_pos]. change (2 ^ 24) with 16777216 at 1. cbn [shr_1 orb shr_m].
    rewrite (Zle_imp_le_bool (e + s + 1) (128 - 24)) by lia.
    eexists _, _. split; [reflexivity|]. split; [lia|]. split; [lia|].
    replace (e + s + 1 - (e + s)) with 1 by lia. lia.
  - rewrite Zdigits_log2 by lia.
    rewrite (Z.log2_unique' M 23 (M - 2 ^ 23)) by lia.
    replace (fexp 24 128 (23 + 1 + (e + s)) - (e + s)) with 0 by (unfold fexp, emin; lia).
    cbn [shr_record_of_loc shr shr_m]. destruct M as [|p|p] eqn:EM; try lia.
    rewrite (Zle_imp_le_bool (e + s) (128 - 24)) by lia.
    eexists _, _. split; [reflexivity|]. split; [lia|]. split; [lia|].
    rewrite Z.sub_diag. lia.
Qed.

(** ** Integers *)

(** A positive integer rounded to 24 bits. *)
Definition rnd24 (p : Z) : Z :=
  if p <? 2 ^ 24 then p else rne p (2 ^ (Z.log2 p - 23)) * 2 ^ (Z.log2 p - 23).

Lemma shift_pos_mul : forall d p, Zpos (shift_pos d p) = Zpos p * 2 ^ Zpos d.
Proof. intros d p. rewrite shift_pos_correct. change (Zpower_pos 2 d) with (2 ^ Zpos d). lia. Qed.

Lemma of_int : forall p, Zpos p < 2 ^ 65 -> exists m e,
  SpecFloat.binary_normalize 24 128 (Zpos p) 0 false = S754_finite false m e /\
  2 ^ 23 <= Zpos m < 2 ^ 24 /\ -23 <= e <= 42 /\ Zpos m * 2 ^ (e + 23) = rnd24 (Zpos p) * 2 ^ 23.
Proof.
  intros p Hp. pose proof (Z.log2_spec (Zpos p) ltac:(lia)) as Lg.
  assert (L0 : 0 <= Z.log2 (Zpos p)) by apply Z.log2_nonneg.
  assert (L1 : Z.log2 (Zpos p) < 65) by (apply Z.log2_lt_pow2; lia).
  cbn [SpecFloat.binary_normalize]. unfold SpecFloat.binary_round.
  rewrite digits_log2. set (d := Z.log2 (Zpos p)) in *.
  replace (fexp 24 128 (d + 1 + 0)) with (d - 23) by (unfold fexp, emin; lia).
  unfold rnd24. fold d. destruct (Z.ltb_spec (Zpos p) (2 ^ 24)) as [S|S].
  - assert (D24 : d < 24) by (apply Z.log2_lt_pow2; lia).
    unfold shl_align. rewrite Z.sub_0_r.
    assert (X : exists m1, (let '(mz, ez) := match d - 23 with Zneg d0 => (shift_pos d0 p, d - 23) | _ => (p, 0) end in
        SpecFloat.binary_round_aux 24 128 false (Zpos mz) ez loc_Exact) =
        SpecFloat.binary_round_aux 24 128 false m1 (d - 23) loc_Exact /\ m1 = Zpos p * 2 ^ (23 - d)).
    { destruct (d - 23) as [|k|k] eqn:Ek; [| lia |].
      - exists (Zpos p). split; [reflexivity|]. replace (23 - d) with 0 by lia. lia.
      - eexists. split; [reflexivity|]. rewrite shift_pos_mul. f_equal. f_equal. lia. }
    destruct X as (m1 & -> & Em).
    assert (B1 : 2 ^ 23 <= m1 < 2 ^ 24).
    { subst m1. replace (2 ^ 23) with (2 ^ d * 2 ^ (23 - d)) by (rewrite <- Z.pow_add_r by lia; f_equal; lia).
      replace (2 ^ 24) with (2 ^ Z.succ d * 2 ^ (23 - d)) by (rewrite <- Z.pow_add_r by lia; f_equal; lia).
      assert (0 < 2 ^ (23 - d)) by (apply Z.pow_pos_nonneg; lia). nia. }
    assert (Lm : Z.log2 (m1 / 1) = 23) by (rewrite Z.div_1_r; apply (Z.log2_unique' m1 23 (m1 - 2 ^ 23)); lia).
    destruct (round_aux_spec (d - 23) m1 1) as (m & e & E & Bm & Be & V); rewrite ?Z.div_1_r; try lia.
    { rewrite Z.div_1_r in Lm. lia. }
    { rewrite Z.div_1_r in Lm. lia. }
    { rewrite Z.div_1_r in Lm. lia. }
    rewrite Lm in *. rewrite Z.div_1_r in E. unfold loc in E. rewrite Z.mod_1_r in E. cbn [Z.eqb] in E.
    exists m, e. split; [exact E|]. split; [exact Bm|]. split; [lia|].
    replace (d - 23 + (23 - 23)) with (d - 23) in * by lia.
    rewrite Z.sub_diag, Z.pow_0_r in V. change (1 * 1) with 1 in V.
    replace (rne m1 1) with m1 in V by (rewrite <- (Z.mul_1_r m1) at 2; symmetry; apply rne_exact; lia).
    replace (e + 23) with ((e - (d - 23)) + d) by lia. rewrite Z.pow_add_r by lia. rewrite Z.mul_assoc, V, Em.
    rewrite <- Z.mul_assoc, <- Z.pow_add_r by lia. f_equal. f_equal. lia.
  - assert (D24 : 24 <= d) by (apply Z.log2_le_pow2; lia).
    unfold shl_align. rewrite Z.sub_0_r. destruct (d - 23) as [|k|k] eqn:Ek; try lia.
    destruct (round_aux_spec 0 (Zpos p) 1) as (m & e & E & Bm & Be & V); rewrite ?Z.div_1_r; fold d; try lia.
    rewrite Z.div_1_r in *. fold d in Be, V. unfold loc in E. rewrite Z.mod_1_r in E. cbn [Z.eqb] in E.
    exists m, e. split; [exact E|]. split; [exact Bm|]. split; [lia|].
    rewrite Z.mul_1_l in V. rewrite Ek in *. rewrite <- V. replace (e + 23) with ((e - (0 + Zpos k)) + Zpos k + 23) by lia.
    rewrite !Z.pow_add_r by lia. lia.
Qed.

Lemma rnd24_exact : forall p, 0 <= p <= 2 ^ 24 -> rnd24 p = p.
Proof.
  intros p H. unfold rnd24. destruct (Z.ltb_spec p (2 ^ 24)); [reflexivity|].
  replace p with (2 ^ 24) by lia. reflexivity.
Qed.
Lemma rnd24_close : forall p, 0 < p -> (2 ^ 24 - 1) * p <= 2 ^ 24 * rnd24 p <= (2 ^ 24 + 1) * p.
Proof.
  intros p H. unfold rnd24. destruct (Z.ltb_spec p (2 ^ 24)) as [S|S]; [lia|].
  assert (D24 : 24 <= Z.log2 p) by (apply Z.log2_le_pow2; lia).
  pose proof (Z.log2_spec p H) as [Lg _]. set (d := Z.log2 p) in *.
  assert (P : 0 < 2 ^ (d - 23)) by (apply Z.pow_pos_nonneg; lia).
  replace (2 ^ d) with (2 ^ 23 * 2 ^ (d - 23)) in Lg by (rewrite <- Z.pow_add_r by lia; f_equal; lia).
  pose proof (rne_close p (2 ^ (d - 23)) P). lia.
Qed.
Lemma rnd24_pow : forall k, 24 <= k -> rnd24 (2 ^ k) = 2 ^ k.
Proof.
  intros k H. unfold rnd24. rewrite (proj2 (Z.ltb_ge _ _)) by (apply Z.pow_le_mono_r; lia).
  rewrite Z.log2_pow2 by lia.
  replace (2 ^ k) with (2 ^ 23 * 2 ^ (k - 23)) by (rewrite <- Z.pow_add_r by lia; f_equal; lia).
  rewrite rne_exact by (apply Z.pow_pos_nonneg; lia). reflexivity.
Qed.
Lemma rnd24_bracket : forall p, 2 ^ 24 <= p -> 2 ^ Z.log2 p <= rnd24 p <= 2 ^ Z.succ (Z.log2 p).
Proof.
  intros p H. unfold rnd24. rewrite (proj2 (Z.ltb_ge _ _)) by exact H.
  assert (D24 : 24 <= Z.log2 p) by (apply Z.log2_le_pow2; lia).
  pose proof (Z.log2_spec p ltac:(lia)) as Lg. set (d := Z.log2 p) in *.
  assert (P : 0 < 2 ^ (d - 23)) by (apply Z.pow_pos_nonneg; lia).
  assert (E1 : 2 ^ d = 2 ^ 23 * 2 ^ (d - 23)) by (rewrite <- Z.pow_add_r by lia; f_equal; lia).
  assert (E2 : 2 ^ Z.succ d = 2 ^ 24 * 2 ^ (d - 23)) by (rewrite <- Z.pow_add_r by lia; f_equal; lia).
  pose proof (rne_ge p (2 ^ (d - 23)) (2 ^ 23) P ltac:(lia)).
  pose proof (rne_le p (2 ^ (d - 23)) (2 ^ 24) P ltac:(lia)). nia.
Qed.
Lemma rnd24_mono : forall p q, 0 < p -> p <= q -> rnd24 p <= rnd24 q.
Proof.
  intros p q H L. destruct (Z.lt_ge_cases q (2 ^ 24)) as [Sq|Sq].
  { rewrite !rnd24_exact by lia. exact L. }
  destruct (rnd24_bracket q Sq) as [Q1 Q2].
  assert (Dq : 24 <= Z.log2 q) by (apply Z.log2_le_pow2; lia).
  destruct (Z.lt_ge_cases p (2 ^ 24)) as [Sp|Sp].
  { rewrite (rnd24_exact p) by lia. pose proof (Z.pow_le_mono_r 2 24 (Z.log2 q)). lia. }
  destruct (rnd24_bracket p Sp) as [P1 P2].
  pose proof (Z.log2_le_mono p q L) as Lm. destruct (Z.eq_dec (Z.log2 p) (Z.log2 q)) as [E|NE].
  - unfold rnd24. rewrite !(proj2 (Z.ltb_ge _ _)) by lia. rewrite E.
    apply Z.mul_le_mono_nonneg_r; [apply Z.pow_nonneg; lia|]. apply rne_mono; [apply Z.pow_pos_nonneg; lia|exact L].
  - pose proof (Z.pow_le_mono_r 2 (Z.succ (Z.log2 p)) (Z.log2 q)). lia.
Qed.

(** ** Division *)

Lemma new_location_loc : forall N D, 0 < D -> new_location D (N mod D) = loc N D.
Proof.
  intros N D H. pose proof (Z.mod_pos_bound N D H) as B. unfold new_location, new_location_even, new_location_odd, loc.
  assert (Z : Zeq_bool (N mod D) 0 = (N mod D =? 0)).
  { destruct (Z.eqb_spec (N mod D) 0) as [E|E]; [now rewrite E|]. now destruct (N mod D). }
  destruct (Z.even D) eqn:Ev; cbv beta; rewrite Z; [reflexivity|].
  destruct (Z.eqb_spec (N mod D) 0) as [E|E]; [reflexivity|].
  assert (O : 2 * (N mod D) <> D).
  { intros X. rewrite <- X, Z.even_mul in Ev. discriminate. }
  f_equal. destruct (Z.compare_spec (2 * (N mod D) + 1) D) as [C|C|C]; symmetry.
  - apply Z.compare_lt_iff. lia.
  - apply Z.compare_lt_iff. lia.
  - apply Z.compare_gt_iff. lia.
Qed.

Lemma div_spec : forall m1 e1 m2 e2, 2 ^ 23 <= Zpos m1 < 2 ^ 24 -> 2 ^ 23 <= Zpos m2 < 2 ^ 24 ->
  -23 <= e1 <= 42 -> -23 <= e2 <= 42 ->
  exists s m e, let N := Zpos m1 * 2 ^ 24 in let D := Zpos m2 * 2 ^ s in let E := e1 - e2 - 24 + s in
    0 <= s <= 1 /\ SFdiv 24 128 (S754_finite false m1 e1) (S754_finite false m2 e2) = S754_finite false m e /\
    2 ^ 23 * D <= N < 2 ^ 24 * D /\ 2 ^ 23 <= Zpos m < 2 ^ 24 /\ E <= e <= E + 1 /\
    Zpos m * 2 ^ (e - E) = rne N D.
Proof.
  intros m1 e1 m2 e2 B1 B2 H1 H2. cbn [SFdiv xorb]. unfold SFdiv_core_binary.
  rewrite !Zdigits_log2 by lia.
  rewrite (Z.log2_unique' (Zpos m1) 23 (Zpos m1 - 2 ^ 23)) by lia.
  rewrite (Z.log2_unique' (Zpos m2) 23 (Zpos m2 - 2 ^ 23)) by lia.
  replace (Z.min (fexp 24 128 (23 + 1 + e1 - (23 + 1 + e2))) (e1 - e2)) with (e1 - e2 - 24) by (unfold fexp, emin; lia).
  replace (e1 - e2 - (e1 - e2 - 24)) with 24 by lia. cbv zeta.
  rewrite Z.shiftl_mul_pow2 by lia. set (N := Zpos m1 * 2 ^ 24).
  assert (DE : Z.div_eucl N (Zpos m2) = (N / Zpos m2, N mod Zpos m2)).
  { unfold Z.div, Z.modulo. now destruct (Z.div_eucl N (Zpos m2)). }
  rewrite DE, new_location_loc by lia.
  assert (Bq : 2 ^ 23 <= N / Zpos m2 < 2 ^ 25).
  { split; [apply Z.div_le_lower_bound|apply Z.div_lt_upper_bound]; unfold N; lia. }
  assert (Lq : 23 <= Z.log2 (N / Zpos m2) <= 24).
  { split; [apply Z.log2_le_pow2; lia|]. apply Z.lt_succ_r. apply Z.log2_lt_pow2; lia. }
  destruct (round_aux_spec (e1 - e2 - 24) N (Zpos m2)) as (m & e & E & Bm & Be & V); try lia.
  set (s := Z.log2 (N / Zpos m2) - 23) in *.
  exists s, m, e. cbv zeta. split; [lia|]. split; [exact E|]. split; [|auto].
  pose proof (Z.log2_spec (N / Zpos m2) ltac:(lia)) as Lg.
  replace (2 ^ Z.log2 (N / Zpos m2)) with (2 ^ 23 * 2 ^ s) in Lg by (rewrite <- Z.pow_add_r by lia; f_equal; lia).
  replace (2 ^ Z.succ (Z.log2 (N / Zpos m2))) with (2 ^ 24 * 2 ^ s) in Lg by (rewrite <- Z.pow_add_r by lia; f_equal; lia).
  pose proof (Z.div_mod N (Zpos m2) ltac:(lia)) as Dv. pose proof (Z.mod_pos_bound N (Zpos m2) ltac:(lia)) as Mb.
  set (q := N / Zpos m2) in *. nia.
Qed.

(** ** [ceil] and the conversion to [usize] *)

Definition cdiv (x y : Z) : Z := - ((- x) / y).
Lemma cdiv_unique : forall x y k, 0 < y -> (k - 1) * y < x <= k * y -> cdiv x y = k.
Proof.
  intros x y k H B. unfold cdiv.
  rewrite <- (Z.div_unique_pos (- x) y (- k) (k * y - x)); lia.
Qed.
Lemma cdiv_bounds : forall x y, 0 < y -> (cdiv x y - 1) * y < x <= cdiv x y * y.
Proof.
  intros x y H. unfold cdiv. pose proof (Z.div_mod (- x) y ltac:(lia)) as D.
  pose proof (Z.mod_pos_bound (- x) y H). nia.
Qed.
Lemma cdiv_cancel : forall x y c, 0 < y -> 0 < c -> cdiv (x * c) (y * c) = cdiv x y.
Proof. intros x y c Hy Hc. apply cdiv_unique; [nia|]. pose proof (cdiv_bounds x y Hy). nia. Qed.

Lemma usize_finite : forall m e k, 0 <= k -> Zpos m * 2 ^ (e + 100) = k * 2 ^ 100 -> -100 <= e ->
  usize_of_f32 (S754_finite false m e) = N.min usize_max (Z.to_N k).
Proof.
  intros m e k Hk E He. cbn [usize_of_f32]. f_equal. destruct (Z.leb_spec 0 e) as [L|L].
  - rewrite Z.pow_add_r in E by lia. assert (X : Zpos m * 2 ^ e = k) by nia.
    rewrite <- X, Z2N.inj_mul, Z2N.inj_pow by lia. reflexivity.
  - assert (P : 0 < 2 ^ (e + 100)) by (apply Z.pow_pos_nonneg; lia).
    assert (X : Zpos m = k * 2 ^ (- e)).
    { replace (2 ^ 100) with (2 ^ (- e) * 2 ^ (e + 100)) in E by (rewrite <- Z.pow_add_r by lia; f_equal; lia). nia. }
    assert (Q : (2 ^ Z.to_N (- e) <> 0)%N) by (apply N.pow_nonzero; lia).
    replace (N.pos m) with (Z.to_N k * 2 ^ Z.to_N (- e))%N; [now apply N.div_mul|].
    change (N.pos m) with (Z.to_N (Zpos m)). rewrite X, Z2N.inj_mul by lia. rewrite Z2N.inj_pow by lia. reflexivity.
Qed.

Lemma ceil_spec : forall m e, 2 ^ 23 <= Zpos m < 2 ^ 24 -> -100 <= e ->
  usize_of_f32 (f32_ceil (S754_finite false m e)) =
  N.min usize_max (Z.to_N (cdiv (Zpos m * 2 ^ (e + 100)) (2 ^ 100))).
Proof.
  intros m e B He. cbn [f32_ceil]. destruct (Z.leb_spec 0 e) as [L|L].
  - apply usize_finite; [|..|lia].
    + pose proof (cdiv_bounds (Zpos m * 2 ^ (e + 100)) (2 ^ 100) ltac:(lia)).
      assert (0 <= 2 ^ (e + 100)) by (apply Z.pow_nonneg; lia). nia.
    + rewrite Z.pow_add_r by lia. rewrite Z.mul_assoc. f_equal. symmetry. apply cdiv_unique; lia.
  - cbn [SpecFloat.cond_Zopp]. fold (cdiv (Zpos m) (2 ^ (- e))).
    assert (P : 0 < 2 ^ (e + 100)) by (apply Z.pow_pos_nonneg; lia).
    assert (Q : 0 < 2 ^ (- e)) by (apply Z.pow_pos_nonneg; lia).
    assert (C : cdiv (Zpos m * 2 ^ (e + 100)) (2 ^ 100) = cdiv (Zpos m) (2 ^ (- e))).
    { replace (2 ^ 100) with (2 ^ (- e) * 2 ^ (e + 100)) by (rewrite <- Z.pow_add_r by lia; f_equal; lia).
      now apply cdiv_cancel. }
    rewrite C. pose proof (cdiv_bounds (Zpos m) (2 ^ (- e)) Q) as K.
    set (k := cdiv (Zpos m) (2 ^ (- e))) in *.
    assert (K1 : 1 <= k <= 2 ^ 24) by nia.
    destruct k as [|p|p] eqn:Ek; try lia.
    destruct (of_int p) as (m' & e' & E & Bm & Be & V); [lia|].
    unfold f32_prec, f32_emax. rewrite E. rewrite rnd24_exact in V by lia.
    apply usize_finite; [lia| |lia].
    replace (e' + 100) with (e' + 23 + 77) by lia. rewrite Z.pow_add_r by lia. rewrite Z.mul_assoc, V. lia.
Qed.

(** ** The computation of [len] *)

Definition f32_pieces (a b : N) : N :=
  usize_of_f32 (f32_ceil (f32_div (f32_of_usize a) (f32_of_usize b))).

(** What is computed, in units of [2 ^ -100]. *)
Lemma pieces_spec : forall a b : N, (1 <= a < 2 ^ 64)%N -> (1 <= b < 2 ^ 64)%N ->
  exists N D E, 0 < D /\ 2 ^ 23 * D <= N < 2 ^ 24 * D /\ -100 <= E /\
    rnd24 (Z.of_N b) * N * 2 ^ (E + 100) = rnd24 (Z.of_N a) * D * 2 ^ 100 /\
    f32_pieces a b = N.min usize_max (Z.to_N (cdiv (rne N D * 2 ^ (E + 100)) (2 ^ 100))).
Proof.
  intros a b Ha Hb. unfold f32_pieces, f32_div, f32_of_usize, f32_prec, f32_emax.
  destruct a as [|pa]; [lia|]. destruct b as [|pb]; [lia|]. cbn [Z.of_N].
  destruct (of_int pa) as (m1 & e1 & -> & B1 & H1 & V1); [lia|].
  destruct (of_int pb) as (m2 & e2 & -> & B2 & H2 & V2); [lia|].
  destruct (div_spec m1 e1 m2 e2 B1 B2 H1 H2) as (s & m & e & Hs & -> & Bq & Bm & Be & V).
  set (N := Zpos m1 * 2 ^ 24) in *. set (E := e1 - e2 - 24 + s) in *.
  assert (Ps : 0 < 2 ^ s) by (apply Z.pow_pos_nonneg; lia).
  exists N, (Zpos m2 * 2 ^ s), E. split; [lia|]. split; [exact Bq|]. split; [lia|]. split.
  - assert (X : rnd24 (Zpos pb) * N * 2 ^ (E + 100) * 2 ^ 23 = rnd24 (Zpos pa) * (Zpos m2 * 2 ^ s) * 2 ^ 100 * 2 ^ 23); [|lia].
    transitivity (N * 2 ^ (E + 100) * (rnd24 (Zpos pb) * 2 ^ 23)); [ring|]. rewrite <- V2.
    transitivity ((rnd24 (Zpos pa) * 2 ^ 23) * (Zpos m2 * 2 ^ s) * 2 ^ 100); [|ring]. rewrite <- V1.
    unfold N. transitivity (Zpos m1 * Zpos m2 * (2 ^ 24 * 2 ^ (E + 100) * 2 ^ (e2 + 23))); [ring|].
    transitivity (Zpos m1 * Zpos m2 * (2 ^ (e1 + 23) * 2 ^ s * 2 ^ 100)); [|ring].
    f_equal. rewrite <- !Z.pow_add_r by lia. f_equal. lia.
  - rewrite ceil_spec by lia. f_equal. f_equal. f_equal. rewrite <- V.
    replace (e + 100) with (e - E + (E + 100)) by lia. rewrite Z.pow_add_r by lia. ring.
Qed.

Lemma pieces_zero : forall b : N, (1 <= b < 2 ^ 64)%N -> f32_pieces 0 b = 0%N.
Proof.
  intros b Hb. unfold f32_pieces, f32_div, f32_of_usize, f32_prec, f32_emax.
  destruct b as [|pb]; [lia|]. cbn [Z.of_N].
  destruct (of_int pb) as (m2 & e2 & -> & _); [lia|]. reflexivity.
Qed.

(** A part not longer than the chunk size counts for one. *)
Lemma pieces_one : forall a b : N, (1 <= a <= b)%N -> (b < 2 ^ 64)%N -> f32_pieces a b = 1%N.
Proof.
  intros a b Ha Hb. destruct (pieces_spec a b) as (N & D & E & HD & B & HE & X & ->); [lia|lia|].
  pose proof (rnd24_mono (Z.of_N a) (Z.of_N b) ltac:(lia) ltac:(lia)) as M.
  pose proof (rnd24_close (Z.of_N b) ltac:(lia)) as PB. pose proof (rnd24_close (Z.of_N a) ltac:(lia)) as PA.
  set (A := rnd24 (Z.of_N a)) in *. set (B' := rnd24 (Z.of_N b)) in *.
  assert (T : 0 < 2 ^ (E + 100)) by (apply Z.pow_pos_nonneg; lia).
  assert (HA : 0 < A) by lia. assert (HB : 0 < B') by lia.
  assert (L : N * 2 ^ (E + 100) <= D * 2 ^ 100).
  { apply Z.mul_le_mono_pos_l with B'; [exact HB|].
    replace (B' * (N * 2 ^ (E + 100))) with (A * (D * 2 ^ 100)) by lia.
    apply Z.mul_le_mono_nonneg_r; lia. }
  assert (E0 : E < 0).
  { destruct (Z.lt_ge_cases E 0) as [|G]; [assumption|]. exfalso.
    pose proof (Z.pow_le_mono_r 2 100 (E + 100)). nia. }
  assert (W : 2 ^ 100 = 2 ^ (- E) * 2 ^ (E + 100)) by (rewrite <- Z.pow_add_r by lia; f_equal; lia).
  pose proof (rne_le N D (2 ^ (- E)) HD) as U. pose proof (rne_ge N D 1 HD) as G.
  rewrite (cdiv_unique _ _ 1); [reflexivity|lia|].
  split.
  - assert (1 <= rne N D) by (apply G; lia). nia.
  - rewrite Z.mul_1_l, W. apply Z.mul_le_mono_nonneg_r; [lia|]. apply U. rewrite W in L. nia.
Qed.

(** Up to [2 ^ 24] bytes the count is exact. *)
Lemma pieces_exact : forall a b : Z, 1 <= a <= 2 ^ 24 -> 1 <= b <= 2 ^ 24 ->
  f32_pieces (Z.to_N a) (Z.to_N b) = Z.to_N (cdiv a b).
Proof.
  intros a b Ha Hb. destruct (pieces_spec (Z.to_N a) (Z.to_N b)) as (N & D & E & HD & B & HE & X & ->); [lia|lia|].
  rewrite !Z2N.id in X by lia. rewrite !rnd24_exact in X by lia.
  assert (T : 0 < 2 ^ (E + 100)) by (apply Z.pow_pos_nonneg; lia).
  pose proof (cdiv_bounds a b ltac:(lia)) as K. set (k := cdiv a b) in *.
  assert (K1 : 1 <= k <= 2 ^ 24) by nia.
  assert (G : cdiv (rne N D * 2 ^ (E + 100)) (2 ^ 100) = k); [|rewrite G; apply N.min_r; unfold usize_max; lia].
  apply cdiv_unique; [lia|].
  destruct (Z.eq_dec N (2 ^ 23 * D)) as [EN|NE].
  - rewrite EN in *. rewrite rne_exact by lia.
    assert (Y : b * (2 ^ 23 * 2 ^ (E + 100)) = a * 2 ^ 100) by nia.
    set (y := 2 ^ 23 * 2 ^ (E + 100)) in *. set (w := 2 ^ 100) in *. assert (0 < w) by (unfold w; lia).
    clearbody y w k. clear - Y K Ha Hb H. split.
    + apply Z.mul_lt_mono_pos_l with b; [lia|]. rewrite Y. nia.
    + apply Z.mul_le_mono_pos_l with b; [lia|]. rewrite Y. nia.
  - assert (E0 : E <= 0).
    { destruct (Z.le_gt_cases E 0) as [|G]; [assumption|]. exfalso.
      pose proof (Z.pow_le_mono_r 2 101 (E + 100)) as P.
      assert (2 ^ 101 <= 2 ^ (E + 100)) by lia. change (2 ^ 101) with (2 * 2 ^ 100) in *.
      set (t := 2 ^ (E + 100)) in *. set (w := 2 ^ 100) in *. assert (0 < w) by (unfold w; lia). clearbody t w.
      assert (F1 : N * (2 * w) <= N * t) by (apply Z.mul_le_mono_nonneg_l; lia).
      assert (F2 : 2 ^ 23 * D * (2 * w) < N * (2 * w)) by (apply Z.mul_lt_mono_pos_r; lia).
      assert (F3 : 1 * (N * t) <= b * (N * t)) by (apply Z.mul_le_mono_nonneg_r; nia).
      assert (F4 : a * (D * w) <= 2 ^ 24 * (D * w)) by (apply Z.mul_le_mono_nonneg_r; nia). lia. }
    assert (W : 2 ^ 100 = 2 ^ (- E) * 2 ^ (E + 100)) by (rewrite <- Z.pow_add_r by lia; f_equal; lia).
    rewrite W in *. assert (Kp : 0 < 2 ^ (- E)) by (apply Z.pow_pos_nonneg; lia).
    set (t := 2 ^ (E + 100)) in *. set (c := 2 ^ (- E)) in *. clearbody t c k. clear W E0 HE.
    assert (Y : b * N = a * D * c) by nia.
    assert (Bc : b < 2 * c).
    { assert (F1 : b * (2 ^ 23 * D) < b * N) by (apply Z.mul_lt_mono_pos_l; lia).
      assert (F2 : a * (D * c) <= 2 ^ 24 * (D * c)) by (apply Z.mul_le_mono_nonneg_r; nia).
      apply Z.mul_lt_mono_pos_l with D; lia. }
    pose proof (rne_close N D HD) as C. set (M := rne N D) in *.
    split.
    + assert (S : (k - 1) * c < M); [|nia].
      assert (S1 : D * c <= b * (N - (k - 1) * c * D)) by nia.
      assert (S2 : D < 2 * (N - (k - 1) * c * D)) by nia. nia.
    + assert (S : M <= k * c); [|nia]. apply rne_le; [exact HD|].
      assert (b * N <= b * (k * c * D)) by nia. nia.
Qed.

Lemma cdiv_N : forall a b : Z, 0 <= a -> 1 <= b -> Z.to_N (cdiv a b) = ((Z.to_N a + Z.to_N b - 1) / Z.to_N b)%N.
Proof.
  intros a b Ha Hb. rewrite (cdiv_unique a b ((a + b - 1) / b)) by
    (try lia; pose proof (Z.div_mod (a + b - 1) b ltac:(lia)); pose proof (Z.mod_pos_bound (a + b - 1) b ltac:(lia)); nia).
  rewrite Z2N.inj_div by lia. f_equal. lia.
Qed.

Lemma f32_count : forall a b : N, (a <= 2 ^ 24)%N -> (1 <= b < 2 ^ 64)%N ->
  usize_of_f32 (f32_ceil (f32_div (f32_of_usize a) (f32_of_usize b))) = ((a + b - 1) / b)%N.
Proof.
  intros a b Ha Hb. fold (f32_pieces a b). destruct (N.eq_dec a 0) as [->|Na].
  { rewrite pieces_zero by exact Hb. symmetry. apply N.div_small. lia. }
  destruct (N.le_gt_cases a b) as [L|L].
  - rewrite pieces_one by lia. apply (N.div_unique _ _ _ (a - 1)); lia.
  - pose proof (pieces_exact (Z.of_N a) (Z.of_N b) ltac:(lia) ltac:(lia)) as P.
    rewrite cdiv_N in P by lia. now rewrite !N2Z.id in P.
Qed.

(** At any length, the relative error is below [2 ^ -22]. *)
Lemma pieces_close : forall a b : N, (1 <= a < 2 ^ 64)%N -> (1 <= b < 2 ^ 64)%N ->
  let k := ((a + b - 1) / b)%N in
  ((k - 1) * (2 ^ 22 - 1) < f32_pieces a b * 2 ^ 22 /\
   (f32_pieces a b - 1) * 2 ^ 22 < k * (2 ^ 22 + 1))%N.
Proof.
  intros a b Ha Hb k. destruct (pieces_spec a b Ha Hb) as (N & D & E & HD & B & HE & X & ->).
  assert (Ek : k = Z.to_N (cdiv (Z.of_N a) (Z.of_N b))) by (rewrite cdiv_N by lia; now rewrite !N2Z.id).
  pose proof (cdiv_bounds (Z.of_N a) (Z.of_N b) ltac:(lia)) as K. set (kz := cdiv (Z.of_N a) (Z.of_N b)) in *.
  rewrite Ek. clear Ek k.
  pose proof (rnd24_close (Z.of_N b) ltac:(lia)) as PB. pose proof (rnd24_close (Z.of_N a) ltac:(lia)) as PA.
  set (A := rnd24 (Z.of_N a)) in *. set (B' := rnd24 (Z.of_N b)) in *.
  assert (T : 0 < 2 ^ (E + 100)) by (apply Z.pow_pos_nonneg; lia).
  pose proof (rne_close N D HD) as C. set (M := rne N D) in *.
  assert (M1 : (2 ^ 24 - 1) * N <= 2 ^ 24 * (D * M) <= (2 ^ 24 + 1) * N) by lia.
  set (t := 2 ^ (E + 100)) in *. set (w := 2 ^ 100) in *. assert (W : 0 < w) by (unfold w; lia).
  pose proof (cdiv_bounds (M * t) w W) as Q. set (c := cdiv (M * t) w) in *.
  set (az := Z.of_N a) in *. set (bz := Z.of_N b) in *.
  assert (A1 : 1 <= az < 2 ^ 64) by lia. assert (B1 : 1 <= bz < 2 ^ 64) by lia.
  assert (HM : 0 < M) by nia.
  assert (Kz : 1 <= kz <= az) by nia.
  assert (Cz : 1 <= c) by nia.
  assert (U : 2 ^ 22 * (M * t * bz) <= (2 ^ 22 + 1) * (az * w)).
  { assert (S1 : 2 ^ 24 * (M * t * B') <= (2 ^ 24 + 1) * (A * w)).
    { apply Z.mul_le_mono_pos_l with D; [exact HD|].
      replace (D * (2 ^ 24 * (M * t * B'))) with (2 ^ 24 * (D * M) * (t * B')) by ring.
      replace (D * ((2 ^ 24 + 1) * (A * w))) with ((2 ^ 24 + 1) * N * (t * B')).
      - apply Z.mul_le_mono_nonneg_r; [nia|lia].
      - transitivity ((2 ^ 24 + 1) * (B' * N * t)); [ring|]. rewrite X. ring. }
    assert (S2 : (2 ^ 24 - 1) * (M * t * bz) <= 2 ^ 24 * (M * t * B')).
    { replace ((2 ^ 24 - 1) * (M * t * bz)) with ((M * t) * ((2 ^ 24 - 1) * bz)) by ring.
      replace (2 ^ 24 * (M * t * B')) with ((M * t) * (2 ^ 24 * B')) by ring.
      apply Z.mul_le_mono_nonneg_l; [nia|lia]. }
    assert (S3 : 2 ^ 24 * (A * w) <= (2 ^ 24 + 1) * (az * w)).
    { replace (2 ^ 24 * (A * w)) with ((2 ^ 24 * A) * w) by ring.
      replace ((2 ^ 24 + 1) * (az * w)) with (((2 ^ 24 + 1) * az) * w) by ring.
      apply Z.mul_le_mono_nonneg_r; lia. }
    assert (P1 : 0 < az * w) by nia. lia. }
  assert (V : (2 ^ 22 - 1) * (az * w) <= 2 ^ 22 * (M * t * bz)).
  { assert (S1 : (2 ^ 24 - 1) * (A * w) <= 2 ^ 24 * (M * t * B')).
    { apply Z.mul_le_mono_pos_l with D; [exact HD|].
      replace (D * (2 ^ 24 * (M * t * B'))) with (2 ^ 24 * (D * M) * (t * B')) by ring.
      replace (D * ((2 ^ 24 - 1) * (A * w))) with ((2 ^ 24 - 1) * N * (t * B')).
      - apply Z.mul_le_mono_nonneg_r; [nia|lia].
      - transitivity ((2 ^ 24 - 1) * (B' * N * t)); [ring|]. rewrite X. ring. }
    assert (S2 : 2 ^ 24 * (M * t * B') <= (2 ^ 24 + 1) * (M * t * bz)).
    { replace ((2 ^ 24 + 1) * (M * t * bz)) with ((M * t) * ((2 ^ 24 + 1) * bz)) by ring.
      replace (2 ^ 24 * (M * t * B')) with ((M * t) * (2 ^ 24 * B')) by ring.
      apply Z.mul_le_mono_nonneg_l; [nia|lia]. }
    assert (S3 : (2 ^ 24 - 1) * (az * w) <= 2 ^ 24 * (A * w)).
    { replace (2 ^ 24 * (A * w)) with ((2 ^ 24 * A) * w) by ring.
      replace ((2 ^ 24 - 1) * (az * w)) with (((2 ^ 24 - 1) * az) * w) by ring.
      apply Z.mul_le_mono_nonneg_r; lia. }
    assert (P1 : 0 < az * w) by nia. lia. }
  assert (G1 : (kz - 1) * (2 ^ 22 - 1) < c * 2 ^ 22).
  { apply Z.mul_lt_mono_pos_r with (bz * w); [nia|].
    assert ((kz - 1) * bz * w < az * w) by nia. assert (M * t * bz <= c * w * bz) by nia. lia. }
  assert (G2 : (c - 1) * 2 ^ 22 < kz * (2 ^ 22 + 1)).
  { apply Z.mul_lt_mono_pos_r with (bz * w); [nia|].
    assert ((c - 1) * w * bz < M * t * bz) by nia. assert (az * w <= kz * bz * w) by nia. lia. }
  clear - G1 G2 Kz Cz A1. unfold usize_max. lia.
Qed.
