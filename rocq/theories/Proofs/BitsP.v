(** * Bits, bytes and big-endian integers *)

From Coq Require Import Lia.
From Verif Require Import Model.FrameM Spec.Wire.

(** ** Bytes *)

Lemma b2n_lt : forall b, b2n b < 256.
Proof. intros b. pose proof (Coq.Strings.Byte.to_N_bounded b). unfold b2n. lia. Qed.

Lemma n2b_b2n : forall b, n2b (b2n b) = b.
Proof.
  intros b. unfold n2b. rewrite N.mod_small by apply b2n_lt.
  unfold b2n. now rewrite Coq.Strings.Byte.of_to_N.
Qed.

Lemma b2n_n2b : forall n, b2n (n2b n) = n mod 256.
Proof.
  intros n. unfold n2b.
  destruct (Coq.Strings.Byte.of_N (n mod 256)) eqn:E.
  - unfold b2n. now apply Coq.Strings.Byte.to_of_N.
  - apply Coq.Strings.Byte.of_N_None_iff in E.
    assert (n mod 256 < 256) by (apply N.mod_lt; lia). lia.
Qed.

Lemma b2n_inj : forall a b, b2n a = b2n b -> a = b.
Proof. intros a b H. rewrite <- (n2b_b2n a), <- (n2b_b2n b). now rewrite H. Qed.

(** ** [of_be], [to_be] *)

Lemma fold_be : forall l acc,
  fold_left (fun acc b => acc * 256 + b2n b) l acc
  = acc * 256 ^ N.of_nat (length l) + of_be l.
Proof.
  unfold of_be. induction l as [|b l IH]; intros acc; cbn [fold_left length].
  - rewrite N.pow_0_r. lia.
  - rewrite IH, (IH (0 * 256 + b2n b)).
    rewrite Nat2N.inj_succ, N.pow_succ_r'. lia.
Qed.

Lemma of_be_nil : of_be [] = 0.
Proof. reflexivity. Qed.

Lemma of_be_cons : forall b l,
  of_be (b :: l) = b2n b * 256 ^ N.of_nat (length l) + of_be l.
Proof.
  intros b l. unfold of_be at 1. cbn [fold_left]. rewrite fold_be. lia.
Qed.

Lemma of_be_app : forall a b,
  of_be (a ++ b) = of_be a * 256 ^ N.of_nat (length b) + of_be b.
Proof.
  intros a b. unfold of_be at 1. rewrite fold_left_app, fold_be. reflexivity.
Qed.

Lemma of_be_lt : forall l, of_be l < 256 ^ N.of_nat (length l).
Proof.
  induction l as [|b l IH].
  - cbn. lia.
  - rewrite of_be_cons. cbn [length]. rewrite Nat2N.inj_succ, N.pow_succ_r'.
    pose proof (b2n_lt b). nia.
Qed.

Lemma to_be_length : forall k n, length (to_be k n) = k.
Proof. induction k; intros; cbn; congruence. Qed.

Lemma pow256_pos : forall k, 0 < 256 ^ k.
Proof. intros. apply N.neq_0_lt_0, N.pow_nonzero. lia. Qed.

Lemma of_be_to_be_mod : forall k n, of_be (to_be k n) = n mod 256 ^ N.of_nat k.
Proof.
  induction k as [|k IH]; intros n.
  - cbn. now rewrite N.mod_1_r.
  - cbn [to_be]. rewrite of_be_cons, to_be_length, IH, b2n_n2b.
    rewrite Nat2N.inj_succ, N.pow_succ_r'.
    rewrite (N.mul_comm 256). rewrite N.mod_mul_r; [lia|pose proof (pow256_pos (N.of_nat k)); lia|lia].
Qed.

Lemma of_be_to_be : forall k n, n < 256 ^ N.of_nat k -> of_be (to_be k n) = n.
Proof. intros. rewrite of_be_to_be_mod. now apply N.mod_small. Qed.

Lemma to_be_mod : forall k n m,
  n mod 256 ^ N.of_nat k = m mod 256 ^ N.of_nat k -> to_be k n = to_be k m.
Proof.
  induction k as [|k IH]; intros n m H; cbn [to_be]; [reflexivity|].
  rewrite Nat2N.inj_succ, N.pow_succ_r', (N.mul_comm 256) in H.
  pose proof (pow256_pos (N.of_nat k)).
  rewrite !N.mod_mul_r in H by lia.
  assert (n mod 256 ^ N.of_nat k = m mod 256 ^ N.of_nat k /\
          n / 256 ^ N.of_nat k mod 256 = m / 256 ^ N.of_nat k mod 256) as [H1 H2].
  { apply and_comm, (N.div_mod_unique (256 ^ N.of_nat k)); [apply N.mod_lt; lia..|lia]. }
  f_equal; [|now apply IH].
  apply b2n_inj. now rewrite !b2n_n2b.
Qed.

Lemma of_be_inj : forall a b, length a = length b -> of_be a = of_be b -> a = b.
Proof.
  induction a as [|x a IH]; intros [|y b] L H; cbn in L; try discriminate; [reflexivity|].
  injection L as L. rewrite !of_be_cons, L in H.
  pose proof (of_be_lt a) as Ha. pose proof (of_be_lt b) as Hb. rewrite L in Ha.
  assert (b2n x = b2n y /\ of_be a = of_be b) as [H1 H2].
  { apply (N.div_mod_unique (256 ^ N.of_nat (length b))); [assumption..|lia]. }
  f_equal; [now apply b2n_inj | now apply IH].
Qed.

Lemma to_be_of_be : forall k l, length l = k -> to_be k (of_be l) = l.
Proof.
  intros k l H. apply of_be_inj; [now rewrite to_be_length|].
  apply of_be_to_be. rewrite <- H. apply of_be_lt.
Qed.

Lemma to_be_eq : forall k l n, length l = k -> of_be l = n -> to_be k n = l.
Proof. intros; subst; now apply to_be_of_be. Qed.

(** ** Bits *)

Lemma pow2_pos : forall k, 0 < 2 ^ k.
Proof. intros. apply N.neq_0_lt_0, N.pow_nonzero. lia. Qed.

Lemma pow256_2 : forall k, 256 ^ N.of_nat k = 2 ^ N.of_nat (8 * k).
Proof.
  intros k. change 256 with (2 ^ 8). rewrite <- N.pow_mul_r. f_equal. lia.
Qed.

Lemma bits_length : forall w n, length (bits w n) = w.
Proof. induction w; intros; cbn; congruence. Qed.

Lemma bits_app : forall w1 w2 n,
  bits (w1 + w2) n = bits w1 (n / 2 ^ N.of_nat w2) ++ bits w2 n.
Proof.
  induction w1 as [|w1 IH]; intros w2 n; cbn; [reflexivity|].
  rewrite IH. f_equal.
  rewrite N.div_pow2_bits. f_equal. lia.
Qed.

Lemma bits_ext : forall w n m,
  (forall i, i < N.of_nat w -> N.testbit n i = N.testbit m i) -> bits w n = bits w m.
Proof.
  induction w as [|w IH]; intros n m H; cbn; [reflexivity|].
  f_equal; [apply H; lia | apply IH; intros; apply H; lia].
Qed.

Lemma bits_eq_inv : forall w n m,
  bits w n = bits w m -> forall i, i < N.of_nat w -> N.testbit n i = N.testbit m i.
Proof.
  induction w as [|w IH]; intros n m H i Hi; [lia|].
  cbn in H. injection H as H1 H2.
  destruct (N.eq_dec i (N.of_nat w)) as [->|]; [assumption|].
  apply (IH n m H2). lia.
Qed.

Lemma testbit_high : forall n w i, n < 2 ^ w -> w <= i -> N.testbit n i = false.
Proof.
  intros n w i H Hi. destruct (N.eq_dec n 0) as [->|]; [apply N.bits_0|].
  apply N.bits_above_log2. apply N.lt_le_trans with w; [|assumption].
  apply N.log2_lt_pow2; lia.
Qed.

Lemma bits_inj : forall w n m,
  n < 2 ^ N.of_nat w -> m < 2 ^ N.of_nat w -> bits w n = bits w m -> n = m.
Proof.
  intros w n m Hn Hm H. apply N.bits_inj. intros i.
  destruct (N.lt_ge_cases i (N.of_nat w)) as [Hi|Hi].
  - now apply (bits_eq_inv w).
  - rewrite !(testbit_high _ (N.of_nat w)); auto.
Qed.

Lemma bits_mod : forall w n, bits w (n mod 2 ^ N.of_nat w) = bits w n.
Proof.
  intros w n. apply bits_ext. intros i Hi. now apply N.mod_pow2_bits_low.
Qed.

Lemma bits_join : forall w1 w2 a b, b < 2 ^ N.of_nat w2 ->
  bits w1 a ++ bits w2 b = bits (w1 + w2) (a * 2 ^ N.of_nat w2 + b).
Proof.
  intros w1 w2 a b H. rewrite bits_app.
  rewrite N.div_add_l, N.div_small, N.add_0_r by (try apply N.pow_nonzero; lia).
  f_equal. rewrite <- (bits_mod w2 (_ + _)).
  rewrite N.add_comm, N.mod_add by (apply N.pow_nonzero; lia).
  now rewrite N.mod_small.
Qed.

Lemma bytes_bits_app : forall a b, bytes_bits (a ++ b) = bytes_bits a ++ bytes_bits b.
Proof. intros. apply flat_map_app. Qed.

Lemma bytes_bits_length : forall l, length (bytes_bits l) = (8 * length l)%nat.
Proof.
  induction l as [|b l IH]; [reflexivity|].
  change (bytes_bits (b :: l)) with (byte_bits b ++ bytes_bits l).
  rewrite app_length, IH. unfold byte_bits. rewrite bits_length. cbn [length]. lia.
Qed.

Lemma bytes_bits_of_be : forall l, bytes_bits l = bits (8 * length l) (of_be l).
Proof.
  induction l as [|b l IH]; [reflexivity|].
  change (bytes_bits (b :: l)) with (byte_bits b ++ bytes_bits l).
  rewrite IH, of_be_cons, pow256_2. unfold byte_bits.
  change (Coq.Strings.Byte.to_N b) with (b2n b).
  rewrite bits_join.
  - f_equal. cbn [length]. lia.
  - rewrite <- pow256_2. apply of_be_lt.
Qed.

Lemma bytes_bits_inj : forall a b, bytes_bits a = bytes_bits b -> a = b.
Proof.
  intros a b H.
  assert (length a = length b) as L.
  { apply (f_equal (@length bool)) in H. rewrite !bytes_bits_length in H. lia. }
  apply of_be_inj; [assumption|].
  rewrite !bytes_bits_of_be, L in H. apply bits_inj in H; [assumption|..].
  - rewrite <- L, <- pow256_2. apply of_be_lt.
  - rewrite <- pow256_2. apply of_be_lt.
Qed.

(** Splitting a bit string that starts with a whole number of bytes. *)
Lemma bytes_bits_split : forall k l x y,
  bytes_bits l = x ++ y -> length x = (8 * k)%nat ->
  exists a b, l = a ++ b /\ length a = k /\ bytes_bits a = x /\ bytes_bits b = y.
Proof.
  intros k l x y H Hx.
  assert (k <= length l)%nat as Hk.
  { apply (f_equal (@length bool)) in H. rewrite bytes_bits_length, app_length in H. lia. }
  exists (firstn k l), (skipn k l).
  rewrite firstn_skipn. repeat split; [now apply firstn_length_le|..];
    rewrite <- (firstn_skipn k l), bytes_bits_app in H;
    pose proof (f_equal (firstn (8 * k)) H) as H1;
    pose proof (f_equal (skipn (8 * k)) H) as H2;
    assert (length (bytes_bits (firstn k l)) = (8 * k)%nat) as HL
      by (rewrite bytes_bits_length, firstn_length_le; lia).
  - rewrite !firstn_app, HL, Hx, Nat.sub_diag in H1. cbn [firstn] in H1.
    rewrite !app_nil_r in H1. rewrite <- HL in H1 at 1. rewrite firstn_all in H1.
    rewrite H1, <- Hx. apply firstn_all.
  - rewrite !skipn_app, HL, Hx, Nat.sub_diag in H2. cbn [skipn] in H2.
    rewrite <- HL in H2 at 1. rewrite skipn_all, <- Hx, skipn_all in H2. exact H2.
Qed.

(** Big-endian encoding read as bits. *)
Lemma bytes_bits_to_be : forall k n, bytes_bits (to_be k n) = bits (8 * k) n.
Proof.
  intros k n. rewrite bytes_bits_of_be, to_be_length, of_be_to_be_mod, pow256_2.
  apply bits_mod.
Qed.

(** ** Masks *)

Lemma land_max_u31 : forall n, N.land n MAX_U31 = n mod 2 ^ 31.
Proof. intros. change MAX_U31 with (N.ones 31). apply N.land_ones. Qed.
Lemma land_max_u63 : forall n, N.land n MAX_U63 = n mod 2 ^ 63.
Proof. intros. change MAX_U63 with (N.ones 63). apply N.land_ones. Qed.

Lemma fl_all_value : fl_all = 0x1F0.
Proof. reflexivity. Qed.

Lemma testbit_small : forall n i, N.testbit n i = true -> 2 ^ i <= n.
Proof.
  intros n i H. destruct (N.le_gt_cases (2 ^ i) n) as [|Hlt]; [assumption|].
  rewrite (testbit_high n i i) in H; [discriminate|assumption|lia].
Qed.

Lemma assigned_land : forall w, N.land w 0x1F0 = assigned w.
Proof.
  intros w. unfold assigned. apply N.bits_inj. intros i.
  rewrite N.land_spec.
  change 32 with (2 ^ 5). change 16 with (2 ^ 4).
  destruct (N.lt_ge_cases i 4) as [H|H].
  - rewrite N.mul_pow2_bits_low by assumption.
    assert (N.testbit 0x1F0 i = false) as ->; [|now rewrite andb_false_r].
    assert (i = 0 \/ i = 1 \/ i = 2 \/ i = 3) as [->|[->|[->| ->]]] by lia; reflexivity.
  - rewrite N.mul_pow2_bits_high by assumption.
    destruct (N.lt_ge_cases (i - 4) 5) as [H'|H'].
    + rewrite N.mod_pow2_bits_low by assumption. rewrite N.div_pow2_bits.
      replace (i - 4 + 4) with i by lia.
      assert (N.testbit 0x1F0 i = true) as ->; [|now rewrite andb_true_r].
      assert (i = 4 \/ i = 5 \/ i = 6 \/ i = 7 \/ i = 8) as [->|[->|[->|[->| ->]]]] by lia;
        reflexivity.
    + rewrite N.mod_pow2_bits_high by assumption.
      rewrite (testbit_high 0x1F0 9 i); [now rewrite andb_false_r|reflexivity|lia].
Qed.

(** The 32 values of a flag set. *)
Lemma flags_ok_cases : forall w, flags_ok w -> exists k, k < 32 /\ w = 16 * k.
Proof.
  intros w [H1 H2]. exists (w / 16). split.
  - apply N.div_lt_upper_bound; lia.
  - pose proof (N.div_mod w 16). lia.
Qed.

Lemma assigned_ok : forall w, flags_ok (assigned w).
Proof.
  intros w. unfold assigned, flags_ok.
  assert (w / 16 mod 32 < 32) by (apply N.mod_lt; lia). split; [lia|]. apply N.mod_mul. lia.
Qed.

Lemma assigned_id : forall w, flags_ok w -> assigned w = w.
Proof.
  intros w H. destruct (flags_ok_cases w H) as (k & Hk & ->). unfold assigned.
  rewrite (N.mul_comm 16 k), N.div_mul by lia. rewrite N.mod_small by assumption. lia.
Qed.

Lemma assigned_mod : forall h, assigned (h mod 1024) = assigned h.
Proof.
  intros h. rewrite <- !assigned_land. apply N.bits_inj. intros i.
  rewrite !N.land_spec. change 1024 with (2 ^ 10).
  destruct (N.lt_ge_cases i 10).
  - now rewrite N.mod_pow2_bits_low.
  - rewrite (testbit_high 0x1F0 9 i), !andb_false_r; [reflexivity|reflexivity|lia].
Qed.

Lemma lor_add_1024 : forall c w, w < 1024 -> N.lor (c * 1024) w = c * 1024 + w.
Proof.
  intros c w H.
  assert (N.land (c * 1024) w = 0) as L.
  { apply N.bits_inj. intros i. rewrite N.land_spec, N.bits_0.
    change 1024 with (2 ^ 10). destruct (N.lt_ge_cases i 10).
    - now rewrite N.mul_pow2_bits_low.
    - rewrite (testbit_high w 10 i); [apply andb_false_r|assumption|assumption]. }
  rewrite <- N.lxor_lor by assumption. symmetry. now apply N.add_nocarry_lxor.
Qed.
