(** * The [eat_*] readers on contiguous bytes *)

From Coq Require Import Lia.
From Verif Require Import Model.FrameM Spec.Wire Proofs.BitsP.

(** ** Generic facts about the decoder monad *)

Lemma bind_ok_inv : forall {B A C} (m : dec B A) (k : A -> dec B C) b c b2,
  d_bind m k b = (DOk c, b2) ->
  exists a b1, m b = (DOk a, b1) /\ k a b1 = (DOk c, b2).
Proof.
  unfold d_bind. intros B A C m k b c b2 H.
  destruct (m b) as [[a|e| |] b1]; try discriminate. eauto.
Qed.

Lemma bind_ok : forall {B A C} (m : dec B A) (k : A -> dec B C) b a b1,
  m b = (DOk a, b1) -> d_bind m k b = k a b1.
Proof. unfold d_bind. intros. now rewrite H. Qed.

Lemma bind_err : forall {B A C} (m : dec B A) (k : A -> dec B C) b e b1,
  m b = (DErr e, b1) -> d_bind m k b = (DErr e, b1).
Proof. unfold d_bind. intros. now rewrite H. Qed.

Lemma map_ok_inv : forall {B A C} (f : A -> C) (m : dec B A) b c b2,
  d_map f m b = (DOk c, b2) -> exists a, m b = (DOk a, b2) /\ c = f a.
Proof.
  unfold d_map. intros. apply bind_ok_inv in H as (a & b1 & H1 & H2).
  unfold d_ret in H2. injection H2 as <- <-. eauto.
Qed.

Lemma map_ok : forall {B A C} (f : A -> C) (m : dec B A) b a b2,
  m b = (DOk a, b2) -> d_map f m b = (DOk (f a), b2).
Proof. unfold d_map. intros. erewrite bind_ok by eassumption. reflexivity. Qed.

(** [m] returns normally or with [InComplete], and leaves a suffix of its input. *)
Definition suffix (b' b : bytes) : Prop := exists pre, b = pre ++ b'.

Definition tame {A} (m : dec bytes A) : Prop := forall b,
  suffix (snd (m b)) b /\ (fst (m b) = DErr InComplete \/ exists a, fst (m b) = DOk a).

Lemma suffix_refl : forall b, suffix b b.
Proof. intros b. now exists []. Qed.
Lemma suffix_trans : forall a b c, suffix a b -> suffix b c -> suffix a c.
Proof. intros a b c [p ->] [q ->]. exists (q ++ p). now rewrite app_assoc. Qed.
Lemma suffix_app : forall a b, suffix b (a ++ b).
Proof. intros a b. now exists a. Qed.
Lemma suffix_skipn : forall n b, suffix (skipn n b) b.
Proof. intros n b. exists (firstn n b). now rewrite firstn_skipn. Qed.

Lemma tame_ret : forall {A} (a : A), tame (d_ret a).
Proof. intros A a b. cbn. split; [apply suffix_refl|eauto]. Qed.

Lemma tame_bind : forall {A C} (m : dec bytes A) (k : A -> dec bytes C),
  tame m -> (forall a, tame (k a)) -> tame (d_bind m k).
Proof.
  intros A C m k Hm Hk b. unfold d_bind. specialize (Hm b).
  destruct (m b) as [r b1]. cbn in Hm. destruct Hm as [Hs [->|[a ->]]].
  - cbn. auto.
  - destruct (Hk a b1) as [Hs' Hr]. split; [now apply suffix_trans with b1|assumption].
Qed.

Lemma tame_map : forall {A C} (f : A -> C) (m : dec bytes A), tame m -> tame (d_map f m).
Proof. intros. apply tame_bind; [assumption|]. intros; apply tame_ret. Qed.

(** ** Primitive reads *)

Section Flat.
Context (fuel : nat).

Lemma need_flat : forall k b,
  need flat k b = (if Nat.ltb (length b) k then (DErr InComplete, b) else (DOk tt, b)).
Proof. reflexivity. Qed.

Lemma get_be_flat : forall k b, (k <= length b)%nat ->
  get_be flat fuel k b = Ret (of_be (firstn k b), skipn k b).
Proof.
  intros k b H. unfold get_be, flat, b_chunk, b_advance, flat_advance.
  rewrite (proj2 (Nat.leb_le k (length b))) by assumption. reflexivity.
Qed.

(** [need k] followed by a [k]-byte read. *)
Definition eat_n (k : nat) : dec bytes N :=
  let! _ := need flat k in d_lift (get_be flat fuel k).

Lemma eat_n_spec : forall k b,
  eat_n k b = (if Nat.ltb (length b) k then (DErr InComplete, b)
               else (DOk (of_be (firstn k b)), skipn k b)).
Proof.
  intros k b. unfold eat_n, d_bind. rewrite need_flat.
  destruct (Nat.ltb (length b) k) eqn:E; [reflexivity|].
  apply Nat.ltb_ge in E. unfold d_lift. now rewrite get_be_flat.
Qed.

Lemma firstn_to_be : forall k n rest, firstn k (to_be k n ++ rest) = to_be k n.
Proof.
  intros. rewrite firstn_app, to_be_length, Nat.sub_diag. cbn [firstn].
  rewrite app_nil_r. rewrite <- (to_be_length k n) at 1. apply firstn_all.
Qed.
Lemma skipn_to_be : forall k n rest, skipn k (to_be k n ++ rest) = rest.
Proof.
  intros. rewrite skipn_app, to_be_length, Nat.sub_diag. cbn [skipn].
  rewrite <- (to_be_length k n) at 1. now rewrite skipn_all.
Qed.

Lemma eat_n_fwd : forall k n rest, n < 256 ^ N.of_nat k ->
  eat_n k (to_be k n ++ rest) = (DOk n, rest).
Proof.
  intros k n rest H. rewrite eat_n_spec, app_length, to_be_length.
  rewrite (proj2 (Nat.ltb_ge _ _)) by lia.
  now rewrite firstn_to_be, skipn_to_be, of_be_to_be.
Qed.

Lemma eat_n_bwd : forall k b n b', eat_n k b = (DOk n, b') ->
  b = to_be k n ++ b' /\ n < 256 ^ N.of_nat k.
Proof.
  intros k b n b' H. rewrite eat_n_spec in H.
  destruct (Nat.ltb (length b) k) eqn:E; [discriminate|].
  apply Nat.ltb_ge in E. injection H as <- <-.
  assert (length (firstn k b) = k) as L by now apply firstn_length_le.
  split.
  - rewrite to_be_of_be by assumption. now rewrite firstn_skipn.
  - pose proof (of_be_lt (firstn k b)) as H. now rewrite L in H.
Qed.

Lemma eat_n_tame : forall k, tame (eat_n k).
Proof.
  intros k b. rewrite eat_n_spec. destruct (Nat.ltb (length b) k); cbn.
  - split; [apply suffix_refl|auto].
  - split; [apply suffix_skipn|eauto].
Qed.

Lemma eat_n_incomplete : forall k b, (length b < k)%nat -> eat_n k b = (DErr InComplete, b).
Proof. intros. rewrite eat_n_spec. now rewrite (proj2 (Nat.ltb_lt _ _)). Qed.

(** The readers of visit.rs in terms of [eat_n]. *)
Lemma eat_u16_n : eat_u16 flat fuel = eat_n 2.
Proof. reflexivity. Qed.
Lemma eat_u32_n : eat_u32 flat fuel = eat_n 4.
Proof. reflexivity. Qed.

Lemma bind_assoc : forall {B A C D} (m : dec B A) (k : A -> dec B C) (h : C -> dec B D) b,
  d_bind (d_bind m k) h b = d_bind m (fun a => d_bind (k a) h) b.
Proof. intros. unfold d_bind. now destruct (m b) as [[] ?]. Qed.

Lemma eat_stream_id_n : forall b,
  eat_stream_id flat fuel b = d_bind (eat_n 4) (fun v => d_ret (N.land v MAX_U31)) b.
Proof. intros. unfold eat_n. now rewrite bind_assoc. Qed.
Lemma eat_u31_n : forall b,
  eat_u31 flat fuel b = d_bind (eat_n 4) (fun v => d_ret (N.land v MAX_U31)) b.
Proof. intros. unfold eat_n. now rewrite bind_assoc. Qed.
Lemma eat_u63_n : forall b,
  eat_u63 flat fuel b = d_bind (eat_n 8) (fun v => d_ret (N.land v MAX_U63)) b.
Proof. intros. unfold eat_n. now rewrite bind_assoc. Qed.

Lemma join_lt : forall r n w, r < 2 -> n < 2 ^ w -> r * 2 ^ w + n < 2 * 2 ^ w.
Proof. intros. nia. Qed.

Lemma join_mod : forall r n w, n < 2 ^ w -> (r * 2 ^ w + n) mod 2 ^ w = n.
Proof.
  intros. rewrite N.add_comm, N.mod_add by (apply N.pow_nonzero; lia). now apply N.mod_small.
Qed.

(** 31-bit field with its reserved bit [r]. *)
Lemma eat_u31_fwd : forall r n rest, r < 2 -> n < 2 ^ 31 ->
  eat_u31 flat fuel (to_be 4 (r * 2 ^ 31 + n) ++ rest) = (DOk n, rest).
Proof.
  intros. rewrite eat_u31_n. erewrite bind_ok
    by (apply eat_n_fwd; change (256 ^ N.of_nat 4) with (2 * 2 ^ 31); now apply join_lt).
  now rewrite land_max_u31, join_mod.
Qed.
Lemma eat_stream_id_fwd : forall r n rest, r < 2 -> n < 2 ^ 31 ->
  eat_stream_id flat fuel (to_be 4 (r * 2 ^ 31 + n) ++ rest) = (DOk n, rest).
Proof. intros. rewrite eat_stream_id_n, <- eat_u31_n. now apply eat_u31_fwd. Qed.
Lemma eat_u63_fwd : forall r n rest, r < 2 -> n < 2 ^ 63 ->
  eat_u63 flat fuel (to_be 8 (r * 2 ^ 63 + n) ++ rest) = (DOk n, rest).
Proof.
  intros. rewrite eat_u63_n. erewrite bind_ok
    by (apply eat_n_fwd; change (256 ^ N.of_nat 8) with (2 * 2 ^ 63); now apply join_lt).
  now rewrite land_max_u63, join_mod.
Qed.

Lemma split_top : forall v w, v < 2 * 2 ^ w ->
  exists r, r < 2 /\ v mod 2 ^ w < 2 ^ w /\ v = r * 2 ^ w + v mod 2 ^ w.
Proof.
  intros v w H. exists (v / 2 ^ w).
  assert (2 ^ w <> 0) by (apply N.pow_nonzero; lia).
  split; [apply N.div_lt_upper_bound; lia|].
  split; [now apply N.mod_lt|]. pose proof (N.div_mod v (2 ^ w)). lia.
Qed.

Lemma eat_u31_bwd : forall b n b', eat_u31 flat fuel b = (DOk n, b') ->
  exists r, r < 2 /\ n < 2 ^ 31 /\ b = to_be 4 (r * 2 ^ 31 + n) ++ b'.
Proof.
  intros b n b' H. rewrite eat_u31_n in H.
  apply bind_ok_inv in H as (v & b1 & H1 & H2). unfold d_ret in H2. injection H2 as <- <-.
  apply eat_n_bwd in H1 as [-> Hv]. change (256 ^ N.of_nat 4) with (2 * 2 ^ 31) in Hv.
  rewrite land_max_u31. destruct (split_top _ _ Hv) as (r & Hr & Hm & E).
  exists r. rewrite <- E. auto.
Qed.
Lemma eat_stream_id_bwd : forall b n b', eat_stream_id flat fuel b = (DOk n, b') ->
  exists r, r < 2 /\ n < 2 ^ 31 /\ b = to_be 4 (r * 2 ^ 31 + n) ++ b'.
Proof. intros b n b' H. rewrite eat_stream_id_n, <- eat_u31_n in H. now apply eat_u31_bwd. Qed.
Lemma eat_u63_bwd : forall b n b', eat_u63 flat fuel b = (DOk n, b') ->
  exists r, r < 2 /\ n < 2 ^ 63 /\ b = to_be 8 (r * 2 ^ 63 + n) ++ b'.
Proof.
  intros b n b' H. rewrite eat_u63_n in H.
  apply bind_ok_inv in H as (v & b1 & H1 & H2). unfold d_ret in H2. injection H2 as <- <-.
  apply eat_n_bwd in H1 as [-> Hv]. change (256 ^ N.of_nat 8) with (2 * 2 ^ 63) in Hv.
  rewrite land_max_u63. destruct (split_top _ _ Hv) as (r & Hr & Hm & E).
  exists r. rewrite <- E. auto.
Qed.

Lemma eat_u31_tame : tame (eat_u31 flat fuel).
Proof.
  intros b. rewrite eat_u31_n.
  apply tame_bind; [apply eat_n_tame|intros; apply tame_ret].
Qed.
Lemma eat_stream_id_tame : tame (eat_stream_id flat fuel).
Proof.
  intros b. rewrite eat_stream_id_n.
  apply tame_bind; [apply eat_n_tame|intros; apply tame_ret].
Qed.
Lemma eat_u63_tame : tame (eat_u63 flat fuel).
Proof.
  intros b. rewrite eat_u63_n.
  apply tame_bind; [apply eat_n_tame|intros; apply tame_ret].
Qed.

(** [eat_version] *)
Lemma eat_version_spec : forall b,
  eat_version flat fuel b =
  (if Nat.ltb (length b) 4 then (DErr InComplete, b)
   else (DOk (Version (of_be (firstn 2 b)) (of_be (firstn 2 (skipn 2 b)))), skipn 4 b)).
Proof.
  intros b. unfold eat_version, d_bind. rewrite need_flat.
  destruct (Nat.ltb (length b) 4) eqn:E; [reflexivity|]. apply Nat.ltb_ge in E.
  unfold d_lift. rewrite get_be_flat by lia.
  rewrite get_be_flat by (rewrite skipn_length; lia).
  unfold d_ret, version_new.
  do 4 (destruct b as [|? b]; cbn in E; [lia|]). reflexivity.
Qed.

Definition version_bytes (v : version) : bytes := to_be 2 (v_major v) ++ to_be 2 (v_minor v).

Lemma eat_version_fwd : forall v rest, typed_version v ->
  eat_version flat fuel (version_bytes v ++ rest) = (DOk v, rest).
Proof.
  intros [a c] rest [Ha Hc]. cbn [v_major v_minor] in *. unfold version_bytes. cbn [v_major v_minor].
  rewrite eat_version_spec, <- app_assoc.
  rewrite !app_length, !to_be_length, (proj2 (Nat.ltb_ge _ _)) by lia.
  change (skipn 4 (?x)) with (skipn 2 (skipn 2 x)).
  rewrite firstn_to_be, skipn_to_be, firstn_to_be.
  rewrite !of_be_to_be by assumption. do 2 f_equal.
Qed.

Lemma eat_version_bwd : forall b v b', eat_version flat fuel b = (DOk v, b') ->
  typed_version v /\ b = version_bytes v ++ b'.
Proof.
  intros b v b' H. rewrite eat_version_spec in H.
  destruct (Nat.ltb (length b) 4) eqn:E; [discriminate|]. apply Nat.ltb_ge in E.
  injection H as <- <-. unfold typed_version, version_bytes. cbn [v_major v_minor].
  assert (length (firstn 2 b) = 2%nat) as L1 by (apply firstn_length_le; lia).
  assert (length (firstn 2 (skipn 2 b)) = 2%nat) as L2
    by (apply firstn_length_le; rewrite skipn_length; lia).
  pose proof (of_be_lt (firstn 2 b)) as H1. rewrite L1 in H1.
  pose proof (of_be_lt (firstn 2 (skipn 2 b))) as H2. rewrite L2 in H2.
  split; [split; assumption|].
  rewrite !to_be_of_be by assumption.
  do 4 (destruct b as [|? b]; cbn in E; [lia|]). reflexivity.
Qed.

Lemma eat_version_tame : tame (eat_version flat fuel).
Proof.
  intros b. rewrite eat_version_spec. destruct (Nat.ltb (length b) 4); cbn [fst snd].
  - split; [apply suffix_refl|auto].
  - split; [apply suffix_skipn|eauto].
Qed.

(** [eat_u8] *)
Lemma eat_u8_spec : forall b,
  eat_u8 flat b = match b with
                  | x :: y :: t => (DOk (b2n x), y :: t)
                  | _ => (DErr InComplete, b)
                  end.
Proof. intros [|x [|y t]]; reflexivity. Qed.

Lemma to_be_1 : forall n, to_be 1 n = [n2b n].
Proof. intros n. cbn. now rewrite N.div_1_r. Qed.

Lemma eat_u8_fwd : forall n rest, n < 256 -> rest <> [] ->
  eat_u8 flat (to_be 1 n ++ rest) = (DOk n, rest).
Proof.
  intros n [|y rest] H Hr; [congruence|]. rewrite to_be_1, eat_u8_spec. cbn.
  rewrite b2n_n2b, N.mod_small by assumption. reflexivity.
Qed.

Lemma eat_u8_bwd : forall b n b', eat_u8 flat b = (DOk n, b') ->
  n < 256 /\ b = to_be 1 n ++ b'.
Proof.
  intros b n b' H. rewrite eat_u8_spec in H. destruct b as [|x [|y t]]; try discriminate.
  injection H as <- <-. split; [apply b2n_lt|]. now rewrite to_be_1, n2b_b2n.
Qed.

Lemma eat_u8_tame : tame (eat_u8 flat).
Proof.
  intros b. rewrite eat_u8_spec. destruct b as [|x [|y t]]; cbn; split;
    try (left; reflexivity); try apply suffix_refl; eauto. now exists [x].
Qed.

(** [eat_u24] as a number *)
Lemma u24_value : forall h l, l < 2 ^ 16 -> u24_into_usize (U24 h l) = h * 2 ^ 16 + l.
Proof.
  intros h l H. unfold u24_into_usize. cbn [u24_hi u24_lo]. rewrite N.shiftl_mul_pow2.
  assert (N.land (h * 2 ^ 16) l = 0) as L.
  { apply N.bits_inj. intros i. rewrite N.land_spec, N.bits_0.
    destruct (N.lt_ge_cases i 16).
    - now rewrite N.mul_pow2_bits_low.
    - rewrite (testbit_high l 16 i); [apply andb_false_r|assumption|assumption]. }
  rewrite <- N.lxor_lor by assumption. symmetry. now apply N.add_nocarry_lxor.
Qed.

Lemma to_be_3 : forall n, to_be 3 n = to_be 1 (n / 2 ^ 16) ++ to_be 2 n.
Proof. intros n. rewrite to_be_1. reflexivity. Qed.

Lemma to_be_3_join : forall h l, l < 2 ^ 16 ->
  to_be 3 (h * 2 ^ 16 + l) = to_be 1 h ++ to_be 2 l.
Proof.
  intros h l H. rewrite to_be_3. rewrite N.div_add_l, N.div_small, N.add_0_r by lia.
  f_equal. apply to_be_mod. change (256 ^ N.of_nat 2) with (2 ^ 16).
  now rewrite join_mod, N.mod_small.
Qed.

Definition eat_len : dec bytes N :=
  let! u := eat_u24 flat fuel in d_ret (u24_into_usize u).

Lemma eat_len_fwd : forall n rest, n < 2 ^ 24 ->
  eat_len (to_be 3 n ++ rest) = (DOk n, rest).
Proof.
  intros n rest H. unfold eat_len, eat_u24.
  assert (n / 2 ^ 16 < 256) as Hh by (apply N.div_lt_upper_bound; lia).
  assert (n mod 2 ^ 16 < 2 ^ 16) as Hl by (apply N.mod_lt; lia).
  assert (n = n / 2 ^ 16 * 2 ^ 16 + n mod 2 ^ 16) as En
    by (pose proof (N.div_mod n (2 ^ 16)); lia).
  assert (to_be 3 n = to_be 1 (n / 2 ^ 16) ++ to_be 2 (n mod 2 ^ 16)) as ->.
  { rewrite En at 1. now apply to_be_3_join. }
  rewrite !bind_assoc, <- !app_assoc.
  erewrite bind_ok by (apply eat_u8_fwd; [assumption|];
    intros E; apply (f_equal (@length byte)) in E; rewrite app_length, to_be_length in E; cbn in E; lia).
  rewrite bind_assoc, eat_u16_n.
  erewrite bind_ok by (apply eat_n_fwd; assumption).
  erewrite bind_ok by reflexivity. unfold d_ret, u24_new.
  rewrite u24_value by assumption. now rewrite <- En.
Qed.

Lemma eat_len_bwd : forall b n b', eat_len b = (DOk n, b') ->
  n < 2 ^ 24 /\ b = to_be 3 n ++ b'.
Proof.
  intros b n b' H. unfold eat_len, eat_u24 in H. rewrite !bind_assoc in H.
  apply bind_ok_inv in H as (h & b1 & H1 & H). rewrite bind_assoc in H.
  apply bind_ok_inv in H as (l & b2 & H2 & H).
  unfold d_bind, d_ret, u24_new in H. injection H as <- <-.
  apply eat_u8_bwd in H1 as [Hh ->]. rewrite eat_u16_n in H2.
  apply eat_n_bwd in H2 as [-> Hl]. change (256 ^ N.of_nat 2) with (2 ^ 16) in Hl.
  rewrite u24_value by assumption. split; [lia|].
  rewrite to_be_3_join by assumption. now rewrite app_assoc.
Qed.

Lemma eat_len_tame : tame eat_len.
Proof.
  unfold eat_len, eat_u24. apply tame_bind; [|intros; apply tame_ret].
  apply tame_bind; [apply eat_u8_tame|intros].
  apply tame_bind; [apply eat_n_tame|intros; apply tame_ret].
Qed.

(** [eat_bytes] *)
Lemma eat_bytes_spec : forall k b,
  eat_bytes flat k b = (if Nat.ltb (length b) k then (DErr InComplete, b)
                        else (DOk (firstn k b), skipn k b)).
Proof.
  intros k b. unfold eat_bytes, d_bind. rewrite need_flat.
  destruct (Nat.ltb (length b) k) eqn:E; [reflexivity|]. apply Nat.ltb_ge in E.
  unfold d_lift, flat, b_copy_to_bytes, flat_copy_to_bytes.
  now rewrite (proj2 (Nat.leb_le k (length b))).
Qed.

Lemma eat_bytes_fwd : forall l rest, eat_bytes flat (length l) (l ++ rest) = (DOk l, rest).
Proof.
  intros l rest. rewrite eat_bytes_spec, app_length, (proj2 (Nat.ltb_ge _ _)) by lia.
  rewrite firstn_app, skipn_app, Nat.sub_diag, firstn_all, skipn_all. cbn.
  now rewrite app_nil_r.
Qed.

Lemma eat_bytes_fwd_size : forall l rest,
  eat_bytes flat (N.to_nat (size l)) (l ++ rest) = (DOk l, rest).
Proof. intros. unfold size. rewrite Nat2N.id. apply eat_bytes_fwd. Qed.

Lemma eat_bytes_bwd : forall k b l b', eat_bytes flat k b = (DOk l, b') ->
  length l = k /\ b = l ++ b'.
Proof.
  intros k b l b' H. rewrite eat_bytes_spec in H.
  destruct (Nat.ltb (length b) k) eqn:E; [discriminate|]. apply Nat.ltb_ge in E.
  injection H as <- <-. split; [now apply firstn_length_le|]. now rewrite firstn_skipn.
Qed.

Lemma eat_bytes_bwd_size : forall n b l b', eat_bytes flat (N.to_nat n) b = (DOk l, b') ->
  size l = n /\ b = l ++ b'.
Proof.
  intros n b l b' H. apply eat_bytes_bwd in H as [H ->]. split; [|reflexivity].
  unfold size. rewrite H. apply N2Nat.id.
Qed.

Lemma eat_bytes_tame : forall k, tame (eat_bytes flat k).
Proof.
  intros k b. rewrite eat_bytes_spec. destruct (Nat.ltb (length b) k); cbn [fst snd].
  - split; [apply suffix_refl|auto].
  - split; [apply suffix_skipn|eauto].
Qed.

(** [eat_rest] always succeeds and takes everything. *)
Definition opt (l : bytes) : option bytes := match l with [] => None | _ => Some l end.

Lemma eat_rest_spec : forall b, eat_rest flat b = (DOk (opt b), []).
Proof.
  intros b. unfold eat_rest. erewrite bind_ok by reflexivity.
  destruct b as [|x b]; [reflexivity|]. cbn [length flat b_remaining].
  change (S (length b)) with (length (x :: b)).
  erewrite bind_ok; [reflexivity|]. rewrite <- (app_nil_r (x :: b)) at 2. apply eat_bytes_fwd.
Qed.

Lemma part_opt : forall l, part (opt l) = l.
Proof. now intros []. Qed.
Lemma opt_part : forall o, solid o -> opt (part o) = o.
Proof. intros [[|]|] H; try reflexivity. now elim H. Qed.
Lemma solid_opt : forall l, solid (opt l).
Proof. intros [|]; cbn; congruence. Qed.

Lemma eat_rest_tame : tame (eat_rest flat).
Proof.
  intros b. rewrite eat_rest_spec. cbn. split; [|eauto]. exists b. now rewrite app_nil_r.
Qed.

(** [eat_payload] *)
Definition payload_bytes (p : payload) : bytes :=
  to_be 3 (size (part (p_metadata p))) ++ part (p_metadata p) ++ part (p_data p).

(** Present-but-empty parts dropped. *)
Definition norm_payload (p : payload) : payload :=
  Payload (opt (part (p_metadata p))) (opt (part (p_data p))).

Lemma eat_payload_spec : forall b,
  eat_payload flat fuel true b =
  d_bind eat_len (fun n => d_bind (eat_bytes flat (N.to_nat n)) (fun l =>
    d_bind (eat_rest flat) (fun d => d_ret (Payload (opt l) d)))) b.
Proof.
  intros b. unfold eat_payload. change (let! u := eat_u24 flat fuel in d_ret (u24_into_usize u)) with eat_len.
  unfold d_bind at 1 5. destruct (eat_len b) as [[n|e| |] b1]; try reflexivity.
  destruct (0 <? n) eqn:E.
  - rewrite bind_assoc. apply N.ltb_lt in E.
    destruct (eat_bytes flat (N.to_nat n) b1) as [r b2] eqn:H.
    unfold d_bind. rewrite H. destruct r as [l|e| |]; try reflexivity.
    apply eat_bytes_bwd_size in H as [H _].
    destruct l; [cbn in H; lia|]. reflexivity.
  - apply N.ltb_ge in E. assert (n = 0) as -> by lia.
    erewrite bind_ok by reflexivity.
    erewrite (bind_ok (eat_bytes _ _)); [|apply (eat_bytes_fwd [])]. reflexivity.
Qed.

Lemma eat_payload_norm : forall p, small_metadata p ->
  eat_payload flat fuel true (payload_bytes p) = (DOk (norm_payload p), []).
Proof.
  intros p H. rewrite eat_payload_spec. unfold payload_bytes.
  erewrite bind_ok by (now apply eat_len_fwd).
  erewrite bind_ok by apply eat_bytes_fwd_size.
  erewrite bind_ok by apply eat_rest_spec. reflexivity.
Qed.

Lemma norm_solid : forall p, solid_payload p -> norm_payload p = p.
Proof.
  intros [m d] [Hm Hd]. unfold norm_payload. cbn [p_metadata p_data] in *.
  now rewrite !opt_part.
Qed.

Lemma eat_payload_bwd : forall b p b', eat_payload flat fuel true b = (DOk p, b') ->
  small_metadata p /\ solid_payload p /\ b = payload_bytes p /\ b' = [].
Proof.
  intros b p b' H. rewrite eat_payload_spec in H.
  apply bind_ok_inv in H as (n & b1 & H1 & H). apply bind_ok_inv in H as (l & b2 & H2 & H).
  erewrite bind_ok in H by apply eat_rest_spec. unfold d_ret in H. injection H as <- <-.
  apply eat_len_bwd in H1 as [Hn ->]. apply eat_bytes_bwd_size in H2 as [<- ->].
  unfold small_metadata, solid_payload, payload_bytes. cbn [p_metadata p_data].
  rewrite !part_opt. repeat split; try assumption; apply solid_opt.
Qed.

Lemma eat_payload_tame : tame (eat_payload flat fuel true).
Proof.
  intros b. rewrite eat_payload_spec. revert b.
  change (tame (d_bind eat_len (fun n => d_bind (eat_bytes flat (N.to_nat n)) (fun l =>
    d_bind (eat_rest flat) (fun d => d_ret (Payload (opt l) d)))))).
  apply tame_bind; [apply eat_len_tame|intros].
  apply tame_bind; [apply eat_bytes_tame|intros].
  apply tame_bind; [apply eat_rest_tame|intros]. apply tame_ret.
Qed.

Lemma eat_payload_nil : exists b', eat_payload flat fuel true [] = (DErr InComplete, b').
Proof. eexists. reflexivity. Qed.

(** [eat_resume_token] *)
Definition token_bytes (o : option bytes) : bytes :=
  match o with Some t => to_be 2 (size t) ++ t | None => [] end.

Lemma contains_resume : forall fl, fl_contains fl FL_RESUME = N.testbit fl 6.
Proof.
  intros fl. unfold fl_contains. change FL_RESUME with (2 ^ 6).
  destruct (N.testbit fl 6) eqn:E.
  - apply N.eqb_eq. apply N.bits_inj. intros i. rewrite N.land_spec.
    destruct (N.eq_dec i 6) as [->|Hi]; [now rewrite E|].
    rewrite N.pow2_bits_false by congruence. apply andb_false_r.
  - apply N.eqb_neq. intros H. apply (f_equal (fun x => N.testbit x 6)) in H.
    rewrite N.land_spec, E in H. discriminate.
Qed.

Lemma eat_token_fwd : forall fl o rest,
  (N.testbit fl 6 = true <-> o <> None) -> size (part o) < 2 ^ 16 ->
  eat_resume_token flat fuel fl (token_bytes o ++ rest) = (DOk o, rest).
Proof.
  intros fl o rest H Hs. unfold eat_resume_token. rewrite contains_resume.
  destruct o as [t|]; cbn [token_bytes part] in *.
  - rewrite (proj2 H) by congruence. rewrite <- app_assoc, eat_u16_n.
    erewrite bind_ok by (apply eat_n_fwd; assumption).
    erewrite bind_ok by apply eat_bytes_fwd_size. reflexivity.
  - destruct (N.testbit fl 6) eqn:E; [|reflexivity]. now elim (proj1 H eq_refl).
Qed.

Lemma eat_token_bwd : forall fl b o b', eat_resume_token flat fuel fl b = (DOk o, b') ->
  (N.testbit fl 6 = true <-> o <> None) /\ size (part o) < 2 ^ 16 /\ b = token_bytes o ++ b'.
Proof.
  intros fl b o b' H. unfold eat_resume_token in H. rewrite contains_resume in H.
  destruct (N.testbit fl 6).
  - apply bind_ok_inv in H as (n & b1 & H1 & H). apply bind_ok_inv in H as (l & b2 & H2 & H).
    unfold d_ret in H. injection H as <- <-.
    rewrite eat_u16_n in H1. apply eat_n_bwd in H1 as [-> Hn].
    apply eat_bytes_bwd_size in H2 as [<- ->]. cbn [token_bytes part].
    repeat split; try congruence; try assumption.
  - unfold d_ret in H. injection H as <- <-. cbn. repeat split; congruence.
Qed.

Lemma eat_token_tame : forall fl, tame (eat_resume_token flat fuel fl).
Proof.
  intros fl. unfold eat_resume_token. destruct (fl_contains fl FL_RESUME); [|apply tame_ret].
  apply tame_bind; [apply eat_n_tame|intros].
  apply tame_bind; [apply eat_bytes_tame|intros]. apply tame_ret.
Qed.

End Flat.
