(** * Chunking *)

From Coq Require Import SpecFloat.
From Verif Require Import Model.ChunkM Spec.Chunk Proofs.F32P.

(** What is left of a part after [i] pieces. *)
Definition left_of (n i : N) (o : option bytes) : option bytes :=
  match o with
  | None => None
  | Some l => if (i =? 0) || (i * n <? size l) then Some (skipn (N.to_nat (i * n)) l) else None
  end.
Definition state_at (n i : N) (p : payload) : chunks :=
  Chunks n (left_of n i (p_metadata p)) (left_of n i (p_data p)).

Lemma size_skipn : forall k (l : bytes), size (skipn (N.to_nat k) l) = size l - k.
Proof. intros k l. unfold size. rewrite skipn_length. lia. Qed.
Lemma size_firstn : forall k (l : bytes), size (firstn (N.to_nat k) l) = N.min k (size l).
Proof. intros k l. unfold size. rewrite firstn_length. lia. Qed.

Lemma skipn_add : forall {A} a b (l : list A), skipn a (skipn b l) = skipn (b + a) l.
Proof.
  intros A a b. induction b as [|b IH]; intros l; [reflexivity|].
  destruct l as [|x l]; [now rewrite !skipn_nil|]. cbn [skipn Nat.add]. apply IH.
Qed.

Lemma below_pieces : forall n i o, n <> 0 ->
  (i < pieces n o <-> exists l, o = Some l /\ (i = 0 \/ i * n < size l)).
Proof.
  intros n i [l|] Hn; cbn [pieces].
  2: { split; [lia|]. intros (l & E & _). discriminate. }
  assert (X : i < (size l + n - 1) / n <-> i * n < size l).
  { split; intros H.
    - assert (L : (i + 1) * n <= size l + n - 1).
      { etransitivity; [apply N.mul_le_mono_r; apply N.le_succ_l in H; rewrite <- N.add_1_r in H; exact H|].
        rewrite N.mul_comm. apply N.mul_div_le. exact Hn. }
      lia.
    - apply N.lt_le_trans with (i + 1); [lia|]. apply N.div_le_lower_bound; [exact Hn|]. lia. }
  rewrite N.max_lt_iff, X. split.
  - intros [H|H]; exists l; (split; [reflexivity|]); [left; lia|right; exact H].
  - intros (l' & [= <-] & [H|H]); [left; lia|right; exact H].
Qed.

Lemma piece_some : forall n i o, n <> 0 -> (i < pieces n o <-> piece n i o <> None).
Proof.
  intros n i o Hn. rewrite below_pieces by exact Hn. unfold piece. split.
  - intros (l & -> & [->|H]).
    + discriminate.
    + apply N.ltb_lt in H. rewrite H, orb_true_r. discriminate.
  - destruct o as [l|]; [|congruence]. intros H. exists l. split; [reflexivity|].
    destruct (N.eqb_spec i 0) as [->|]; [auto|]. destruct (N.ltb_spec (i * n) (size l)) as [L|L]; [auto|].
    cbn [orb] in H. congruence.
Qed.
Lemma left_some : forall n i o, n <> 0 -> (i < pieces n o <-> left_of n i o <> None).
Proof.
  intros n i o Hn. rewrite piece_some by exact Hn. unfold piece, left_of.
  destruct o as [l|]; [|tauto]. destruct (_ || _); split; congruence.
Qed.

Lemma part_step : forall n i o, n <> 0 ->
  part_next n (left_of n i o) = (piece n i o, left_of n (i + 1) o).
Proof.
  intros n i [l|] Hn; [|reflexivity]. unfold left_of, piece, slice.
  destruct ((i =? 0) || (i * n <? size l)) eqn:E.
  - cbn [part_next]. change (blen (skipn (N.to_nat (i * n)) l)) with (size (skipn (N.to_nat (i * n)) l)).
    rewrite size_skipn. destruct (N.eqb_spec (i + 1) 0) as [Z|_]; [lia|]. cbn [orb].
    destruct (N.ltb_spec n (size l - i * n)) as [L|L]; destruct (N.ltb_spec ((i + 1) * n) (size l)) as [L'|L']; try lia.
    + f_equal. f_equal. rewrite skipn_add. f_equal. lia.
    + f_equal. f_equal. rewrite firstn_all2; [reflexivity|].
      pose proof (size_skipn (i * n) l) as S. unfold size in S, L. lia.
  - apply orb_false_iff in E as [E1 E2]. cbn [part_next].
    apply N.eqb_neq in E1. apply N.ltb_ge in E2.
    destruct (N.eqb_spec (i + 1) 0) as [Z|_]; [lia|]. destruct (N.ltb_spec ((i + 1) * n) (size l)) as [L|L]; [lia|].
    reflexivity.
Qed.

Lemma next_step : forall n i p, n <> 0 ->
  chunks_next (state_at n i p) =
    (if i <? pieces_of n p then Some (chunk_at n i p) else None, state_at n (i + 1) p).
Proof.
  intros n i p Hn. unfold chunks_next, state_at. cbn [ch_metadata ch_data ch_size].
  rewrite !part_step by exact Hn. unfold pieces_of, payload_new, chunk_at.
  pose proof (left_some n i (p_metadata p) Hn) as L1. pose proof (left_some n i (p_data p) Hn) as L2.
  pose proof (piece_some n i (p_metadata p) Hn) as P1. pose proof (piece_some n i (p_data p) Hn) as P2.
  pose proof (left_some n (i + 1) (p_metadata p) Hn) as L1'. pose proof (left_some n (i + 1) (p_data p) Hn) as L2'.
  destruct (left_of n i (p_metadata p)) as [lm|] eqn:E1.
  - destruct (N.ltb_spec i (N.max (pieces n (p_metadata p)) (pieces n (p_data p)))) as [L|L]; [reflexivity|].
    exfalso. assert (X : i < pieces n (p_metadata p)) by (apply L1; discriminate). lia.
  - destruct (left_of n i (p_data p)) as [ld|] eqn:E2.
    + destruct (N.ltb_spec i (N.max (pieces n (p_metadata p)) (pieces n (p_data p)))) as [L|L]; [reflexivity|].
      exfalso. assert (X : i < pieces n (p_data p)) by (apply L2; discriminate). lia.
    + assert (Y1 : ~ i < pieces n (p_metadata p)) by (rewrite L1; congruence).
      assert (Y2 : ~ i < pieces n (p_data p)) by (rewrite L2; congruence).
      destruct (N.ltb_spec i (N.max (pieces n (p_metadata p)) (pieces n (p_data p)))) as [L|L]; [lia|].
      destruct (left_of n (i + 1) (p_metadata p)).
      { exfalso. assert (i + 1 < pieces n (p_metadata p)) by (apply L1'; discriminate). lia. }
      destruct (left_of n (i + 1) (p_data p)).
      { exfalso. assert (i + 1 < pieces n (p_data p)) by (apply L2'; discriminate). lia. }
      reflexivity.
Qed.

Lemma calls_at : forall n p, n <> 0 -> forall k i,
  chunks_calls k (state_at n i p) =
    (map (fun j => let j := i + N.of_nat j in
                   if j <? pieces_of n p then Some (chunk_at n j p) else None) (seq 0 k),
     state_at n (i + N.of_nat k) p).
Proof.
  intros n p Hn. induction k as [|k IH]; intros i.
  - cbn [chunks_calls seq map]. rewrite N.add_0_r. reflexivity.
  - cbn [chunks_calls seq map]. rewrite next_step by exact Hn. rewrite IH.
    rewrite N.add_0_r. f_equal.
    + f_equal. rewrite <- seq_shift, map_map. apply map_ext. intros j. cbv zeta.
      replace (i + 1 + N.of_nat j) with (i + N.of_nat (S j)) by lia. reflexivity.
    + f_equal. lia.
Qed.

Lemma state_0 : forall n p, state_at n 0 p = Chunks n (p_metadata p) (p_data p).
Proof. intros n [[m|] [d|]]; reflexivity. Qed.
Lemma chunks_start : forall n p, n <> 0 -> payload_chunks p n = Ret (state_at n 0 p).
Proof.
  intros n p Hn. unfold payload_chunks. destruct (N.eqb_spec n 0); [contradiction|]. now rewrite state_0.
Qed.
Lemma chunks_zero : forall p n, payload_chunks p n = Panic <-> n = 0.
Proof.
  intros p n. unfold payload_chunks. destruct (N.eqb_spec n 0); cbn [negb]; split; auto; try discriminate.
  contradiction.
Qed.

(** ** Results of the calls *)

Lemma chunks_calls_spec : forall p n k, n <> 0 -> exists c,
  payload_chunks p n = Ret c /\
  fst (chunks_calls k c) =
    map (fun i => if N.of_nat i <? pieces_of n p then Some (chunk_at n (N.of_nat i) p) else None) (seq 0 k).
Proof.
  intros p n k Hn. exists (state_at n 0 p). split; [now apply chunks_start|].
  rewrite calls_at by exact Hn. cbn [fst]. apply map_ext. intros i. cbv zeta. now rewrite N.add_0_l.
Qed.

Lemma calls_complete : forall p n k c, n <> 0 -> payload_chunks p n = Ret c ->
  pieces_of n p <= N.of_nat k ->
  fst (chunks_calls k c) =
    map Some (chunk_list n p) ++ repeat None (k - length (chunk_list n p)).
Proof.
  intros p n k c Hn E L. destruct (chunks_calls_spec p n k Hn) as (c' & E' & S).
  rewrite E in E'. injection E' as <-. rewrite S. unfold chunk_list. rewrite map_length, seq_length.
  set (m := N.to_nat (pieces_of n p)). assert (Hm : (m <= k)%nat) by lia.
  replace k with (m + (k - m))%nat at 1 by lia. rewrite seq_app, map_app. f_equal.
  - rewrite map_map. apply map_ext_in. intros i Hi. apply in_seq in Hi.
    destruct (N.ltb_spec (N.of_nat i) (pieces_of n p)); [reflexivity|lia].
  - cbn [Nat.add]. assert (X : forall q a, (m <= a)%nat ->
      map (fun i => if N.of_nat i <? pieces_of n p then Some (chunk_at n (N.of_nat i) p) else None) (seq a q) = repeat None q).
    { induction q as [|q IH]; intros a Ha; [reflexivity|]. cbn [seq map repeat]. rewrite IH by lia. f_equal.
      destruct (N.ltb_spec (N.of_nat a) (pieces_of n p)); [lia|reflexivity]. }
    apply X. lia.
Qed.

(** ** Concatenation *)

Lemma slices_concat : forall n l K a,
  concat (map (fun i => slice n (N.of_nat i) l) (seq a K)) =
  firstn (K * N.to_nat n) (skipn (a * N.to_nat n) l).
Proof.
  intros n l K. induction K as [|K IH]; intros a; [reflexivity|].
  cbn [seq map concat]. rewrite IH. unfold slice.
  replace (N.to_nat (N.of_nat a * n)) with (a * N.to_nat n)%nat by lia.
  replace (S K * N.to_nat n)%nat with (N.to_nat n + K * N.to_nat n)%nat by lia.
  replace (S a * N.to_nat n)%nat with (a * N.to_nat n + N.to_nat n)%nat by lia.
  rewrite <- skipn_add. generalize (skipn (a * N.to_nat n) l). intros l'.
  generalize (K * N.to_nat n)%nat. intros b. generalize (N.to_nat n). intros c. clear.
  revert l'. induction c as [|c IH]; intros l'; [reflexivity|].
  destruct l' as [|x l']; [rewrite skipn_nil, !firstn_nil; reflexivity|]. cbn [firstn skipn app Nat.add]. now rewrite IH.
Qed.

Lemma piece_bytes : forall n i o, n <> 0 -> part (piece n i o) = slice n i (part o).
Proof.
  intros n i [l|] Hn; cbn [piece part].
  - destruct ((i =? 0) || (i * n <? size l)) eqn:E; [reflexivity|].
    apply orb_false_iff in E as [_ E]. apply N.ltb_ge in E. unfold slice.
    rewrite skipn_all2; [now rewrite firstn_nil|]. unfold size in E. lia.
  - unfold slice. now rewrite skipn_nil, firstn_nil.
Qed.

Lemma pieces_cover : forall n o, n <> 0 -> size (part o) <= pieces n o * n.
Proof.
  intros n o Hn. destruct (N.lt_ge_cases (pieces n o * n) (size (part o))) as [L|L]; [|exact L].
  exfalso. destruct o as [l|]; [|cbn in L; lia]. cbn [part] in L.
  assert (X : pieces n (Some l) < pieces n (Some l)) by (apply below_pieces; [exact Hn|]; exists l; auto).
  lia.
Qed.

Lemma parts_concat : forall n o K, n <> 0 -> pieces n o <= N.of_nat K ->
  concat (map (fun i => part (piece n (N.of_nat i) o)) (seq 0 K)) = part o.
Proof.
  intros n o K Hn L. rewrite (map_ext _ (fun i => slice n (N.of_nat i) (part o))) by (intros; now apply piece_bytes).
  rewrite slices_concat. cbn [Nat.mul skipn]. apply firstn_all2.
  pose proof (pieces_cover n o Hn) as C. unfold size in C. nia.
Qed.

Lemma chunk_list_concat : forall n p, n <> 0 ->
  concat (map (fun q => part (p_metadata q)) (chunk_list n p)) = part (p_metadata p) /\
  concat (map (fun q => part (p_data q)) (chunk_list n p)) = part (p_data p).
Proof.
  intros n p Hn. unfold chunk_list. rewrite !map_map. cbn [chunk_at p_metadata p_data].
  split; apply parts_concat; try exact Hn; unfold pieces_of; lia.
Qed.

Lemma piece_size : forall n i o l, n <> 0 -> piece n i o = Some l ->
  size l <= n /\ (i + 1 < pieces n o -> size l = n) /\ (o <> Some [] -> l <> []).
Proof.
  intros n i [l0|] l Hn E; [|discriminate]. cbn [piece] in E.
  destruct ((i =? 0) || (i * n <? size l0)) eqn:B; [|discriminate]. injection E as <-. unfold slice.
  assert (S : size (firstn (N.to_nat n) (skipn (N.to_nat (i * n)) l0)) = N.min n (size l0 - i * n))
    by (now rewrite size_firstn, size_skipn).
  split; [lia|]. split.
  - intros H. apply below_pieces in H; [|exact Hn]. destruct H as (l' & [= <-] & [H|H]); lia.
  - intros H Z. rewrite Z in S. change (size []) with 0 in S.
    assert (size l0 <> 0) by (intros X; apply H; f_equal; destruct l0; [reflexivity|discriminate X]).
    apply orb_true_iff in B as [B|B]; [apply N.eqb_eq in B; subst i; lia|apply N.ltb_lt in B; lia].
Qed.

(** ** Number of chunks left *)

Lemma ceil_sub : forall s n i, n <> 0 -> (s - i * n + n - 1) / n = (s + n - 1) / n - i.
Proof.
  intros s n i Hn. destruct (N.le_gt_cases (i * n) s) as [L|L].
  - replace (s + n - 1) with (s - i * n + n - 1 + i * n) by lia. rewrite N.div_add by exact Hn. symmetry. apply N.add_sub.
  - replace (s - i * n) with 0 by lia. rewrite (N.div_small (0 + n - 1)) by lia.
    assert (X : (s + n - 1) / n < i + 1) by (apply N.div_lt_upper_bound; [exact Hn|]; lia). lia.
Qed.

Lemma left_size : forall n i o, blen (match left_of n i o with Some b => b | None => [] end) = size (part o) - i * n.
Proof.
  intros n i [l|]; [|reflexivity]. unfold left_of. cbn [part].
  destruct ((i =? 0) || (i * n <? size l)) eqn:E.
  - apply size_skipn.
  - apply orb_false_iff in E as [_ E]. apply N.ltb_ge in E. change (blen []) with 0. lia.
Qed.

Lemma pieces_ceil : forall n o, n <> 0 -> o <> Some [] -> pieces n o = (size (part o) + n - 1) / n.
Proof.
  intros n [l|] Hn H; cbn [pieces part].
  - destruct l as [|x l]; [congruence|]. apply N.max_r. apply N.div_le_lower_bound; [exact Hn|].
    unfold size. cbn [length]. lia.
  - symmetry. change (size []) with 0. apply N.div_small. lia.
Qed.

Lemma len_at : forall n i p, 1 <= n <= usize_max ->
  p_metadata p <> Some [] -> p_data p <> Some [] ->
  size (part (p_metadata p)) <= 2 ^ 24 -> size (part (p_data p)) <= 2 ^ 24 ->
  chunks_len (state_at n i p) = pieces_of n p - i.
Proof.
  intros n i p Hn M D LM LD. assert (Hn0 : n <> 0) by lia. unfold usize_max in Hn.
  unfold chunks_len, state_at. cbn [ch_metadata ch_data ch_size].
  replace (match left_of n i (p_metadata p) with Some b => blen b | None => 0 end) with (size (part (p_metadata p)) - i * n)
    by (rewrite <- left_size; now destruct (left_of n i (p_metadata p))).
  replace (match left_of n i (p_data p) with Some b => blen b | None => 0 end) with (size (part (p_data p)) - i * n)
    by (rewrite <- left_size; now destruct (left_of n i (p_data p))).
  rewrite !f32_count by lia. rewrite !ceil_sub by exact Hn0.
  unfold pieces_of. rewrite !pieces_ceil by assumption. lia.
Qed.

Lemma len_after : forall n p c k, payload_chunks p n = Ret c -> n <= usize_max ->
  p_metadata p <> Some [] -> p_data p <> Some [] ->
  size (part (p_metadata p)) <= 2 ^ 24 -> size (part (p_data p)) <= 2 ^ 24 ->
  chunks_len (snd (chunks_calls k c)) = pieces_of n p - N.of_nat k.
Proof.
  intros n p c k E Hn M D LM LD.
  assert (Hn0 : n <> 0) by (intros ->; cbn in E; discriminate).
  rewrite chunks_start in E by exact Hn0. injection E as <-.
  rewrite calls_at by exact Hn0. cbn [snd]. rewrite len_at by (assumption || lia). reflexivity.
Qed.

(** Once exhausted the iterator stays exhausted. *)
Lemma fused : forall n p c k j, payload_chunks p n = Ret c ->
  fst (chunks_next (snd (chunks_calls k c))) = None ->
  fst (chunks_next (snd (chunks_calls (k + j) c))) = None.
Proof.
  intros n p c k j E. assert (Hn0 : n <> 0) by (intros ->; cbn in E; discriminate).
  rewrite chunks_start in E by exact Hn0. injection E as <-.
  rewrite !calls_at by exact Hn0. cbn [snd]. rewrite !next_step by exact Hn0. cbn [fst].
  destruct (N.ltb_spec (0 + N.of_nat k) (pieces_of n p)) as [L|L]; [discriminate|].
  destruct (N.ltb_spec (0 + N.of_nat (k + j)) (pieces_of n p)) as [L'|L']; [lia|reflexivity].
Qed.

(** ** When [len] is right *)

Definition ceil_div (n : N) (o : option bytes) : N := (size (part o) + n - 1) / n.

Lemma len_value : forall n i p, 1 <= n <= usize_max ->
  size (part (p_metadata p)) <= 2 ^ 24 -> size (part (p_data p)) <= 2 ^ 24 ->
  chunks_len (state_at n i p) = N.max (ceil_div n (p_metadata p)) (ceil_div n (p_data p)) - i.
Proof.
  intros n i p Hn LM LD. assert (Hn0 : n <> 0) by lia. unfold usize_max in Hn.
  unfold chunks_len, state_at. cbn [ch_metadata ch_data ch_size].
  replace (match left_of n i (p_metadata p) with Some b => blen b | None => 0 end) with (size (part (p_metadata p)) - i * n)
    by (rewrite <- left_size; now destruct (left_of n i (p_metadata p))).
  replace (match left_of n i (p_data p) with Some b => blen b | None => 0 end) with (size (part (p_data p)) - i * n)
    by (rewrite <- left_size; now destruct (left_of n i (p_data p))).
  rewrite !f32_count by lia. rewrite !ceil_sub by exact Hn0. unfold ceil_div. apply N.sub_max_distr_r.
Qed.

Lemma ceil_pos : forall n o, n <> 0 -> (ceil_div n o = 0 <-> part o = []).
Proof.
  intros n o Hn. unfold ceil_div. split; intros H.
  - destruct (part o) as [|x l]; [reflexivity|]. exfalso.
    apply N.div_small_iff in H; [|exact Hn]. unfold size in H. cbn [length] in H. lia.
  - rewrite H. change (size []) with 0. apply N.div_small. lia.
Qed.
Lemma pieces_max : forall n o, pieces n o = match o with None => 0 | Some _ => N.max 1 (ceil_div n o) end.
Proof. now intros n [l|]. Qed.
Lemma ceil_none : forall n, n <> 0 -> ceil_div n None = 0.
Proof. intros n Hn. now apply ceil_pos. Qed.

Lemma len_right_iff : forall n p c k, payload_chunks p n = Ret c -> n <= usize_max ->
  size (part (p_metadata p)) <= 2 ^ 24 -> size (part (p_data p)) <= 2 ^ 24 ->
  (chunks_len (snd (chunks_calls k c)) = pieces_of n p - N.of_nat k <->
   ~ (k = O /\ part (p_metadata p) = [] /\ part (p_data p) = [] /\ p <> Payload None None)).
Proof.
  intros n p c k E Hn LM LD.
  assert (Hn0 : n <> 0) by (intros ->; cbn in E; discriminate).
  rewrite chunks_start in E by exact Hn0. injection E as <-.
  rewrite calls_at by exact Hn0. cbn [snd]. rewrite len_value by (assumption || lia).
  unfold pieces_of. rewrite !pieces_max. rewrite N.add_0_l.
  destruct p as [m d]. cbn [p_metadata p_data] in *.
  rewrite <- (ceil_pos n m Hn0), <- (ceil_pos n d Hn0).
  destruct m as [m|], d as [d|]; rewrite ?(ceil_none n Hn0).
  - generalize (ceil_div n (Some m)), (ceil_div n (Some d)). intros a b. split.
    + intros H (-> & A & B & _). subst. lia.
    + intros H. assert (X : k <> O \/ a <> 0 \/ b <> 0).
      { destruct (Nat.eq_dec k 0); [|tauto]. destruct (N.eq_dec a 0); [|tauto]. destruct (N.eq_dec b 0); [|tauto].
        exfalso. apply H. repeat split; auto. discriminate. }
      lia.
  - generalize (ceil_div n (Some m)). intros a. split.
    + intros H (-> & A & B & _). subst. lia.
    + intros H. assert (X : k <> O \/ a <> 0).
      { destruct (Nat.eq_dec k 0); [|tauto]. destruct (N.eq_dec a 0); [|tauto].
        exfalso. apply H. repeat split; auto. discriminate. }
      lia.
  - generalize (ceil_div n (Some d)). intros b. split.
    + intros H (-> & A & B & _). subst. lia.
    + intros H. assert (X : k <> O \/ b <> 0).
      { destruct (Nat.eq_dec k 0); [|tauto]. destruct (N.eq_dec b 0); [|tauto].
        exfalso. apply H. repeat split; auto. discriminate. }
      lia.
  - split; [|lia]. intros _ (_ & _ & _ & X). congruence.
Qed.

Lemma len_zero_byte_parts : forall n p c, payload_chunks p n = Ret c -> n <= usize_max ->
  part (p_metadata p) = [] -> part (p_data p) = [] -> p <> Payload None None ->
  chunks_len c = 0 /\ fst (chunks_calls 2 c) = [Some p; None].
Proof.
  intros n p c E Hn M D X. assert (Hn0 : n <> 0) by (intros ->; cbn in E; discriminate).
  rewrite chunks_start in E by exact Hn0. injection E as <-. split.
  - rewrite len_value; [|lia|rewrite M; cbn; lia|rewrite D; cbn; lia].
    rewrite (proj2 (ceil_pos n _ Hn0) M), (proj2 (ceil_pos n _ Hn0) D). reflexivity.
  - rewrite state_0. destruct p as [[m|] [d|]]; cbn [p_metadata p_data part] in *; subst; try congruence;
      cbn [chunks_calls chunks_next ch_metadata ch_data ch_size part_next]; change (blen []) with 0;
      rewrite ?(proj2 (N.ltb_ge n 0) (N.le_0_l n)); reflexivity.
Qed.

(** Beyond [2 ^ 24] bytes. *)
Lemma len_low : forall d c, size d = 2 ^ 24 + 1 ->
  payload_chunks (Payload None (Some d)) (2 ^ 16) = Ret c ->
  chunks_len c = 256 /\ pieces_of (2 ^ 16) (Payload None (Some d)) = 257.
Proof.
  intros d c S E. injection E as <-. unfold chunks_len, pieces_of, pieces. cbn [ch_metadata ch_data ch_size p_metadata p_data].
  change (blen d) with (size d). rewrite S. split; vm_compute; reflexivity.
Qed.
Lemma len_high : forall d c, size d = 2 ^ 24 + 3 ->
  payload_chunks (Payload None (Some d)) 1 = Ret c ->
  chunks_len c = 2 ^ 24 + 4 /\ pieces_of 1 (Payload None (Some d)) = 2 ^ 24 + 3.
Proof.
  intros d c S E. injection E as <-. unfold chunks_len, pieces_of, pieces. cbn [ch_metadata ch_data ch_size p_metadata p_data].
  change (blen d) with (size d). rewrite S. split; vm_compute; reflexivity.
Qed.

(** Payloads of any length. *)
Lemma len_pieces : forall n i p,
  chunks_len (state_at n i p) =
  N.max (f32_pieces (size (part (p_metadata p)) - i * n) n) (f32_pieces (size (part (p_data p)) - i * n) n).
Proof.
  intros n i p. unfold chunks_len, state_at. cbn [ch_metadata ch_data ch_size].
  rewrite <- !left_size. destruct (left_of n i (p_metadata p)), (left_of n i (p_data p)); reflexivity.
Qed.

Lemma pieces_near : forall x n, x <= usize_max -> 1 <= n <= usize_max ->
  let k := (x + n - 1) / n in
  (k = 0 -> f32_pieces x n = 0) /\
  (1 <= k -> (k - 1) * (2 ^ 22 - 1) < f32_pieces x n * 2 ^ 22 /\ (f32_pieces x n - 1) * 2 ^ 22 < k * (2 ^ 22 + 1)).
Proof.
  intros x n Hx Hn k. unfold usize_max in *. destruct (N.eq_dec x 0) as [->|Nx].
  - rewrite pieces_zero by lia. split; [reflexivity|]. intros H. exfalso. unfold k in H.
    rewrite N.div_small in H by lia. lia.
  - split.
    + intros H. exfalso. apply N.div_small_iff in H; lia.
    + intros _. apply pieces_close; lia.
Qed.

Lemma len_close : forall n p c j, payload_chunks p n = Ret c -> n <= usize_max ->
  p_metadata p <> Some [] -> p_data p <> Some [] ->
  size (part (p_metadata p)) <= usize_max -> size (part (p_data p)) <= usize_max ->
  let len := chunks_len (snd (chunks_calls j c)) in
  let left := pieces_of n p - N.of_nat j in
  (left = 0 -> len = 0) /\
  (1 <= left -> (left - 1) * (2 ^ 22 - 1) < len * 2 ^ 22 /\ (len - 1) * 2 ^ 22 < left * (2 ^ 22 + 1)).
Proof.
  intros n p c j E Hn M D LM LD len left. subst len left.
  assert (Hn0 : n <> 0) by (intros ->; cbn in E; discriminate).
  rewrite chunks_start in E by exact Hn0. injection E as <-.
  rewrite calls_at by exact Hn0. cbn [snd]. rewrite len_pieces. rewrite N.add_0_l.
  unfold pieces_of. rewrite !pieces_ceil by assumption. rewrite <- N.sub_max_distr_r, <- !ceil_sub by exact Hn0.
  set (x := size (part (p_metadata p)) - N.of_nat j * n). set (y := size (part (p_data p)) - N.of_nat j * n).
  destruct (pieces_near x n) as [X0 X1]; [lia|lia|]. destruct (pieces_near y n) as [Y0 Y1]; [lia|lia|].
  set (kx := (x + n - 1) / n) in *. set (ky := (y + n - 1) / n) in *. clearbody kx ky x y. split.
  - intros H. rewrite X0, Y0 by lia. reflexivity.
  - intros H. destruct (N.eq_dec kx 0) as [Zx|Zx], (N.eq_dec ky 0) as [Zy|Zy]; [lia| | |].
    + rewrite (X0 Zx) in *. specialize (Y1 ltac:(lia)). lia.
    + rewrite (Y0 Zy) in *. specialize (X1 ltac:(lia)). lia.
    + specialize (Y1 ltac:(lia)). specialize (X1 ltac:(lia)). lia.
Qed.

Lemma len_one : forall n i p, 1 <= n <= usize_max ->
  part (p_metadata p) <> [] \/ part (p_data p) <> [] ->
  size (part (p_metadata p)) <= n -> size (part (p_data p)) <= n ->
  chunks_len (state_at n i p) = 1 - i /\ pieces_of n p = 1.
Proof.
  intros n i p Hn NE LM LD. unfold usize_max in Hn. rewrite len_pieces.
  assert (F : forall x, x <= n -> f32_pieces (x - i * n) n = if (i =? 0) && negb (x =? 0) then 1 else 0).
  { intros x Hx. destruct (N.eqb_spec i 0) as [->|Ni]; cbn [andb].
    - rewrite N.mul_0_l, N.sub_0_r. destruct (N.eqb_spec x 0) as [->|Nx]; [apply pieces_zero; lia|apply pieces_one; lia].
    - replace (x - i * n) with 0 by nia. apply pieces_zero; lia. }
  rewrite !F by assumption. split.
  - assert (G : negb (size (part (p_metadata p)) =? 0) = true \/ negb (size (part (p_data p)) =? 0) = true).
    { destruct NE as [H|H]; [left|right]; destruct (part _); try congruence; reflexivity. }
    destruct (N.eqb_spec i 0) as [->|Ni]; cbn [andb]; [|lia].
    destruct G as [-> | ->]; [|rewrite N.max_comm]; destruct (negb _); reflexivity.
  - assert (H : forall o, size (part o) <= n -> pieces n o = if present o then 1 else 0).
    { intros [l|] Hl; [|reflexivity]. cbn [pieces present part] in *.
      replace ((size l + n - 1) / n) with (if size l =? 0 then 0 else 1).
      - destruct (size l =? 0); reflexivity.
      - destruct (N.eqb_spec (size l) 0) as [->|Nl]; [symmetry; apply N.div_small; lia|].
        apply (N.div_unique _ _ _ (size l - 1)); lia. }
    unfold pieces_of. rewrite !H by assumption.
    destruct p as [[m|] [d|]]; cbn [p_metadata p_data present part] in *; try reflexivity.
    now destruct NE.
Qed.
Lemma len_single : forall n p c j, payload_chunks p n = Ret c -> n <= usize_max ->
  part (p_metadata p) <> [] \/ part (p_data p) <> [] ->
  size (part (p_metadata p)) <= n -> size (part (p_data p)) <= n ->
  chunks_len (snd (chunks_calls j c)) = pieces_of n p - N.of_nat j.
Proof.
  intros n p c j E Hn NE LM LD.
  assert (Hn0 : n <> 0) by (intros ->; cbn in E; discriminate).
  rewrite chunks_start in E by exact Hn0. injection E as <-.
  rewrite calls_at by exact Hn0. cbn [snd]. rewrite N.add_0_l.
  destruct (len_one n (N.of_nat j) p) as [-> ->]; auto. lia.
Qed.

Lemma len_within_one : forall n p c j, payload_chunks p n = Ret c -> n <= usize_max ->
  p_metadata p <> Some [] -> p_data p <> Some [] ->
  size (part (p_metadata p)) <= usize_max -> size (part (p_data p)) <= usize_max ->
  let len := chunks_len (snd (chunks_calls j c)) in
  let left := pieces_of n p - N.of_nat j in
  left < 2 ^ 22 -> left <= len + 1 /\ len <= left + 1 /\ (len = 0 -> left <= 1).
Proof.
  intros n p c j E Hn M D LM LD len left H. destruct (len_close n p c j E Hn M D LM LD) as [A B].
  fold len in A, B. fold left in A, B. destruct (N.eq_dec left 0) as [Z|Z]; [rewrite (A Z); lia|].
  specialize (B ltac:(lia)). change (2 ^ 22) with 4194304 in *. lia.
Qed.

(** ** What is yielded *)

Lemma yielded_app : forall a b, yielded (a ++ b) = yielded a ++ yielded b.
Proof. intros. unfold yielded. apply flat_map_app. Qed.
Lemma yielded_some : forall l, yielded (map Some l) = l.
Proof. induction l as [|x l IH]; [reflexivity|]. cbn. unfold yielded in IH. now rewrite IH. Qed.
Lemma yielded_none : forall k, yielded (repeat None k) = [].
Proof. induction k; [reflexivity|assumption]. Qed.

Lemma yielded_concat : forall p n k c, payload_chunks p n = Ret c -> pieces_of n p <= N.of_nat k ->
  concat (map (fun q => part (p_metadata q)) (yielded (fst (chunks_calls k c)))) = part (p_metadata p) /\
  concat (map (fun q => part (p_data q)) (yielded (fst (chunks_calls k c)))) = part (p_data p).
Proof.
  intros p n k c E L. assert (N0 : n <> 0) by (intros ->; cbn in E; discriminate).
  rewrite (calls_complete p n k c N0 E L), yielded_app, yielded_some, yielded_none, app_nil_r.
  now apply chunk_list_concat.
Qed.

Lemma nth_call : forall p n k c i r, payload_chunks p n = Ret c -> nth_error (fst (chunks_calls k c)) i = Some r ->
  n <> 0 /\ r = if N.of_nat i <? pieces_of n p then Some (chunk_at n (N.of_nat i) p) else None.
Proof.
  intros p n k c i r E H. assert (N0 : n <> 0) by (intros ->; cbn in E; discriminate). split; [exact N0|].
  destruct (chunks_calls_spec p n k N0) as (c' & E' & X). rewrite E in E'. injection E' as <-. rewrite X in H.
  assert (Li : (i < k)%nat).
  { assert (Y : nth_error (map (fun i0 => if N.of_nat i0 <? pieces_of n p then Some (chunk_at n (N.of_nat i0) p) else None) (seq 0 k)) i <> None) by congruence.
    apply nth_error_Some in Y. now rewrite map_length, seq_length in Y. }
  rewrite nth_error_map in H. destruct (nth_error (seq 0 k) i) as [j|] eqn:Nj; [|discriminate].
  apply nth_error_nth with (d := 0%nat) in Nj. rewrite seq_nth in Nj by exact Li. cbn in H. injection H as <-. now subst j.
Qed.

Lemma yielded_pieces : forall p n k c i q, payload_chunks p n = Ret c ->
  nth_error (fst (chunks_calls k c)) i = Some (Some q) ->
  good_piece n (N.of_nat i) (p_metadata p) (p_metadata q) /\ good_piece n (N.of_nat i) (p_data p) (p_data q).
Proof.
  intros p n k c i q E H. destruct (nth_call p n k c i _ E H) as [N0 X].
  destruct (N.ltb_spec (N.of_nat i) (pieces_of n p)); [|discriminate]. injection X as ->.
  assert (G : forall o, good_piece n (N.of_nat i) o (piece n (N.of_nat i) o)).
  { intros o. unfold good_piece. destruct (piece n (N.of_nat i) o) as [l|] eqn:P.
    - split; [apply piece_some; [exact N0|congruence]|]. now apply piece_size.
    - destruct (N.lt_ge_cases (N.of_nat i) (pieces n o)) as [L|L]; [|exact L]. apply piece_some in L; [contradiction|exact N0]. }
  split; apply G.
Qed.

Lemma yielded_ends : forall p n k c i r, payload_chunks p n = Ret c ->
  nth_error (fst (chunks_calls k c)) i = Some r -> (r = None <-> pieces_of n p <= N.of_nat i).
Proof.
  intros p n k c i r E H. destruct (nth_call p n k c i _ E H) as [_ ->].
  destruct (N.ltb_spec (N.of_nat i) (pieces_of n p)); split; intros; try discriminate; auto; lia.
Qed.

(** ** [size_hint] *)

Lemma take_len : forall n p c k m, payload_chunks p n = Ret c -> 0 < m ->
  exact_len (take_size_hint m (chunks_size_hint (snd (chunks_calls k c)))) = Panic /\
  (forall hint left, hint = (left, Some left) -> exact_len (take_size_hint m hint) = Ret (N.min m left)).
Proof.
  intros n p c k m _ Hm. assert (M0 : (m =? 0) = false) by (apply N.eqb_neq; lia). split.
  - unfold take_size_hint, chunks_size_hint, exact_len. rewrite M0, N.min_0_l. now rewrite M0.
  - intros hint left ->. unfold take_size_hint, exact_len. rewrite M0. destruct (N.ltb_spec left m) as [H|H].
    + rewrite N.min_l, N.eqb_refl by lia. now rewrite N.min_r by lia.
    + rewrite N.min_r, N.eqb_refl by lia. now rewrite N.min_l by lia.
Qed.
