(** * Lengths in [w] bits *)

From Verif Require Import Spec.Build Proofs.BuildP.
From Verif Require Import Model.WordM Spec.Word.
From Verif Require Import Proofs.BitsP Proofs.EatP Proofs.CodecP Proofs.DecodeP Proofs.StableP Proofs.F32P Proofs.ChunkP Proofs.BufP.
From Coq Require Import Lia.

Lemma largest_lt : forall w, 32 <= w -> largest w + largest w + 2 = 2 ^ w /\ 2 ^ 31 <= largest w + 1.
Proof.
  intros w H. unfold largest. replace w with (N.succ (w - 1)) at 3 by lia.
  rewrite N.pow_succ_r'. assert (2 ^ 31 <= 2 ^ (w - 1)) by (apply N.pow_le_mono_r; lia). lia.
Qed.

(** ** Sums *)

(** The outcome of an expression whose exact value is [n]. *)
Lemma add_exact : forall w bd a b, overflowing w bd (a + b) = oc_add w bd (overflowing w bd a) (overflowing w bd b).
Proof.
  intros w bd a b. unfold overflowing, oc_add, add_w. assert (P : 2 ^ w <> 0) by (apply N.pow_nonzero; lia).
  destruct (N.ltb_spec a (2 ^ w)) as [A|A], (N.ltb_spec b (2 ^ w)) as [B|B], bd; try reflexivity.
  - destruct (N.ltb_spec (a + b) (2 ^ w)); [lia|reflexivity].
  - destruct (N.ltb_spec (a + b) (2 ^ w)); [lia|].
    rewrite <- N.add_mod_idemp_r by exact P.
    destruct (N.ltb_spec (a + b mod 2 ^ w) (2 ^ w)) as [L|L]; [now rewrite (N.mod_small _ _ L)|reflexivity].
  - destruct (N.ltb_spec (a + b) (2 ^ w)); [lia|reflexivity].
  - destruct (N.ltb_spec (a + b) (2 ^ w)); [lia|].
    rewrite <- N.add_mod_idemp_l by exact P.
    destruct (N.ltb_spec (a mod 2 ^ w + b) (2 ^ w)) as [L|L]; [now rewrite (N.mod_small _ _ L)|reflexivity].
  - destruct (N.ltb_spec (a + b) (2 ^ w)); [lia|reflexivity].
  - destruct (N.ltb_spec (a + b) (2 ^ w)); [lia|].
    rewrite N.add_mod by exact P.
    destruct (N.ltb_spec (a mod 2 ^ w + b mod 2 ^ w) (2 ^ w)) as [L|L]; [now rewrite (N.mod_small _ _ L)|reflexivity].
Qed.

Lemma small_exact : forall w bd n, n < 2 ^ w -> Ret n = overflowing w bd n.
Proof. intros w bd n H. unfold overflowing. now rewrite (proj2 (N.ltb_lt _ _) H). Qed.

Lemma add_part_exact : forall w bd n o, size (part o) < 2 ^ w ->
  add_part w bd (overflowing w bd n) o = overflowing w bd (n + size (part o)).
Proof.
  intros w bd n [l|] H; cbn [add_part part] in *.
  - change (blen l) with (size l). now rewrite (small_exact w bd _ H), add_exact.
  - unfold size. cbn. now rewrite N.add_0_r.
Qed.

Lemma payload_exact : forall w bd p, size (part (p_metadata p)) < 2 ^ w -> size (part (p_data p)) < 2 ^ w ->
  payload_len_w w bd p = overflowing w bd (size (part (p_metadata p)) + size (part (p_data p))).
Proof.
  intros w bd p M D. unfold payload_len_w.
  rewrite (small_exact w bd 0) by (apply N.neq_0_lt_0, N.pow_nonzero; lia).
  now rewrite !add_part_exact by assumption.
Qed.

Lemma payload_fits : forall w bd p, 32 <= w -> in_memory w [part (p_metadata p); part (p_data p)] ->
  payload_len_w w bd p = Ret (size (part (p_metadata p)) + size (part (p_data p))).
Proof.
  intros w bd p W M. destruct (largest_lt w W) as [L _].
  inversion M as [|? ? M1 M2]; subst. inversion M2 as [|? ? M3 _]; subst.
  rewrite payload_exact by lia. symmetry. apply small_exact. lia.
Qed.

(** Literals are small; the parts are in memory. *)
Ltac side := first [lia|match goal with S : forall b, In b _ -> _ |- _ => apply S; cbn; auto 10 end].

Lemma len_exact : forall w bd f, 32 <= w -> in_memory w (byte_parts f) ->
  frame_len_w w bd f = overflowing w bd (total f).
Proof.
  intros w bd f W M. destruct (largest_lt w W) as [L G]. unfold total, in_memory in *.
  assert (forall b, In b (byte_parts f) -> size b < 2 ^ w) as S.
  { intros b I. rewrite Forall_forall in M. specialize (M b I). cbn in M. lia. }
  assert (forall k, k < 2 ^ 31 -> Ret k = overflowing w bd k) as K by (intros k H; apply small_exact; lia).
  clear M.
  destruct f as [s|e|l|k|q|q|q|q|q|q|q|q|q|q]; cbn [byte_parts overhead sum_sizes fold_right frame_len_w] in *;
    try (rewrite N.add_0_r; apply small_exact; lia).
  - unfold setup_len_w.
    rewrite payload_exact by side.
    rewrite (K 20), (K 1), (K 3) by lia.
    rewrite (small_exact w bd (blen (sf_metadata_mimetype s))) by side.
    rewrite (small_exact w bd (blen (sf_data_mimetype s))) by side.
    rewrite add_part_exact by side.
    rewrite <- !add_exact. f_equal. change blen with size. lia.
  - rewrite (K 10), add_part_exact by side. f_equal. lia.
  - rewrite (K 14), add_part_exact by side. f_equal. lia.
  - rewrite (K 14), add_part_exact by side. f_equal. lia.
  - rewrite (K 9), payload_exact, <- add_exact by side. f_equal. lia.
  - rewrite (K 9), payload_exact, <- add_exact by side. f_equal. lia.
  - rewrite (K 13), payload_exact, <- add_exact by side. f_equal. lia.
  - rewrite (K 13), payload_exact, <- add_exact by side. f_equal. lia.
  - rewrite (K 9), payload_exact, <- add_exact by side. f_equal. lia.
  - rewrite (K 6), (small_exact w bd (blen _)), <- add_exact by side. f_equal.
    change blen with size. lia.
  - rewrite (K 12), (K 16), (small_exact w bd (blen _)), <- !add_exact by side. f_equal.
    change blen with size. lia.
Qed.

(** ** Frames that can be written *)

Lemma total_bound : forall w f, 32 <= w -> in_memory w (byte_parts f) -> setup_limits f -> short_metadata f ->
  total f < 2 ^ w.
Proof.
  intros w f W M SL SM. destruct (largest_lt w W) as [L G]. unfold total, short_metadata, in_memory in *.
  destruct f as [s|e|l|k|q|q|q|q|q|q|q|q|q|q]; cbn [byte_parts overhead sum_sizes fold_right setup_limits payload_of] in *;
    repeat match goal with H : Forall _ (_ :: _) |- _ => inversion H; clear H; subst end;
    try specialize (SM _ eq_refl); lia.
Qed.

Lemma len_written : forall w bd f, 32 <= w -> in_memory w (byte_parts f) -> setup_limits f -> short_metadata f ->
  frame_len_w w bd f = Ret (total f).
Proof.
  intros w bd f W M SL SM. rewrite len_exact by assumption. symmetry. apply small_exact. now apply total_bound.
Qed.

Lemma decoded_limits : forall input f rest, decode input = (DOk f, rest) -> setup_limits f /\ short_metadata f.
Proof.
  intros input f rest D. apply decode_bwd in D as (r & v & r1 & r2 & _ & _ & _ & _ & F & _).
  destruct F as [R _]. pose proof (in_range_small f R) as S. split.
  - destruct f as [s|e|l|k|q|q|q|q|q|q|q|q|q|q]; cbn [in_range setup_limits] in *; try exact I. lia.
  - unfold short_metadata. now apply small_iff.
Qed.

Lemma frame_len_total : forall f, frame_len f = total f.
Proof.
  intros f. unfold total. assert (P : forall p, payload_len p = size (part (p_metadata p)) + size (part (p_data p))).
  { intros [[m|] [d|]]; unfold payload_len; cbn [p_metadata p_data part]; change blen with size; change (size []) with 0; lia. }
  destruct f as [s|e|l|k|q|q|q|q|q|q|q|q|q|q]; cbn [byte_parts overhead sum_sizes fold_right frame_len];
    unfold setup_len, error_len, lease_len, keepalive_len, request_response_len, request_fnf_len, request_stream_len,
      request_channel_len, request_n_len, cancel_len, payload_frame_len, metadata_push_len, resume_len, resume_ok_len;
    rewrite ?P; change blen with size; try lia.
  - destruct (sf_resume_token s); cbn [part]; [lia|]. change (size []) with 0. lia.
  - destruct (ef_data e); cbn [part]; [lia|]. change (size []) with 0. lia.
  - destruct (lf_metadata l); cbn [part]; [lia|]. change (size []) with 0. lia.
  - destruct (kf_data k); cbn [part]; [lia|]. change (size []) with 0. lia.
Qed.

Lemma to_bytes_exact : forall w bd f, 32 <= w -> typed f -> in_memory w (byte_parts f) ->
  (short_metadata f /\ total f <= largest w /\
   exists bs, to_bytes_w w bd f = Ret bs /\ forall buf, frame_encode f buf = EOk (buf ++ bs)) \/
  ((~ short_metadata f \/ largest w < total f) /\ to_bytes_w w bd f = Panic).
Proof.
  intros w bd f W T M. unfold to_bytes_w. rewrite len_exact by assumption.
  change (vec_max w) with (largest w).
  destruct (largest_lt w W) as [L G]. unfold overflowing.
  destruct (encode_total f T) as [[S [bs E]]|(p & pre & P & O & E)].
  - destruct (encode_len f [] _ T (E [])) as (bs' & B & _ & N & _). cbn in B. subst bs'.
    rewrite frame_len_total in N. rewrite (E []). cbn [app]. change (blen bs) with (size bs).
    destruct (N.leb_spec (total f) (largest w)) as [B|B].
    + left. split; [exact S|]. split; [exact B|]. exists bs. split; [|exact E].
      rewrite (proj2 (N.ltb_lt _ _)) by lia. rewrite (proj2 (N.leb_le _ _) B).
      rewrite (proj2 (N.leb_le _ _)) by lia. reflexivity.
    + right. split; [now right|].
      assert (X : total f <= size bs + 2).
      { rewrite N. clear. destruct f as [s| | | | | | | | | | | | |]; try lia. destruct (present (sf_resume_token s)); lia. }
      destruct (N.ltb_spec (total f) (2 ^ w)) as [C|C].
      * now rewrite (proj2 (N.leb_gt _ _)) by lia.
      * destruct bd; [reflexivity|]. destruct (_ <=? _); [|reflexivity].
        rewrite (proj2 (N.leb_gt _ _)); [reflexivity|]. lia.
  - right. split.
    + left. intros S. specialize (S p P). lia.
    + rewrite (proj1 (E [])). destruct (_ <? _); [now destruct (_ <=? _)|].
      destruct bd; [reflexivity|]. now destruct (_ <=? _).
Qed.

(** Two parts that do not fit together. *)
Lemma len_overflows : forall w m d, 32 <= w -> size m = largest w -> size d = largest w ->
  let f := FPayload (PayloadFrame 1 0x80 (Payload (Some m) (Some d))) in
  typed f /\ in_memory w (byte_parts f) /\
  frame_len_w w Debug f = Panic /\ frame_len_w w Release f = Ret 7.
Proof.
  intros w m d W SM SD f. destruct (largest_lt w W) as [L G].
  assert (M : in_memory w (byte_parts f)).
  { repeat constructor; cbn [p_metadata p_data part pf_payload]; lia. }
  split; [repeat split|]. split; [exact M|].
  rewrite !len_exact by assumption.
  assert (E : total f = 2 ^ w + 7).
  { unfold total, f. cbn [overhead byte_parts sum_sizes fold_right pf_payload p_metadata p_data part]. lia. }
  rewrite E. unfold overflowing. rewrite (proj2 (N.ltb_ge _ _)) by lia. split; [reflexivity|].
  f_equal. replace (2 ^ w + 7) with (7 + 1 * 2 ^ w) by lia.
  rewrite N.mod_add by lia. apply N.mod_small. lia.
Qed.

(** ** Chunks *)

Lemma usize_w : forall w x, w <= 64 -> usize_of_f32 x <= 2 ^ w - 2 -> usize_of_f32_w w x = usize_of_f32 x.
Proof.
  intros w x W H. assert (P : 2 ^ w <= 2 ^ 64) by (apply N.pow_le_mono_r; lia).
  assert (1 <= 2 ^ w) by (pose proof (N.pow_nonzero 2 w); lia).
  unfold usize_of_f32, usize_of_f32_w, usize_max in *.
  destruct x as [s|[]| |[] m e]; try reflexivity; [lia|].
  set (v := if Z.leb 0 e then _ else _) in *. clearbody v. lia.
Qed.

Lemma pieces_bound : forall w x n, 32 <= w <= 64 -> x <= largest w -> 1 <= n < 2 ^ w -> f32_pieces x n <= 2 ^ w - 2.
Proof.
  intros w x n W X N. destruct (largest_lt w ltac:(lia)) as [L G].
  assert (P : 2 ^ w <= 2 ^ 64) by (apply N.pow_le_mono_r; lia).
  destruct (pieces_near x n) as [Z S]; [unfold usize_max; lia|unfold usize_max; lia|].
  set (k := (x + n - 1) / n) in *.
  assert (K : k <= x).
  { unfold k. destruct (N.eq_dec x 0) as [->|NX]; [rewrite N.div_small; lia|].
    apply N.div_le_upper_bound; [lia|]. nia. }
  destruct (N.eq_dec k 0) as [E|E]; [rewrite (Z E); lia|]. specialize (S ltac:(lia)). lia.
Qed.

Lemma chunks_w : forall w n p c k, 32 <= w <= 64 -> n < 2 ^ w -> payload_chunks p n = Ret c ->
  in_memory w [part (p_metadata p); part (p_data p)] ->
  chunks_len_w w (snd (chunks_calls k c)) = chunks_len (snd (chunks_calls k c)) /\
  (fst (chunks_next (snd (chunks_calls k c))) <> None -> N.of_nat k + 1 < 2 ^ w).
Proof.
  intros w n p c k W N E M. destruct (largest_lt w ltac:(lia)) as [L G].
  inversion M as [|? ? M1 M2]; subst. inversion M2 as [|? ? M3 _]; subst. clear M M2.
  assert (Hn0 : n <> 0) by (intros ->; cbn in E; discriminate).
  rewrite chunks_start in E by exact Hn0. injection E as <-.
  rewrite calls_at by exact Hn0. cbn [snd]. rewrite N.add_0_l. split.
  - pose proof (pieces_bound w (size (part (p_metadata p)) - N.of_nat k * n) n W ltac:(lia) ltac:(lia)) as B1.
    pose proof (pieces_bound w (size (part (p_data p)) - N.of_nat k * n) n W ltac:(lia) ltac:(lia)) as B2.
    rewrite <- !left_size in B1, B2. unfold f32_pieces in B1, B2.
    unfold chunks_len_w, chunks_len, state_at. cbn [ch_metadata ch_data ch_size].
    destruct (left_of n (N.of_nat k) (p_metadata p)), (left_of n (N.of_nat k) (p_data p));
      now rewrite !usize_w by (lia || assumption).
  - intros H. destruct (N.lt_ge_cases (N.of_nat k) (pieces_of n p)) as [C|C].
    + assert (Q : forall o, size (part o) <= largest w -> pieces n o <= largest w).
      { intros [l|] S; cbn [pieces part] in *; [|lia].
        destruct (N.eq_dec (size l) 0) as [Z|Z]; [rewrite Z, N.div_small by lia; lia|].
        assert ((size l + n - 1) / n <= size l) by (apply N.div_le_upper_bound; [lia|]; nia). lia. }
      unfold pieces_of in C. specialize (Q _ M1) as Q1. specialize (Q _ M3) as Q2. lia.
    + exfalso. apply H. rewrite next_step by exact Hn0.
      assert (forall o, pieces n o <= N.of_nat k -> left_of n (N.of_nat k) o = None) as NL.
      { intros o B. destruct (left_of n (N.of_nat k) o) eqn:X; [|reflexivity].
        assert (left_of n (N.of_nat k) o <> None) as X' by congruence. apply left_some in X'; [lia|exact Hn0]. }
      unfold pieces_of in C. rewrite (proj2 (N.ltb_ge _ _)) by (unfold pieces_of; lia). reflexivity.
Qed.

(** ** Buffer lists *)

Lemma remaining_w : forall w bd l, Forall (fun b => size b < 2 ^ w) l ->
  bl_remaining_w flat w bd l = overflowing w bd (size (concat l)).
Proof.
  intros w bd l H. unfold bl_remaining_w. assert (P : 0 < 2 ^ w) by (apply N.neq_0_lt_0, N.pow_nonzero; lia).
  rewrite (small_exact w bd 0) by exact P.
  rewrite <- (N.add_0_l (size (concat l))). generalize 0 as a. clear P.
  induction H as [|b l B _ IH]; intros a; cbn [fold_left concat].
  - change (size []) with 0. now rewrite N.add_0_r.
  - change (N.of_nat (b_remaining flat b)) with (size b). rewrite (small_exact w bd _ B), <- add_exact, IH.
    unfold size. rewrite app_length. f_equal. lia.
Qed.

Lemma remaining_flat : forall l, bl_remaining flat l = length (concat l).
Proof. exact remaining_concat. Qed.

Lemma concat_bound : forall (l : list bytes) n, size (concat l) < n -> Forall (fun b => size b < n) l.
Proof.
  induction l as [|b l IH]; intros n H; constructor; cbn [concat] in H; unfold size in *; rewrite app_length in H; [lia|].
  apply IH. lia.
Qed.

Lemma reports_w : forall w bd l, size (concat l) < 2 ^ w -> bl_reports flat w bd l = length (concat l).
Proof.
  intros w bd l H. unfold bl_reports. rewrite remaining_w by now apply concat_bound.
  rewrite <- small_exact by exact H. unfold size. lia.
Qed.

Lemma remaining_w_small : forall w bd l, size (concat l) < 2 ^ w -> bl_remaining_w flat w bd l = Ret (size (concat l)).
Proof. intros w bd l H. rewrite remaining_w by now apply concat_bound. now rewrite <- small_exact. Qed.

Lemma put_take_w : forall w bd c v fuel limit acc l, size (concat l) < 2 ^ w ->
  put_take (BufOps (bl_reports flat w bd) (bl_chunk flat) (bl_advance flat) c v) fuel limit acc l =
  put_take (BufOps (bl_remaining flat) (bl_chunk flat) (bl_advance flat) c v) fuel limit acc l.
Proof.
  intros w bd c v fuel. induction fuel as [|fuel IH]; intros limit acc l H; cbn [put_take b_remaining b_chunk b_advance];
    rewrite reports_w, remaining_flat by exact H; destruct (Nat.min _ _); try reflexivity.
  set (s := firstn _ _). pose proof (flat_advance_spec l (length s)) as A.
  destruct (Nat.leb _ _); [|now rewrite A]. destruct A as (l' & -> & C & _). apply IH. rewrite C.
  unfold size in *. rewrite skipn_length. lia.
Qed.

Lemma copy_w : forall w bd fuel len l, 32 <= w -> size (concat l) <= largest w ->
  bl_copy_to_bytes_w flat w bd fuel len l = bl_copy_to_bytes flat fuel len l.
Proof.
  intros w bd fuel len l W H. destruct (largest_lt w W) as [L G].
  assert (S : bl_copy_slow_w flat w bd fuel len l = bl_copy_slow flat fuel len l).
  { unfold bl_copy_slow_w, bl_copy_slow. rewrite remaining_w_small by lia. rewrite remaining_flat, put_take_w by lia.
    change (vec_max w) with (largest w). unfold size in *.
    destruct (Nat.leb_spec len (length (concat l))) as [A|A].
    - rewrite !(proj2 (N.leb_le _ _)) by lia. reflexivity.
    - now rewrite (proj2 (N.leb_gt _ _)) by lia. }
  destruct l as [|b l]; cbn [bl_copy_to_bytes_w bl_copy_to_bytes]; rewrite S; reflexivity.
Qed.

Lemma lawful_w : forall w bd fuel, 32 <= w -> lawful (buf_list_ops_w flat w bd fuel)
  (fun l s => concat l = s /\ solid l /\ (length l <= fuel)%nat /\ size s <= largest w).
Proof.
  intros w bd fuel W. destruct (largest_lt w W) as [L G].
  destruct (BufP.buf_list_lawful fuel) as [LR LC LA LP]; unfold BufP.similar in *.
  constructor; cbn [buf_list_ops buf_list_ops_w b_remaining b_chunk b_advance b_copy_to_bytes] in *.
  - intros l s (<- & _ & _ & H). apply reports_w. lia.
  - intros l s (H1 & H2 & H3 & _). now apply LC.
  - intros l s k (H1 & H2 & H3 & H). specialize (LA l s k (conj H1 (conj H2 H3))).
    destruct (Nat.leb k (length s)); [|exact LA]. destruct LA as (l' & E & A & B & C). exists l'.
    repeat split; try assumption. unfold size in *. rewrite skipn_length. lia.
  - intros l s k (H1 & H2 & H3 & H). specialize (LP l s k (conj H1 (conj H2 H3))).
    rewrite copy_w by (assumption || now rewrite H1).
    destruct (Nat.leb k (length s)); [|exact LP]. destruct LP as (l' & E & A & B & C). exists l'.
    repeat split; try assumption. unfold size in *. rewrite skipn_length. lia.
Qed.

(** Enough buffers wrap the sum around: the list looks empty. *)
Lemma decode_wrapped : forall w fuel l, 32 <= w -> in_memory w l -> 2 ^ w <= size (concat l) -> size (concat l) mod 2 ^ w < 6 ->
  bl_remaining_w flat w Debug l = Panic /\
  frame_decode (buf_list_ops_w flat w Release fuel) fuel l = (DErr InComplete, l).
Proof.
  intros w fuel l W M O H. destruct (largest_lt w W) as [L G].
  assert (S : Forall (fun b => size b < 2 ^ w) l).
  { eapply Forall_impl; [|exact M]. cbn. intros b B. lia. }
  split; [rewrite remaining_w by exact S; unfold overflowing; now rewrite (proj2 (N.ltb_ge _ _))|].
  unfold frame_decode, d_bind, need. cbn [buf_list_ops_w b_remaining].
  unfold bl_reports. rewrite remaining_w by exact S. unfold overflowing. rewrite (proj2 (N.ltb_ge _ _)) by exact O.
  destruct (Nat.ltb_spec (N.to_nat (size (concat l) mod 2 ^ w)) 6); [reflexivity|lia].
Qed.

(** ** The SETUP builder *)

Lemma built_limits : forall bd cs f, setup_run bd cs = Ret f -> setup_limits (FSetup f).
Proof.
  intros bd cs f E. pose proof (setup_history bd cs f E) as (_ & _ & _ & T & M & D & _).
  assert (R : forall c, In c cs -> ~ refused bd c).
  { intros c I F. assert (setup_run bd cs = Panic) by (apply setup_panics; eauto). congruence. }
  apply is_latest_from in T, M, D. cbn [setup_limits]. change (setup_resume_token f) with (sf_resume_token f) in T.
  assert (S : size default_mime <= 256) by (vm_compute; discriminate).
  repeat split.
  - destruct T as [->|(c & I & C)]; [cbn; lia|]. destruct c; try discriminate. injection C as <-. cbn [part].
    specialize (R _ I). cbn [refused] in R. lia.
  - destruct M as [->|(c & I & C)]; [exact S|]. destruct c; try discriminate. injection C as <-.
    specialize (R _ I). cbn [refused] in R. lia.
  - destruct D as [->|(c & I & C)]; [exact S|]. destruct c; try discriminate. injection C as <-.
    specialize (R _ I). cbn [refused] in R. lia.
Qed.

Lemma remaining_memory : forall w bd l, 32 <= w -> in_memory w l ->
  bl_remaining_w flat w bd l = overflowing w bd (size (concat l)).
Proof.
  intros w bd l W M. destruct (largest_lt w W) as [L G]. apply remaining_w.
  eapply Forall_impl; [|exact M]. cbn. intros b B. lia.
Qed.
