(** * Stream ids and the request counter *)

From Coq Require Import Permutation.
From Verif Require Import Model.StreamIdM Spec.Ids.

Local Open Scope Z_scope.

Lemma wrap_range : forall z, - 2 ^ 31 <= wrap_i32 z < 2 ^ 31.
Proof.
  intros z. unfold wrap_i32. pose proof (Z.mod_pos_bound z (2 ^ 32) ltac:(lia)) as H.
  destruct (Z.ltb_spec (z mod 2 ^ 32) (2 ^ 31)); lia.
Qed.
Lemma wrap_eq : forall z, exists k, wrap_i32 z = z + k * 2 ^ 32.
Proof.
  intros z. unfold wrap_i32. pose proof (Z.div_mod z (2 ^ 32) ltac:(lia)) as D.
  destruct (Z.ltb_spec (z mod 2 ^ 32) (2 ^ 31)).
  - exists (- (z / 2 ^ 32)). lia.
  - exists (- (z / 2 ^ 32) - 1). lia.
Qed.
Lemma wrap_unique : forall z v, - 2 ^ 31 <= v < 2 ^ 31 -> (exists k, v = z + k * 2 ^ 32) -> wrap_i32 z = v.
Proof.
  intros z v R (k & E). pose proof (wrap_range z) as R'. destruct (wrap_eq z) as (k' & E'). lia.
Qed.
Lemma wrap_id : forall z, - 2 ^ 31 <= z < 2 ^ 31 -> wrap_i32 z = z.
Proof. intros z H. apply wrap_unique; [exact H|]. exists 0. lia. Qed.
Lemma wrap_add : forall a b, wrap_i32 (wrap_i32 a + b) = wrap_i32 (a + b).
Proof.
  intros a b. apply wrap_unique; [apply wrap_range|].
  destruct (wrap_eq a) as (k & ->). destruct (wrap_eq (a + b)) as (k' & ->). exists (k' - k). lia.
Qed.

(** ** Draws *)

Lemma draw_id : forall c, fst (sid_draw c) = Z.to_N (c mod 2 ^ 31).
Proof.
  intros c. unfold sid_draw. cbn [fst]. f_equal. change STREAM_ID_MASK with (Z.ones 31).
  apply Z.land_ones. lia.
Qed.
Lemma wrap_mod31 : forall z, (wrap_i32 z) mod 2 ^ 31 = z mod 2 ^ 31.
Proof.
  intros z. destruct (wrap_eq z) as (k & ->). replace (z + k * 2 ^ 32) with (z + (k * 2) * 2 ^ 31) by lia.
  apply Z.mod_add. lia.
Qed.

(** The counter after [k] draws holds a number congruent to [init + 2 k]. *)
Definition at_draw (init c : Z) (k : N) : Prop := c mod 2 ^ 31 = (init + 2 * Z.of_N k) mod 2 ^ 31.

Lemma at_draw_0 : forall c, at_draw c c 0.
Proof. intros c. unfold at_draw. f_equal. lia. Qed.
Lemma draw_at : forall init c k, at_draw init c k ->
  fst (sid_draw c) = id_after init k /\ at_draw init (snd (sid_draw c)) (k + 1).
Proof.
  intros init c k H. split.
  - rewrite draw_id. unfold id_after. now rewrite H.
  - unfold at_draw, sid_draw. cbn [snd]. rewrite wrap_mod31.
    rewrite <- Zplus_mod_idemp_l, H, Zplus_mod_idemp_l. f_equal. lia.
Qed.

Lemma id_bound : forall init k, (id_after init k < 2 ^ 31)%N.
Proof. intros init k. unfold id_after. pose proof (Z.mod_pos_bound (init + 2 * Z.of_N k) (2 ^ 31) ltac:(lia)). lia. Qed.
Lemma id_value : forall init k, exists q, Z.of_N (id_after init k) = init + 2 * Z.of_N k + q * 2 ^ 31.
Proof.
  intros init k. unfold id_after. pose proof (Z.mod_pos_bound (init + 2 * Z.of_N k) (2 ^ 31) ltac:(lia)) as B.
  pose proof (Z.div_mod (init + 2 * Z.of_N k) (2 ^ 31) ltac:(lia)) as D.
  exists (- ((init + 2 * Z.of_N k) / 2 ^ 31)). lia.
Qed.
Lemma id_parity : forall init k, Z.of_N (id_after init k) mod 2 = init mod 2.
Proof.
  intros init k. destruct (id_value init k) as (q & ->).
  replace (init + 2 * Z.of_N k + q * 2 ^ 31) with (init + (Z.of_N k + q * 2 ^ 30) * 2) by lia.
  apply Z.mod_add. lia.
Qed.
Lemma id_in_class : forall init k, in_class init (id_after init k).
Proof. intros. split; [apply id_bound|apply id_parity]. Qed.

Lemma id_unique : forall init j k, (j < k)%N -> (k < j + 2 ^ 30)%N -> id_after init j <> id_after init k.
Proof.
  intros init j k L1 L2 E. destruct (id_value init j) as (q & Ej), (id_value init k) as (q' & Ek).
  rewrite E in Ej. lia.
Qed.
Lemma id_distinct : forall init n j k, (n <= 2 ^ 30)%N -> (j < n)%N -> (k < n)%N ->
  id_after init j = id_after init k -> j = k.
Proof.
  intros init n j k Hn Hj Hk E. destruct (N.lt_trichotomy j k) as [L|[L|L]]; [|exact L|]; exfalso.
  - apply (id_unique init j k); [exact L|lia|exact E].
  - apply (id_unique init k j); [exact L|lia|now symmetry].
Qed.
Lemma id_period : forall init k, id_after init (k + 2 ^ 30) = id_after init k.
Proof.
  intros init k. unfold id_after. f_equal. replace (init + 2 * Z.of_N (k + 2 ^ 30)) with (init + 2 * Z.of_N k + 1 * 2 ^ 31) by lia.
  apply Z.mod_add. lia.
Qed.
Lemma id_reaches : forall init sid, in_class init sid -> exists k, (k < 2 ^ 30)%N /\ id_after init k = sid.
Proof.
  intros init sid [B P].
  pose proof (Z.mod_pos_bound (Z.of_N sid - init) (2 ^ 31) ltac:(lia)) as M.
  pose proof (Z.div_mod (Z.of_N sid - init) (2 ^ 31) ltac:(lia)) as D.
  set (m := (Z.of_N sid - init) mod 2 ^ 31) in *. set (q := (Z.of_N sid - init) / 2 ^ 31) in *.
  assert (Ev : exists h, m = 2 * h).
  { pose proof (Z.div_mod (Z.of_N sid) 2 ltac:(lia)) as D1. pose proof (Z.div_mod init 2 ltac:(lia)) as D2.
    exists (Z.of_N sid / 2 - init / 2 - 2 ^ 30 * q). lia. }
  destruct Ev as (h & Eh). exists (Z.to_N h). split; [lia|].
  destruct (id_value init (Z.to_N h)) as (q' & E). pose proof (id_bound init (Z.to_N h)) as B'. lia.
Qed.

(** ** Sequential allocation *)

Lemma next_spec : forall fuel st c init k0 r, at_draw init c k0 ->
  next_stream_id fuel st c = Ret r <->
  exists k, (k < N.of_nat fuel)%N /\ fst r = id_after init (k0 + k) /\ st (fst r) = false /\
    (forall j, (j < k)%N -> st (id_after init (k0 + j)) = true) /\
    snd r = wrap_i32 (c + 2 * (Z.of_N k + 1)).
Proof.
  induction fuel as [|fuel IH]; intros st c init k0 r A.
  - split; [discriminate|]. intros (k & H & _). lia.
  - cbn [next_stream_id]. destruct (draw_at init c k0 A) as [E1 A'].
    destruct (sid_draw c) as [sid c'] eqn:Ed. cbn [fst snd] in *.
    assert (Ec : c' = wrap_i32 (c + 2)) by (unfold sid_draw in Ed; congruence).
    destruct (st sid) eqn:Es; cbn [negb].
    + rewrite (IH st c' init (k0 + 1)%N r A'). split.
      * intros (k & H & F & S & B & W). exists (k + 1)%N. repeat split.
        -- lia.
        -- rewrite F. f_equal. lia.
        -- exact S.
        -- intros j Hj. destruct (N.eq_dec j 0) as [->|Nj].
           ++ rewrite N.add_0_r, <- E1. exact Es.
           ++ replace (k0 + j)%N with (k0 + 1 + (j - 1))%N by lia. apply B. lia.
        -- rewrite W, Ec, wrap_add. f_equal. lia.
      * intros (k & H & F & S & B & W). destruct (N.eq_dec k 0) as [->|Nk].
        { rewrite N.add_0_r in F. rewrite F, <- E1 in S. congruence. }
        exists (k - 1)%N. repeat split.
        -- lia.
        -- rewrite F. f_equal. lia.
        -- exact S.
        -- intros j Hj. replace (k0 + 1 + j)%N with (k0 + (j + 1))%N by lia. apply B. lia.
        -- rewrite W, Ec, wrap_add. f_equal. lia.
    + split.
      * intros [= <-]. exists 0%N. cbn [fst snd]. rewrite N.add_0_r. repeat split; auto; try lia; intros; lia.
      * intros (k & H & F & S & B & W). destruct (N.eq_dec k 0) as [->|Nk].
        -- rewrite N.add_0_r in F. destruct r as [s d]. cbn [fst snd] in *. rewrite F, E1, W, Ec. reflexivity.
        -- exfalso. specialize (B 0%N ltac:(lia)). rewrite N.add_0_r, <- E1 in B. congruence.
Qed.

Lemma next_first_free : forall fuel st c sid c',
  next_stream_id fuel st c = Ret (sid, c') <->
  exists k, (k < N.of_nat fuel)%N /\ sid = id_after c k /\ st sid = false /\
    (forall j, (j < k)%N -> st (id_after c j) = true) /\ c' = wrap_i32 (c + 2 * (Z.of_N k + 1)).
Proof.
  intros fuel st c sid c'. rewrite (next_spec fuel st c c 0 (sid, c') (at_draw_0 c)). cbn [fst snd].
  split; intros (k & A & B & C & D & E); exists k; rewrite ?N.add_0_l in *; repeat split; auto.
Qed.

Lemma least : forall (P : N -> bool) n, P n = true ->
  exists m, (m <= n)%N /\ P m = true /\ forall j, (j < m)%N -> P j = false.
Proof.
  intros P. apply (well_founded_induction N.lt_wf_0 (fun n => P n = true ->
    exists m, (m <= n)%N /\ P m = true /\ forall j, (j < m)%N -> P j = false)).
  intros n IH Hn.
  assert (X : (exists j, (j < n)%N /\ P j = true) \/ (forall j, (j < n)%N -> P j = false)).
  { clear. induction n as [|n IH] using N.peano_ind; [right; intros; lia|].
    destruct IH as [(j & L & H)|H]; [left; exists j; split; [lia|exact H]|].
    destruct (P n) eqn:E; [left; exists n; split; [lia|exact E]|]. right. intros j Hj.
    destruct (N.eq_dec j n) as [->|Nj]; [exact E|]. apply H. lia. }
  destruct X as [(j & L & H)|H].
  - destruct (IH j L H) as (m & M1 & M2 & M3). exists m. split; [lia|auto].
  - exists n. split; [lia|auto].
Qed.

Lemma next_terminates : forall st c,
  (exists fuel r, next_stream_id fuel st c = Ret r) <-> (exists sid, in_class c sid /\ st sid = false).
Proof.
  intros st c. split.
  - intros (fuel & [sid c'] & H). apply next_first_free in H as (k & _ & E & S & _). exists sid. split; [|exact S].
    subst sid. apply id_in_class.
  - intros (sid & C & S). destruct (id_reaches c sid C) as (k & _ & E).
    destruct (least (fun k => negb (st (id_after c k))) k) as (m & _ & M2 & M3).
    { now rewrite E, S. }
    exists (Datatypes.S (N.to_nat m)), (id_after c m, wrap_i32 (c + 2 * (Z.of_N m + 1))).
    apply next_first_free. exists m. repeat split.
    + lia.
    + now apply negb_true_iff.
    + intros j Hj. apply negb_false_iff. exact (M3 j Hj).
Qed.

(** A search that ends needs at most [2 ^ 30] turns. *)
Lemma next_bound : forall st c fuel r, next_stream_id fuel st c = Ret r ->
  exists k, (k < 2 ^ 30)%N /\ fst r = id_after c k /\ next_stream_id (S (N.to_nat k)) st c = Ret r.
Proof.
  intros st c fuel [sid c'] H. apply next_first_free in H as (k & L & E & S & B & W).
  assert (K : (k < 2 ^ 30)%N).
  { destruct (N.lt_ge_cases k (2 ^ 30)) as [|G]; [assumption|]. exfalso.
    specialize (B (k - 2 ^ 30)%N ltac:(lia)). rewrite <- id_period in B.
    replace (k - 2 ^ 30 + 2 ^ 30)%N with k in B by lia. congruence. }
  exists k. split; [exact K|]. split; [exact E|]. apply next_first_free. exists k. repeat split; auto. lia.
Qed.

Lemma next_never : forall st c, (forall sid, in_class c sid -> st sid = true) ->
  forall fuel, next_stream_id fuel st c = Loop.
Proof.
  intros st c H fuel. assert (X : next_stream_id fuel st c <> Panic).
  { clear H. revert c. induction fuel as [|fuel IH]; intros c; cbn [next_stream_id]; [discriminate|].
    destruct (sid_draw c) as [s c']. destruct (st s); cbn [negb]; [apply IH|discriminate]. }
  destruct (next_stream_id fuel st c) as [r| |] eqn:E; [exfalso|congruence|reflexivity].
  destruct (proj1 (next_terminates st c)) as (sid & C & S); [eauto|]. rewrite (H sid C) in S. discriminate.
Qed.

(** ** The request counter *)

Lemma i32_of_wrap : forall z, is_i32 z (wrap_i32 z).
Proof.
  intros z. split; [apply wrap_range|]. destruct (wrap_eq z) as (k & ->).
  replace (z + k * 2 ^ 32 - z) with (k * 2 ^ 32) by lia. apply Z.mod_mul. lia.
Qed.
Lemma i32_unique : forall z v, is_i32 z v -> v = wrap_i32 z.
Proof.
  intros z v [R M]. symmetry. apply wrap_unique; [exact R|]. exists ((v - z) / 2 ^ 32).
  pose proof (Z.div_mod (v - z) (2 ^ 32) ltac:(lia)). lia.
Qed.

Lemma of_mod31 : forall n, 0 <= Z.of_N (n mod 2 ^ 31) < 2 ^ 31.
Proof.
  intros n. pose proof (N.mod_lt n (2 ^ 31) ltac:(lia)) as H. revert H.
  generalize (n mod 2 ^ 31)%N. intros m H. lia.
Qed.
Lemma counter_new_value : forall n, counter_new n = Z.of_N (n mod 2 ^ 31).
Proof.
  intros n. unfold counter_new, u32_as_i32. change COUNTER_MASK with (N.ones 31). rewrite N.land_ones.
  apply wrap_id. pose proof (of_mod31 n). lia.
Qed.

Lemma wrap_add_r : forall a b, wrap_i32 (a + wrap_i32 b) = wrap_i32 (a + b).
Proof. intros a b. rewrite Z.add_comm, wrap_add. f_equal. lia. Qed.

Lemma step_balance : forall o c z, c = wrap_i32 z -> snd (counter_step o c) = wrap_i32 (balance z [o]).
Proof.
  intros o c z ->. unfold balance. destruct o as [|n| |]; cbn [counter_step counter_dec counter_add snd granted taken].
  - replace (wrap_i32 z - 1) with (wrap_i32 z + -1) by lia. rewrite wrap_add. f_equal. lia.
  - unfold counter_add, u32_as_i32. rewrite wrap_add_r, wrap_add. f_equal. lia.
  - f_equal. lia.
  - f_equal. lia.
Qed.
Lemma balance_cons : forall z o ops, balance z (o :: ops) = balance (balance z [o]) ops.
Proof. intros z o ops. unfold balance. destruct o; cbn [granted taken]; lia. Qed.

Lemma run_balance : forall ops z, snd (counter_run ops (wrap_i32 z)) = wrap_i32 (balance z ops).
Proof.
  induction ops as [|o ops IH]; intros z.
  - cbn. f_equal. unfold balance. cbn [granted taken]. lia.
  - cbn [counter_run]. pose proof (step_balance o (wrap_i32 z) z eq_refl) as S.
    destruct (counter_step o (wrap_i32 z)) as [r c']. cbn [snd] in S. subst c'.
    specialize (IH (balance z [o])). destruct (counter_run ops (wrap_i32 (balance z [o]))) as [rs c'']. cbn [snd] in *.
    now rewrite balance_cons.
Qed.

Lemma counter_value : forall n ops, is_i32 (balance (Z.of_N (n mod 2 ^ 31)) ops) (snd (counter_run ops (counter_new n))).
Proof.
  intros n ops. rewrite counter_new_value.
  rewrite <- (wrap_id (Z.of_N (n mod 2 ^ 31))) at 2 by (pose proof (of_mod31 n); lia).
  rewrite run_balance. apply i32_of_wrap.
Qed.

Lemma granted_app : forall a b, granted (a ++ b) = granted a + granted b.
Proof. induction a as [|[] a IH]; intros b; cbn [granted app]; rewrite ?IH; lia. Qed.
Lemma taken_app : forall a b, taken (a ++ b) = taken a + taken b.
Proof. induction a as [|[] a IH]; intros b; cbn [taken app]; rewrite ?IH; lia. Qed.

Lemma interleaved_sums : forall ps ops, interleaved ps ops ->
  granted ops = granted (concat ps) /\ taken ops = taken (concat ps) /\ Permutation ops (concat ps).
Proof.
  intros ps ops H. induction H as [ps H|before o p after ops H (G & T & P)].
  - assert (X : concat ps = []).
    { induction H as [|x l E H IH]; [reflexivity|]. subst x. exact IH. }
    rewrite X. auto.
  - rewrite concat_app in *. cbn [concat app] in *. rewrite granted_app in *. rewrite taken_app in *.
    split; [|split].
    + destruct o; cbn [granted] in *; rewrite G; lia.
    + destruct o; cbn [taken] in *; rewrite T; lia.
    + apply Permutation_cons_app. exact P.
Qed.

(** The value does not depend on the schedule. *)
Lemma schedule_independent : forall n ps ops, interleaved ps ops ->
  is_i32 (balance (Z.of_N (n mod 2 ^ 31)) (concat ps)) (snd (counter_run ops (counter_new n))).
Proof.
  intros n ps ops H. destruct (interleaved_sums ps ops H) as (G & T & _).
  replace (balance (Z.of_N (n mod 2 ^ 31)) (concat ps)) with (balance (Z.of_N (n mod 2 ^ 31)) ops)
    by (unfold balance; now rewrite G, T).
  apply counter_value.
Qed.

(** Each result, from the operations before it. *)
Lemma run_app : forall a b c,
  counter_run (a ++ b) c =
  (fst (counter_run a c) ++ fst (counter_run b (snd (counter_run a c))), snd (counter_run b (snd (counter_run a c)))).
Proof.
  induction a as [|o a IH]; intros b c; cbn [app counter_run].
  - cbn. now destruct (counter_run b c).
  - destruct (counter_step o c) as [r c']. rewrite IH. destruct (counter_run a c') as [rs c'']. reflexivity.
Qed.
Lemma results_length : forall ops c, length (fst (counter_run ops c)) = length ops.
Proof.
  induction ops as [|o ops IH]; intros c; [reflexivity|]. cbn [counter_run]. destruct (counter_step o c) as [r c'].
  specialize (IH c'). destruct (counter_run ops c'). cbn in *. now rewrite IH.
Qed.

Lemma counter_result : forall n pre o post,
  exists v, is_i32 (balance (Z.of_N (n mod 2 ^ 31)) pre) v /\
    nth_error (fst (counter_run (pre ++ o :: post) (counter_new n))) (length pre) =
    Some (match o with
          | CtDec | CtLoad => CtCount v
          | CtAdd _ => CtUnit
          | CtIsZero => CtBool (v =? 0)
          end).
Proof.
  intros n pre o post. exists (snd (counter_run pre (counter_new n))). split; [apply counter_value|].
  rewrite run_app. cbn [fst]. rewrite nth_error_app2 by (rewrite results_length; lia).
  rewrite results_length, Nat.sub_diag. cbn [counter_run].
  destruct o; cbn [counter_step counter_dec counter_load]; destruct (counter_run post _); reflexivity.
Qed.

(** ** Permits *)

Lemma taken_nonneg : forall ops, 0 <= taken ops.
Proof. induction ops as [|[] ops IH]; cbn [taken]; lia. Qed.
Lemma granted_nonneg : forall ops, 0 <= granted ops.
Proof. induction ops as [|[] ops IH]; cbn [granted]; lia. Qed.

(** All counts of a history fit in an [i32]. *)
Definition fits_i32 (init : Z) (ops : list counter_op) : Prop :=
  forall pre post, ops = pre ++ post -> - 2 ^ 31 <= balance init pre < 2 ^ 31.

Lemma fits_cons : forall z o ops, fits_i32 z (o :: ops) -> fits_i32 (balance z [o]) ops.
Proof.
  intros z o ops H pre post E. rewrite <- balance_cons. apply (H (o :: pre) post). now rewrite E.
Qed.
Lemma fits_head : forall z ops, fits_i32 z ops -> - 2 ^ 31 <= z < 2 ^ 31.
Proof. intros z ops H. specialize (H [] ops eq_refl). unfold balance in H. cbn [granted taken] in H. lia. Qed.

Lemma successes_step : forall o ops z, fits_i32 z (o :: ops) ->
  successes (o :: ops) (fst (counter_run (o :: ops) z)) =
  (match o with CtDec => if (0 <? z) then 1 else 0 | _ => 0 end) +
  successes ops (fst (counter_run ops (balance z [o]))).
Proof.
  intros o ops z F. cbn [counter_run].
  assert (E : snd (counter_step o z) = balance z [o]).
  { rewrite (step_balance o z z) by (symmetry; apply wrap_id; exact (fits_head _ _ F)).
    apply wrap_id. exact (fits_head _ _ (fits_cons _ _ _ F)). }
  destruct (counter_step o z) as [r c'] eqn:Es. cbn [snd] in E. subst c'.
  destruct (counter_run ops (balance z [o])) as [rs c'']. cbn [fst].
  destruct o; cbn [counter_step counter_dec] in Es; injection Es as <- _; cbn [successes]; lia.
Qed.

Lemma permits : forall ops z, fits_i32 z ops ->
  successes ops (fst (counter_run ops z)) <= Z.max 0 (z + granted ops) /\
  successes ops (fst (counter_run ops z)) <= taken ops /\
  0 <= successes ops (fst (counter_run ops z)).
Proof.
  induction ops as [|o ops IH]; intros z F.
  - cbn. lia.
  - rewrite successes_step by exact F. specialize (IH _ (fits_cons _ _ _ F)).
    set (s := successes ops (fst (counter_run ops (balance z [o])))) in *. clearbody s.
    pose proof (granted_nonneg ops) as G. unfold balance in IH.
    destruct o; cbn [granted taken] in *; try lia. destruct (Z.ltb_spec 0 z); lia.
Qed.

Lemma permits_exact : forall ops z, fits_i32 z ops -> granted ops = 0 -> 0 <= z ->
  successes ops (fst (counter_run ops z)) = Z.min (taken ops) z.
Proof.
  intros ops. assert (X : forall z, fits_i32 z ops -> granted ops = 0 ->
    successes ops (fst (counter_run ops z)) = Z.min (taken ops) (Z.max 0 z)).
  { induction ops as [|o ops IH]; intros z F G.
    - cbn. lia.
    - rewrite successes_step by exact F. specialize (IH _ (fits_cons _ _ _ F)).
      pose proof (taken_nonneg ops) as T. pose proof (granted_nonneg ops) as G'. unfold balance in *.
      destruct o as [|n| |]; cbn [granted taken] in *.
      + rewrite IH by lia. destruct (Z.ltb_spec 0 z); lia.
      + rewrite IH by lia. replace (z + (Z.of_N n + 0) - 0) with z by lia. lia.
      + rewrite IH by lia. replace (z + 0 - 0) with z by lia. lia.
      + rewrite IH by lia. replace (z + 0 - 0) with z by lia. lia. }
  intros z F G Hz. rewrite X by assumption. f_equal. lia.
Qed.

Lemma counter_new_range : forall n, 0 <= counter_new n < 2 ^ 31.
Proof. intros n. rewrite counter_new_value. apply of_mod31. Qed.

Lemma goes_negative : forall ops z, fits_i32 z ops -> z + granted ops < taken ops ->
  snd (counter_run ops z) < 0 /\ counter_is_zero (snd (counter_run ops z)) = false.
Proof.
  intros ops z F L.
  assert (E : snd (counter_run ops z) = balance z ops).
  { rewrite <- (wrap_id z) at 1 by exact (fits_head _ _ F). rewrite run_balance. apply wrap_id.
    apply (F ops []). now rewrite app_nil_r. }
  rewrite E. unfold balance, counter_is_zero. split; [lia|]. apply Z.eqb_neq. lia.
Qed.

Lemma odd_class : forall init sid, in_class init sid -> N.odd sid = Z.odd init.
Proof.
  intros init sid [_ P]. rewrite !Zmod_odd in P.
  assert (X : Z.odd (Z.of_N sid) = N.odd sid) by (now destruct sid as [|[p|p|]]).
  rewrite X in P. now destruct (N.odd sid), (Z.odd init).
Qed.
Lemma role_class : forall init sid, in_class init sid -> (sid <= 2 ^ 31 - 1)%N /\ N.odd sid = Z.odd init.
Proof. intros init sid H. split; [destruct H; lia|now apply odd_class]. Qed.
