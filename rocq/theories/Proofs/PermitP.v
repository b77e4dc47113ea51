(** * Permits beyond 32 bits *)

From Coq Require Import Lia.
From Verif Require Import Model.SocketM Spec.Ids Proofs.SidP.
Local Open Scope Z_scope.

Lemma is_i32_shift : forall z k v, - 2 ^ 31 <= v < 2 ^ 31 -> v = z + 2 ^ 32 * k -> is_i32 z v.
Proof. intros z k v R ->. split; [exact R|]. replace (z + 2 ^ 32 * k - z) with (k * 2 ^ 32) by lia. apply Z_mod_mult. Qed.

Lemma dec_answer : forall n pre post k,
  let v := balance (Z.of_N (n mod 2 ^ 31)) pre + 2 ^ 32 * k in
  - 2 ^ 31 <= v < 2 ^ 31 ->
  nth_error (fst (counter_run (pre ++ CtDec :: post) (counter_new n))) (length pre) = Some (CtCount v).
Proof.
  intros n pre post k v R. destruct (counter_result n pre CtDec post) as (w & W & ->).
  pose proof (is_i32_shift (balance (Z.of_N (n mod 2 ^ 31)) pre) k v R eq_refl) as V.
  now rewrite (i32_unique _ _ W), (i32_unique _ _ V).
Qed.

Lemma exact_count : forall n pre post,
  let b := balance (Z.of_N (n mod 2 ^ 31)) pre in
  nth_error (fst (counter_run (pre ++ CtDec :: post) (counter_new n))) (length pre) = Some (CtCount b) <->
  - 2 ^ 31 <= b < 2 ^ 31.
Proof.
  intros n pre post b. split.
  - destruct (counter_result n pre CtDec post) as (w & (R & _) & ->). intros H. injection H as ->. exact R.
  - intros R. replace b with (b + 2 ^ 32 * 0) by lia. apply (dec_answer n pre post 0). fold b. lia.
Qed.

Lemma permits_lost : forall n pre post,
  let b := balance (Z.of_N (n mod 2 ^ 31)) pre in
  2 ^ 31 <= b < 2 ^ 32 ->
  exists v, v < 0 /\
  nth_error (fst (counter_run (pre ++ CtDec :: post) (counter_new n))) (length pre) = Some (CtCount v).
Proof.
  intros n pre post b R. exists (b + 2 ^ 32 * (-1)). split; [lia|]. apply dec_answer. fold b. lia.
Qed.

Lemma permits_lost_two : forall a b post, (a < 2 ^ 31)%N -> (b < 2 ^ 31)%N -> (2 ^ 31 <= a + b)%N ->
  exists v, v < 0 /\ nth_error (fst (counter_run (CtAdd a :: CtAdd b :: CtDec :: post) (counter_new 0))) 2 = Some (CtCount v).
Proof.
  intros a b post A B AB. apply (permits_lost 0 [CtAdd a; CtAdd b] post).
  unfold balance. change (Z.of_N (0 mod 2 ^ 31)) with 0. cbn [granted taken]. lia.
Qed.

Lemma decs_balance : forall z m, balance z (repeat CtDec m) = z - Z.of_nat m.
Proof.
  intros z m. unfold balance. induction m as [|m IH]; [cbn; lia|]. cbn [repeat granted taken]. lia.
Qed.

Lemma decs_split : forall j m, (j < m)%nat -> repeat CtDec m = repeat CtDec j ++ CtDec :: repeat CtDec (m - j - 1).
Proof.
  intros j m H. replace m with (j + S (m - j - 1))%nat at 1 by lia. now rewrite repeat_app.
Qed.

Lemma permits_invented : forall n m j, (j < m)%nat ->
  let i := Z.of_N (n mod 2 ^ 31) in
  i + 2 ^ 31 < Z.of_nat j < i + 2 ^ 32 ->
  nth_error (fst (counter_run (repeat CtDec m) (counter_new n))) j = Some (CtCount (i + 2 ^ 32 - Z.of_nat j)) /\
  0 < i + 2 ^ 32 - Z.of_nat j.
Proof.
  intros n m j H i R. split; [|lia]. rewrite (decs_split j m H).
  pose proof (dec_answer n (repeat CtDec j) (repeat CtDec (m - j - 1)) 1) as X. cbv zeta in X.
  rewrite repeat_length, decs_balance in X. rewrite X; [f_equal; f_equal; unfold i; lia|fold i; lia].
Qed.
