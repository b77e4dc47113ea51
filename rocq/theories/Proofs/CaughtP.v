(** * Buffer lists after caught panics *)

From Verif Require Import Model.CaughtM Spec.Caught Proofs.BufP Proofs.BufGenP.

Section Same.
Context {T : Type} (ops : buf_ops T) (ha hc : nat -> T -> T).

(** A result and what is left, without what a panic leaves. *)
Definition merge {A} (x : oc A * buf_list T) : oc (A * buf_list T) :=
  match x with (Ret a, l) => Ret (a, l) | (Panic, _) => Panic | (Loop, _) => Loop end.

Lemma same_push : forall bd b l, merge (bc_push ops bd b l) =
  match bl_push ops bd b l with Ret l' => Ret (tt, l') | Panic => Panic | Loop => Loop end.
Proof. intros bd b l. unfold bc_push, bl_push. now destruct bd, (b_remaining ops b). Qed.

Lemma same_advance : forall l n, merge (bc_advance ops ha n l) =
  match bl_advance ops n l with Ret l' => Ret (tt, l') | Panic => Panic | Loop => Loop end.
Proof.
  induction l as [|b l IH]; intros [|n]; try reflexivity. cbn [bc_advance bl_advance].
  destruct (Nat.ltb (S n) (b_remaining ops b)).
  - now destruct (b_advance ops (S n) b).
  - destruct (b_advance ops (b_remaining ops b) b); try reflexivity. apply IH.
Qed.

Lemma same_put_take : forall c v fuel limit acc l, merge (bc_put_take ops ha fuel limit acc l) =
  put_take (BufOps (bl_remaining ops) (bl_chunk ops) (bl_advance ops) c v) fuel limit acc l.
Proof.
  intros c v. induction fuel as [|fuel IH]; intros limit acc l; cbn [bc_put_take put_take b_remaining b_chunk b_advance];
    destruct (Nat.min (bl_remaining ops l) limit); try reflexivity.
  set (s := firstn _ _). pose proof (same_advance l (length s)) as A.
  destruct (bc_advance ops ha (length s) l) as [[u| |] l']; cbn [merge] in A;
    destruct (bl_advance ops (length s) l); try discriminate; try reflexivity.
  injection A as A <-. apply IH.
Qed.

Lemma same_copy : forall fuel n l, merge (bc_copy_to_bytes ops ha hc fuel n l) = bl_copy_to_bytes ops fuel n l.
Proof.
  intros fuel n l.
  assert (Slow : merge (bc_copy_slow ops ha fuel n l) = bl_copy_slow ops fuel n l).
  { unfold bc_copy_slow, bl_copy_slow. destruct (Nat.leb n (bl_remaining ops l)); [apply same_put_take|reflexivity]. }
  destruct l as [|b l]; [exact Slow|]. unfold bc_copy_to_bytes, bl_copy_to_bytes.
  destruct (Nat.eqb (b_remaining ops b) n); [|destruct (Nat.ltb n (b_remaining ops b)); [|exact Slow]].
  - now destruct (b_copy_to_bytes ops n b) as [[x y]| |].
  - now destruct (b_copy_to_bytes ops n b) as [[x y]| |].
Qed.

Lemma same_step : forall bd fuel o l,
  let (a, l') := bc_step ops ha hc bd fuel o l in
  exists k, bl_run ops bd fuel [o] l = ([a], k) /\ (a <> ResPanic -> a <> ResLoop -> k = l').
Proof.
  intros bd fuel o l. destruct o as [b| |n|n]; cbn [bc_step bl_run].
  - pose proof (same_push bd b l) as A. destruct (bc_push ops bd b l) as [[u| |] l'], (bl_push ops bd b l);
      cbn [merge] in A; try discriminate; cbn [res_unit]; eexists; (split; [reflexivity|]); try congruence.
  - eexists. split; reflexivity.
  - pose proof (same_advance l n) as A. destruct (bc_advance ops ha n l) as [[u| |] l'], (bl_advance ops n l);
      cbn [merge] in A; try discriminate; cbn [res_unit]; eexists; (split; [reflexivity|]); try congruence.
  - pose proof (same_copy fuel n l) as A. destruct (bc_copy_to_bytes ops ha hc fuel n l) as [[u| |] l'],
      (bl_copy_to_bytes ops fuel n l) as [[x y]| |];
      cbn [merge] in A; try discriminate; cbn [res_bytes]; try (injection A as <- <-); eexists; (split; [reflexivity|]); try congruence.
Qed.

(** Asked for too much, [copy_to_bytes] touches nothing, whatever the buffers. *)
Lemma copy_untouched : forall fuel n l, (bl_remaining ops l < n)%nat ->
  bc_copy_to_bytes ops ha hc fuel n l = (Panic, l).
Proof.
  intros fuel n l H.
  assert (Slow : bc_copy_slow ops ha fuel n l = (Panic, l)).
  { unfold bc_copy_slow. now rewrite (proj2 (Nat.leb_gt _ _)) by lia. }
  destruct l as [|b l]; [exact Slow|]. cbn [bl_remaining fold_right] in H. unfold bc_copy_to_bytes.
  destruct (Nat.eqb_spec (b_remaining ops b) n); [lia|]. destruct (Nat.ltb_spec n (b_remaining ops b)); [lia|exact Slow].
Qed.
End Same.

Section Lawful.
Context {T : Type} (ops : buf_ops T) (repr : T -> bytes -> Prop) (law : lawful ops repr) (ha hc : nat -> T -> T).

Lemma advance_emptied : forall l ss n, Forall2 repr l ss -> (length (concat ss) < n)%nat ->
  bc_advance ops ha n l = (Panic, []).
Proof.
  intros l ss n H. revert n. induction H as [|b s l ss R H IH]; intros n L; (destruct n as [|n]; [lia|]); [reflexivity|].
  cbn [bc_advance concat] in *. rewrite app_length in L. rewrite (law_remaining _ _ law b s R).
  rewrite (proj2 (Nat.ltb_ge _ _)) by lia. pose proof (law_advance _ _ law b s (length s) R) as A.
  rewrite Nat.leb_refl in A. destruct A as (b' & -> & _). apply IH. lia.
Qed.

Lemma step_survives : forall bd fuel o o' l s, same_op repr o o' -> together repr l s ->
  (bd = Debug \/ solid (pushes [o'])) -> (length s <= fuel)%nat ->
  fst (bc_step ops ha hc bd fuel o l) = fst (survive_step bd o' s) /\
  together repr (snd (bc_step ops ha hc bd fuel o l)) (snd (survive_step bd o' s)).
Proof.
  intros bd fuel o o' l s O H P F. destruct O as [b t R| |n|n]; cbn [bc_step survive_step].
  - destruct t as [|x t].
    + destruct P as [->|P]; [|inversion P; congruence]. unfold bc_push. rewrite (law_remaining _ _ law b [] R).
      cbn [length fst snd res_unit]. auto.
    + destruct (gen_push ops repr law bd b (x :: t) l s R ltac:(discriminate) H) as [E H'].
      pose proof (same_push ops bd b l) as A. rewrite E in A.
      destruct (bc_push ops bd b l) as [[u| |] l']; cbn [merge] in A; try discriminate. injection A as A ->.
      cbn [res_unit fst snd]. destruct bd; auto.
  - cbn [fst snd]. now rewrite (together_bytes ops repr law l s H).
  - pose proof (together_advance ops repr law l s n H) as A. pose proof (same_advance ops ha l n) as B.
    destruct (Nat.leb_spec n (length s)) as [L|L].
    + destruct A as (l1 & E & H1). rewrite E in B.
      destruct (bc_advance ops ha n l) as [[u| |] l']; cbn [merge] in B; try discriminate. injection B as B ->.
      cbn [res_unit fst snd]. auto.
    + destruct H as (ss & H & _ & <-). rewrite (advance_emptied l ss n H L). cbn [res_unit fst snd].
      split; [reflexivity|]. rewrite skipn_all2 by lia. exists []. repeat constructor.
  - pose proof (gen_copy ops repr law fuel n l s H F) as A. pose proof (same_copy ops ha hc fuel n l) as B.
    destruct (Nat.leb_spec n (length s)) as [L|L].
    + destruct A as (l1 & E & H1). rewrite E in B.
      destruct (bc_copy_to_bytes ops ha hc fuel n l) as [[u| |] l']; cbn [merge] in B; try discriminate.
      injection B as -> ->. cbn [res_bytes fst snd]. auto.
    + rewrite (copy_untouched ops ha hc fuel n l) by (rewrite (together_bytes ops repr law l s H); lia).
      cbn [res_bytes fst snd]. auto.
Qed.

Lemma survive_no_loop : forall bd o s, fst (survive_step bd o s) <> ResLoop.
Proof.
  intros bd o s. destruct o as [[|x b]| |n|n]; cbn; try (destruct bd; discriminate); try discriminate;
    destruct (Nat.leb n (length s)); discriminate.
Qed.
Lemma survive_length : forall bd o s, (length (snd (survive_step bd o s)) <= length s + length (concat (pushes [o])))%nat.
Proof.
  intros bd o s. destruct o as [[|x b]| |n|n]; cbn [survive_step]; try (destruct bd); cbn [snd pushes flat_map concat app];
    try destruct (Nat.leb n (length s)); cbn [snd]; rewrite ?skipn_length, ?app_length; cbn [length]; rewrite ?app_length; lia.
Qed.

Lemma run_survives : forall bd fuel h hs l s, Forall2 (same_op repr) h hs -> together repr l s ->
  (bd = Debug \/ solid (pushes hs)) -> (length s + length (concat (pushes hs)) <= fuel)%nat ->
  fst (bc_run ops ha hc bd fuel h l) = fst (survive_run bd hs s) /\
  together repr (snd (bc_run ops ha hc bd fuel h l)) (snd (survive_run bd hs s)).
Proof.
  intros bd fuel h hs l s X. revert l s. induction X as [|o o' h hs O X IH]; intros l s H P F; [auto|].
  assert (Ep : pushes (o' :: hs) = pushes [o'] ++ pushes hs).
  { unfold pushes. cbn [flat_map]. now rewrite app_nil_r. }
  rewrite Ep in P, F. rewrite concat_app, app_length in F.
  assert (P1 : bd = Debug \/ solid (pushes [o'])) by (destruct P as [|P]; [auto|right; now apply Forall_app in P]).
  assert (P2 : bd = Debug \/ solid (pushes hs)) by (destruct P as [|P]; [auto|right; now apply Forall_app in P]).
  destruct (step_survives bd fuel o o' l s O H P1) as [E H']; [lia|].
  pose proof (survive_no_loop bd o' s) as NL. pose proof (survive_length bd o' s) as Ln.
  cbn [bc_run survive_run]. destruct (bc_step ops ha hc bd fuel o l) as [a l1], (survive_step bd o' s) as [a' s1].
  cbn [fst snd] in *. subst a'. destruct (IH l1 s1 H' P2) as [E2 H2]; [lia|].
  destruct a; try congruence; destruct (bc_run ops ha hc bd fuel h l1), (survive_run bd hs s1); cbn [fst snd] in *; subst; auto.
Qed.
End Lawful.
