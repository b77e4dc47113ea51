(** * Proofs about comparing versions *)

From Verif Require Import Model.VersionM Spec.VersionOrd Proofs.BuildP.
Open Scope N_scope.

Lemma vb_irrefl : forall a, ~ version_before a a.
Proof. intros [x y]. unfold version_before. cbn. lia. Qed.

Lemma vb_trans : forall a b c, version_before a b -> version_before b c -> version_before a c.
Proof. intros [x y] [z w] [u v]. unfold version_before. cbn. lia. Qed.

Lemma na_trans : forall a b c, not_after a b -> not_after b c -> not_after a c.
Proof.
  intros a b c [-> | H] [<- | K]; unfold not_after; auto.
  right. eapply vb_trans; eauto.
Qed.

Lemma na_antisym : forall a b, not_after a b -> not_after b a -> a = b.
Proof.
  intros a b [E | H] [K | K]; auto. exfalso. apply (vb_irrefl a). eapply vb_trans; eauto.
Qed.

Lemma na_vb : forall a b, not_after a b -> version_before b a -> False.
Proof.
  intros a b [-> | H] K; [apply (vb_irrefl _ K)|]. apply (vb_irrefl a). eapply vb_trans; eauto.
Qed.

Lemma operators : forall a b,
  (version_lt a b = true <-> version_before a b) /\
  (version_le a b = true <-> not_after a b) /\
  (version_gt a b = true <-> version_before b a) /\
  (version_ge a b = true <-> not_after b a) /\
  (version_eq a b = true <-> a = b).
Proof.
  intros a b. pose proof (version_cmp_spec a b) as H.
  assert (E : version_eq a b = true <-> a = b).
  { unfold version_eq. destruct a as [x y], b as [z w]. cbn [v_major v_minor].
    rewrite Bool.andb_true_iff, !N.eqb_eq. split; [intros [-> ->]; reflexivity | intros K; injection K; auto]. }
  unfold version_lt, version_le, version_gt, version_ge, version_partial_cmp.
  destruct (version_cmp a b); unfold not_after.
  - subst b. pose proof (vb_irrefl a). repeat split; auto; try discriminate; try contradiction; intros; tauto.
  - assert (N : ~ not_after b a) by (intro K; eapply na_vb; eauto). unfold not_after in N.
    repeat split; auto; try discriminate; try tauto; apply E.
  - assert (N : ~ not_after a b) by (intro K; eapply na_vb; eauto). unfold not_after in N.
    repeat split; auto; try discriminate; try tauto; apply E.
Qed.

Lemma max_min : forall a b,
  (version_max a b = a \/ version_max a b = b) /\ not_after a (version_max a b) /\ not_after b (version_max a b) /\
  (version_min a b = a \/ version_min a b = b) /\ not_after (version_min a b) a /\ not_after (version_min a b) b.
Proof.
  intros a b. pose proof (version_cmp_spec a b) as H. unfold version_max, version_min, not_after.
  destruct (version_cmp a b); subst; repeat split; auto.
Qed.

Lemma clamp : forall v lo hi,
  (not_after lo hi -> exists r, version_clamp v lo hi = Ret r /\ between lo hi r /\
     (between lo hi v -> r = v) /\ (version_before v lo -> r = lo) /\ (version_before hi v -> r = hi)) /\
  (version_before hi lo -> version_clamp v lo hi = Panic).
Proof.
  intros v lo hi. destruct (operators lo hi) as (_ & L & _).
  destruct (operators v lo) as (A & _ & _ & A' & _). destruct (operators v hi) as (_ & _ & B & _).
  pose proof (version_cmp_spec v lo) as C1. pose proof (version_cmp_spec v hi) as C2.
  unfold version_clamp. split.
  - intros K. rewrite (proj2 L K). eexists. split; [reflexivity|].
    destruct (version_lt v lo) eqn:E1.
    + pose proof (proj1 A eq_refl) as V. repeat split; auto; unfold not_after; auto.
      * intros [P _]. exfalso. eapply na_vb; eauto.
      * intros P. exfalso. eapply na_vb; [apply K|]. eapply vb_trans; eauto.
    + assert (NV : ~ version_before v lo) by (intro P; apply A in P; discriminate).
      destruct (version_gt v hi) eqn:E2.
      * pose proof (proj1 B eq_refl) as V. repeat split; auto; unfold not_after; auto.
        -- intros [_ P]. exfalso. eapply na_vb; eauto.
        -- intros P. contradiction.
      * assert (NH : ~ version_before hi v) by (intro P; apply B in P; discriminate).
        repeat split; auto; try contradiction; unfold not_after.
        -- destruct (version_cmp v lo); auto. contradiction.
        -- destruct (version_cmp v hi); auto. contradiction.
  - intros K. destruct (version_le lo hi) eqn:E; auto. exfalso. eapply na_vb; [apply L; reflexivity | apply K].
Qed.

Lemma sorted_unique : forall l1 l2,
  StronglySorted (fun a b => version_le a b = true) l1 -> StronglySorted (fun a b => version_le a b = true) l2 ->
  Permutation l1 l2 -> l1 = l2.
Proof.
  induction l1 as [|x l1 IH]; intros l2 S1 S2 P.
  - apply Permutation_nil in P. auto.
  - destruct l2 as [|y l2]; [apply Permutation_sym, Permutation_nil in P; discriminate|].
    apply StronglySorted_inv in S1. destruct S1 as [S1 F1].
    apply StronglySorted_inv in S2. destruct S2 as [S2 F2].
    rewrite Forall_forall in F1, F2.
    assert (x = y).
    { assert (Ix : In x (y :: l2)) by (apply (Permutation_in _ P); left; auto).
      assert (Iy : In y (x :: l1)) by (apply (Permutation_in _ (Permutation_sym P)); left; auto).
      destruct Ix as [|Ix]; auto. destruct Iy as [|Iy]; auto.
      destruct (operators x y) as (_ & Lxy & _). destruct (operators y x) as (_ & Lyx & _).
      apply na_antisym; [apply Lxy, F1, Iy | apply Lyx, F2, Ix]. }
    subst y. f_equal. apply IH; auto. eapply Permutation_cons_inv; eauto.
Qed.

Lemma sorted_by_cmp : forall l, Sorted (fun a b => version_cmp a b <> Gt) l ->
  StronglySorted not_after l.
Proof.
  intros l H. apply Sorted_StronglySorted.
  - intros a b c. apply na_trans.
  - induction H as [|a l H IH R]; constructor; auto.
    destruct R; constructor. pose proof (version_cmp_spec a b) as C.
    unfold not_after. destruct (version_cmp a b); auto. congruence.
Qed.

Lemma sort_unique : forall l l1 l2,
  Permutation l l1 -> Permutation l l2 ->
  Sorted (fun a b => version_cmp a b <> Gt) l1 -> Sorted (fun a b => version_cmp a b <> Gt) l2 ->
  l1 = l2 /\ StronglySorted not_after l1.
Proof.
  intros l l1 l2 P1 P2 S1 S2. apply sorted_by_cmp in S1. apply sorted_by_cmp in S2. split; auto.
  assert (W : forall m, StronglySorted not_after m -> StronglySorted (fun a b => version_le a b = true) m).
  { intros m Hm. induction Hm as [|a m Hm IH F]; constructor; auto.
    eapply Forall_impl; [|exact F]. intros b K. destruct (operators a b) as (_ & L & _). apply L. exact K. }
  apply sorted_unique; auto. eapply Permutation_trans; [apply Permutation_sym|]; eauto.
Qed.
