(** * Properties of comparing versions: C116 *)

From Verif Require Import Model.VersionM Spec.VersionOrd.
From Verif Require Import Proofs.VersionP.
Open Scope N_scope.

(** ** C116: the operators, the larger and the smaller, clamping and sorting *)

(** The operators are those of the order by major number and then minor number. *)
Theorem C116_operators : forall a b,
  (version_lt a b = true <-> version_before a b) /\
  (version_le a b = true <-> not_after a b) /\
  (version_gt a b = true <-> version_before b a) /\
  (version_ge a b = true <-> not_after b a) /\
  (version_eq a b = true <-> a = b).
Proof. exact operators. Qed.
Print Assumptions C116_operators.

(** [max] and [min] return one of the two, which no other comes after or before. *)
Theorem C116_max_min : forall a b,
  (version_max a b = a \/ version_max a b = b) /\ not_after a (version_max a b) /\ not_after b (version_max a b) /\
  (version_min a b = a \/ version_min a b = b) /\ not_after (version_min a b) a /\ not_after (version_min a b) b.
Proof. exact max_min. Qed.
Print Assumptions C116_max_min.

(** [clamp] returns the version if it lies between the bounds and the bound that it passes otherwise; it panics if and
    only if the bounds are the wrong way round. *)
Theorem C116_clamp : forall v lo hi,
  (not_after lo hi -> exists r, version_clamp v lo hi = Ret r /\ between lo hi r /\
     (between lo hi v -> r = v) /\ (version_before v lo -> r = lo) /\ (version_before hi v -> r = hi)) /\
  (version_before hi lo -> version_clamp v lo hi = Panic).
Proof. exact clamp. Qed.
Print Assumptions C116_clamp.

(** However versions are sorted, stably or not, the outcome is the same: each comes no later than all that follow. *)
Theorem C116_sorting : forall l l1 l2,
  Permutation l l1 -> Permutation l l2 ->
  Sorted (fun a b => version_cmp a b <> Gt) l1 -> Sorted (fun a b => version_cmp a b <> Gt) l2 ->
  l1 = l2 /\ StronglySorted not_after l1.
Proof. exact sort_unique. Qed.
Print Assumptions C116_sorting.

Example C116_example :
  version_max (Version 1 10) (Version 2 0) = Version 2 0 /\ version_min (Version 1 10) (Version 1 9) = Version 1 9 /\
  version_clamp (Version 1 7) (Version 1 9) (Version 2 0) = Ret (Version 1 9) /\
  version_clamp (Version 2 1) (Version 1 9) (Version 2 0) = Ret (Version 2 0) /\
  version_clamp (Version 1 65535) (Version 1 9) (Version 2 0) = Ret (Version 1 65535) /\
  version_clamp (Version 1 9) (Version 2 0) (Version 1 9) = Panic /\
  not_after (Version 1 9) (Version 2 0) /\ version_before (Version 1 7) (Version 1 9) /\
  version_before (Version 2 0) (Version 2 1) /\ between (Version 1 9) (Version 2 0) (Version 1 65535).
Proof. unfold between, not_after, version_before. cbn. repeat split; try (right; lia); lia. Qed.

Example C116_sorting_example :
  let l := [Version 2 0; Version 1 10; Version 1 9] in
  let l1 := [Version 1 9; Version 1 10; Version 2 0] in
  Permutation l l1 /\ Sorted (fun a b => version_cmp a b <> Gt) l1.
Proof.
  cbn zeta. split.
  - change [Version 1 9; Version 1 10; Version 2 0] with (rev [Version 2 0; Version 1 10; Version 1 9]).
    apply Permutation_rev.
  - repeat constructor; discriminate.
Qed.
