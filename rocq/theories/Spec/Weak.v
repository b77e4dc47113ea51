(** * Specification of sequential consistency

    Independent of the model: uses only its data types. *)

From Coq Require Export Permutation.
From Verif Require Export Spec.Socket.

(** [i] comes somewhere before [j]. *)
Definition precedes {A : Type} (i j : A) (l : list A) : Prop :=
  exists a b c, l = a ++ i :: b ++ j :: c.

(** [l] lists the numbers below [n], each once, and keeps to the order [r]. *)
Definition linearises (n : nat) (r : nat -> nat -> Prop) (l : list nat) : Prop :=
  Permutation l (seq 0 n) /\ forall i j, (i < n)%nat -> (j < n)%nat -> r i j -> precedes i j l.
