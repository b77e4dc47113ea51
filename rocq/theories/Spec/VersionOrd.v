(** * Specification of the order of versions

    Independent of the model: uses only its data types and [version_before] of [Spec.Build]. *)

From Coq Require Export Sorting.Sorted Sorting.Permutation.
From Verif Require Export Spec.Build.

(** Not after: the versions that are the same or come before. *)
Definition not_after (a b : version) : Prop := a = b \/ version_before a b.

(** Somewhere between two versions, the two included. *)
Definition between (lo hi v : version) : Prop := not_after lo v /\ not_after v hi.
