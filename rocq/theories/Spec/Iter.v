(** * Specification of iterators

    Independent of the model. *)

From Verif Require Export Spec.Chunk.

(** Asked for one item after the other, the iterator gives those of the list and then says that there are no more. *)
Inductive gives {A X : Type} (next : A -> option X * A) : A -> list X -> Prop :=
| Gives_end : forall it it', next it = (None, it') -> gives next it []
| Gives_item : forall it x it' l, next it = (Some x, it') -> gives next it' l -> gives next it (x :: l).

(** The last item of a list. *)
Definition last_of {X : Type} (l : list X) : option X := nth_error (rev l) 0.
(** Every [s]-th item from the first. *)
Definition every {X : Type} (s : nat) (l : list X) : list X :=
  flat_map (fun i => match nth_error l i with Some x => if Nat.eqb (i mod s) 0 then [x] else [] | None => [] end) (seq 0 (length l)).
(** The items with their numbers. *)
Definition numbered {X : Type} (l : list X) : list (nat * X) := combine (seq 0 (length l)) l.
