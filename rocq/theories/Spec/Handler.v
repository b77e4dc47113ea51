(** * Specification of the request handler

    Independent of the model: uses only its data types. *)

From Verif Require Export Model.HandlerTypes.

Definition arrivals (tr : list handler_event) : list nat :=
  flat_map (fun e => match e with HvArrive k => [k] | _ => [] end) tr.
Definition sets (tr : list handler_event) : list nat :=
  flat_map (fun e => match e with HvSet k => [k] | _ => [] end) tr.
Definition returns (tr : list handler_event) : list nat :=
  flat_map (fun e => match e with HvReturn k => [k] | _ => [] end) tr.
Definition dropped (tr : list handler_event) : list nat :=
  flat_map (fun e => match e with HvDrop k => [k] | _ => [] end) tr.
Definition cancelled (tr : list handler_event) : list nat :=
  flat_map (fun e => match e with HvCancel k => [k] | _ => [] end) tr.
Definition memb (k : nat) (l : list nat) : bool := existsb (Nat.eqb k) l.
(** Those that asked for the lock and have not been dropped, in the order in which they asked. *)
Definition in_line (tr : list handler_event) : list nat :=
  filter (fun k => negb (memb k (cancelled tr))) (arrivals tr).
(** The handler in place: the last one set, at first the dummy. *)
Definition in_place (tr : list handler_event) : nat := last (sets tr) 0%nat.
