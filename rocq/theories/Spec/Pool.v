(** * Specification of the worker threads

    Independent of the model: uses only its data types. *)

From Verif Require Export Spec.System Model.PoolTypes.

(** What the documentation of [connection_status] asks: every stream begins with a status, at once. *)
Definition always_ready (acts : list pool_action) : Prop := forall i, ~ In (PStep i false) acts.
Definition always_some {S : Type} (status : S -> option connection_status) : Prop := forall s, status s <> None.

(** The actions of threads outside the runtime. *)
Definition outside (acts : list pool_action) : list action :=
  flat_map (fun a => match a with POut a' => [a'] | _ => [] end) acts.
