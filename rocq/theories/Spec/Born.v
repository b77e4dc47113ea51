(** * Specification of how a machine is made

    Independent of the model: uses only its data types. *)

From Verif Require Export Spec.Life Model.BornTypes.

(** What happens once there is a machine. *)
Definition lives (acts : list born_action) : list life_action :=
  flat_map (fun a => match a with Born a' => [a'] | _ => [] end) acts.
(** Time passes, the future is neither polled nor dropped. *)
Definition waits (acts : list born_action) : Prop := forall a, In a acts -> exists a', a = Born a'.

(** Without a timer, running the watchdog drops it. *)
Definition stops_watch (a : life_action) : life_action :=
  match a with LifeWatch => LifeCancelWatch | _ => a end.

Section Events.
  Context {E : Type}.
  (** A task that panics and one that is dropped hold no machine afterwards. *)
  Definition erased (e : born_event E) : born_event E :=
    match e with BornWatchPanicked => BornSees LifeWatchCancelled | _ => e end.
  (** The events of the machine. *)
  Definition of_machine (tr : list (born_event E)) : list (sys_event E) :=
    of_system (flat_map (fun e => match e with BornSees e' => [e'] | _ => [] end) tr).
End Events.
