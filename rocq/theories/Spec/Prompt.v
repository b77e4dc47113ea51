(** * Specification of runs in which the watchdog is not kept waiting for long

    Independent of the model: uses only its data types. *)

From Verif Require Export Spec.System Model.SystemM.

Section Prompt.
  Context {S : Type}.
  (** [after a] is how things are after [a].  The watchdog is run within [delay] of being spawned, of the time
      it sleeps until, and of its line in the log: that is, [b], in which it is not run, is over by then. *)
  Definition prompt (after : list sys_action -> @system S) (delay : N) (acts : list sys_action) : Prop :=
    forall a b c, acts = a ++ b ++ c -> ~ In SysWatch b ->
    match sy_watch (after a) with
    | WStart | WClose => elapsed b <= delay
    | WSleep until => sy_now (after a) + elapsed b <= N.max until (sy_now (after a)) + delay
    | WDone => True
    end.
End Prompt.
(** The longest it can take. *)
Definition longest_wait (timeout delay : N) : N := N.max (2 * timeout + 2 * delay) (timeout + 3 * delay).
