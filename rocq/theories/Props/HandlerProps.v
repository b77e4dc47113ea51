(** * Properties of the request handler: C94 *)

From Verif Require Import Model.HandlerM Spec.Handler Proofs.HandlerP.

(** ** C94: setting the request handler *)

(** At any moment the handler in place is that of the call which put its own in place last,
    and the dummy if there was none. *)
Theorem C94_current : forall acts tr s,
  handler_exec acts handler_init = (tr, s) -> hs_current s = in_place tr.
Proof. exact current_ok. Qed.
Print Assumptions C94_current.

(** Every call does so at most once, one call at a time: the next handler is put in place only
    when the call before has returned. *)
Theorem C94_exclusive : forall acts tr s,
  handler_exec acts handler_init = (tr, s) ->
  NoDup (sets tr) /\ exists busy, sets tr = returns tr ++ busy /\ (length busy <= 1)%nat.
Proof. exact exclusive_ok. Qed.
Print Assumptions C94_exclusive.

(** The calls take effect in the order in which they asked for the lock. *)
Theorem C94_fifo : forall acts tr s,
  handler_exec acts handler_init = (tr, s) ->
  exists waiting, in_line tr = sets tr ++ waiting.
Proof. exact fifo_ok. Qed.
Print Assumptions C94_fifo.

(** A call whose future is dropped early has no effect. *)
Theorem C94_cancelled : forall acts tr s k,
  handler_exec acts handler_init = (tr, s) -> In k (cancelled tr) -> ~ In k (sets tr).
Proof. exact cancelled_ok. Qed.
Print Assumptions C94_cancelled.

(** No handler is dropped twice, and the dropped ones are those that were replaced and those
    whose call was dropped early; in particular the one in place is alive. *)
Theorem C94_drops : forall acts tr s,
  handler_exec acts handler_init = (tr, s) ->
  NoDup (dropped tr) /\
  forall h, In h (dropped tr) <->
    (h <> hs_current s /\ (h = 0%nat \/ In h (sets tr))) \/ In h (cancelled tr).
Proof. exact drops_ok. Qed.
Print Assumptions C94_drops.

(** No wakeup is lost: whoever is first in line and has not returned is being polled, or has
    the lock and has been woken; once its task has run it has returned. *)
Theorem C94_wakeup : forall acts tr s k rest,
  handler_exec acts handler_init = (tr, s) -> in_line tr = returns tr ++ k :: rest ->
  (hs_calls s k = CHolding \/ hs_calls s k = CAssigned \/ (hs_calls s k = CQueued true /\ In (HvWake k) tr)) /\
  exists ev s', handler_exec [HPoll k; HRun k; HRun k] s = (ev, s') /\
    returns ev = [k] /\ in_line (tr ++ ev) = in_line tr.
Proof. exact turn_ok. Qed.
Print Assumptions C94_wakeup.

(** There is always such a rest of the line, and letting its tasks run one after the other
    brings every call in it to its end, whatever was dropped before. *)
Theorem C94_drain : forall acts tr s,
  handler_exec acts handler_init = (tr, s) ->
  exists rest, in_line tr = returns tr ++ rest /\
    exists ev s', handler_exec (flat_map (fun k => [HPoll k; HRun k; HRun k]) rest) s = (ev, s') /\
      returns (tr ++ ev) = in_line tr /\ in_line (tr ++ ev) = in_line tr.
Proof.
  intros acts tr s H. destruct (line_returns acts tr s H) as [rest E]. exists rest.
  split; [exact E|exact (drain_ok rest acts tr s H E)].
Qed.
Print Assumptions C94_drain.

(** Four calls: 1 gets the lock, 2, 3 and 4 wait; 2 is dropped while it waits and 3 after the
    lock was given to it, which hands it on to 4. *)
Definition handler_run : list handler_action :=
  [HStart 1; HStart 2; HStart 3; HStart 4; HPoll 1; HPoll 2; HPoll 3; HPoll 4;
   HPoll 3; HCancel 2; HRun 1; HRun 1; HCancel 3]%nat.
Example C94_example :
  let (tr, s) := handler_exec handler_run handler_init in
  tr = [HvArrive 1; HvArrive 2; HvArrive 3; HvArrive 4; HvDrop 2; HvCancel 2;
        HvDrop 0; HvSet 1; HvWake 3; HvReturn 1; HvWake 4; HvDrop 3; HvCancel 3]%nat
  /\ hs_current s = 1%nat /\ in_line tr = [1; 4]%nat /\ returns tr = [1%nat]
  /\ hs_calls s 4 = CQueued true /\ hs_free s = false
  /\ fst (handler_exec [HPoll 4; HRun 4; HRun 4]%nat s) = [HvDrop 1; HvSet 4; HvReturn 4]%nat
  /\ hs_free (snd (handler_exec [HPoll 4; HRun 4; HRun 4]%nat s)) = true.
Proof. vm_compute. repeat split. Qed.
