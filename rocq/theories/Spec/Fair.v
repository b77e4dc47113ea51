(** * Specification of fair runs of a runtime

    Independent of the model: uses only its data types.  A run has no end: [acts n] is what happens as the
    [n]th, [st n] is how things are before it. *)

From Verif Require Export Spec.Pool Model.PoolM.

(** The first [n] of what happens. *)
Definition begun {A : Type} (acts : nat -> A) (n : nat) : list A := map acts (seq 0 n).
(** The time that passes. *)
Definition passed (acts : list pool_action) : N :=
  fold_right (fun a t => match a with PElapse d => d + t | _ => t end) 0 acts.

(** A worker with nothing to do; a watchdog that is due - just spawned, or its timer has expired - but is on no worker. *)
Definition idle {S : Type} (w : nat) (p : @pool S) : Prop := exists i, (i < w)%nat /\ po_busy p i = None.
Definition waits {S : Type} (w : nat) (p : @pool S) : Prop :=
  (forall i, (i < w)%nat -> po_busy p i <> Some TWatch) /\
  (sy_watch (po_sys p) = WStart \/ exists u, sy_watch (po_sys p) = WSleep u /\ u <= sy_now (po_sys p)).

(** No worker stops, and time goes on for ever. *)
Definition goes_on (w : nat) (acts : nat -> pool_action) : Prop :=
  (forall i n, (i < w)%nat -> exists m ready, (n <= m)%nat /\ acts m = PStep i ready) /\
  (forall t, exists n, t <= passed (begun acts n)).
(** If from some time on there is an idle worker whenever the watchdog waits, it does not wait for ever. *)
Definition weakly_fair {S : Type} (w : nat) (st : nat -> @pool S) : Prop :=
  forall n, (forall m, (n <= m)%nat -> waits w (st m) -> idle w (st m)) -> exists m, (n <= m)%nat /\ ~ waits w (st m).
(** It does not even if that is so only again and again. *)
Definition strongly_fair {S : Type} (w : nat) (st : nat -> @pool S) : Prop :=
  forall n, (forall k, (n <= k)%nat -> exists m, (k <= m)%nat /\ (waits w (st m) -> idle w (st m))) ->
    exists m, (n <= m)%nat /\ ~ waits w (st m).
