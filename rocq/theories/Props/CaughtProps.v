(** * Properties of buffer lists after caught panics: C108 *)

From Verif Require Import Model.CaughtM Spec.Caught.
From Verif Require Import Proofs.CaughtP.

(** ** C108: what a panic leaves *)

(** The operations are those of C27 to C31 wherever these say what is left. *)
Theorem C108_same : forall T (ops : buf_ops T) ha hc bd fuel o l,
  let (a, l') := bc_step ops ha hc bd fuel o l in
  exists k, bl_run ops bd fuel [o] l = ([a], k) /\ (a <> ResPanic -> a <> ResLoop -> k = l').
Proof. exact (@same_step). Qed.
Print Assumptions C108_same.

(** A caller that catches every panic sees one queue of bytes throughout. *)
Theorem C108_history : forall T (ops : buf_ops T) repr ha hc bd fuel h hs l s, lawful ops repr ->
  Forall2 (same_op repr) h hs -> together repr l s -> bd = Debug \/ solid (pushes hs) ->
  (length s + length (concat (pushes hs)) <= fuel)%nat ->
  fst (bc_run ops ha hc bd fuel h l) = fst (survive_run bd hs s) /\
  together repr (snd (bc_run ops ha hc bd fuel h l)) (snd (survive_run bd hs s)).
Proof. exact (fun T ops repr ha hc bd fuel h hs l s law => run_survives ops repr law ha hc bd fuel h hs l s). Qed.
Print Assumptions C108_history.

(** [advance] too far leaves no buffer at all, also of lists with empty buffers in them. *)
Theorem C108_advance : forall T (ops : buf_ops T) repr ha l ss n, lawful ops repr ->
  Forall2 repr l ss -> (length (concat ss) < n)%nat -> bc_advance ops ha n l = (Panic, []).
Proof. exact (fun T ops repr ha l ss n law => advance_emptied ops repr law ha l ss n). Qed.
Print Assumptions C108_advance.

(** [copy_to_bytes] of too much leaves the list as it was, whatever its buffers do. *)
Theorem C108_copy : forall T (ops : buf_ops T) ha hc fuel n l, (bl_remaining ops l < n)%nat ->
  bc_copy_to_bytes ops ha hc fuel n l = (Panic, l).
Proof. exact (@copy_untouched). Qed.
Print Assumptions C108_copy.

(** Three buffers: a copy and a push that are refused, an [advance] that loses the six bytes, and the list in use again. *)
Definition cx (l : list N) : bytes := map n2b l.
Example C108_example :
  bc_run flat (fun _ b => b) (fun _ b => b) Debug 9
    [OpCopy 7; OpRemaining; OpPush []; OpCopy 2; OpAdvance 5; OpRemaining; OpAdvance 1; OpPush (cx [7; 8]); OpCopy 1]
    [cx [1; 2; 3]; cx [4]; cx [5; 6]] =
  ([ResPanic; ResNum 6; ResPanic; ResBytes (cx [1; 2]); ResPanic; ResNum 0; ResPanic; ResUnit; ResBytes (cx [7])], [cx [8]]) /\
  survive_run Debug [OpCopy 7; OpPush []; OpAdvance 7; OpPush (cx [9])] (cx [1; 2; 3; 4; 5; 6]) =
    ([ResPanic; ResPanic; ResPanic; ResUnit], cx [9]).
Proof. split; reflexivity. Qed.
