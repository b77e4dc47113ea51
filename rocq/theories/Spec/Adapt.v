(** * Specification of buffers made of others

    Independent of the model: uses only its data types. *)

From Verif Require Export Spec.Buf Model.AdaptTypes.

(** A [Take] that may still read [s], with [r] behind its end: the limit ends [s], unless the
    buffer ends first. *)
Definition taking {T} (repr : T -> bytes -> Prop) (r : bytes) (t : take T) (s : bytes) : Prop :=
  repr (tk_inner t) (s ++ r) /\ (tk_limit t = length s \/ (length s < tk_limit t)%nat /\ r = []).
(** A [Chain]: the content of the first before that of the second. *)
Definition chained {T U} (ra : T -> bytes -> Prop) (rb : U -> bytes -> Prop) (c : chain T U) (s : bytes) : Prop :=
  exists x y, ra (cn_a c) x /\ rb (cn_b c) y /\ s = x ++ y.
Definition queued (d : deque) (s : bytes) : Prop := dq_front d ++ dq_back d = s.
(** A cursor that is not past the end. *)
Definition pointed (c : cursor) (s : bytes) : Prop :=
  exists read, cu_data c = read ++ s /\ cu_pos c = length read.
(** At most [n] bytes are left. *)
Definition upto {B} (n : nat) (repr : B -> bytes -> Prop) (b : B) (s : bytes) : Prop :=
  repr b s /\ (length s <= n)%nat.

(** A list of outcomes, up to the first panic. *)
Fixpoint until_panic {A} (l : list (dres A)) : list (dres A) :=
  match l with
  | [] => []
  | DPanic :: _ => [DPanic]
  | x :: l' => x :: until_panic l'
  end.

(** A SETUP frame without resume token. *)
Definition tokenless (f : frame) : Prop :=
  match f with FSetup s => sf_resume_token s = None | _ => False end.
