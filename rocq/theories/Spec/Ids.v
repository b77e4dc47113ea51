(** * Specification of stream ids and request permits

    Independent of the model: uses only its data types. *)

From Coq Require Import Permutation.
From Verif Require Export Spec.Chunk.

(** ** Ids *)

(** The [k]-th id (from 0) of a provider started at [init]: every second number,
    modulo [2 ^ 31]. *)
Definition id_after (init : Z) (k : N) : N := Z.to_N ((init + 2 * Z.of_N k) mod 2 ^ 31)%Z.
(** [sid] is an id of the parity of [init]. *)
Definition in_class (init : Z) (sid : N) : Prop :=
  sid < 2 ^ 31 /\ (Z.of_N sid mod 2 = init mod 2)%Z.

(** ** Permits *)

(** The signed 32-bit value congruent to [z]. *)
Definition is_i32 (z v : Z) : Prop := (-2 ^ 31 <= v < 2 ^ 31 /\ (v - z) mod 2 ^ 32 = 0)%Z.

Fixpoint granted (ops : list counter_op) : Z :=
  match ops with
  | [] => 0
  | CtAdd n :: ops' => (Z.of_N n + granted ops')%Z
  | _ :: ops' => granted ops'
  end.
Fixpoint taken (ops : list counter_op) : Z :=
  match ops with
  | [] => 0
  | CtDec :: ops' => (1 + taken ops')%Z
  | _ :: ops' => taken ops'
  end.
Definition balance (init : Z) (ops : list counter_op) : Z := (init + granted ops - taken ops)%Z.

(** An execution of several threads: the operations of each, in some order that
    respects the order inside each thread. *)
Inductive interleaved : list (list counter_op) -> list counter_op -> Prop :=
| Int_done : forall ps, Forall (fun p => p = []) ps -> interleaved ps []
| Int_step : forall before o p after ops,
    interleaved (before ++ p :: after) ops -> interleaved (before ++ (o :: p) :: after) (o :: ops).

(** The [dec] calls of a history that found a positive count. *)
Fixpoint successes (ops : list counter_op) (res : list counter_res) : Z :=
  match ops, res with
  | CtDec :: ops', CtCount v :: res' => ((if (0 <? v)%Z then 1 else 0) + successes ops' res')%Z
  | _ :: ops', _ :: res' => successes ops' res'
  | _, _ => 0%Z
  end.
