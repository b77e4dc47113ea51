(** * Specification of a queue of bytes whose user survives its panics

    Independent of the model: uses only its data types. *)

From Verif Require Export Spec.Buf.

(** What an operation answers and leaves: asked to skip too much, the queue panics and has lost everything;
    asked to hand out too much, it panics and has lost nothing; so when it refuses an empty buffer. *)
Definition survive_step (bd : build) (o : buf_op bytes) (s : bytes) : buf_res * bytes :=
  match o with
  | OpPush b => match bd, b with Debug, [] => (ResPanic, s) | _, _ => (ResUnit, s ++ b) end
  | OpRemaining => (ResNum (length s), s)
  | OpAdvance n => (if Nat.leb n (length s) then ResUnit else ResPanic, skipn n s)
  | OpCopy n => if Nat.leb n (length s) then (ResBytes (firstn n s), skipn n s) else (ResPanic, s)
  end.
Fixpoint survive_run (bd : build) (h : list (buf_op bytes)) (s : bytes) : list buf_res * bytes :=
  match h with
  | [] => ([], s)
  | o :: h' => let (a, s') := survive_step bd o s in let (r, s'') := survive_run bd h' s' in (a :: r, s'')
  end.
