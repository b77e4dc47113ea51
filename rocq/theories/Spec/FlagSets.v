(** * Flags as sets

    Independent of the model: a set says of each of the five flags whether it is in.  The constants
    FOLLOWS, RESUME and RESPOND are one flag, and so are COMPLETE and LEASE. *)

From Verif Require Export Spec.Wire Model.FlagOpsTypes.

Inductive flag5 : Set := F_ignore | F_metadata | F_follows | F_complete | F_next.
Definition place (x : flag5) : N :=
  match x with F_ignore => 8 | F_metadata => 7 | F_follows => 6 | F_complete => 5 | F_next => 4 end.
(** The set a word stands for. *)
Definition has (w : N) (x : flag5) : bool := N.testbit w (place x).

Definition named (c : flag_name) : flag5 :=
  match c with
  | NIgnore => F_ignore | NMetadata => F_metadata
  | NFollows | NResume | NRespond => F_follows
  | NComplete | NLease => F_complete
  | NNext => F_next
  end.
Definition same_flag (x y : flag5) : bool :=
  match x, y with
  | F_ignore, F_ignore | F_metadata, F_metadata | F_follows, F_follows | F_complete, F_complete
  | F_next, F_next => true
  | _, _ => false
  end.

(** The set an expression stands for. *)
Fixpoint holds (e : flags_expr) (x : flag5) : bool :=
  match e with
  | ENone => false
  | EAll => true
  | EConst c => same_flag (named c) x
  | ETruncate w | EFromBits w => has w x
  | EOr a b | EInsert a b => holds a x || holds b x
  | EAnd a b => holds a x && holds b x
  | EXor a b | EToggle a b => xorb (holds a x) (holds b x)
  | ESub a b | ERemove a b => holds a x && negb (holds b x)
  | ENot a => negb (holds a x)
  | ESet a b v => if v then holds a x || holds b x else holds a x && negb (holds b x)
  | EExtend a b c => holds a x || holds b x || holds c x
  end.

(** The words taken apart by [from_bits] on the way. *)
Fixpoint taken (e : flags_expr) : list N :=
  match e with
  | EFromBits w => [w]
  | ENone | EAll | EConst _ | ETruncate _ => []
  | ENot a => taken a
  | EOr a b | EAnd a b | EXor a b | ESub a b | EInsert a b | ERemove a b | EToggle a b | ESet a b _ =>
    taken a ++ taken b
  | EExtend a b c => taken a ++ taken b ++ taken c
  end.
(** The words in an expression are [u16]. *)
Fixpoint words16 (e : flags_expr) : Prop :=
  match e with
  | EFromBits w | ETruncate w => w < 2 ^ 16
  | ENone | EAll | EConst _ => True
  | ENot a => words16 a
  | EOr a b | EAnd a b | EXor a b | ESub a b | EInsert a b | ERemove a b | EToggle a b | ESet a b _ =>
    words16 a /\ words16 b
  | EExtend a b c => words16 a /\ words16 b /\ words16 c
  end.

(** [a] has the highest flag on which the two differ. *)
Definition outranks (a b : N) : Prop :=
  exists x, has a x = true /\ has b x = false /\ forall y, place x < place y -> has a y = has b y.
