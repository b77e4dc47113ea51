(** * Specification of the buffer list: a queue of bytes

    Independent of the model: uses only its data types. *)

From Verif Require Export Spec.Codec.

(** A list of buffers none of which is empty. *)
Definition solid (l : list bytes) : Prop := Forall (fun b => b <> []) l.
(** An empty buffer is met before [n] bytes have been read. *)
Definition early_empty (n : nat) (l : list bytes) : Prop :=
  exists a b, l = a ++ [] :: b /\ (length (concat a) < n)%nat.

(** What the [Buf] trait asks of an implementation: [repr b s] says that [b] still holds
    the bytes [s].  The chunk is the beginning of what is left, and is not empty unless
    nothing is left; reading more than there is panics. *)
Record lawful {B : Type} (ops : buf_ops B) (repr : B -> bytes -> Prop) : Prop := Lawful {
  law_remaining : forall b s, repr b s -> b_remaining ops b = length s;
  law_chunk : forall b s, repr b s ->
    exists r, s = b_chunk ops b ++ r /\ (b_chunk ops b = [] -> s = []);
  law_advance : forall b s k, repr b s ->
    if Nat.leb k (length s) then exists b', b_advance ops k b = Ret b' /\ repr b' (skipn k s)
    else b_advance ops k b = Panic;
  law_copy : forall b s k, repr b s ->
    if Nat.leb k (length s)
    then exists b', b_copy_to_bytes ops k b = Ret (firstn k s, b') /\ repr b' (skipn k s)
    else b_copy_to_bytes ops k b = Panic }.

(** What gathering asks of an implementation: the slots are not overrun, the slices are the
    beginning of what is left, and unless all slots are used they are all that is left. *)
Definition gathers {B : Type} (ops : buf_ops B) (repr : B -> bytes -> Prop) : Prop :=
  forall b s n, repr b s ->
    (length (b_vectored ops n b) <= n)%nat /\
    (exists r, s = concat (b_vectored ops n b) ++ r) /\
    (length (b_vectored ops n b) = n \/ concat (b_vectored ops n b) = s).

(** A list of buffers, none of them empty, that together hold the bytes [s]. *)
Definition together {T : Type} (repr : T -> bytes -> Prop) (l : list T) (s : bytes) : Prop :=
  exists ss, Forall2 repr l ss /\ solid ss /\ concat ss = s.
(** The same operation, on the bytes the pushed buffer holds. *)
Inductive same_op {T : Type} (repr : T -> bytes -> Prop) : buf_op T -> buf_op bytes -> Prop :=
| same_push : forall b s, repr b s -> same_op repr (OpPush b) (OpPush s)
| same_remaining : same_op repr OpRemaining OpRemaining
| same_advance : forall n, same_op repr (OpAdvance n) (OpAdvance n)
| same_copy : forall n, same_op repr (OpCopy n) (OpCopy n).

(** What one byte sequence answers to an operation, and what is left of it. *)
Definition queue_step (o : buf_op bytes) (s : bytes) : buf_res * bytes :=
  match o with
  | OpPush b => (ResUnit, s ++ b)
  | OpRemaining => (ResNum (length s), s)
  | OpAdvance n => if Nat.leb n (length s) then (ResUnit, skipn n s) else (ResPanic, s)
  | OpCopy n => if Nat.leb n (length s) then (ResBytes (firstn n s), skipn n s) else (ResPanic, s)
  end.
(** A history ends at the first panic. *)
Fixpoint queue_run (ops : list (buf_op bytes)) (s : bytes) : list buf_res * bytes :=
  match ops with
  | [] => ([], s)
  | o :: ops' =>
    match queue_step o s with
    | (ResPanic, _) => ([ResPanic], s)
    | (a, s') => let (r, s'') := queue_run ops' s' in (a :: r, s'')
    end
  end.
Definition pushes (ops : list (buf_op bytes)) : list bytes :=
  flat_map (fun o => match o with OpPush b => [b] | _ => [] end) ops.

(** The bytes a history takes. *)
Definition taken {T : Type} (ops : list (buf_op T)) : nat :=
  list_sum (map (fun o => match o with OpAdvance n | OpCopy n => n | _ => O end) ops).
(** The buffers, or ends of buffers, left when [n] bytes are taken from the front. *)
Fixpoint leftover (n : nat) (l : list bytes) : list bytes :=
  match l with
  | [] => []
  | b :: r => if Nat.leb (length b) n then leftover (n - length b) r else skipn n b :: r
  end.

(** ** A vectored writer

    Turn after turn, a writer gathers at most [k] slices, takes the first [n] of their bytes
    and advances by [n]; [k] and [n] change from turn to turn as they like. *)
Inductive written {B : Type} (ops : buf_ops B) : B -> bytes -> B -> Prop :=
| Wr_done : forall b, written ops b [] b
| Wr_turn : forall k n b b' out b'', (n <= length (concat (b_vectored ops k b)))%nat ->
    b_advance ops n b = Ret b' -> written ops b' out b'' ->
    written ops b (firstn n (concat (b_vectored ops k b)) ++ out) b''.

(** ** Reassembly *)

(** The payload a fragment contributes: the request and PAYLOAD frames, not SETUP. *)
Definition contributes (f : frame) : option payload :=
  match f with FSetup _ => None | _ => payload_of f end.
Definition meta_of (f : frame) : bytes :=
  match contributes f with Some p => part (p_metadata p) | None => [] end.
Definition data_of (f : frame) : bytes :=
  match contributes f with Some p => part (p_data p) | None => [] end.
Definition assembled (fs : list frame) : payload :=
  Payload (absent_if_empty (concat (map meta_of fs))) (absent_if_empty (concat (map data_of fs))).

(** ** What a buffer is asked for *)

(** Two implementations that differ only in what they do when asked for more than they report. *)
Definition agree_within {B : Type} (ops ops' : buf_ops B) : Prop :=
  (forall b, b_remaining ops' b = b_remaining ops b) /\
  (forall b, b_chunk ops' b = b_chunk ops b) /\
  (forall k b, (k <= b_remaining ops b)%nat -> b_advance ops' k b = b_advance ops k b) /\
  (forall k b, (k <= b_remaining ops b)%nat -> b_copy_to_bytes ops' k b = b_copy_to_bytes ops k b).

(** A buffer with a count of the calls that move it. *)
Definition metered {B : Type} (ops : buf_ops B) : buf_ops (B * nat) := {|
  b_remaining c := b_remaining ops (fst c);
  b_chunk c := b_chunk ops (fst c);
  b_advance k c := match b_advance ops k (fst c) with Ret b => Ret (b, S (snd c)) | Panic => Panic | Loop => Loop end;
  b_copy_to_bytes k c :=
    match b_copy_to_bytes ops k (fst c) with Ret (l, b) => Ret (l, (b, S (snd c))) | Panic => Panic | Loop => Loop end;
  b_vectored n c := b_vectored ops n (fst c) |}.
