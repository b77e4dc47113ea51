(** * [core::iter]: the provided methods of [Iterator] and its adaptors, over [PayloadChunks]

    payload.rs:212-240 implements [next] and nothing else of [Iterator], so all other methods are the provided ones
    of [core], each a loop around [next]; [enumerate] is used in socket.rs:154.  They are given for any
    [next : A -> option X * A], as [core] gives them for any iterator.  A loop that runs out of [fuel] is [Loop].  Counts
    are unbounded; those of [core] are [usize]. *)

From Verif Require Export Model.ChunkM.

Section Iter.
  Context {A X : Type} (next : A -> option X * A).

  (** [Iterator::fold]: the loop [while let Some(x) = self.next()]. *)
  Fixpoint it_fold {B : Type} (fuel : nat) (f : B -> X -> B) (b : B) (it : A) : oc B :=
    match fuel with
    | O => Loop
    | S fuel' =>
      match next it with
      | (Some x, it') => it_fold fuel' f (f b x) it'
      | (None, _) => Ret b
      end
    end.
  (** [Iterator::count], [last] and [collect] into a [Vec]. *)
  Definition it_count (fuel : nat) (it : A) : oc N := it_fold fuel (fun n _ => n + 1) 0 it.
  Definition it_last (fuel : nat) (it : A) : oc (option X) := it_fold fuel (fun _ x => Some x) None it.
  Definition it_collect (fuel : nat) (it : A) : oc (list X) := it_fold fuel (fun l x => l ++ [x]) [] it.

  (** [Iterator::nth]: [n] calls of [next] that must give something ([advance_by]), and one more. *)
  Fixpoint it_nth (n : nat) (it : A) : option X * A :=
    match n with
    | O => next it
    | S n' =>
      match next it with
      | (Some _, it') => it_nth n' it'
      | (None, it') => (None, it')
      end
    end.

  (** [next] of the adaptors [take(n)], [skip(n)], [step_by(s)] and [enumerate()]: [Take], [Skip], [StepBy] (which remembers
      [s - 1] and whether it has begun) and [Enumerate] with what they keep besides the iterator. *)
  Definition take_next (s : nat * A) : option X * (nat * A) :=
    match s with
    | (O, it) => (None, (O, it))
    | (S n, it) => let (r, it') := next it in (r, (n, it'))
    end.
  Definition skip_next (s : nat * A) : option X * (nat * A) :=
    let (n, it) := s in
    let (r, it') := match n with O => next it | S _ => it_nth n it end in (r, (O, it')).
  Definition step_by_next (s : (nat * bool) * A) : option X * ((nat * bool) * A) :=
    let '((step, first_take), it) := s in
    let (r, it') := if first_take then next it else it_nth step it in (r, ((step, false), it')).
  Definition enumerate_next (s : nat * A) : option (nat * X) * (nat * A) :=
    let (i, it) := s in
    match next it with
    | (Some x, it') => (Some (i, x), (S i, it'))
    | (None, it') => (None, (i, it'))
    end.
End Iter.

(** [next] of [zip]. *)
Definition zip_next {A X B Y : Type} (next : A -> option X * A) (next' : B -> option Y * B) (s : A * B)
  : option (X * Y) * (A * B) :=
  let (a, b) := s in
  match next a with
  | (None, a') => (None, (a', b))
  | (Some x, a') =>
    match next' b with
    | (None, b') => (None, (a', b'))
    | (Some y, b') => (Some (x, y), (a', b'))
    end
  end.
