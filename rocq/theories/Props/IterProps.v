(** * Properties of the chunk iterator through the methods of [Iterator]: C92 *)

From Verif Require Import Model.IterM Spec.Iter.
From Verif Require Import Proofs.IterP.

Definition exi (l : list N) : bytes := map n2b l.
Definition ix_payload : payload := Payload (Some (exi [1; 2; 3])) (Some (exi [4; 5; 6; 7; 8; 9; 10])).
Definition ix_chunk (i : N) : payload := chunk_at 2 i ix_payload.

(** ** C92: the methods of [Iterator] *)

(** After any number of calls of [next], [count], [last] and [collect] end and give the number of chunks left, the last of
    them and all of them. *)
Theorem C92_methods : forall p n k c, payload_chunks p n = Ret c ->
  let it := snd (chunks_calls k c) in
  let l := skipn k (chunk_list n p) in
  forall fuel, (length l < fuel)%nat ->
  it_count chunks_next fuel it = Ret (pieces_of n p - N.of_nat k) /\
  it_last chunks_next fuel it = Ret (last_of l) /\
  it_collect chunks_next fuel it = Ret l.
Proof. exact chunk_methods. Qed.
Print Assumptions C92_methods.

(** [nth(j)] gives chunk [j] of those left and goes on behind it. *)
Theorem C92_nth : forall p n k j c, payload_chunks p n = Ret c ->
  let r := it_nth chunks_next j (snd (chunks_calls k c)) in
  fst r = nth_error (chunk_list n p) (k + j) /\ gives chunks_next (snd r) (skipn (k + j + 1) (chunk_list n p)).
Proof. exact chunk_nth_method. Qed.
Print Assumptions C92_nth.

(** The adaptors [take], [skip], [step_by], [enumerate] and [zip] give what they should of the chunks left. *)
Theorem C92_adaptors : forall p n k c, payload_chunks p n = Ret c ->
  let it := snd (chunks_calls k c) in
  let l := skipn k (chunk_list n p) in
  (forall m, gives (take_next chunks_next) (m, it) (firstn m l)) /\
  (forall m, gives (skip_next chunks_next) (m, it) (skipn m l)) /\
  (forall s, s <> O -> gives (step_by_next chunks_next) ((s - 1, true)%nat, it) (every s l)) /\
  gives (enumerate_next chunks_next) (O, it) (numbered l) /\
  (forall A X (next : A -> option X * A) it' l', gives next it' l' -> gives (zip_next chunks_next next) (it, it') (combine l l')).
Proof. exact chunk_adaptors. Qed.
Print Assumptions C92_adaptors.

(** What an iterator gives is determined, and [count], [last], [collect] and [nth] of any iterator, such as those of the adaptors, are those of
    what it gives. *)
Theorem C92_any : forall A X (next : A -> option X * A) it l, gives next it l ->
  (forall l', gives next it l' -> l' = l) /\
  (forall fuel, (length l < fuel)%nat ->
     it_count next fuel it = Ret (N.of_nat (length l)) /\ it_last next fuel it = Ret (last_of l) /\
     it_collect next fuel it = Ret l) /\
  (forall j, fst (it_nth next j it) = nth_error l j).
Proof.
  intros A X next it l H. split; [|split].
  - induction H as [it it' H|it x it' l H G IH]; intros l' H'; inversion H'; subst; try congruence.
    replace it'0 with it' in * by congruence. f_equal; [congruence|auto].
  - intros fuel F. split; [now apply gives_count|]. split; [now apply gives_last|now apply gives_collect].
  - intros j. now apply gives_nth.
Qed.
Print Assumptions C92_any.

(** Four chunks, the first of which has been taken. *)
Example C92_example : exists c, payload_chunks ix_payload 2 = Ret c /\
  chunk_list 2 ix_payload = map ix_chunk [0; 1; 2; 3] /\
  let it := snd (chunks_calls 1 c) in
  it_count chunks_next 4 it = Ret 3 /\ it_last chunks_next 4 it = Ret (Some (Payload None (Some (exi [10])))) /\
  it_collect chunks_next 4 it = Ret (map ix_chunk [1; 2; 3]) /\
  fst (it_nth chunks_next 1 it) = Some (ix_chunk 2) /\ fst (it_nth chunks_next 3 it) = None /\
  it_collect (take_next chunks_next) 4 (2%nat, it) = Ret (map ix_chunk [1; 2]) /\
  it_collect (skip_next chunks_next) 4 (2%nat, it) = Ret (map ix_chunk [3]) /\
  it_collect (step_by_next chunks_next) 4 ((1, true)%nat, it) = Ret (map ix_chunk [1; 3]) /\
  it_collect (enumerate_next chunks_next) 4 (0%nat, it) = Ret [(0%nat, ix_chunk 1); (1%nat, ix_chunk 2); (2%nat, ix_chunk 3)] /\
  it_collect (zip_next chunks_next chunks_next) 4 (it, c) =
    Ret [(ix_chunk 1, ix_chunk 0); (ix_chunk 2, ix_chunk 1); (ix_chunk 3, ix_chunk 2)] /\
  it_collect chunks_next 3 it = Loop.
Proof. eexists. split; [reflexivity|]. vm_compute. auto 12. Qed.
