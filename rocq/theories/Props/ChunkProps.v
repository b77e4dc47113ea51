(** * Properties of [Payload::chunks]: C23-C26 *)

From Verif Require Import Model.ChunkM Spec.Chunk.
From Verif Require Import Proofs.ChunkP.

Definition exc (l : list N) : bytes := map n2b l.
Definition ex_payload : payload := Payload (Some (exc [1; 2; 3])) (Some (exc [4; 5; 6; 7; 8; 9; 10])).

(** ** C23: the payload is preserved *)

(** Call number [i] of [next] yields chunk [i] of the payload, then nothing. *)
Theorem C23_calls : forall p n k, n <> 0 -> exists c,
  payload_chunks p n = Ret c /\
  fst (chunks_calls k c) =
    map (fun i => if N.of_nat i <? pieces_of n p then Some (chunk_at n (N.of_nat i) p) else None) (seq 0 k).
Proof. exact chunks_calls_spec. Qed.
Print Assumptions C23_calls.

(** With enough calls, exactly the list of chunks is yielded. *)
Theorem C23_complete : forall p n k c, n <> 0 -> payload_chunks p n = Ret c ->
  pieces_of n p <= N.of_nat k ->
  fst (chunks_calls k c) =
    map Some (chunk_list n p) ++ repeat None (k - length (chunk_list n p)).
Proof. exact calls_complete. Qed.
Print Assumptions C23_complete.

(** The chunks yielded concatenate to the payload. *)
Theorem C23_concat : forall p n k c, payload_chunks p n = Ret c -> pieces_of n p <= N.of_nat k ->
  concat (map (fun q => part (p_metadata q)) (yielded (fst (chunks_calls k c)))) = part (p_metadata p) /\
  concat (map (fun q => part (p_data q)) (yielded (fst (chunks_calls k c)))) = part (p_data p).
Proof. exact yielded_concat. Qed.
Print Assumptions C23_concat.

Example C23_example : exists c, payload_chunks ex_payload 2 = Ret c /\
  fst (chunks_calls 6 c) =
    [Some (Payload (Some (exc [1; 2])) (Some (exc [4; 5])));
     Some (Payload (Some (exc [3])) (Some (exc [6; 7])));
     Some (Payload None (Some (exc [8; 9])));
     Some (Payload None (Some (exc [10]))); None; None] /\
  pieces_of 2 ex_payload = 4 /\
  concat (map (fun q => part (p_data q)) (chunk_list 2 ex_payload)) = exc [4; 5; 6; 7; 8; 9; 10].
Proof. eexists. split; [reflexivity|]. split; [reflexivity|]. split; reflexivity. Qed.

(** ** C24: chunk sizes *)

(** Each part of each chunk yielded has at most [n] bytes, exactly [n] unless it is the last piece,
    and is absent exactly when the part has no piece left. *)
Theorem C24_sizes : forall p n k c i q, payload_chunks p n = Ret c ->
  nth_error (fst (chunks_calls k c)) i = Some (Some q) ->
  good_piece n (N.of_nat i) (p_metadata p) (p_metadata q) /\ good_piece n (N.of_nat i) (p_data p) (p_data q).
Proof. exact yielded_pieces. Qed.
Print Assumptions C24_sizes.

Theorem C24_ends : forall p n k c i r, payload_chunks p n = Ret c ->
  nth_error (fst (chunks_calls k c)) i = Some r -> (r = None <-> pieces_of n p <= N.of_nat i).
Proof. exact yielded_ends. Qed.
Print Assumptions C24_ends.

Theorem C24_zero : forall p n, payload_chunks p n = Panic <-> n = 0.
Proof. exact chunks_zero. Qed.
Print Assumptions C24_zero.

Example C24_example : pieces 2 (p_metadata ex_payload) = 2 /\ pieces 2 (p_data ex_payload) = 4 /\
  (exists c, payload_chunks ex_payload 2 = Ret c /\
     nth_error (fst (chunks_calls 6 c)) 2 = Some (Some (Payload None (Some (exc [8; 9])))) /\
     nth_error (fst (chunks_calls 6 c)) 3 = Some (Some (Payload None (Some (exc [10])))) /\
     nth_error (fst (chunks_calls 6 c)) 4 = Some None) /\
  payload_chunks ex_payload 0 = Panic.
Proof. split; [reflexivity|]. split; [reflexivity|]. split; [|reflexivity]. eexists. repeat split; reflexivity. Qed.

(** ** C25: [len] *)

(** After any number of calls of [next], [len] is the number of chunks left. *)
Theorem C25_len : forall n p c k, payload_chunks p n = Ret c -> n <= usize_max ->
  p_metadata p <> Some [] -> p_data p <> Some [] ->
  size (part (p_metadata p)) <= 2 ^ 24 -> size (part (p_data p)) <= 2 ^ 24 ->
  chunks_len (snd (chunks_calls k c)) = pieces_of n p - N.of_nat k.
Proof. exact len_after. Qed.
Print Assumptions C25_len.

(** Up to [2 ^ 24] bytes, the only wrong answer is that for a payload whose
    parts are all empty, before its one chunk has been taken. *)
Theorem C25_len_iff : forall n p c k, payload_chunks p n = Ret c -> n <= usize_max ->
  size (part (p_metadata p)) <= 2 ^ 24 -> size (part (p_data p)) <= 2 ^ 24 ->
  (chunks_len (snd (chunks_calls k c)) = pieces_of n p - N.of_nat k <->
   ~ (k = O /\ part (p_metadata p) = [] /\ part (p_data p) = [] /\ p <> Payload None None)).
Proof. exact len_right_iff. Qed.
Print Assumptions C25_len_iff.

Example C25_example : exists c, payload_chunks ex_payload 2 = Ret c /\
  chunks_len c = 4 /\ chunks_len (snd (chunks_calls 3 c)) = 1 /\ chunks_len (snd (chunks_calls 5 c)) = 0.
Proof. eexists. split; [reflexivity|]. split; [vm_compute; reflexivity|]. split; vm_compute; reflexivity. Qed.

(** Outside the stated conditions: empty parts, ... *)
Theorem C25_empty_parts : forall n p c, payload_chunks p n = Ret c -> n <= usize_max ->
  part (p_metadata p) = [] -> part (p_data p) = [] -> p <> Payload None None ->
  chunks_len c = 0 /\ fst (chunks_calls 2 c) = [Some p; None].
Proof. exact len_zero_byte_parts. Qed.
Print Assumptions C25_empty_parts.

Example C25_empty_example : exists c, payload_chunks (Payload None (Some [])) 5 = Ret c /\
  chunks_len c = 0 /\ fst (chunks_calls 2 c) = [Some (Payload None (Some [])); None].
Proof. eexists. split; [reflexivity|]. split; [vm_compute; reflexivity|reflexivity]. Qed.

(** ... and long parts: too few or too many. *)
Theorem C25_long_low : forall d c, size d = 2 ^ 24 + 1 ->
  payload_chunks (Payload None (Some d)) (2 ^ 16) = Ret c ->
  chunks_len c = 256 /\ pieces_of (2 ^ 16) (Payload None (Some d)) = 257.
Proof. exact len_low. Qed.
Print Assumptions C25_long_low.

Theorem C25_long_high : forall d c, size d = 2 ^ 24 + 3 ->
  payload_chunks (Payload None (Some d)) 1 = Ret c ->
  chunks_len c = 2 ^ 24 + 4 /\ pieces_of 1 (Payload None (Some d)) = 2 ^ 24 + 3.
Proof. exact len_high. Qed.
Print Assumptions C25_long_high.

Example C25_long_exists : forall k, size (repeat (n2b 7) (N.to_nat k)) = k.
Proof. intros k. unfold size. rewrite repeat_length. apply N2Nat.id. Qed.

(** A payload that fits in one chunk is counted right whatever its size. *)
Theorem C25_single : forall n p c k, payload_chunks p n = Ret c -> n <= usize_max ->
  part (p_metadata p) <> [] \/ part (p_data p) <> [] ->
  size (part (p_metadata p)) <= n -> size (part (p_data p)) <= n ->
  chunks_len (snd (chunks_calls k c)) = pieces_of n p - N.of_nat k.
Proof. exact len_single. Qed.
Print Assumptions C25_single.

Example C25_single_example : exists c, payload_chunks ex_payload usize_max = Ret c /\
  chunks_len c = 1 /\ chunks_len (snd (chunks_calls 1 c)) = 0 /\ pieces_of usize_max ex_payload = 1.
Proof. eexists. split; [reflexivity|]. repeat split; vm_compute; reflexivity. Qed.

(** ** C58: how far [len] can be off *)

(** At any size at all: none left is counted as none, and otherwise the count is
    off by less than one part in four million, and one. *)
Theorem C58_close : forall n p c k, payload_chunks p n = Ret c -> n <= usize_max ->
  p_metadata p <> Some [] -> p_data p <> Some [] ->
  size (part (p_metadata p)) <= usize_max -> size (part (p_data p)) <= usize_max ->
  let len := chunks_len (snd (chunks_calls k c)) in
  let left := pieces_of n p - N.of_nat k in
  (left = 0 -> len = 0) /\
  (1 <= left -> (left - 1) * (2 ^ 22 - 1) < len * 2 ^ 22 /\ (len - 1) * 2 ^ 22 < left * (2 ^ 22 + 1)).
Proof. exact len_close. Qed.
Print Assumptions C58_close.

(** Up to four million chunks, that is one more or one fewer; and it is zero only at the end, or before the last chunk. *)
Theorem C58_within_one : forall n p c k, payload_chunks p n = Ret c -> n <= usize_max ->
  p_metadata p <> Some [] -> p_data p <> Some [] ->
  size (part (p_metadata p)) <= usize_max -> size (part (p_data p)) <= usize_max ->
  let len := chunks_len (snd (chunks_calls k c)) in
  let left := pieces_of n p - N.of_nat k in
  left < 2 ^ 22 -> left <= len + 1 /\ len <= left + 1 /\ (len = 0 -> left <= 1).
Proof. exact len_within_one. Qed.
Print Assumptions C58_within_one.

Example C58_example : exists c, payload_chunks ex_payload 2 = Ret c /\
  (pieces_of 2 ex_payload - N.of_nat 1 = 3) /\ chunks_len (snd (chunks_calls 1 c)) = 3.
Proof. eexists. split; [reflexivity|]. split; vm_compute; reflexivity. Qed.

(** One too few does happen. *)
Example C58_one_off : forall d c, size d = 2 ^ 24 + 1 ->
  payload_chunks (Payload None (Some d)) (2 ^ 16) = Ret c ->
  pieces_of (2 ^ 16) (Payload None (Some d)) = chunks_len c + 1.
Proof. intros d c L E. destruct (len_low d c L E) as [-> ->]. reflexivity. Qed.

(** ** C26: fused *)

Theorem C26_fused : forall n p c k j, payload_chunks p n = Ret c ->
  fst (chunks_next (snd (chunks_calls k c))) = None ->
  fst (chunks_next (snd (chunks_calls (k + j) c))) = None.
Proof. exact fused. Qed.
Print Assumptions C26_fused.

Example C26_example : exists c, payload_chunks ex_payload 2 = Ret c /\
  fst (chunks_next (snd (chunks_calls 3 c))) <> None /\
  fst (chunks_next (snd (chunks_calls 4 c))) = None /\
  fst (chunks_next (snd (chunks_calls 9 c))) = None.
Proof. eexists. split; [reflexivity|]. split; [discriminate|]. split; reflexivity. Qed.

(** ** C76: [size_hint] *)

(** [ExactSizeIterator] demands of [size_hint] the number of chunks left, twice. *)
Definition exact_hint (hint : N * option N) (left : N) : Prop := hint = (left, Some left).

(** It never gives that, not even when nothing is left: the claim fails for every payload, chunk size and
    moment of the iteration, though what it gives is a bound. *)
Theorem C76_size_hint_refuted : forall n p c k, payload_chunks p n = Ret c ->
  let hint := chunks_size_hint (snd (chunks_calls k c)) in
  (forall left, ~ exact_hint hint left) /\
  fst hint <= pieces_of n p - N.of_nat k /\ (forall u, snd hint = Some u -> pieces_of n p - N.of_nat k <= u).
Proof. intros n p c k _. split; [discriminate|]. split; [apply N.le_0_l|discriminate]. Qed.
Print Assumptions C76_size_hint_refuted.

(** So [chunks(n).take(m).len()] panics, where an exact hint would give the smaller of [m] and the number of
    chunks left. *)
Theorem C76_take_len_refuted : forall n p c k m, payload_chunks p n = Ret c -> 0 < m ->
  exact_len (take_size_hint m (chunks_size_hint (snd (chunks_calls k c)))) = Panic /\
  (forall hint left, exact_hint hint left -> exact_len (take_size_hint m hint) = Ret (N.min m left)).
Proof. exact take_len. Qed.
Print Assumptions C76_take_len_refuted.

Example C76_example : exists c, payload_chunks ex_payload 2 = Ret c /\ pieces_of 2 ex_payload = 4 /\
  exact_len (take_size_hint 3 (chunks_size_hint c)) = Panic /\ exact_len (take_size_hint 3 (4, Some 4)) = Ret 3 /\
  exact_len (take_size_hint 0 (chunks_size_hint c)) = Ret 0.
Proof. eexists. split; [reflexivity|]. repeat split. Qed.
