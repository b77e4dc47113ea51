(** * Specification of chunking

    Independent of the model: uses only its data types. *)

From Verif Require Export Spec.Wire.

(** Number of pieces of size [n] of a part: at least one when the part is present. *)
Definition pieces (n : N) (o : option bytes) : N :=
  match o with
  | None => 0
  | Some l => N.max 1 ((size l + n - 1) / n)
  end.
Definition pieces_of (n : N) (p : payload) : N :=
  N.max (pieces n (p_metadata p)) (pieces n (p_data p)).

(** The bytes [i*n, i*n+n) of [l]. *)
Definition slice (n i : N) (l : bytes) : bytes :=
  firstn (N.to_nat n) (skipn (N.to_nat (i * n)) l).
(** Piece number [i] of a part. *)
Definition piece (n i : N) (o : option bytes) : option bytes :=
  match o with
  | None => None
  | Some l => if (i =? 0) || (i * n <? size l) then Some (slice n i l) else None
  end.
(** Chunk number [i] of a payload. *)
Definition chunk_at (n i : N) (p : payload) : payload :=
  Payload (piece n i (p_metadata p)) (piece n i (p_data p)).

(** All chunks of a payload, in order. *)
Definition chunk_list (n : N) (p : payload) : list payload :=
  map (fun i => chunk_at n (N.of_nat i) p) (seq 0 (N.to_nat (pieces_of n p))).

(** The payloads among the answers of [next]. *)
Definition yielded (rs : list (option payload)) : list payload :=
  flat_map (fun r => match r with Some q => [q] | None => [] end) rs.
(** [x] may be piece number [i] of the part [o]. *)
Definition good_piece (n i : N) (o x : option bytes) : Prop :=
  match x with
  | None => pieces n o <= i
  | Some l => i < pieces n o /\ size l <= n /\ (i + 1 < pieces n o -> size l = n) /\ (o <> Some [] -> l <> [])
  end.
