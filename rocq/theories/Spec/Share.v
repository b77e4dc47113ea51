(** * Specification: which parts share storage

    Independent of the model: uses only the data types of [Model/Types.v] and [Model/ShareTypes.v]. *)

From Verif Require Export Model.ShareTypes Spec.Wire.

(** The byte strings of a frame, in the order of the diagrams in binate/src/frame/codec/*.rs. *)
Definition given (o : option bytes) : list bytes := match o with Some l => [l] | None => [] end.
Definition payload_strings (p : payload) : list bytes := given (p_metadata p) ++ given (p_data p).
Definition strings (f : frame) : list bytes :=
  match f with
  | FSetup s => given (sf_resume_token s) ++ [sf_metadata_mimetype s; sf_data_mimetype s] ++
                payload_strings (sf_payload s)
  | FLease l => given (lf_metadata l)
  | FKeepalive k => given (kf_data k)
  | FRequestResponse q => payload_strings (rr_payload q)
  | FRequestFnf q => payload_strings (fnf_payload q)
  | FRequestStream q => payload_strings (rs_payload q)
  | FRequestChannel q => payload_strings (rc_payload q)
  | FPayload q => payload_strings (pf_payload q)
  | FError e => given (ef_data e)
  | FMetadataPush m => [mp_metadata m]
  | FResume r => [rf_resume_token r]
  | FRequestN _ | FCancel _ | FResumeOk _ => []
  end.

(** The bytes of [s] from position [p] on, [n] of them. *)
Definition cut_out (p n : nat) (s : bytes) : bytes := firstn n (skipn p s).

(** [x] is the storage of [h] itself, from the [p]th byte of [h] on. *)
Definition same_storage (x h : handle) (p : nat) : Prop :=
  exists b o, h_at h = Some (b, o) /\ h_at x = Some (b, (o + p)%nat).

(** All that a list of [Bytes] holds. *)
Definition content (l : list handle) : bytes := concat (map h_bytes l).
(** The [n] bytes from position [p] on lie in the member [s] of the list, from its [q]th byte on. *)
Definition lies_in (l : list handle) (p n : nat) (s : handle) (q : nat) : Prop :=
  exists a b, l = a ++ s :: b /\ p = (length (content a) + q)%nat /\ (q + n <= length (h_bytes s))%nat.
(** None of the members is empty, and none lies in a block from number [next] on. *)
Definition proper (l : list handle) (next : nat) : Prop :=
  Forall (fun h => h_bytes h <> [] /\ exists b o, h_at h = Some (b, o) /\ (b < next)%nat) l.

(** What the record of a reader should say about one entry: [rest] bytes were left of the [total],
    then [x] was handed out. *)
Definition from_one (h : handle) (e : nat * handle) : Prop :=
  let (rest, x) := e in
  let p := (length (h_bytes h) - rest)%nat in
  (length (h_bytes x) <= rest <= length (h_bytes h))%nat /\
  h_bytes x = cut_out p (length (h_bytes x)) (h_bytes h) /\
  (h_bytes x <> [] -> same_storage x h p) /\
  (h_bytes x = [] -> h_at x = None \/ same_storage x h p).
Definition from_list (l : list handle) (next next' : nat) (e : nat * handle) : Prop :=
  let (rest, x) := e in
  let p := (length (content l) - rest)%nat in
  (length (h_bytes x) <= rest <= length (content l))%nat /\
  h_bytes x = cut_out p (length (h_bytes x)) (content l) /\
  (h_bytes x = [] <-> h_at x = None) /\
  (forall s q, h_bytes x <> [] -> lies_in l p (length (h_bytes x)) s q -> same_storage x s q) /\
  (h_bytes x <> [] -> ~ (exists s q, lies_in l p (length (h_bytes x)) s q) ->
     exists b, h_at x = Some (b, O) /\ (next <= b < next')%nat).

(** Entries in order: each was handed out when at most what the one before had left over was left. *)
Fixpoint in_order (e : list (nat * handle)) : Prop :=
  match e with
  | (rest, x) :: (((rest', _) :: _) as r) => (rest' + length (h_bytes x) <= rest)%nat /\ in_order r
  | _ => True
  end.
(** The blocks with numbers from [next] on that occur, in order. *)
Definition new_blocks (next : nat) (e : list (nat * handle)) : list nat :=
  flat_map (fun x => match h_at (snd x) with
                     | Some (b, _) => if Nat.leb next b then [b] else []
                     | None => [] end) e.

(** The [k]th piece of size [n] of a part: the storage of the part, cut. *)
Definition nth_piece (n k : nat) (h : handle) (o : option handle) : Prop :=
  let len := length (h_bytes h) in
  if (Nat.ltb (k * n) len || Nat.eqb k 0)%bool then
    exists x, o = Some x /\ h_bytes x = cut_out (k * n) n (h_bytes h) /\
      h_at x = match h_at h with Some (b, a) => Some (b, (a + k * n)%nat) | None => None end
  else o = None.
