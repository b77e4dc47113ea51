(** * Specification of whose fragments a payload is put together from

    Independent of the model: uses only its data types. *)

From Verif Require Export Spec.Buf Spec.Proto.

(** The stream of a request frame, and whether its payload goes on in PAYLOAD frames. *)
Definition opens (f : frame) : option (N * bool) :=
  match f with
  | FRequestResponse v => Some (rr_stream_id v, follows_set (rr_flags v))
  | FRequestFnf v => Some (fnf_stream_id v, follows_set (fnf_flags v))
  | FRequestStream v => Some (rs_stream_id v, follows_set (rs_flags v))
  | FRequestChannel v => Some (rc_stream_id v, follows_set (rc_flags v))
  | _ => None
  end.
(** One request of any kind on stream [sid], as in the RSocket protocol. *)
Inductive whole_request (sid : N) : list frame -> Prop :=
| Whole_alone : forall f, opens f = Some (sid, false) -> whole_request sid [f]
| Whole_parts : forall f fs, opens f = Some (sid, true) -> continuation sid fs -> whole_request sid (f :: fs).

(** The payload of a request. *)
Definition carried (f : frame) : payload := match payload_of f with Some p => p | None => Payload None None end.
Definition joined (fs : list frame) : payload :=
  match fs with [] => Payload None None | f :: fs' => fold_left (fun p g => join_payload p (carried g)) fs' (carried f) end.
(** Empty parts count as absent. *)
Definition without_empty (p : payload) : payload :=
  Payload (absent_if_empty (part (p_metadata p))) (absent_if_empty (part (p_data p))).

(** Two encoded frames of the same type that differ in their stream ids and flags only. *)
Definition relabelled (v v' : bytes) : Prop :=
  exists hd hd' body c r sid w r' sid' w',
    c < 64 /\ r < 2 /\ sid < 2 ^ 31 /\ w < 1024 /\ r' < 2 /\ sid' < 2 ^ 31 /\ w' < 1024 /\
    v = hd ++ body /\ v' = hd' ++ body /\
    bytes_bits hd = render (header r sid c w) /\ bytes_bits hd' = render (header r' sid' c w').

(** [hs] has the elements of [fs] and [gs], each in its order. *)
Inductive mixed {A : Type} : list A -> list A -> list A -> Prop :=
| Mix_none : mixed [] [] []
| Mix_left : forall x fs gs hs, mixed fs gs hs -> mixed (x :: fs) gs (x :: hs)
| Mix_right : forall x fs gs hs, mixed fs gs hs -> mixed fs (x :: gs) (x :: hs).
