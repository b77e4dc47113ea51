(** * Specification of fragmented requests in the RSocket protocol (section Fragmentation and Reassembly)

    Independent of the model: uses only its data types.  In the protocol a request is one frame of its type; if
    that has FOLLOWS, the rest of its payload comes in PAYLOAD frames of the same stream, each but the last
    with FOLLOWS. *)

From Verif Require Export Spec.Socket.

(** FOLLOWS is bit 6 of the flags, as drawn by the constructors (C10 is about its place). *)
Definition follows_set (fl : N) : bool := N.testbit fl 6.

(** The rest of a request of stream [sid]. *)
Inductive continuation (sid : N) : list frame -> Prop :=
| Cont_last : forall v, pf_stream_id v = sid -> follows_set (pf_flags v) = false -> continuation sid [FPayload v]
| Cont_more : forall v fs, pf_stream_id v = sid -> follows_set (pf_flags v) = true -> continuation sid fs ->
    continuation sid (FPayload v :: fs).
(** One fire-and-forget request of stream [sid]. *)
Inductive one_request (sid : N) : list frame -> Prop :=
| One_whole : forall v, fnf_stream_id v = sid -> follows_set (fnf_flags v) = false -> one_request sid [FRequestFnf v]
| One_parts : forall v fs, fnf_stream_id v = sid -> follows_set (fnf_flags v) = true -> continuation sid fs ->
    one_request sid (FRequestFnf v :: fs).

(** ** A receiver of the protocol *)

(** One part of a payload after another. *)
Definition join_part (a b : option bytes) : option bytes :=
  match a, b with
  | Some x, Some y => Some (x ++ y)
  | Some x, None => Some x
  | None, _ => b
  end.
Definition join_payload (p q : payload) : payload :=
  Payload (join_part (p_metadata p) (p_metadata q)) (join_part (p_data p) (p_data q)).

(** [pending] are the requests that are not complete.  A frame that completes a request hands it on.  The
    protocol does not foresee a request on a stream that has one already: the receiver drops
    either the new one or, if [restarts], the old one. *)
Definition take_frame (restarts : bool) (pending : N -> option payload) (f : frame)
  : (N -> option payload) * list (N * payload) :=
  let put sid o := fun k => if k =? sid then o else pending k in
  match f with
  | FRequestFnf v =>
    let sid := fnf_stream_id v in
    match restarts, pending sid with
    | false, Some _ => (pending, [])
    | _, _ =>
      if follows_set (fnf_flags v) then (put sid (Some (fnf_payload v)), [])
      else (put sid None, [(sid, fnf_payload v)])
    end
  | FPayload v =>
    let sid := pf_stream_id v in
    match pending sid with
    | None => (pending, [])
    | Some p =>
      let p' := join_payload p (pf_payload v) in
      if follows_set (pf_flags v) then (put sid (Some p'), []) else (put sid None, [(sid, p')])
    end
  | _ => (pending, [])
  end.
Fixpoint take_frames (restarts : bool) (pending : N -> option payload) (fs : list frame) : list (N * payload) :=
  match fs with
  | [] => []
  | f :: fs' => let (pending', out) := take_frame restarts pending f in out ++ take_frames restarts pending' fs'
  end.
(** What a receiver that has seen nothing yet hands on. *)
Definition handed_on (restarts : bool) (fs : list frame) : list (N * payload) := take_frames restarts (fun _ => None) fs.
