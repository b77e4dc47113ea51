(** * Specification of what encoding and decoding must do to a frame

    Independent of the model: uses only the data types and the wire format. *)

From Verif Require Export Spec.Wire.

(** ** Present-but-empty parts *)

Definition drop_empty (o : option bytes) : option bytes :=
  match o with Some [] => None | _ => o end.
Definition drop_empty_payload (p : payload) : payload :=
  Payload (drop_empty (p_metadata p)) (drop_empty (p_data p)).

(** The payload of the six payload-carrying kinds. *)
Definition payload_of (f : frame) : option payload :=
  match f with
  | FSetup s => Some (sf_payload s)
  | FRequestResponse q => Some (rr_payload q)
  | FRequestFnf q => Some (fnf_payload q)
  | FRequestStream q => Some (rs_payload q)
  | FRequestChannel q => Some (rc_payload q)
  | FPayload q => Some (pf_payload q)
  | FError _ | FLease _ | FKeepalive _ | FRequestN _ | FCancel _ | FMetadataPush _
  | FResume _ | FResumeOk _ => None
  end.

(** The same frame with another payload. *)
Definition set_payload (f : frame) (p : payload) : frame :=
  match f with
  | FSetup s =>
      FSetup (SetupFrame (sf_flags s) (sf_version s) (sf_keepalive_interval s)
                (sf_keepalive_timeout s) (sf_resume_token s) (sf_metadata_mimetype s)
                (sf_data_mimetype s) p)
  | FRequestResponse q => FRequestResponse (RequestResponseFrame (rr_stream_id q) (rr_flags q) p)
  | FRequestFnf q => FRequestFnf (RequestFnfFrame (fnf_stream_id q) (fnf_flags q) p)
  | FRequestStream q =>
      FRequestStream (RequestStreamFrame (rs_stream_id q) (rs_flags q) (rs_initial_request_n q) p)
  | FRequestChannel q =>
      FRequestChannel (RequestChannelFrame (rc_stream_id q) (rc_flags q) (rc_initial_request_n q) p)
  | FPayload q => FPayload (PayloadFrame (pf_stream_id q) (pf_flags q) p)
  | FError _ | FLease _ | FKeepalive _ | FRequestN _ | FCancel _ | FMetadataPush _
  | FResume _ | FResumeOk _ => f
  end.

(** The last, open-ended part of the kinds that have an optional one but no payload. *)
Definition tail_of (f : frame) : option (option bytes) :=
  match f with
  | FError e => Some (ef_data e)
  | FLease l => Some (lf_metadata l)
  | FKeepalive k => Some (kf_data k)
  | _ => None
  end.
Definition set_tail (f : frame) (o : option bytes) : frame :=
  match f with
  | FError e => FError (ErrorFrame (ef_stream_id e) (ef_code e) o)
  | FLease l => FLease (LeaseFrame (lf_ttl l) (lf_number_of_requests l) o)
  | FKeepalive k => FKeepalive (KeepaliveFrame (kf_respond k) (kf_last_received_position k) o)
  | _ => f
  end.

(** [f] with its present-but-empty parts made absent. *)
Definition drop_empty_parts (f : frame) : frame :=
  match payload_of f with
  | Some p => set_payload f (drop_empty_payload p)
  | None =>
      match tail_of f with
      | Some o => set_tail f (drop_empty o)
      | None => f
      end
  end.

Definition has_empty_part (f : frame) : Prop :=
  match payload_of f with
  | Some p => p_metadata p = Some [] \/ p_data p = Some []
  | None => tail_of f = Some (Some [])
  end.

(** The consistency rules between fields other than the ban on empty parts. *)
Definition coherent (f : frame) : Prop :=
  match f with
  | FSetup s => N.testbit (sf_flags s) 6 = true <-> sf_resume_token s <> None
  | FError e =>
      (connection_code (ef_code e) -> ef_stream_id e = 0) /\
      (stream_code (ef_code e) -> ef_stream_id e <> 0)
  | _ => True
  end.

(** ** More bytes *)

(** An open-ended part after more bytes have arrived. *)
Definition grow (o : option bytes) (ext : bytes) : option bytes :=
  match ext, o with
  | [], _ => o
  | _, Some l => Some (l ++ ext)
  | _, None => Some ext
  end.

(** The frame a decoder must see when [ext] follows an accepted input. *)
Definition extend (f : frame) (ext : bytes) : frame :=
  match payload_of f with
  | Some p => set_payload f (Payload (p_metadata p) (grow (p_data p) ext))
  | None =>
      match tail_of f with
      | Some o => set_tail f (grow o ext)
      | None =>
          match f with
          | FMetadataPush m => FMetadataPush (MetadataPushFrame (mp_metadata m ++ ext))
          | _ => f
          end
      end
  end.

(** ** Reserved bits in the body

    [reserved_at code input k]: in a frame of type [code], byte [k] of [input]
    starts a 31- or 63-bit field, so its top bit is reserved. *)
Inductive reserved_at (input : bytes) : N -> nat -> Prop :=
| R_setup_interval : reserved_at input 0x01 10
| R_setup_timeout : reserved_at input 0x01 14
| R_lease_ttl : reserved_at input 0x02 6
| R_lease_requests : reserved_at input 0x02 10
| R_keepalive : reserved_at input 0x03 6
| R_stream : reserved_at input 0x06 6
| R_channel : reserved_at input 0x07 6
| R_request_n : reserved_at input 0x08 6
| R_resume_ok : reserved_at input 0x0E 6
| R_resume_server a len b :
    input = a ++ len ++ b -> length a = 10%nat -> length len = 2%nat ->
    forall n, bytes_bits len = bits 16 n -> n < 2 ^ 16 ->
    reserved_at input 0x0D (12 + N.to_nat n)
| R_resume_client a len b :
    input = a ++ len ++ b -> length a = 10%nat -> length len = 2%nat ->
    forall n, bytes_bits len = bits 16 n -> n < 2 ^ 16 ->
    reserved_at input 0x0D (20 + N.to_nat n).

(** ** Truncation *)

(** The bytes of the open-ended last part of a frame. *)
Definition open_tail (f : frame) : bytes :=
  match payload_of f with
  | Some p => part (p_data p)
  | None =>
      match tail_of f with
      | Some o => part o
      | None => match f with FMetadataPush m => mp_metadata m | _ => [] end
      end
  end.

Definition absent_if_empty (l : bytes) : option bytes :=
  match l with [] => None | _ => Some l end.

(** The frame with these bytes as its last part. *)
Definition with_open_tail (f : frame) (l : bytes) : frame :=
  match payload_of f with
  | Some p => set_payload f (Payload (p_metadata p) (absent_if_empty l))
  | None =>
      match tail_of f with
      | Some _ => set_tail f (absent_if_empty l)
      | None => match f with FMetadataPush _ => FMetadataPush (MetadataPushFrame l) | _ => f end
      end
  end.

(** ** Frames one after the other *)

Section BackToBack.
  Context (encode : frame -> bytes -> eres) (decode : bytes -> dres frame * bytes).
  (** Encoding the frames into one buffer turns [a] into [b]. *)
  Inductive writes : bytes -> list frame -> bytes -> Prop :=
  | W_nil : forall b, writes b [] b
  | W_cons : forall a f b fs c, encode f a = EOk b -> writes b fs c -> writes a (f :: fs) c.
  (** Decoding again and again until the buffer is empty gives exactly these frames. *)
  Inductive reads : bytes -> list frame -> Prop :=
  | R_nil : reads [] []
  | R_cons : forall b f rest fs, decode b = (DOk f, rest) -> reads rest fs -> reads b (f :: fs).
End BackToBack.

(** ** Frames arriving in segments *)

(** What a reader is left with: bytes that are not yet a frame, or an answer other than a frame. *)
Inductive ending : Type :=
| Waiting (pending : bytes)
| Stopped (answer : dres frame).

Section Segments.
  Context (decode : bytes -> dres frame * bytes).
  (** Decoding copies of the buffer, and dropping what a frame takes, until no frame is complete. *)
  Inductive drains : bytes -> list frame -> ending -> Prop :=
  | Dr_wait : forall b, fst (decode b) = DErr InComplete -> drains b [] (Waiting b)
  | Dr_stop : forall b o, fst (decode b) = o -> o <> DErr InComplete -> (forall f, o <> DOk f) -> drains b [] (Stopped o)
  | Dr_frame : forall b f rest fs e, decode b = (DOk f, rest) -> drains rest fs e -> drains b (f :: fs) e.
  (** Doing so after the arrival of each segment, with [p] left from before. *)
  Inductive receives : bytes -> list bytes -> list frame -> ending -> Prop :=
  | Rc_nil : forall p, receives p [] [] (Waiting p)
  | Rc_more : forall p seg segs fs q gs e, drains (p ++ seg) fs (Waiting q) -> receives q segs gs e ->
      receives p (seg :: segs) (fs ++ gs) e
  | Rc_stop : forall p seg segs fs o, drains (p ++ seg) fs (Stopped o) -> receives p (seg :: segs) fs (Stopped o).
End Segments.

(** ** Where a decoding that lacks bytes stops *)

(** The parts of a body whose end does not depend on the end of the buffer: so many bytes, or a length of
    [w] bytes and then that many. *)
Inductive item : Set :=
| Fixed (n : nat)
| Counted (w : nat).
Definition items (code : N) (token : bool) : list item :=
  match code with
  | 0x01 => [Fixed 4; Fixed 4; Fixed 4] ++ (if token then [Counted 2] else []) ++ [Counted 1; Counted 1; Counted 3]
  | 0x02 => [Fixed 4; Fixed 4]
  | 0x04 | 0x05 | 0x0A => [Counted 3]
  | 0x06 | 0x07 => [Fixed 4; Counted 3]
  | 0x08 | 0x0B => [Fixed 4]
  | 0x0D => [Fixed 4; Counted 2; Fixed 8; Fixed 8]
  | 0x03 | 0x0E => [Fixed 8]
  | _ => []
  end.
(** [halts is b rest]: the bytes [b] end inside one of the items, and the reader stands at [rest].  A length of one byte is
    only read when a byte follows it, one of three bytes is read as one byte and then two. *)
Inductive halts : list item -> bytes -> bytes -> Prop :=
| Ha_fixed_short : forall n is b, (length b < n)%nat -> halts (Fixed n :: is) b b
| Ha_fixed : forall n is a b rest, length a = n -> halts is b rest -> halts (Fixed n :: is) (a ++ b) rest
| Ha_length_short : forall w is b, (length b < 2)%nat -> halts (Counted w :: is) b b
| Ha_length_cut : forall is x y, halts (Counted 3 :: is) [x; y] [y]
| Ha_counted_short : forall w is l n b, length l = w -> bytes_bits l = bits (8 * w) n -> n < 2 ^ N.of_nat (8 * w) ->
    (2 <= length (l ++ b))%nat -> size b < n -> halts (Counted w :: is) (l ++ b) b
| Ha_counted : forall w is l a b rest, length l = w -> bytes_bits l = bits (8 * w) (size a) ->
    size a < 2 ^ N.of_nat (8 * w) -> (2 <= length (l ++ a ++ b))%nat -> halts is b rest ->
    halts (Counted w :: is) (l ++ a ++ b) rest.
(** The same for a whole frame. *)
Inductive stalls : bytes -> bytes -> Prop :=
| St_header : forall b, (length b < 6)%nat -> stalls b b
| St_body : forall hd body sid code w rest, length hd = 6%nat -> has_header (hd ++ body) sid code w ->
    (connection_kind code -> sid = 0) -> halts (items code (N.testbit w 6)) body rest -> stalls (hd ++ body) rest.

(** ** Decoding a body under a stream id of the caller's *)

(** The frame with another stream id, if its kind has one. *)
Definition set_stream_id (sid : N) (f : frame) : frame :=
  match f with
  | FRequestResponse q => FRequestResponse (RequestResponseFrame sid (rr_flags q) (rr_payload q))
  | FRequestFnf q => FRequestFnf (RequestFnfFrame sid (fnf_flags q) (fnf_payload q))
  | FRequestStream q => FRequestStream (RequestStreamFrame sid (rs_flags q) (rs_initial_request_n q) (rs_payload q))
  | FRequestChannel q => FRequestChannel (RequestChannelFrame sid (rc_flags q) (rc_initial_request_n q) (rc_payload q))
  | FRequestN q => FRequestN (RequestNFrame sid (rn_request_n q))
  | FCancel _ => FCancel (CancelFrame sid)
  | FPayload q => FPayload (PayloadFrame sid (pf_flags q) (pf_payload q))
  | FError e => FError (ErrorFrame sid (ef_code e) (ef_data e))
  | FSetup _ | FLease _ | FKeepalive _ | FMetadataPush _ | FResume _ | FResumeOk _ => f
  end.
(** The same outcome under another stream id. *)
Definition relabel (sid : N) (o : dres frame) : dres frame :=
  match o with
  | DOk f => DOk (set_stream_id sid f)
  | DErr (InvalidStreamId e _) => DErr (InvalidStreamId e sid)
  | _ => o
  end.
