(** * The messages of panics, frame/codec/mod.rs:5-21 and the assertions of frame/, payload.rs and connection/buf.rs

    [None] is no panic.  [assert!(e)] without a text says "assertion failed: " and [e] as written (core);
    [unimplemented!()] says "not implemented". *)

From Verif Require Export Model.MessageTypes Model.BufM Model.ChunkM.

(** [debug_assert!(cond, text)], then the rest of the function. *)
Definition debug_says (bd : build) (cond : bool) (text : string) (k : option string) : option string :=
  match bd with Debug => if cond then k else Some text | Release => k end.
(** The three macros, codec/mod.rs:5-21; [var] is [stringify!($var)]. *)
Definition says_max_u31 bd (var : string) (v : N) k := debug_says bd (v <=? MAX_U31) (var ++ " MUST be <= MAX_U31 (0x7FFFFFFF)") k.
Definition says_max_u63 bd (var : string) (v : N) k :=
  debug_says bd (v <=? MAX_U63) (var ++ " MUST be <= MAX_U63 (0x7FFF_FFFF_FFFF_FFFF)") k.
Definition says_non_zero bd (var : string) (v : N) k := debug_says bd (negb (v =? 0)) (var ++ " MUST be non-zero") k.
(** [assert!(e)]; [text] is [stringify!(e)]. *)
Definition says_assert (cond : bool) (text : string) : option string :=
  if cond then None else Some ("assertion failed: " ++ text)%string.

(** The methods of [SetupBuilder], setup.rs:278-344. *)
Definition setup_says (bd : build) (c : setup_call) : option string :=
  match c with
  | SetKeepaliveInterval interval => says_max_u31 bd "interval" interval None                  (* 279 *)
  | SetKeepaliveTimeout timeout => says_max_u31 bd "timeout" timeout None                      (* 287 *)
  | SetResumeToken token => says_assert (blen token <=? 65535) "token.len() <= 65_535"         (* 298 *)
  | SetMetadataMimetype m => says_assert (blen m <=? 256) "mimetype.len() <= 256"              (* 320 *)
  | SetDataMimetype m => says_assert (blen m <=? 256) "mimetype.len() <= 256"                  (* 341 *)
  | SetResumeFlag | SetLeaseFlag | SetVersion _ _ | SetMetadata _ | SetData _ => None
  end.

(** [U24::from_usize], u24.rs:37. *)
Definition from_usize_says (val : N) : option string := says_assert (val <=? U24_MAX) "val <= U24::MAX as usize".
(** [Encode] of the frames with a payload: [U24::from_usize] of the length of the metadata (the lines are at
    [put_metadata_len] in [CodecM.v]); the other encoders assert nothing. *)
Definition metadata_says (p : payload) : option string :=
  from_usize_says (match payload_metadata p with Some v => blen v | None => 0 end).
Definition encode_says (f : frame) : option string :=
  match f with
  | FSetup v => metadata_says (sf_payload v)
  | FRequestResponse v => metadata_says (rr_payload v)
  | FRequestFnf v => metadata_says (fnf_payload v)
  | FRequestStream v => metadata_says (rs_payload v)
  | FRequestChannel v => metadata_says (rc_payload v)
  | FPayload v => metadata_says (pf_payload v)
  | _ => None
  end.

(** The message of the panic of a call. *)
Definition message (bd : build) (c : api_call) : option string :=
  match c with
  | NewRequestResponse sid _ _ => says_max_u31 bd "stream_id" sid None                         (* request_response.rs:36 *)
  | NewRequestFnf sid _ _ => says_max_u31 bd "stream_id" sid None                              (* request_fnf.rs:36 *)
  | NewRequestStream sid _ n _ =>                                                              (* request_stream.rs:45-46 *)
      says_max_u31 bd "stream_id" sid (says_max_u31 bd "initial_request_n" n
        (says_non_zero bd "initial_request_n" n None))
  | NewRequestChannel sid _ _ n _ =>                                                           (* request_channel.rs:48-49 *)
      says_max_u31 bd "stream_id" sid (says_max_u31 bd "initial_request_n" n
        (says_non_zero bd "initial_request_n" n None))
  | NewPayload sid _ _ => says_max_u31 bd "stream_id" sid None                                 (* codec/payload.rs:45 *)
  | NewRequestN sid n =>                                                                       (* request_n.rs:37-38 *)
      says_max_u31 bd "stream_id" sid (says_max_u31 bd "request_n" n (says_non_zero bd "request_n" n None))
  | NewCancel sid => says_max_u31 bd "stream_id" sid None                                      (* cancel.rs:32 *)
  | NewError sid code _ =>                                                                     (* codec/error.rs:114-115 *)
      says_max_u31 bd "stream_id" sid (says_max_u31 bd "error_code" code None)
  | NewLease ttl n _ => says_max_u31 bd "ttl" ttl (says_max_u31 bd "number_of_requests" n None) (* lease.rs:48 *)
  | NewKeepalive pos _ _ => says_max_u63 bd "last_received_position" pos None                  (* keepalive.rs:46 *)
  | NewResume _ _ a b =>                                                                       (* resume.rs:54-57 *)
      says_max_u63 bd "last_received_server_position" a
        (says_max_u63 bd "first_available_client_position" b None)
  | NewResumeOk a => says_max_u63 bd "last_received_client_position" a None                    (* resume_ok.rs:37 *)
  | BuildSetup _ c => setup_says bd c
  | U24FromU32 v => says_assert (v <=? U24_MAX) "val <= U24::MAX"                              (* u24.rs:27 *)
  | U24FromUsize v => from_usize_says v
  | PayloadChunks _ n => says_assert (negb (n =? 0)) "chunk_size != 0"                         (* payload.rs:114 *)
  | ListPush _ b =>                                                                            (* buf.rs:23 *)
      match bd with Debug => says_assert (negb (Nat.eqb (length b) 0)) "buf.has_remaining()" | Release => None end
  | ListCopy l n =>                                                                            (* buf.rs:119-122 *)
      if Nat.leb n (bl_remaining flat l) then None else Some "`len` greater than remaining"%string
  | FrameEncode f => encode_says f
  | FrameDecode input =>                                                                       (* frame/mod.rs:174 *)
      match fst (decode input) with DPanic => Some "not implemented"%string | _ => None end
  end.

(** The same calls of the functions of [CodecM.v], [U24M.v], [ChunkM.v], [BufM.v] and [FrameM.v]. *)
Definition panics {A} (x : oc A) : bool := match x with Panic => true | _ => false end.
Definition call_panics (bd : build) (c : api_call) : bool :=
  match c with
  | NewRequestResponse sid follows p => panics (request_response_new bd sid follows p)
  | NewRequestFnf sid follows p => panics (request_fnf_new bd sid follows p)
  | NewRequestStream sid follows n p => panics (request_stream_new bd sid follows n p)
  | NewRequestChannel sid follows complete n p => panics (request_channel_new bd sid follows complete n p)
  | NewPayload sid fl p => panics (payload_frame_new bd sid fl p)
  | NewRequestN sid n => panics (request_n_new bd sid n)
  | NewCancel sid => panics (cancel_new bd sid)
  | NewError sid code d => panics (error_new bd sid code d)
  | NewLease ttl n m => panics (lease_new bd ttl n m)
  | NewKeepalive pos d r => panics (keepalive_new bd pos d r)
  | NewResume v t a b => panics (resume_new bd v t a b)
  | NewResumeOk a => panics (resume_ok_new bd a)
  | BuildSetup b c => panics (setup_apply bd b c)
  | U24FromU32 v => panics (u24_from_u32 v)
  | U24FromUsize v => panics (u24_from_usize v)
  | PayloadChunks p n => panics (payload_chunks p n)
  | ListPush l b => panics (bl_push flat bd b l)
  | ListCopy l n => panics (bl_copy_to_bytes flat (length l) n l)
  | FrameEncode f => panics (frame_to_bytes f)
  | FrameDecode input => match fst (decode input) with DPanic => true | _ => false end
  end.
