(** * Making a frame through the public API (binate/src/frame/codec/*.rs) *)

From Verif Require Export Model.FrameM Model.RuleTypes.

Definition oc_map {A B} (f : A -> B) (o : oc A) : oc B :=
  match o with Ret a => Ret (f a) | Panic => Panic | Loop => Loop end.

(** The constructor called, the lines are in [Model/RuleTypes.v]. *)
Definition new_run (bd : build) (c : new_call) : oc frame :=
  match c with
  | NewSetup cs => oc_map FSetup (setup_run bd cs)
  | NewError sid code d => oc_map FError (error_new bd sid code d)
  | NewLease ttl n m => oc_map FLease (lease_new bd ttl n m)
  | NewKeepalive pos d r => oc_map FKeepalive (keepalive_new bd pos d r)
  | NewRequestResponse sid follows p => oc_map FRequestResponse (request_response_new bd sid follows p)
  | NewRequestFnf sid follows p => oc_map FRequestFnf (request_fnf_new bd sid follows p)
  | NewRequestStream sid follows n p => oc_map FRequestStream (request_stream_new bd sid follows n p)
  | NewRequestChannel sid follows complete n p =>
    oc_map FRequestChannel (request_channel_new bd sid follows complete n p)
  | NewRequestN sid n => oc_map FRequestN (request_n_new bd sid n)
  | NewCancel sid => oc_map FCancel (cancel_new bd sid)
  | NewPayload sid fl p => oc_map FPayload (payload_frame_new bd sid fl p)
  | NewMetadataPush m => Ret (FMetadataPush (metadata_push_new m))
  | NewResume v t a b => oc_map FResume (resume_new bd v t a b)
  | NewResumeOk a => oc_map FResumeOk (resume_ok_new bd a)
  end.
