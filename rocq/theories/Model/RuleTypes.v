(** * The public calls that make a frame, as data *)

From Verif Require Export Model.Types.

(** One constructor of [codec/*.rs] with its arguments, the result wrapped in [Frame]; a SETUP
    frame comes from a chain of builder calls. *)
Inductive new_call : Set :=
| NewSetup (cs : list setup_call)                                          (* setup.rs:58-60,253-371 *)
| NewError (stream_id error_code : N) (data : option bytes)                 (* error.rs:113 *)
| NewLease (ttl number_of_requests : N) (metadata : option bytes)           (* lease.rs:43 *)
| NewKeepalive (last_received_position : N) (data : option bytes) (respond : bool)  (* keepalive.rs:41 *)
| NewRequestResponse (stream_id : N) (follows : bool) (p : payload)         (* request_response.rs:35 *)
| NewRequestFnf (stream_id : N) (follows : bool) (p : payload)              (* request_fnf.rs:35 *)
| NewRequestStream (stream_id : N) (follows : bool) (initial_request_n : N) (p : payload)  (* request_stream.rs:39 *)
| NewRequestChannel (stream_id : N) (follows complete : bool) (initial_request_n : N) (p : payload)  (* request_channel.rs:41 *)
| NewRequestN (stream_id request_n : N)                                     (* request_n.rs:36 *)
| NewCancel (stream_id : N)                                                 (* cancel.rs:31 *)
| NewPayload (stream_id : N) (fl : flags) (p : payload)                     (* payload.rs:44 *)
| NewMetadataPush (metadata : bytes)                                        (* metadata_push.rs:36 *)
| NewResume (v : version) (resume_token : bytes)
    (last_received_server_position first_available_client_position : N)     (* resume.rs:48 *)
| NewResumeOk (last_received_client_position : N).                          (* resume_ok.rs:36 *)
