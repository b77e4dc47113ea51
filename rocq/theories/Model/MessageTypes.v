(** * Data types of the calls whose panics carry a message of the crate *)

From Verif Require Export Model.Types.

(** Calls of the public functions that assert something about their arguments, and of the crate's buffer list. *)
Inductive api_call : Set :=
| NewRequestResponse (stream_id : N) (follows : bool) (p : payload)
| NewRequestFnf (stream_id : N) (follows : bool) (p : payload)
| NewRequestStream (stream_id : N) (follows : bool) (initial_request_n : N) (p : payload)
| NewRequestChannel (stream_id : N) (follows complete : bool) (initial_request_n : N) (p : payload)
| NewPayload (stream_id : N) (fl : flags) (p : payload)
| NewRequestN (stream_id request_n : N)
| NewCancel (stream_id : N)
| NewError (stream_id error_code : N) (data : option bytes)
| NewLease (ttl number_of_requests : N) (metadata : option bytes)
| NewKeepalive (last_received_position : N) (data : option bytes) (respond : bool)
| NewResume (v : version) (resume_token : bytes) (last_received_server_position first_available_client_position : N)
| NewResumeOk (last_received_client_position : N)
| BuildSetup (b : setup_frame) (c : setup_call)      (* one call on a builder *)
| U24FromU32 (val : N)
| U24FromUsize (val : N)
| PayloadChunks (p : payload) (chunk_size : N)
| ListPush (l : list bytes) (buf : bytes)            (* on a BufList of Bytes *)
| ListCopy (l : list bytes) (len : nat)
| FrameEncode (f : frame)
| FrameDecode (input : bytes).
