(** * The rules the documentation of the frames states with MUST

    Independent of the model: uses only its data types.  The rules are those of the doc
    comments in binate/src/frame/codec/*.rs. *)

From Verif Require Export Spec.Wire Spec.Build Model.RuleTypes.

Definition u31 (n : N) : Prop := n < 2 ^ 31.
Definition u63 (n : N) : Prop := n < 2 ^ 63.

(** error.rs:44-96: connection errors on stream 0, stream errors on another. *)
Definition right_stream (sid code : N) : Prop :=
  (connection_code code -> sid = 0) /\ (stream_code code -> sid <> 0).

(** The frame keeps the rules. *)
Definition obeys (f : frame) : Prop :=
  match f with
  | FSetup s =>                                            (* setup.rs:271,285,296 *)
    0 < sf_keepalive_interval s /\ u31 (sf_keepalive_interval s) /\
    0 < sf_keepalive_timeout s /\ u31 (sf_keepalive_timeout s) /\
    size (part (sf_resume_token s)) <= 65535
  | FError e => u31 (ef_stream_id e) /\ right_stream (ef_stream_id e) (ef_code e)      (* error.rs:44-96,111 *)
  | FLease l => u31 (lf_ttl l) /\ u31 (lf_number_of_requests l)                        (* lease.rs:42 *)
  | FKeepalive k => u63 (kf_last_received_position k)                                  (* keepalive.rs:40 *)
  | FRequestResponse q => u31 (rr_stream_id q)                                         (* request_response.rs:33 *)
  | FRequestFnf q => u31 (fnf_stream_id q)                                             (* request_fnf.rs:33 *)
  | FRequestStream q => u31 (rs_stream_id q) /\ 0 < rs_initial_request_n q /\ u31 (rs_initial_request_n q)
                                                                                       (* request_stream.rs:36-38 *)
  | FRequestChannel q => u31 (rc_stream_id q) /\ 0 < rc_initial_request_n q /\ u31 (rc_initial_request_n q)
                                                                                       (* request_channel.rs:36-40 *)
  | FRequestN q => u31 (rn_stream_id q) /\ 0 < rn_request_n q /\ u31 (rn_request_n q)  (* request_n.rs:33-35 *)
  | FCancel c => u31 (cf_stream_id c)                                                  (* cancel.rs:30 *)
  | FPayload q => u31 (pf_stream_id q) /\                                              (* codec/payload.rs:33-40 *)
    (N.testbit (pf_flags q) 5 = true \/ N.testbit (pf_flags q) 4 = true)
  | FMetadataPush _ => True
  | FResume q => size (rf_resume_token q) <= 65535 /\                                  (* resume.rs:45-47 *)
    u63 (rf_last_received_server_position q) /\ u63 (rf_first_available_client_position q)
  | FResumeOk q => u63 (ro_last_received_client_position q)                            (* resume_ok.rs:34-35 *)
  end.

(** The rules that no check stands behind: numbers that must not be 0, and the flags of PAYLOAD. *)
Definition nothing_missing (f : frame) : Prop :=
  match f with
  | FSetup s => sf_keepalive_interval s <> 0 /\ sf_keepalive_timeout s <> 0
  | FRequestStream q => rs_initial_request_n q <> 0
  | FRequestChannel q => rc_initial_request_n q <> 0
  | FRequestN q => rn_request_n q <> 0
  | FPayload q => N.testbit (pf_flags q) 5 = true \/ N.testbit (pf_flags q) 4 = true
  | _ => True
  end.

(** The arguments for which a constructor that returns makes a frame that keeps the rules. *)
Definition careful (c : new_call) : Prop :=
  match c with
  | NewSetup cs =>
    (exists i, is_latest sets_interval 30000 cs i /\ i <> 0) /\
    (exists i, is_latest sets_timeout 60000 cs i /\ i <> 0)
  | NewError sid code _ => right_stream (sid mod 2 ^ 31) (code mod 2 ^ 31)
  | NewLease ttl n _ => u31 ttl /\ u31 n
  | NewRequestStream _ _ n _ => n mod 2 ^ 31 <> 0
  | NewRequestChannel _ _ _ n _ => n mod 2 ^ 31 <> 0
  | NewRequestN _ n => n mod 2 ^ 31 <> 0
  | NewPayload _ w _ => N.testbit w 5 = true \/ N.testbit w 4 = true
  | NewResume _ t _ _ => size t <= 65535
  | NewKeepalive _ _ _ | NewRequestResponse _ _ _ | NewRequestFnf _ _ _ | NewCancel _
  | NewMetadataPush _ | NewResumeOk _ => True
  end.
(** The arguments keep the rules themselves. *)
Definition lawful_arguments (c : new_call) : Prop :=
  match c with
  | NewSetup cs =>
    (forall n, In (SetKeepaliveInterval n) cs -> 0 < n /\ u31 n) /\
    (forall n, In (SetKeepaliveTimeout n) cs -> 0 < n /\ u31 n) /\
    (forall t, In (SetResumeToken t) cs -> size t <= 65535) /\
    (forall m, In (SetMetadataMimetype m) cs \/ In (SetDataMimetype m) cs -> size m <= 256)
  | NewError sid code _ => u31 sid /\ u31 code /\ right_stream sid code
  | NewLease ttl n _ => u31 ttl /\ u31 n
  | NewKeepalive pos _ _ => u63 pos
  | NewRequestResponse sid _ _ | NewRequestFnf sid _ _ | NewCancel sid => u31 sid
  | NewRequestStream sid _ n _ | NewRequestChannel sid _ _ n _ | NewRequestN sid n => u31 sid /\ 0 < n /\ u31 n
  | NewPayload sid w _ => u31 sid /\ (N.testbit w 5 = true \/ N.testbit w 4 = true)
  | NewMetadataPush _ => True
  | NewResume _ t a b => size t <= 65535 /\ u63 a /\ u63 b
  | NewResumeOk a => u63 a
  end.

(** error.rs:98-102: the codes left to applications. *)
Definition application_code (c : N) : Prop := 0x301 <= c <= 0xFFFFFFFE.
