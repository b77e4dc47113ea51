(** * Specification of lengths in a [usize] of [w] bits

    Independent of the model: uses only its data types. *)

From Verif Require Export Spec.Codec Spec.Chunk Spec.Buf.

(** The byte strings a frame holds, and the number of bytes its [len] counts besides them. *)
Definition byte_parts (f : frame) : list bytes :=
  match f with
  | FSetup s => [part (sf_resume_token s); sf_metadata_mimetype s; sf_data_mimetype s;
                 part (p_metadata (sf_payload s)); part (p_data (sf_payload s))]
  | FError e => [part (ef_data e)]
  | FLease l => [part (lf_metadata l)]
  | FKeepalive k => [part (kf_data k)]
  | FRequestResponse q => [part (p_metadata (rr_payload q)); part (p_data (rr_payload q))]
  | FRequestFnf q => [part (p_metadata (fnf_payload q)); part (p_data (fnf_payload q))]
  | FRequestStream q => [part (p_metadata (rs_payload q)); part (p_data (rs_payload q))]
  | FRequestChannel q => [part (p_metadata (rc_payload q)); part (p_data (rc_payload q))]
  | FPayload q => [part (p_metadata (pf_payload q)); part (p_data (pf_payload q))]
  | FMetadataPush q => [mp_metadata q]
  | FResume q => [rf_resume_token q]
  | FRequestN _ | FCancel _ | FResumeOk _ => []
  end.
Definition overhead (f : frame) : N :=
  match f with
  | FSetup _ => 25 | FError _ => 10 | FLease _ | FKeepalive _ | FResumeOk _ => 14
  | FRequestResponse _ | FRequestFnf _ | FPayload _ => 9
  | FRequestStream _ | FRequestChannel _ => 13
  | FRequestN _ => 10 | FCancel _ | FMetadataPush _ => 6 | FResume _ => 28
  end.
Definition sum_sizes (l : list bytes) : N := fold_right (fun b n => size b + n) 0 l.
Definition total (f : frame) : N := overhead f + sum_sizes (byte_parts f).

(** No object in memory is longer than [isize::MAX] bytes. *)
Definition largest (w : N) : N := 2 ^ (w - 1) - 1.
Definition in_memory (w : N) (l : list bytes) : Prop := Forall (fun b => size b <= largest w) l.

(** A sum of lengths, as computed in [w] bits. *)
Definition overflowing (w : N) (bd : build) (n : N) : oc N :=
  if n <? 2 ^ w then Ret n
  else match bd with Debug => Panic | Release => Ret (n mod 2 ^ w) end.

(** What the SETUP builder lets pass, and what fits in the length fields of a SETUP frame. *)
Definition setup_limits (f : frame) : Prop :=
  match f with
  | FSetup s => size (part (sf_resume_token s)) <= 65535 /\
      size (sf_metadata_mimetype s) <= 256 /\ size (sf_data_mimetype s) <= 256
  | _ => True
  end.
(** Metadata that a 24-bit length can announce. *)
Definition short_metadata (f : frame) : Prop :=
  forall p, payload_of f = Some p -> size (part (p_metadata p)) < 2 ^ 24.
