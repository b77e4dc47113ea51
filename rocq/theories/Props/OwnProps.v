(** * The decoders of the frame types, called directly: C74 *)

From Verif Require Import Model.BufM Spec.Codec Spec.Build Spec.Buf Proofs.OwnP.

(** With a 31-bit stream id, zero for the connection-level kinds, the decoder of a type does what
    [Frame::decode] does with the body behind a header saying so. *)
Theorem C74_as_frame : forall t r sid fl hd body, t <> FT_EXT -> r < 2 -> sid < 2 ^ 31 -> flags_ok fl ->
  (connection_kind (type_code t) -> sid = 0) ->
  bytes_bits hd = render (header r sid (type_code t) fl) ->
  own_decode flat 0 t sid fl body = decode (hd ++ body).
Proof. exact own_as_frame. Qed.
Print Assumptions C74_as_frame.

(** LEASE and KEEPALIVE refuse any other stream id and read nothing. *)
Theorem C74_checked : forall t sid fl body, t = FT_LEASE \/ t = FT_KEEPALIVE -> sid <> 0 ->
  own_decode flat 0 t sid fl body = (DErr (InvalidStreamId "0" sid), body).
Proof. exact own_checked. Qed.
Print Assumptions C74_checked.

(** The other connection-level kinds take any. *)
Theorem C74_ignored : forall t sid fl body,
  t = FT_SETUP \/ t = FT_METADATA_PUSH \/ t = FT_RESUME \/ t = FT_RESUME_OK ->
  own_decode flat 0 t sid fl body = own_decode flat 0 t 0 fl body.
Proof. exact own_ignored. Qed.
Print Assumptions C74_ignored.

(** The remaining kinds do the same under every stream id but 0 and keep it as it is,
    also above 31 bits. *)
Theorem C74_relabelled : forall t sid sid' fl body, t <> FT_EXT -> ~ connection_kind (type_code t) -> sid <> 0 -> sid' <> 0 ->
  own_decode flat 0 t sid' fl body =
  (relabel sid' (fst (own_decode flat 0 t sid fl body)), snd (own_decode flat 0 t sid fl body)).
Proof. exact own_relabelled. Qed.
Print Assumptions C74_relabelled.

(** All of this from any buffer. *)
Theorem C74_any_buffer : forall B (ops : buf_ops B) repr fuel t sid fl b s,
  lawful ops repr -> (8 <= fuel)%nat -> repr b s ->
  fst (own_decode ops fuel t sid fl b) = fst (own_decode flat 0 t sid fl s) /\
  repr (snd (own_decode ops fuel t sid fl b)) (snd (own_decode flat 0 t sid fl s)).
Proof. exact own_any. Qed.
Print Assumptions C74_any_buffer.

Example C74_example :
  own_decode flat 0 FT_KEEPALIVE 0 64 (map n2b [0;0;0;0;0;0;0;9; 7]) =
    (DOk (FKeepalive (KeepaliveFrame true 9 (Some [n2b 7]))), []) /\
  own_decode flat 0 FT_KEEPALIVE 3 64 (map n2b [0;0;0;0;0;0;0;9; 7]) =
    (DErr (InvalidStreamId "0" 3), map n2b [0;0;0;0;0;0;0;9; 7]) /\
  own_decode flat 0 FT_RESUME_OK 3 0 (map n2b [0;0;0;0;0;0;0;9; 7]) =
    (DOk (FResumeOk (ResumeOkFrame 9)), [n2b 7]) /\
  own_decode flat 0 FT_REQUEST_N (2 ^ 31 + 5) 0 (map n2b [0;0;0;9]) =
    (DOk (FRequestN (RequestNFrame (2 ^ 31 + 5) 9)), []) /\
  own_decode flat 0 FT_ERROR (2 ^ 31) 0 (map n2b [0;0;1;1]) = (DErr (InvalidStreamId "0" (2 ^ 31)), []).
Proof. repeat apply conj; vm_compute; reflexivity. Qed.
