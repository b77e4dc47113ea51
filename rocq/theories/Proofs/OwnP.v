(** * The decoders of the frame types, called directly *)

From Coq Require Import Lia.
From Verif Require Import Model.BufM Spec.Codec Spec.Build Spec.Buf.
From Verif Require Import Proofs.BitsP Proofs.EatP Proofs.CodecP Proofs.DecodeP Proofs.BuildP Proofs.BufP.

Lemma own_body : forall t, own_decode flat 0 t = body_dec 0 t.
Proof. reflexivity. Qed.

Lemma own_as_frame : forall t r sid fl hd body, t <> FT_EXT -> r < 2 -> sid < 2 ^ 31 -> flags_ok fl ->
  (connection_kind (type_code t) -> sid = 0) ->
  bytes_bits hd = render (header r sid (type_code t) fl) ->
  own_decode flat 0 t sid fl body = decode (hd ++ body).
Proof.
  intros t r sid fl hd body T R Hs F K B.
  assert (Hw : fl < 1024) by (destruct F; lia).
  assert (Hc : type_code t < 64) by now destruct t.
  assert (hd = header_bytes r sid (type_code t) fl) as ->.
  { apply bytes_bits_inj. now rewrite header_bits. }
  rewrite decode_header by assumption. rewrite <- value_code, from_value, assigned_id by assumption.
  unfold after_header. rewrite own_body.
  destruct (needs_stream_zero t) eqn:Z; [|reflexivity].
  apply needs_zero_kind in Z. rewrite value_code in Z. rewrite (K Z). reflexivity.
Qed.

Lemma own_checked : forall t sid fl body, t = FT_LEASE \/ t = FT_KEEPALIVE -> sid <> 0 ->
  own_decode flat 0 t sid fl body = (DErr (InvalidStreamId "0" sid), body).
Proof.
  intros t sid fl body T H. apply N.eqb_neq in H.
  destruct T as [-> | ->]; cbn; unfold d_map, d_bind, lease_decode, keepalive_decode; rewrite H; reflexivity.
Qed.

Lemma own_ignored : forall t sid fl body,
  t = FT_SETUP \/ t = FT_METADATA_PUSH \/ t = FT_RESUME \/ t = FT_RESUME_OK ->
  own_decode flat 0 t sid fl body = own_decode flat 0 t 0 fl body.
Proof. intros t sid fl body [-> | [-> | [-> | ->]]]; reflexivity. Qed.

(** A read is stuck on the bytes it lacks, or gives a value. *)
Lemma tame_cases : forall {A} (m : dec bytes A) b, tame m ->
  (exists b', m b = (DErr InComplete, b')) \/ exists a b', m b = (DOk a, b').
Proof.
  intros A m b T. destruct (T b) as [_ H]. destruct (m b) as [r b']. cbn in H.
  destruct H as [-> | [a ->]]; eauto.
Qed.
Ltac read T b b' := destruct (tame_cases _ b T) as [(b' & ->) | (? & b' & ->)]; [reflexivity|].

Lemma own_relabelled : forall t sid sid' fl body, t <> FT_EXT -> ~ connection_kind (type_code t) -> sid <> 0 -> sid' <> 0 ->
  own_decode flat 0 t sid' fl body =
  (relabel sid' (fst (own_decode flat 0 t sid fl body)), snd (own_decode flat 0 t sid fl body)).
Proof.
  intros t sid sid' fl body X T H H'. apply N.eqb_neq in H, H'.
  destruct t; try (elim T; unfold connection_kind; cbn; tauto); try (now elim X);
    cbn [own_decode]; unfold d_map, request_response_decode, request_fnf_decode, request_stream_decode,
      request_channel_decode, request_n_decode, cancel_decode, payload_frame_decode, error_decode, validate_stream_id,
      d_bind, d_ret, d_err.
  - read (eat_payload_tame 0) body b1. reflexivity.
  - read (eat_payload_tame 0) body b1. reflexivity.
  - read (eat_u31_tame 0) body b1. read (eat_payload_tame 0) b1 b2. reflexivity.
  - read (eat_u31_tame 0) body b1. read (eat_payload_tame 0) b1 b2. reflexivity.
  - read (eat_u31_tame 0) body b1. reflexivity.
  - reflexivity.
  - read (eat_payload_tame 0) body b1. reflexivity.
  - change (eat_u32 flat 0) with (eat_n 0 4). read (eat_n_tame 0 4) body b1. rewrite H, H'. cbn [negb].
    destruct (_ || _); [reflexivity|].
    destruct (_ || _); read eat_rest_tame b1 b2; reflexivity.
Qed.

Lemma own_any : forall B (ops : buf_ops B) repr fuel t sid fl b s, lawful ops repr -> (8 <= fuel)%nat -> repr b s ->
  fst (own_decode ops fuel t sid fl b) = fst (own_decode flat 0 t sid fl s) /\
  repr (snd (own_decode ops fuel t sid fl b)) (snd (own_decode flat 0 t sid fl s)).
Proof. intros B ops repr fuel t sid fl b s L F R. now apply (sim_own ops repr L fuel F). Qed.
