(** * Encoding and decoding of whole frames on contiguous bytes *)

From Coq Require Import Lia.
From Verif Require Import Model.FrameM Spec.Codec Proofs.BitsP Proofs.EatP.

(** ** Wire images as bytes *)

Definition header_bytes (r sid c w : N) : bytes :=
  to_be 4 (r * 2 ^ 31 + sid) ++ to_be 2 (c * 1024 + w).

Definition body_bytes (r1 r2 : N) (f : frame) : bytes :=
  match f with
  | FSetup s =>
      version_bytes (sf_version s) ++
      to_be 4 (r1 * 2 ^ 31 + sf_keepalive_interval s) ++
      to_be 4 (r2 * 2 ^ 31 + sf_keepalive_timeout s) ++
      token_bytes (sf_resume_token s) ++
      to_be 1 (size (sf_metadata_mimetype s)) ++ sf_metadata_mimetype s ++
      to_be 1 (size (sf_data_mimetype s)) ++ sf_data_mimetype s ++
      payload_bytes (sf_payload s)
  | FLease l =>
      to_be 4 (r1 * 2 ^ 31 + lf_ttl l) ++
      to_be 4 (r2 * 2 ^ 31 + lf_number_of_requests l) ++ part (lf_metadata l)
  | FKeepalive k => to_be 8 (r1 * 2 ^ 63 + kf_last_received_position k) ++ part (kf_data k)
  | FRequestResponse q => payload_bytes (rr_payload q)
  | FRequestFnf q => payload_bytes (fnf_payload q)
  | FRequestStream q =>
      to_be 4 (r1 * 2 ^ 31 + rs_initial_request_n q) ++ payload_bytes (rs_payload q)
  | FRequestChannel q =>
      to_be 4 (r1 * 2 ^ 31 + rc_initial_request_n q) ++ payload_bytes (rc_payload q)
  | FRequestN q => to_be 4 (r1 * 2 ^ 31 + rn_request_n q)
  | FCancel _ => []
  | FPayload q => payload_bytes (pf_payload q)
  | FError e => to_be 4 (ef_code e) ++ part (ef_data e)
  | FMetadataPush m => mp_metadata m
  | FResume q =>
      version_bytes (rf_version q) ++
      to_be 2 (size (rf_resume_token q)) ++ rf_resume_token q ++
      to_be 8 (r1 * 2 ^ 63 + rf_last_received_server_position q) ++
      to_be 8 (r2 * 2 ^ 63 + rf_first_available_client_position q)
  | FResumeOk q => to_be 8 (r1 * 2 ^ 63 + ro_last_received_client_position q)
  end.

Definition kind (f : frame) : frame_type :=
  match f with
  | FSetup _ => FT_SETUP
  | FError _ => FT_ERROR
  | FLease _ => FT_LEASE
  | FKeepalive _ => FT_KEEPALIVE
  | FRequestResponse _ => FT_REQUEST_RESPONSE
  | FRequestFnf _ => FT_REQUEST_FNF
  | FRequestStream _ => FT_REQUEST_STREAM
  | FRequestChannel _ => FT_REQUEST_CHANNEL
  | FRequestN _ => FT_REQUEST_N
  | FCancel _ => FT_CANCEL
  | FPayload _ => FT_PAYLOAD
  | FMetadataPush _ => FT_METADATA_PUSH
  | FResume _ => FT_RESUME
  | FResumeOk _ => FT_RESUME_OK
  end.

Definition sid_of (f : frame) : N :=
  match f with
  | FError e => ef_stream_id e
  | FRequestResponse q => rr_stream_id q
  | FRequestFnf q => fnf_stream_id q
  | FRequestStream q => rs_stream_id q
  | FRequestChannel q => rc_stream_id q
  | FRequestN q => rn_stream_id q
  | FCancel q => cf_stream_id q
  | FPayload q => pf_stream_id q
  | FSetup _ | FLease _ | FKeepalive _ | FMetadataPush _ | FResume _ | FResumeOk _ => 0
  end.

Definition wire_bytes (r w r1 r2 : N) (f : frame) : bytes :=
  header_bytes r (sid_of f) (ft_value (kind f)) w ++ body_bytes r1 r2 f.

Lemma in_range_sid : forall f, in_range f -> sid_of f < 2 ^ 31.
Proof. intros [] H; cbn [in_range sid_of] in *; try apply H; reflexivity. Qed.

Lemma to_be_bits_31 : forall r n, n < 2 ^ 31 ->
  bytes_bits (to_be 4 (r * 2 ^ 31 + n)) = bits 1 r ++ bits 31 n.
Proof.
  intros. rewrite bytes_bits_to_be, bits_join by assumption. reflexivity.
Qed.
Lemma to_be_bits_63 : forall r n, n < 2 ^ 63 ->
  bytes_bits (to_be 8 (r * 2 ^ 63 + n)) = bits 1 r ++ bits 63 n.
Proof.
  intros. rewrite bytes_bits_to_be, bits_join by assumption. reflexivity.
Qed.

Lemma header_bits : forall r sid c w, sid < 2 ^ 31 -> w < 1024 ->
  bytes_bits (header_bytes r sid c w) = render (header r sid c w).
Proof.
  intros r sid c w H Hw. unfold header_bytes, header, render.
  cbn [flat_map field_bits]. rewrite app_nil_r.
  rewrite bytes_bits_app, to_be_bits_31 by assumption.
  rewrite bytes_bits_to_be. change 1024 with (2 ^ N.of_nat 10).
  change (8 * 2)%nat with (6 + 10)%nat.
  rewrite <- bits_join by assumption. now rewrite !app_assoc.
Qed.

Lemma render_app : forall a b, render (a ++ b) = render a ++ render b.
Proof. intros. apply flat_map_app. Qed.

Lemma payload_bits : forall p, bytes_bits (payload_bytes p) = render (payload_fields p).
Proof.
  intros p. unfold payload_bytes, payload_fields, render. cbn [flat_map field_bits].
  rewrite !bytes_bits_app, bytes_bits_to_be, app_nil_r. reflexivity.
Qed.

Lemma version_bits : forall v,
  bytes_bits (version_bytes v) = bits 16 (v_major v) ++ bits 16 (v_minor v).
Proof. intros. unfold version_bytes. now rewrite bytes_bits_app, !bytes_bits_to_be. Qed.

Ltac split_and :=
  repeat match goal with H : _ /\ _ |- _ => destruct H end.

Lemma wire_bits : forall r w r1 r2 f, in_range f -> w < 1024 ->
  bytes_bits (wire_bytes r w r1 r2 f) = render (wire r w r1 r2 f).
Proof.
  intros r w r1 r2 f H Hw. unfold wire_bytes. rewrite bytes_bits_app.
  rewrite header_bits by (try assumption; now apply in_range_sid).
  destruct f as [s|e|l|k|q|q|q|q|q|q|q|q|q|q]; cbn [in_range wire body_bytes kind sid_of ft_value] in *;
    split_and; rewrite ?render_app; f_equal;
    rewrite ?bytes_bits_app, ?payload_bits, ?version_bits, ?to_be_bits_31, ?to_be_bits_63 by assumption;
    unfold render at 1; cbn [flat_map field_bits]; rewrite ?app_nil_r, ?bytes_bits_to_be;
    rewrite <- ?app_assoc; try reflexivity.
  destruct (sf_resume_token s) as [t|]; cbn [token_bytes];
    unfold render; cbn [flat_map field_bits];
    rewrite ?bytes_bits_app, ?bytes_bits_to_be; rewrite <- ?app_assoc; reflexivity.
Qed.

(** ** Encoding *)

Lemma enc_seq_ok : forall a b buf buf1, a buf = EOk buf1 -> (a ;; b)%enc buf = b buf1.
Proof. unfold enc_seq. intros. now rewrite H. Qed.

Lemma ft_bits_value : forall t, ft_bits t = ft_value t * 1024.
Proof. now intros []. Qed.

Lemma flags_lt_1024 : forall w, flags_ok w -> w < 1024.
Proof. intros w [H _]. lia. Qed.

Lemma word_flags : forall t w, w < 1024 -> N.lor (ft_bits t) w = ft_value t * 1024 + w.
Proof. intros. rewrite ft_bits_value. now apply lor_add_1024. Qed.

Lemma word_plain : forall t, ft_bits t = ft_value t * 1024 + 0.
Proof. intros. rewrite ft_bits_value. lia. Qed.

Lemma u24_max : U24_MAX = 2 ^ 24 - 1.
Proof. reflexivity. Qed.

Lemma metadata_len_size : forall p,
  match payload_metadata p with Some v => blen v | None => 0 end = size (part (p_metadata p)).
Proof. intros [[m|] d]; reflexivity. Qed.

Lemma shiftr_16 : forall n, N.shiftr n 16 = n / 2 ^ 16.
Proof. intros. apply N.shiftr_div_pow2. Qed.

Lemma put_metadata_len_ok : forall p buf, small_metadata p ->
  put_metadata_len p buf = EOk (buf ++ to_be 3 (size (part (p_metadata p)))).
Proof.
  intros p buf H. unfold put_metadata_len. rewrite metadata_len_size.
  unfold small_metadata in H. set (n := size (part (p_metadata p))) in *.
  unfold u24_from_usize. rewrite u24_max, (proj2 (N.leb_le _ _)) by lia.
  unfold enc_seq, put_u8, put_u16. cbn [u24_hi u24_lo]. unfold as_u8, as_u16, as_u32.
  rewrite (N.mod_small n (2 ^ 32)) by lia. rewrite shiftr_16, to_be_3, <- app_assoc.
  do 3 f_equal; apply to_be_mod.
  - change (256 ^ N.of_nat 1) with (2 ^ 8). apply N.mod_mod. lia.
  - change (256 ^ N.of_nat 2) with (2 ^ 16). apply N.mod_mod. lia.
Qed.

Lemma payload_encode_ok : forall p buf,
  payload_encode p buf = EOk (buf ++ part (p_metadata p) ++ part (p_data p)).
Proof.
  intros [[m|] [d|]] buf; cbn; rewrite ?app_nil_r; try reflexivity.
  unfold payload_encode, enc_seq, enc_opt, put_slice. cbn. now rewrite app_assoc.
Qed.

Lemma version_encode_ok : forall v buf, version_encode v buf = EOk (buf ++ version_bytes v).
Proof.
  intros v buf. unfold version_encode, enc_seq, put_u16, version_bytes. now rewrite app_assoc.
Qed.

Lemma enc_opt_part : forall o buf, enc_opt o put_slice buf = EOk (buf ++ part o).
Proof. intros [l|] buf; cbn; rewrite ?app_nil_r; reflexivity. Qed.

Lemma to_be_as_u16 : forall n, to_be 2 (as_u16 n) = to_be 2 n.
Proof. intros. apply to_be_mod. unfold as_u16. change (256 ^ N.of_nat 2) with (2 ^ 16). apply N.mod_mod. lia. Qed.
Lemma to_be_as_u8 : forall n, to_be 1 (as_u8 n) = to_be 1 n.
Proof. intros. apply to_be_mod. unfold as_u8. change (256 ^ N.of_nat 1) with (2 ^ 8). apply N.mod_mod. lia. Qed.

Lemma token_encode_ok : forall o buf,
  enc_opt o (fun token => put_u16 (as_u16 (blen token)) ;; put_slice token)%enc buf
  = EOk (buf ++ token_bytes o).
Proof.
  intros [t|] buf; cbn [enc_opt token_bytes].
  - unfold enc_seq, put_u16, put_slice. rewrite to_be_as_u16, app_assoc. reflexivity.
  - now rewrite app_nil_r.
Qed.

Lemma if_enc : forall (c : bool) (a b : enc) x y buf,
  a buf = EOk (buf ++ x) -> b buf = EOk (buf ++ y) ->
  (if c then a else b) buf = EOk (buf ++ if c then x else y).
Proof. now intros []. Qed.

(** Every payload-carrying kind whose metadata length fits, and every other kind,
    encodes to its wire image, whatever the values of the other fields. *)
Definition small (f : frame) : Prop :=
  match f with
  | FSetup s => small_metadata (sf_payload s)
  | FRequestResponse q => small_metadata (rr_payload q)
  | FRequestFnf q => small_metadata (fnf_payload q)
  | FRequestStream q => small_metadata (rs_payload q)
  | FRequestChannel q => small_metadata (rc_payload q)
  | FPayload q => small_metadata (pf_payload q)
  | _ => True
  end.

Lemma in_range_small : forall f, in_range f -> small f.
Proof. intros [] H; cbn [in_range small] in *; try apply H; exact I. Qed.

Lemma flag_word_lt : forall f, typed f -> flag_word f < 1024.
Proof.
  intros [] H; cbn [typed flag_word] in *; split_and; try (now apply flags_lt_1024); try reflexivity.
  - now destruct (present (lf_metadata v)).
  - now destruct (kf_respond v).
Qed.

Lemma in_range_typed : forall f, in_range f -> typed f.
Proof.
  intros [] H; cbn [in_range typed] in *; split_and; repeat split; try assumption; try lia;
    try (match goal with H : flags_ok _ |- _ => apply H end);
    try (match goal with H : typed_version _ |- _ => apply H end).
Qed.

Lemma put_header : forall sid word buf k,
  (put_u32 sid ;; put_u16 word ;; k)%enc buf
  = k (buf ++ to_be 4 sid ++ to_be 2 word).
Proof. intros. unfold enc_seq, put_u32, put_u16. now rewrite app_assoc. Qed.

Lemma encode_ok : forall f buf, typed f -> small f ->
  frame_encode f buf = EOk (buf ++ wire_bytes 0 (flag_word f) 0 0 f).
Proof.
  intros f buf T H. pose proof (flag_word_lt f T) as Hw.
  unfold wire_bytes, header_bytes.
  destruct f as [s|e|l|k|q|q|q|q|q|q|q|q|q|q];
    cbn [frame_encode kind sid_of body_bytes flag_word small] in *.
  - unfold setup_encode. rewrite put_header, word_flags by assumption.
    erewrite enc_seq_ok by apply version_encode_ok.
    erewrite enc_seq_ok by reflexivity. erewrite enc_seq_ok by reflexivity.
    erewrite enc_seq_ok by apply token_encode_ok.
    do 4 (erewrite enc_seq_ok by reflexivity).
    erewrite enc_seq_ok by (now apply put_metadata_len_ok).
    rewrite payload_encode_ok. unfold payload_bytes, SETUP_STREAM_ID.
    rewrite !N.mul_0_l, !N.add_0_l, !to_be_as_u8. unfold blen, size. rewrite <- !app_assoc. reflexivity.
  - unfold error_encode. rewrite put_header, word_plain.
    erewrite enc_seq_ok by reflexivity. rewrite enc_opt_part.
    rewrite !N.mul_0_l, !N.add_0_l, <- !app_assoc. reflexivity.
  - unfold lease_encode. erewrite enc_seq_ok by reflexivity.
    erewrite enc_seq_ok by (apply if_enc; reflexivity).
    do 2 (erewrite enc_seq_ok by reflexivity). rewrite enc_opt_part.
    rewrite !N.mul_0_l, !N.add_0_l, <- !app_assoc.
    unfold lease_metadata. destruct (lf_metadata l); reflexivity.
  - unfold keepalive_encode. erewrite enc_seq_ok by reflexivity.
    erewrite enc_seq_ok by (apply if_enc; reflexivity).
    erewrite enc_seq_ok by reflexivity. rewrite enc_opt_part.
    rewrite !N.mul_0_l, !N.add_0_l, <- !app_assoc. destruct (kf_respond k); reflexivity.
  - unfold request_response_encode. rewrite put_header, word_flags by assumption.
    erewrite enc_seq_ok by (now apply put_metadata_len_ok). rewrite payload_encode_ok.
    unfold payload_bytes. rewrite !N.mul_0_l, !N.add_0_l, <- !app_assoc. reflexivity.
  - unfold request_fnf_encode. rewrite put_header, word_flags by assumption.
    erewrite enc_seq_ok by (now apply put_metadata_len_ok). rewrite payload_encode_ok.
    unfold payload_bytes. rewrite !N.mul_0_l, !N.add_0_l, <- !app_assoc. reflexivity.
  - unfold request_stream_encode. rewrite put_header, word_flags by assumption.
    erewrite enc_seq_ok by reflexivity.
    erewrite enc_seq_ok by (now apply put_metadata_len_ok). rewrite payload_encode_ok.
    unfold payload_bytes. rewrite !N.mul_0_l, !N.add_0_l, <- !app_assoc. reflexivity.
  - unfold request_channel_encode. rewrite put_header, word_flags by assumption.
    erewrite enc_seq_ok by reflexivity.
    erewrite enc_seq_ok by (now apply put_metadata_len_ok). rewrite payload_encode_ok.
    unfold payload_bytes. rewrite !N.mul_0_l, !N.add_0_l, <- !app_assoc. reflexivity.
  - unfold request_n_encode. rewrite put_header, word_plain. unfold put_u32.
    rewrite !N.mul_0_l, !N.add_0_l, <- !app_assoc. reflexivity.
  - unfold cancel_encode, enc_seq, put_u32, put_u16. rewrite word_plain.
    rewrite !N.mul_0_l, !N.add_0_l, app_nil_r, <- !app_assoc. reflexivity.
  - unfold payload_frame_encode. rewrite put_header, word_flags by assumption.
    erewrite enc_seq_ok by (now apply put_metadata_len_ok). rewrite payload_encode_ok.
    unfold payload_bytes. rewrite !N.mul_0_l, !N.add_0_l, <- !app_assoc. reflexivity.
  - unfold metadata_push_encode. rewrite put_header, word_flags by assumption.
    unfold put_slice. rewrite !N.mul_0_l, !N.add_0_l, <- !app_assoc. reflexivity.
  - unfold resume_encode. rewrite put_header, word_plain.
    erewrite enc_seq_ok by apply version_encode_ok.
    do 3 (erewrite enc_seq_ok by reflexivity). unfold put_u64.
    rewrite !N.mul_0_l, !N.add_0_l, to_be_as_u16, <- !app_assoc. reflexivity.
  - unfold resume_ok_encode. rewrite put_header, word_plain. unfold put_u64.
    rewrite !N.mul_0_l, !N.add_0_l, <- !app_assoc. reflexivity.
Qed.

(** ** Decoding: header *)

Section Decode.
Context (fuel : nat).

(** The dispatch of [frame_decode]. *)
Definition body_dec (t : frame_type) (sid fl : N) : dec bytes frame :=
  match t with
  | FT_SETUP => d_map FSetup (setup_decode flat fuel sid fl)
  | FT_ERROR => d_map FError (error_decode flat fuel sid fl)
  | FT_LEASE => d_map FLease (lease_decode flat fuel sid fl)
  | FT_KEEPALIVE => d_map FKeepalive (keepalive_decode flat fuel sid fl)
  | FT_REQUEST_RESPONSE => d_map FRequestResponse (request_response_decode flat fuel sid fl)
  | FT_REQUEST_FNF => d_map FRequestFnf (request_fnf_decode flat fuel sid fl)
  | FT_REQUEST_STREAM => d_map FRequestStream (request_stream_decode flat fuel sid fl)
  | FT_REQUEST_CHANNEL => d_map FRequestChannel (request_channel_decode flat fuel sid fl)
  | FT_REQUEST_N => d_map FRequestN (request_n_decode flat fuel sid fl)
  | FT_CANCEL => d_map FCancel (cancel_decode flat fuel sid fl)
  | FT_PAYLOAD => d_map FPayload (payload_frame_decode flat fuel sid fl)
  | FT_METADATA_PUSH => d_map FMetadataPush (metadata_push_decode flat fuel sid fl)
  | FT_RESUME => d_map FResume (resume_decode flat fuel sid fl)
  | FT_RESUME_OK => d_map FResumeOk (resume_ok_decode flat fuel sid fl)
  | FT_EXT => d_panic
  end.

Definition after_header (t : frame_type) (sid fl : N) : dec bytes frame :=
  if needs_stream_zero t && negb (sid =? 0)
  then d_err (InvalidStreamId "0" sid)
  else body_dec t sid fl.

Lemma ft_from_bits_value : forall v, ft_from_bits v = ft_from_value (v / 1024).
Proof. intros v. unfold ft_from_bits. rewrite N.shiftr_div_pow2. reflexivity. Qed.

Lemma ft_from_value_some : forall c t, ft_from_value c = Some t <-> c = ft_value t.
Proof.
  intros c t. split.
  - intros H. unfold ft_from_value in H.
    destruct c as [|p]; [discriminate|].
    do 6 (try destruct p as [p|p|]); try discriminate; injection H as <-; reflexivity.
  - intros ->. now destruct t.
Qed.

Lemma ft_from_value_none : forall c, ft_from_value c = None <-> ~ known_code c.
Proof.
  intros c. split.
  - intros H K. destruct K as [K| ->]; [|discriminate H].
    assert (c = 1 \/ c = 2 \/ c = 3 \/ c = 4 \/ c = 5 \/ c = 6 \/ c = 7 \/ c = 8 \/ c = 9 \/
            c = 10 \/ c = 11 \/ c = 12 \/ c = 13 \/ c = 14) as C by lia.
    repeat (destruct C as [->|C]; [discriminate H|]). subst c. discriminate H.
  - intros K. destruct (ft_from_value c) as [t|] eqn:E; [|reflexivity].
    apply ft_from_value_some in E. subst c. elim K. unfold known_code. destruct t; cbn; lia.
Qed.

Lemma ft_value_inj : forall a b, ft_value a = ft_value b -> a = b.
Proof. now intros [] [] H. Qed.

Lemma word_div : forall c w, w < 1024 -> (c * 1024 + w) / 1024 = c.
Proof. intros. rewrite N.div_add_l, N.div_small by lia. lia. Qed.
Lemma word_mod : forall c w, w < 1024 -> (c * 1024 + w) mod 1024 = w.
Proof. intros. rewrite N.add_comm, N.mod_add by lia. now apply N.mod_small. Qed.

Lemma eat_flags_word : forall c w rest, c < 64 -> w < 1024 ->
  eat_flags flat fuel (to_be 2 (c * 1024 + w) ++ rest) =
  (match ft_from_value c with
   | Some t => (DOk (t, assigned w), rest)
   | None => (DErr (UnrecognizedFrameType c), rest)
   end).
Proof.
  intros c w rest Hc Hw. unfold eat_flags.
  assert (c * 1024 + w < 256 ^ N.of_nat 2) as Hlt by (change (256 ^ N.of_nat 2) with 65536; lia).
  pose proof (eat_n_fwd fuel 2 _ rest Hlt) as E. unfold eat_n in E.
  rewrite <- bind_assoc. erewrite bind_ok by exact E.
  rewrite ft_from_bits_value, N.shiftr_div_pow2. change (2 ^ 10) with 1024.
  rewrite word_div by assumption.
  destruct (ft_from_value c) as [t|]; [|reflexivity].
  unfold d_ret, fl_from_bits_truncate. rewrite fl_all_value, assigned_land.
  rewrite <- assigned_mod, word_mod by assumption. reflexivity.
Qed.

Lemma frame_decode_short : forall b, (length b < 6)%nat ->
  frame_decode flat fuel b = (DErr InComplete, b).
Proof.
  intros b H. unfold frame_decode, d_bind. rewrite need_flat.
  now rewrite (proj2 (Nat.ltb_lt _ _)).
Qed.

Lemma header_bytes_length : forall r sid c w, length (header_bytes r sid c w) = 6%nat.
Proof. intros. unfold header_bytes. now rewrite app_length, !to_be_length. Qed.

Lemma frame_decode_header : forall r sid c w body,
  r < 2 -> sid < 2 ^ 31 -> c < 64 -> w < 1024 ->
  frame_decode flat fuel (header_bytes r sid c w ++ body) =
  match ft_from_value c with
  | Some t => after_header t sid (assigned w) body
  | None => (DErr (UnrecognizedFrameType c), body)
  end.
Proof.
  intros r sid c w body Hr Hs Hc Hw. unfold frame_decode.
  erewrite bind_ok; cycle 1.
  { rewrite need_flat, app_length, header_bytes_length, (proj2 (Nat.ltb_ge _ _)) by lia.
    reflexivity. }
  unfold header_bytes. rewrite <- app_assoc.
  erewrite bind_ok by (apply eat_stream_id_fwd; assumption).
  unfold d_bind at 1. rewrite eat_flags_word by assumption.
  destruct (ft_from_value c) as [t|]; reflexivity.
Qed.

(** Every input of at least six bytes has a header. *)
Lemma header_cases : forall b, (6 <= length b)%nat ->
  exists r sid c w body,
    r < 2 /\ sid < 2 ^ 31 /\ c < 64 /\ w < 1024 /\ b = header_bytes r sid c w ++ body.
Proof.
  intros b H.
  pose (h := of_be (firstn 4 b)). pose (v := of_be (firstn 2 (skipn 4 b))).
  assert (length (firstn 4 b) = 4%nat) as L1 by (apply firstn_length_le; lia).
  assert (length (firstn 2 (skipn 4 b)) = 2%nat) as L2
    by (apply firstn_length_le; rewrite skipn_length; lia).
  pose proof (of_be_lt (firstn 4 b)) as Hh. rewrite L1 in Hh. fold h in Hh.
  pose proof (of_be_lt (firstn 2 (skipn 4 b))) as Hv. rewrite L2 in Hv. fold v in Hv.
  change (256 ^ N.of_nat 4) with (2 * 2 ^ 31) in Hh.
  change (256 ^ N.of_nat 2) with (64 * 1024) in Hv.
  destruct (split_top _ _ Hh) as (r & Hr & Hm & E).
  exists r, (h mod 2 ^ 31), (v / 1024), (v mod 1024), (skipn 6 b).
  split; [assumption|]. split; [assumption|].
  split; [apply N.div_lt_upper_bound; lia|].
  split; [apply N.mod_lt; lia|].
  unfold header_bytes. rewrite <- E.
  assert (v / 1024 * 1024 + v mod 1024 = v) as ->
    by (pose proof (N.div_mod v 1024); lia).
  unfold h, v. rewrite !to_be_of_be by assumption.
  do 6 (destruct b as [|? b]; cbn in H; [lia|]). reflexivity.
Qed.

(** Uniqueness of the header fields. *)
Lemma header_bytes_inj : forall r sid c w x r' sid' c' w' x',
  sid < 2 ^ 31 -> sid' < 2 ^ 31 -> r < 2 -> r' < 2 -> c < 64 -> c' < 64 -> w < 1024 -> w' < 1024 ->
  header_bytes r sid c w ++ x = header_bytes r' sid' c' w' ++ x' ->
  r = r' /\ sid = sid' /\ c = c' /\ w = w' /\ x = x'.
Proof.
  intros. unfold header_bytes in *. rewrite <- !app_assoc in *.
  assert (r * 2 ^ 31 + sid = r' * 2 ^ 31 + sid') as E1.
  { apply (f_equal (firstn 4)) in H7. rewrite !firstn_to_be in H7.
    apply (f_equal of_be) in H7. rewrite !of_be_to_be in H7;
      change (256 ^ N.of_nat 4) with (2 * 2 ^ 31); [assumption|now apply join_lt..]. }
  apply (f_equal (skipn 4)) in H7. rewrite !skipn_to_be in H7.
  assert (c * 1024 + w = c' * 1024 + w') as E2.
  { pose proof (f_equal (firstn 2) H7) as H8. rewrite !firstn_to_be in H8.
    apply (f_equal of_be) in H8. rewrite !of_be_to_be in H8;
      change (256 ^ N.of_nat 2) with 65536; lia. }
  apply (f_equal (skipn 2)) in H7. rewrite !skipn_to_be in H7.
  repeat split; try assumption; lia.
Qed.

(** ** Decoding: bodies, forward *)

Lemma version_bytes_length : forall v, length (version_bytes v) = 4%nat.
Proof. intros. unfold version_bytes. now rewrite app_length, !to_be_length. Qed.

Lemma payload_bytes_nonempty : forall p, payload_bytes p <> [].
Proof.
  intros p E. unfold payload_bytes in E. apply (f_equal (@length byte)) in E.
  rewrite app_length, to_be_length in E. cbn in E. lia.
Qed.

Lemma app_nonempty_r : forall (a b : bytes), b <> [] -> a ++ b <> [].
Proof. intros [|] [|] H; cbn; congruence. Qed.

Lemma validate_ok : forall (b : bytes) sid code,
  (connection_code code -> sid = 0) -> (stream_code code -> sid <> 0) ->
  validate_stream_id sid code b = (DOk tt, b).
Proof.
  intros b sid code H1 H2. unfold validate_stream_id.
  unfold EC_INVALID_SETUP, EC_UNSUPPORTED_SETUP, EC_REJECTED_SETUP, EC_REJECTED_RESUME,
    EC_CONNECTION_ERROR, EC_CONNECTION_CLOSE, EC_APPLICATION_ERROR, EC_REJECTED, EC_CANCELED, EC_INVALID.
  match goal with |- (if ?c then _ else _) _ = _ => destruct c eqn:E end.
  - rewrite (proj2 (N.eqb_eq sid 0)); [reflexivity|]. apply H1. unfold connection_code.
    repeat (apply Bool.orb_true_iff in E; destruct E as [E|E]); apply N.eqb_eq in E; auto 10.
  - match goal with |- (if ?c then _ else _) _ = _ => destruct c eqn:E' end; [|reflexivity].
    rewrite (proj2 (N.eqb_neq sid 0)); [reflexivity|]. apply H2. unfold stream_code.
    repeat (apply Bool.orb_true_iff in E'; destruct E' as [E'|E']); apply N.eqb_eq in E'; auto.
Qed.

(** The part of the frame recorded by the decoder, with empty parts dropped. *)
Definition norm (f : frame) : frame :=
  match f with
  | FSetup s => FSetup (with_payload s (norm_payload (sf_payload s)))
  | FError e => FError (ErrorFrame (ef_stream_id e) (ef_code e) (opt (part (ef_data e))))
  | FLease l => FLease (LeaseFrame (lf_ttl l) (lf_number_of_requests l) (opt (part (lf_metadata l))))
  | FKeepalive k =>
      FKeepalive (KeepaliveFrame (kf_respond k) (kf_last_received_position k) (opt (part (kf_data k))))
  | FRequestResponse q =>
      FRequestResponse (RequestResponseFrame (rr_stream_id q) (rr_flags q) (norm_payload (rr_payload q)))
  | FRequestFnf q =>
      FRequestFnf (RequestFnfFrame (fnf_stream_id q) (fnf_flags q) (norm_payload (fnf_payload q)))
  | FRequestStream q =>
      FRequestStream (RequestStreamFrame (rs_stream_id q) (rs_flags q) (rs_initial_request_n q)
                        (norm_payload (rs_payload q)))
  | FRequestChannel q =>
      FRequestChannel (RequestChannelFrame (rc_stream_id q) (rc_flags q) (rc_initial_request_n q)
                        (norm_payload (rc_payload q)))
  | FPayload q =>
      FPayload (PayloadFrame (pf_stream_id q) (pf_flags q) (norm_payload (pf_payload q)))
  | FRequestN _ | FCancel _ | FMetadataPush _ | FResume _ | FResumeOk _ => f
  end.

Definition solid_frame (f : frame) : Prop :=
  match f with
  | FSetup s => solid_payload (sf_payload s)
  | FLease l => solid (lf_metadata l)
  | FKeepalive k => solid (kf_data k)
  | FRequestResponse q => solid_payload (rr_payload q)
  | FRequestFnf q => solid_payload (fnf_payload q)
  | FRequestStream q => solid_payload (rs_payload q)
  | FRequestChannel q => solid_payload (rc_payload q)
  | FPayload q => solid_payload (pf_payload q)
  | FError e => solid (ef_data e)
  | FRequestN _ | FCancel _ | FMetadataPush _ | FResume _ | FResumeOk _ => True
  end.

Lemma consistent_iff : forall f, consistent f <-> coherent f /\ solid_frame f.
Proof. intros []; cbn [consistent coherent solid_frame]; tauto. Qed.

Lemma norm_id : forall f, solid_frame f -> norm f = f.
Proof.
  intros [[]|[]|[]|[]|[]|[]|[]|[]|[]|[]|[]|[]|[]|[]] H; cbn in *;
    unfold with_payload; cbn; rewrite ?norm_solid, ?opt_part by assumption; reflexivity.
Qed.

Lemma norm_solid_frame : forall f, solid_frame (norm f).
Proof.
  intros []; cbn; try exact I; try apply solid_opt; split; apply solid_opt.
Qed.

Lemma with_payload_eta : forall s p,
  with_payload s p = SetupFrame (sf_flags s) (sf_version s) (sf_keepalive_interval s)
    (sf_keepalive_timeout s) (sf_resume_token s) (sf_metadata_mimetype s) (sf_data_mimetype s) p.
Proof. reflexivity. Qed.

Lemma body_fwd : forall f w r1 r2 rest,
  r1 < 2 -> r2 < 2 -> in_range f -> coherent f -> carries w f ->
  (open_ended f -> rest = []) ->
  body_dec (kind f) (sid_of f) (assigned w) (body_bytes r1 r2 f ++ rest) = (DOk (norm f), rest).
Proof.
  intros f w r1 r2 rest Hr1 Hr2 R C W O.
  destruct f as [s|e|l|k|q|q|q|q|q|q|q|q|q|q];
    cbn [in_range coherent carries open_ended kind sid_of body_dec body_bytes norm] in *;
    try (specialize (O I); subst rest; rewrite app_nil_r);
    split_and.
  - (* SETUP *)
    eapply map_ok. unfold setup_decode. rewrite <- W.
    erewrite bind_ok by (now apply eat_version_fwd).
    erewrite bind_ok by (now apply eat_u31_fwd).
    erewrite bind_ok by (now apply eat_u31_fwd).
    erewrite bind_ok by (now apply eat_token_fwd).
    erewrite bind_ok.
    2: { apply eat_u8_fwd; [assumption|]. do 3 apply app_nonempty_r. apply payload_bytes_nonempty. }
    erewrite bind_ok by apply eat_bytes_fwd_size.
    erewrite bind_ok.
    2: { apply eat_u8_fwd; [assumption|]. apply app_nonempty_r. apply payload_bytes_nonempty. }
    erewrite bind_ok by apply eat_bytes_fwd_size.
    erewrite bind_ok by (now apply eat_payload_norm). reflexivity.
  - (* ERROR *)
    eapply map_ok. unfold error_decode.
    rewrite eat_u32_n. erewrite bind_ok by (now apply eat_n_fwd).
    erewrite bind_ok by (now apply validate_ok).
    erewrite bind_ok by apply eat_rest_spec. reflexivity.
  - (* LEASE *)
    eapply map_ok. unfold lease_decode. change (negb (0 =? 0)) with false. cbv iota.
    erewrite bind_ok by (now apply eat_u31_fwd).
    erewrite bind_ok by (now apply eat_u31_fwd).
    erewrite bind_ok by apply eat_rest_spec. reflexivity.
  - (* KEEPALIVE *)
    eapply map_ok. unfold keepalive_decode. change (negb (0 =? 0)) with false. cbv iota.
    erewrite bind_ok by (now apply eat_u63_fwd).
    erewrite bind_ok by apply eat_rest_spec.
    unfold d_ret. rewrite W. do 2 f_equal.
    change FL_RESPOND with FL_RESUME. rewrite contains_resume.
    rewrite <- assigned_land, N.land_spec. change (N.testbit 0x1F0 6) with true.
    now rewrite andb_true_r.
  - eapply map_ok. unfold request_response_decode.
    erewrite bind_ok by (now apply eat_payload_norm). now rewrite W.
  - eapply map_ok. unfold request_fnf_decode.
    erewrite bind_ok by (now apply eat_payload_norm). now rewrite W.
  - eapply map_ok. unfold request_stream_decode.
    erewrite bind_ok by (now apply eat_u31_fwd).
    erewrite bind_ok by (now apply eat_payload_norm). now rewrite W.
  - eapply map_ok. unfold request_channel_decode.
    erewrite bind_ok by (now apply eat_u31_fwd).
    erewrite bind_ok by (now apply eat_payload_norm). now rewrite W.
  - erewrite map_ok; cycle 1. { unfold request_n_decode.
    erewrite bind_ok by (now apply eat_u31_fwd). reflexivity. } now destruct q.
  - erewrite map_ok by reflexivity. now destruct q.
  - eapply map_ok. unfold payload_frame_decode.
    erewrite bind_ok by (now apply eat_payload_norm). now rewrite W.
  - erewrite map_ok; cycle 1.
    { unfold metadata_push_decode. erewrite bind_ok by reflexivity.
      erewrite bind_ok; [reflexivity|]. rewrite <- (app_nil_r (mp_metadata q)) at 2.
      apply eat_bytes_fwd. }
    now destruct q.
  - erewrite map_ok; cycle 1.
    { unfold resume_decode. rewrite <- !app_assoc.
      erewrite bind_ok by (now apply eat_version_fwd).
      rewrite eat_u16_n. erewrite bind_ok by (now apply eat_n_fwd).
      erewrite bind_ok by apply eat_bytes_fwd_size.
      erewrite bind_ok by (now apply eat_u63_fwd).
      erewrite bind_ok by (now apply eat_u63_fwd). reflexivity. }
    now destruct q.
  - erewrite map_ok; cycle 1.
    { unfold resume_ok_decode. erewrite bind_ok by (now apply eat_u63_fwd). reflexivity. }
    now destruct q.
Qed.

Lemma after_header_own : forall f fl b,
  after_header (kind f) (sid_of f) fl b = body_dec (kind f) (sid_of f) fl b.
Proof. now intros []. Qed.

Lemma ft_value_lt : forall t, ft_value t < 64.
Proof. now intros []. Qed.

(** Decoding a wire image gives the frame back, empty parts dropped. *)
Lemma decode_fwd : forall f r w r1 r2 rest,
  r < 2 -> w < 1024 -> r1 < 2 -> r2 < 2 ->
  in_range f -> coherent f -> carries w f -> (open_ended f -> rest = []) ->
  frame_decode flat fuel (wire_bytes r w r1 r2 f ++ rest) = (DOk (norm f), rest).
Proof.
  intros. unfold wire_bytes. rewrite <- app_assoc.
  rewrite frame_decode_header; [|assumption|now apply in_range_sid|apply ft_value_lt|assumption].
  rewrite (proj2 (ft_from_value_some _ (kind f)) eq_refl), after_header_own.
  now apply body_fwd.
Qed.

(** ** Decoding: bodies, backward *)

Lemma validate_inv : forall sid code (b b' : bytes) u,
  validate_stream_id sid code b = (DOk u, b') ->
  b' = b /\ (connection_code code -> sid = 0) /\ (stream_code code -> sid <> 0).
Proof.
  intros sid code b b' u H. unfold validate_stream_id in H.
  unfold EC_INVALID_SETUP, EC_UNSUPPORTED_SETUP, EC_REJECTED_SETUP, EC_REJECTED_RESUME,
    EC_CONNECTION_ERROR, EC_CONNECTION_CLOSE, EC_APPLICATION_ERROR, EC_REJECTED, EC_CANCELED, EC_INVALID in H.
  unfold connection_code, stream_code.
  destruct (N.eqb_spec sid 0) as [->|Hs].
  - match type of H with (if ?c then _ else _) _ = _ => destruct c eqn:E end.
    + injection H as _ <-. split; [reflexivity|]. split; [auto|].
      intros S. exfalso. repeat (destruct S as [->|S]; [discriminate E|]). subst; discriminate E.
    + match type of H with (if ?c then _ else _) _ = _ => destruct c eqn:E' end; [discriminate|].
      injection H as _ <-. split; [reflexivity|]. split; [auto|].
      intros S. exfalso. repeat (destruct S as [->|S]; [discriminate E'|]). subst; discriminate E'.
  - match type of H with (if ?c then _ else _) _ = _ => destruct c eqn:E end; [discriminate|].
    assert (b' = b) as ->.
    { destruct (_ || _)%bool in H; injection H as _ <-; reflexivity. }
    split; [reflexivity|]. split; [|auto].
    intros S. exfalso. repeat (destruct S as [->|S]; [discriminate E|]). subst; discriminate E.
Qed.

Ltac inv H := apply bind_ok_inv in H as (? & ? & ? & H).
Ltac fin H := unfold d_ret in H; injection H as <- <-.

Lemma assigned_testbit6 : forall w, N.testbit (assigned w) 6 = N.testbit w 6.
Proof.
  intros. rewrite <- assigned_land, N.land_spec. change (N.testbit 0x1F0 6) with true.
  apply andb_true_r.
Qed.

Lemma body_bwd : forall t sid w b f b',
  sid < 2 ^ 31 ->
  body_dec t sid (assigned w) b = (DOk f, b') ->
  (needs_stream_zero t = true -> sid = 0) ->
  kind f = t /\ sid_of f = sid /\
  exists r1 r2, r1 < 2 /\ r2 < 2 /\ fits f /\ carries w f /\
    (open_ended f -> b' = []) /\ b = body_bytes r1 r2 f ++ b'.
Proof.
  intros t sid w b f b' Hs H Z.
  destruct t; cbn [body_dec needs_stream_zero] in *;
    try (specialize (Z eq_refl); subst sid);
    try (apply map_ok_inv in H as (x & H & ->)); cbn [kind sid_of].
  - (* SETUP *)
    unfold setup_decode in H. inv H. inv H. inv H. inv H. inv H. inv H. inv H. inv H. inv H. fin H.
    apply eat_version_bwd in H0 as [? ->].
    apply eat_u31_bwd in H1 as (r1 & ? & ? & ->).
    apply eat_u31_bwd in H2 as (r2 & ? & ? & ->).
    apply eat_token_bwd in H3 as (? & ? & ->).
    apply eat_u8_bwd in H4 as [? ->]. apply eat_bytes_bwd_size in H5 as [? ->].
    apply eat_u8_bwd in H6 as [? ->]. apply eat_bytes_bwd_size in H7 as [? ->].
    apply eat_payload_bwd in H8 as (? & ? & -> & ->). subst.
    split; [reflexivity|]. split; [reflexivity|]. exists r1, r2.
    unfold fits. cbn [in_range consistent carries open_ended body_bytes sf_flags sf_version
      sf_keepalive_interval sf_keepalive_timeout sf_resume_token sf_metadata_mimetype
      sf_data_mimetype sf_payload].
    rewrite app_nil_r, <- ?app_assoc.
    repeat match goal with |- _ /\ _ => split end; try assumption; try reflexivity; try apply assigned_ok.
  - (* LEASE *)
    unfold lease_decode in H. change (negb (0 =? 0)) with false in H. cbv iota in H.
    inv H. inv H. inv H. fin H.
    apply eat_u31_bwd in H0 as (r1 & ? & ? & ->).
    apply eat_u31_bwd in H1 as (r2 & ? & ? & ->).
    rewrite eat_rest_spec in H2. injection H2 as <- <-.
    split; [reflexivity|]. split; [reflexivity|]. exists r1, r2.
    unfold fits. cbn [in_range consistent carries open_ended body_bytes lf_ttl lf_number_of_requests lf_metadata].
    rewrite app_nil_r, part_opt, <- ?app_assoc.
    repeat split; try assumption. apply solid_opt.
  - (* KEEPALIVE *)
    unfold keepalive_decode in H. change (negb (0 =? 0)) with false in H. cbv iota in H.
    inv H. inv H. fin H.
    apply eat_u63_bwd in H0 as (r1 & ? & ? & ->).
    rewrite eat_rest_spec in H1. injection H1 as <- <-.
    split; [reflexivity|]. split; [reflexivity|]. exists r1, 0.
    unfold fits. cbn [in_range consistent carries open_ended body_bytes kf_respond kf_last_received_position kf_data].
    change FL_RESPOND with FL_RESUME. rewrite contains_resume, assigned_testbit6.
    rewrite app_nil_r, part_opt.
    repeat split; try assumption. apply solid_opt.
  - unfold request_response_decode in H. inv H. fin H.
    apply eat_payload_bwd in H0 as (? & ? & -> & ->).
    split; [reflexivity|]. split; [reflexivity|]. exists 0, 0.
    unfold fits. cbn. rewrite app_nil_r.
    repeat match goal with |- _ /\ _ => split end; try assumption; try reflexivity; try apply assigned_ok;
    match goal with H : solid_payload _ |- _ => apply H end.
  - unfold request_fnf_decode in H. inv H. fin H.
    apply eat_payload_bwd in H0 as (? & ? & -> & ->).
    split; [reflexivity|]. split; [reflexivity|]. exists 0, 0.
    unfold fits. cbn. rewrite app_nil_r.
    repeat match goal with |- _ /\ _ => split end; try assumption; try reflexivity; try apply assigned_ok;
    match goal with H : solid_payload _ |- _ => apply H end.
  - unfold request_stream_decode in H. inv H. inv H. fin H.
    apply eat_u31_bwd in H0 as (r1 & ? & ? & ->).
    apply eat_payload_bwd in H1 as (? & ? & -> & ->).
    split; [reflexivity|]. split; [reflexivity|]. exists r1, 0.
    unfold fits. cbn [in_range consistent carries open_ended body_bytes rs_stream_id rs_flags rs_initial_request_n rs_payload].
    rewrite app_nil_r.
    repeat match goal with |- _ /\ _ => split end; try assumption; try reflexivity; try apply assigned_ok;
    match goal with H : solid_payload _ |- _ => apply H end.
  - unfold request_channel_decode in H. inv H. inv H. fin H.
    apply eat_u31_bwd in H0 as (r1 & ? & ? & ->).
    apply eat_payload_bwd in H1 as (? & ? & -> & ->).
    split; [reflexivity|]. split; [reflexivity|]. exists r1, 0.
    unfold fits. cbn [in_range consistent carries open_ended body_bytes rc_stream_id rc_flags rc_initial_request_n rc_payload].
    rewrite app_nil_r.
    repeat match goal with |- _ /\ _ => split end; try assumption; try reflexivity; try apply assigned_ok;
    match goal with H : solid_payload _ |- _ => apply H end.
  - unfold request_n_decode in H. inv H. fin H.
    apply eat_u31_bwd in H0 as (r1 & ? & ? & ->).
    split; [reflexivity|]. split; [reflexivity|]. exists r1, 0.
    unfold fits. cbn [in_range consistent carries open_ended body_bytes rn_stream_id rn_request_n].
    repeat split; try assumption. now intros [].
  - unfold cancel_decode in H. fin H.
    split; [reflexivity|]. split; [reflexivity|]. exists 0, 0.
    unfold fits. cbn [in_range consistent carries open_ended body_bytes cf_stream_id].
    repeat split; try assumption. now intros [].
  - unfold payload_frame_decode in H. inv H. fin H.
    apply eat_payload_bwd in H0 as (? & ? & -> & ->).
    split; [reflexivity|]. split; [reflexivity|]. exists 0, 0.
    unfold fits. cbn. rewrite app_nil_r.
    repeat match goal with |- _ /\ _ => split end; try assumption; try reflexivity; try apply assigned_ok;
    match goal with H : solid_payload _ |- _ => apply H end.
  - unfold error_decode in H. inv H. inv H. inv H. fin H.
    rewrite eat_u32_n in H0. apply eat_n_bwd in H0 as [-> ?].
    apply validate_inv in H1 as (-> & ? & ?).
    rewrite eat_rest_spec in H2. injection H2 as <- <-.
    split; [reflexivity|]. split; [reflexivity|]. exists 0, 0.
    unfold fits. cbn [in_range consistent carries open_ended body_bytes ef_stream_id ef_code ef_data].
    rewrite app_nil_r, part_opt.
    repeat split; try assumption. apply solid_opt.
  - unfold metadata_push_decode in H. inv H. inv H. fin H.
    unfold d_remaining in H0. injection H0 as <- <-. cbn [flat b_remaining] in H1.
    apply eat_bytes_bwd in H1 as [E E'].
    assert (x3 = []) as ->.
    { rewrite E', app_length in E. destruct x3; [reflexivity|]. cbn in E. lia. }
    split; [reflexivity|]. split; [reflexivity|]. exists 0, 0.
    unfold fits. cbn. repeat split. assumption.
  - unfold resume_decode in H. inv H. inv H. inv H. inv H. inv H. fin H.
    apply eat_version_bwd in H0 as [? ->].
    rewrite eat_u16_n in H1. apply eat_n_bwd in H1 as [-> ?].
    apply eat_bytes_bwd_size in H2 as [<- ->].
    apply eat_u63_bwd in H3 as (r1 & ? & ? & ->).
    apply eat_u63_bwd in H4 as (r2 & ? & ? & ->).
    split; [reflexivity|]. split; [reflexivity|]. exists r1, r2.
    unfold fits. cbn [in_range consistent carries open_ended body_bytes rf_version rf_resume_token
      rf_last_received_server_position rf_first_available_client_position].
    rewrite <- !app_assoc.
    repeat match goal with |- _ /\ _ => split end; try assumption; try reflexivity. now intros [].
  - unfold resume_ok_decode in H. inv H. fin H.
    apply eat_u63_bwd in H0 as (r1 & ? & ? & ->).
    split; [reflexivity|]. split; [reflexivity|]. exists r1, 0.
    unfold fits. cbn [in_range consistent carries open_ended body_bytes ro_last_received_client_position].
    repeat split; try assumption. now intros [].
  - discriminate H.
Qed.

Lemma decode_bwd : forall b f b',
  frame_decode flat fuel b = (DOk f, b') ->
  exists r w r1 r2, r < 2 /\ w < 1024 /\ r1 < 2 /\ r2 < 2 /\
    fits f /\ carries w f /\ (open_ended f -> b' = []) /\ b = wire_bytes r w r1 r2 f ++ b'.
Proof.
  intros b f b' H.
  destruct (Nat.lt_ge_cases (length b) 6) as [L|L].
  { rewrite frame_decode_short in H by assumption. discriminate. }
  destruct (header_cases b L) as (r & sid & c & w & body & Hr & Hs & Hc & Hw & ->).
  rewrite frame_decode_header in H by assumption.
  destruct (ft_from_value c) as [t|] eqn:E; [|discriminate].
  apply ft_from_value_some in E. subst c.
  unfold after_header in H.
  destruct (needs_stream_zero t && negb (sid =? 0)) eqn:Z; [discriminate|].
  apply body_bwd in H; [|assumption|].
  - destruct H as (<- & <- & r1 & r2 & H1 & H2 & HF & HC & HO & ->).
    exists r, w, r1, r2. repeat (split; [assumption|]).
    unfold wire_bytes. now rewrite <- app_assoc.
  - intros N. rewrite N in Z. cbn in Z. apply Bool.negb_false_iff in Z. now apply N.eqb_eq.
Qed.

(** ** Totality *)

Lemma body_tame : forall t sid fl, t <> FT_EXT -> t <> FT_ERROR ->
  (needs_stream_zero t = true -> sid = 0) -> tame (body_dec t sid fl).
Proof.
  intros t sid fl H1 H2 Z.
  destruct t; try congruence; cbn [body_dec needs_stream_zero] in *;
    try (specialize (Z eq_refl); subst sid); apply tame_map.
  - unfold setup_decode.
    apply tame_bind; [apply eat_version_tame|intros].
    apply tame_bind; [apply eat_u31_tame|intros].
    apply tame_bind; [apply eat_u31_tame|intros].
    apply tame_bind; [apply eat_token_tame|intros].
    apply tame_bind; [apply eat_u8_tame|intros].
    apply tame_bind; [apply eat_bytes_tame|intros].
    apply tame_bind; [apply eat_u8_tame|intros].
    apply tame_bind; [apply eat_bytes_tame|intros].
    apply tame_bind; [apply eat_payload_tame|intros]. apply tame_ret.
  - unfold lease_decode. change (negb (0 =? 0)) with false. cbv iota.
    apply tame_bind; [apply eat_u31_tame|intros].
    apply tame_bind; [apply eat_u31_tame|intros].
    apply tame_bind; [apply eat_rest_tame|intros]. apply tame_ret.
  - unfold keepalive_decode. change (negb (0 =? 0)) with false. cbv iota.
    apply tame_bind; [apply eat_u63_tame|intros].
    apply tame_bind; [apply eat_rest_tame|intros]. apply tame_ret.
  - apply tame_bind; [apply eat_payload_tame|intros]. apply tame_ret.
  - apply tame_bind; [apply eat_payload_tame|intros]. apply tame_ret.
  - apply tame_bind; [apply eat_u31_tame|intros].
    apply tame_bind; [apply eat_payload_tame|intros]. apply tame_ret.
  - apply tame_bind; [apply eat_u31_tame|intros].
    apply tame_bind; [apply eat_payload_tame|intros]. apply tame_ret.
  - apply tame_bind; [apply eat_u31_tame|intros]. apply tame_ret.
  - apply tame_ret.
  - apply tame_bind; [apply eat_payload_tame|intros]. apply tame_ret.
  - unfold metadata_push_decode. apply tame_bind.
    + intros b. cbn. split; [apply suffix_refl|eauto].
    + intros. apply tame_bind; [apply eat_bytes_tame|intros]. apply tame_ret.
  - unfold resume_decode.
    apply tame_bind; [apply eat_version_tame|intros].
    apply tame_bind; [apply eat_n_tame|intros].
    apply tame_bind; [apply eat_bytes_tame|intros].
    apply tame_bind; [apply eat_u63_tame|intros].
    apply tame_bind; [apply eat_u63_tame|intros]. apply tame_ret.
  - apply tame_bind; [apply eat_u63_tame|intros]. apply tame_ret.
Qed.

(** ERROR bodies. *)
Lemma connection_code_dec : forall c, connection_code c \/ ~ connection_code c.
Proof. intros. unfold connection_code. lia. Qed.
Lemma stream_code_dec : forall c, stream_code c \/ ~ stream_code c.
Proof. intros. unfold stream_code. lia. Qed.

Lemma validate_spec : forall (b : bytes) sid code,
  validate_stream_id sid code b =
  ((if (negb (sid =? 0)) then
      (if existsb (N.eqb code) [0x001; 0x002; 0x003; 0x004; 0x101; 0x102]
       then DErr (InvalidStreamId "0" sid) else DOk tt)
    else
      (if existsb (N.eqb code) [0x201; 0x202; 0x203; 0x204]
       then DErr (InvalidStreamId "> 0" sid) else DOk tt)), b).
Proof.
  intros b sid code. unfold validate_stream_id.
  unfold EC_INVALID_SETUP, EC_UNSUPPORTED_SETUP, EC_REJECTED_SETUP, EC_REJECTED_RESUME,
    EC_CONNECTION_ERROR, EC_CONNECTION_CLOSE, EC_APPLICATION_ERROR, EC_REJECTED, EC_CANCELED, EC_INVALID.
  unfold existsb. rewrite !Bool.orb_false_r, !Bool.orb_assoc.
  match goal with |- (if ?c then _ else _) _ = _ => destruct c eqn:E end.
  - destruct (N.eqb_spec sid 0) as [->|Hs]; cbn [negb]; [|reflexivity].
    match goal with |- _ = ((if ?c then _ else _), _) => destruct c eqn:E' end; [|reflexivity].
    exfalso. repeat rewrite ?Bool.orb_true_iff, ?N.eqb_eq in E. repeat rewrite ?Bool.orb_true_iff, ?N.eqb_eq in E'. lia.
  - destruct (N.eqb_spec sid 0) as [->|Hs]; cbn [negb].
    + match goal with |- (if ?c then _ else _) _ = _ => destruct c end; reflexivity.
    + match goal with |- (if ?c then _ else _) _ = _ => destruct c end; reflexivity.
Qed.

Lemma existsb_connection : forall c,
  existsb (N.eqb c) [0x001; 0x002; 0x003; 0x004; 0x101; 0x102] = true <-> connection_code c.
Proof.
  intros. unfold existsb. rewrite !Bool.orb_true_iff, !N.eqb_eq. unfold connection_code.
  intuition discriminate.
Qed.
Lemma existsb_stream : forall c,
  existsb (N.eqb c) [0x201; 0x202; 0x203; 0x204] = true <-> stream_code c.
Proof.
  intros. unfold existsb. rewrite !Bool.orb_true_iff, !N.eqb_eq. unfold stream_code.
  intuition discriminate.
Qed.

(** The three ways an ERROR body can go. *)
Lemma error_body_short : forall sid fl b, (length b < 4)%nat ->
  body_dec FT_ERROR sid fl b = (DErr InComplete, b).
Proof.
  intros. unfold body_dec, d_map, error_decode. rewrite eat_u32_n.
  erewrite bind_err; [reflexivity|]. erewrite bind_err; [reflexivity|].
  now apply eat_n_incomplete.
Qed.

Lemma error_body_code : forall sid fl c b, c < 2 ^ 32 ->
  body_dec FT_ERROR sid fl (to_be 4 c ++ b) =
  match fst (validate_stream_id sid c b) with
  | DOk _ => (DOk (FError (ErrorFrame sid c (opt b))), [])
  | DErr e => (DErr e, b)
  | DPanic => (DPanic, b)
  | DLoop => (DLoop, b)
  end.
Proof.
  intros sid fl c b H. unfold body_dec, d_map, error_decode. rewrite eat_u32_n.
  rewrite bind_assoc. erewrite bind_ok by (now apply eat_n_fwd).
  rewrite bind_assoc. unfold d_bind at 1. rewrite !validate_spec. cbn [fst].
  destruct (negb _).
  - destruct (existsb _ _); [reflexivity|].
    rewrite bind_assoc; erewrite bind_ok by apply eat_rest_spec; reflexivity.
  - destruct (existsb _ _); [reflexivity|].
    rewrite bind_assoc; erewrite bind_ok by apply eat_rest_spec; reflexivity.
Qed.

End Decode.
