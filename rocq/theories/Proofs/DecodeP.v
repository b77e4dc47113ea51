(** * Consequences of the frame codec lemmas, in the vocabulary of the specs *)

From Coq Require Import Lia.
From Verif Require Import Model.FrameM Spec.Codec Proofs.BitsP Proofs.EatP Proofs.CodecP.

(** ** Parsing relation *)

Lemma parses_iff : forall input f rest,
  parses input f rest <->
  exists r w r1 r2, r < 2 /\ w < 1024 /\ r1 < 2 /\ r2 < 2 /\
    fits f /\ carries w f /\ (open_ended f -> rest = []) /\ input = wire_bytes r w r1 r2 f ++ rest.
Proof.
  intros input f rest. split.
  - intros (pre & r & w & r1 & r2 & H1 & H2 & H3 & H4 & C & F & -> & B & O).
    exists r, w, r1, r2. repeat (split; [assumption|]). f_equal.
    apply bytes_bits_inj. rewrite B, wire_bits; [reflexivity|apply F|assumption].
  - intros (r & w & r1 & r2 & H1 & H2 & H3 & H4 & F & C & O & ->).
    exists (wire_bytes r w r1 r2 f), r, w, r1, r2. repeat (split; [assumption|]).
    split; [reflexivity|]. split; [|assumption]. apply wire_bits; [apply F|assumption].
Qed.

Lemma fits_split : forall f, fits f <-> in_range f /\ coherent f /\ solid_frame f.
Proof. intros f. unfold fits. rewrite consistent_iff. tauto. Qed.

Lemma decode_ok_iff : forall input f rest,
  decode input = (DOk f, rest) <-> parses input f rest.
Proof.
  intros input f rest. rewrite parses_iff. split.
  - intros H. apply decode_bwd in H. exact H.
  - intros (r & w & r1 & r2 & H1 & H2 & H3 & H4 & F & C & O & ->).
    apply fits_split in F as (F1 & F2 & F3).
    unfold decode. rewrite decode_fwd; try assumption. now rewrite norm_id.
Qed.

Lemma has_header_iff : forall input sid c w,
  has_header input sid c w <->
  exists r body, r < 2 /\ sid < 2 ^ 31 /\ c < 64 /\ w < 1024 /\
    input = header_bytes r sid c w ++ body.
Proof.
  intros. split.
  - intros (r & hd & body & H1 & H2 & H3 & H4 & -> & B).
    exists r, body. repeat (split; [assumption|]). f_equal.
    apply bytes_bits_inj. now rewrite B, header_bits.
  - intros (r & body & H1 & H2 & H3 & H4 & ->).
    exists r, (header_bytes r sid c w), body. repeat (split; [assumption|]).
    split; [reflexivity|]. now apply header_bits.
Qed.

Lemma has_header_length : forall input sid c w, has_header input sid c w -> (6 <= length input)%nat.
Proof.
  intros input sid c w H. apply has_header_iff in H as (r & body & _ & _ & _ & _ & ->).
  rewrite app_length, header_bytes_length. lia.
Qed.

Lemma has_header_exists : forall input, (6 <= length input)%nat ->
  exists sid c w, has_header input sid c w.
Proof.
  intros input L. destruct (header_cases input L) as (r & sid & c & w & body & H).
  exists sid, c, w. apply has_header_iff. exists r, body. tauto.
Qed.

Lemma has_header_unique : forall input sid c w sid' c' w',
  has_header input sid c w -> has_header input sid' c' w' -> sid = sid' /\ c = c' /\ w = w'.
Proof.
  intros input sid c w sid' c' w' H H'.
  apply has_header_iff in H as (r & body & ? & ? & ? & ? & E).
  apply has_header_iff in H' as (r' & body' & ? & ? & ? & ? & E').
  rewrite E in E'. apply header_bytes_inj in E'; try assumption. tauto.
Qed.

Lemma has_error_code_iff : forall r sid c w body code,
  has_error_code (header_bytes r sid c w ++ body) code <->
  code < 2 ^ 32 /\ exists body', body = to_be 4 code ++ body'.
Proof.
  intros. split.
  - intros (hd & w32 & b & E & L & Hc & B).
    split; [assumption|]. exists b.
    assert (w32 = to_be 4 code) as ->.
    { apply bytes_bits_inj. now rewrite B, bytes_bits_to_be. }
    apply (f_equal (skipn 6)) in E.
    rewrite <- (header_bytes_length r sid c w) in E at 1. rewrite <- L in E.
    rewrite !skipn_app, !skipn_all, !Nat.sub_diag in E. exact E.
  - intros [Hc [b' ->]]. exists (header_bytes r sid c w), (to_be 4 code), b'.
    split; [reflexivity|]. split; [apply header_bytes_length|]. split; [assumption|].
    apply bytes_bits_to_be.
Qed.

(** [frame_decode] after a header. *)
Lemma decode_header : forall r sid c w body,
  r < 2 -> sid < 2 ^ 31 -> c < 64 -> w < 1024 ->
  decode (header_bytes r sid c w ++ body) =
  match ft_from_value c with
  | Some t => after_header 0 t sid (assigned w) body
  | None => (DErr (UnrecognizedFrameType c), body)
  end.
Proof. intros. now apply frame_decode_header. Qed.

Lemma needs_zero_kind : forall t, needs_stream_zero t = true <-> connection_kind (ft_value t).
Proof.
  intros t. unfold connection_kind. split.
  - destruct t; cbn; try discriminate; intros _; auto 10.
  - destruct t; cbn; try reflexivity; intros H;
      repeat (destruct H as [H|H]; [discriminate H|]); discriminate H.
Qed.

Lemma value_known : forall t, known_code (ft_value t).
Proof. intros []; unfold known_code; cbn; lia. Qed.

Lemma known_value : forall c, known_code c -> exists t, c = ft_value t.
Proof.
  intros c K. destruct (ft_from_value c) as [t|] eqn:E.
  - exists t. now apply ft_from_value_some.
  - apply ft_from_value_none in E. contradiction.
Qed.

Lemma from_value : forall t, ft_from_value (ft_value t) = Some t.
Proof. intros. now apply ft_from_value_some. Qed.

Lemma length4 : forall b : bytes, (4 <= length b)%nat ->
  exists c b', c < 2 ^ 32 /\ b = to_be 4 c ++ b'.
Proof.
  intros b H. exists (of_be (firstn 4 b)), (skipn 4 b).
  assert (length (firstn 4 b) = 4%nat) as L by (apply firstn_length_le; lia).
  split.
  - pose proof (of_be_lt (firstn 4 b)) as B. rewrite L in B. exact B.
  - rewrite to_be_of_be by assumption. now rewrite firstn_skipn.
Qed.

(** ** The outcome relation is the decoder *)

Lemma decode_outcome : forall input, outcome input (fst (decode input)).
Proof.
  intros input.
  destruct (Nat.lt_ge_cases (length input) 6) as [L|L].
  { unfold decode. rewrite frame_decode_short by assumption. now apply O_short. }
  destruct (header_cases input L) as (r & sid & c & w & body & Hr & Hs & Hc & Hw & E).
  assert (has_header input sid c w) as HH by (apply has_header_iff; exists r, body; tauto).
  pose proof (decode_header r sid c w body Hr Hs Hc Hw) as D. rewrite <- E in D.
  destruct (ft_from_value c) as [t|] eqn:T.
  2: { rewrite D. eapply O_unknown; [exact HH|]. now apply ft_from_value_none. }
  apply ft_from_value_some in T. subst c.
  unfold after_header in D.
  destruct (needs_stream_zero t && negb (sid =? 0)) eqn:Z.
  { rewrite D. apply andb_true_iff in Z as [Z1 Z2]. apply negb_true_iff, N.eqb_neq in Z2.
    eapply O_connection; [exact HH|now apply needs_zero_kind|assumption]. }
  assert (needs_stream_zero t = true -> sid = 0) as Zk.
  { intros N. rewrite N in Z. cbn in Z. apply negb_false_iff in Z. now apply N.eqb_eq. }
  destruct (fst (decode input)) as [f|e| |] eqn:F.
  - apply O_ok with (rest := snd (decode input)). apply decode_ok_iff.
    rewrite <- F. now destruct (decode input).
  - destruct t.
    11: {
      (* ERROR *)
      destruct (Nat.lt_ge_cases (length body) 4) as [L4|L4].
      - rewrite error_body_short in D by assumption. rewrite D in F. injection F as <-.
        eapply O_body; [exact HH|apply value_known|discriminate| | |].
        + intros K. apply Zk. now apply needs_zero_kind.
        + intros c _ HE. rewrite E in HE. apply has_error_code_iff in HE as (_ & b' & ->).
          rewrite app_length, to_be_length in L4. lia.
        + intros f rest P. apply decode_ok_iff in P. congruence.
      - destruct (length4 body L4) as (c & b' & Hc' & ->).
        rewrite error_body_code, validate_spec in D by assumption. cbn [fst] in D.
        assert (has_error_code input c) as HE by (rewrite E; apply has_error_code_iff; eauto).
        destruct (N.eqb_spec sid 0) as [->|Hn]; cbn [negb] in D.
        + destruct (existsb _ _) eqn:X; [|rewrite D in F; discriminate F].
          rewrite D in F. injection F as <-.
          eapply O_error_stream; [exact HH|exact HE|]. now apply existsb_stream.
        + destruct (existsb _ _) eqn:X; [|rewrite D in F; discriminate F].
          rewrite D in F. injection F as <-.
          eapply O_error_connection; [exact HH|exact HE| |assumption]. now apply existsb_connection. }
    all: try (rewrite D in F; discriminate F).
    all: match type of D with _ = body_dec _ ?t ?s ?fl _ =>
           destruct (body_tame 0 t s fl ltac:(discriminate) ltac:(discriminate) Zk body) as [_ [Ha|[a Ha]]];
           rewrite D in F; [rewrite Ha in F; injection F as <-|congruence]
         end;
      (eapply O_body; [exact HH|apply value_known|discriminate| | |];
       [intros K; apply Zk; now apply needs_zero_kind
       |intros c K; discriminate K
       |intros f rest P; apply decode_ok_iff in P; rewrite P in D; rewrite <- D in Ha; discriminate Ha]).
  - destruct t.
    all: try (match type of D with _ = body_dec _ ?t ?s ?fl _ =>
           destruct (body_tame 0 t s fl ltac:(discriminate) ltac:(discriminate) Zk body) as [_ [Ha|[a Ha]]];
           rewrite D, Ha in F; discriminate F end).
    + destruct (Nat.lt_ge_cases (length body) 4) as [L4|L4].
      * rewrite error_body_short in D by assumption. rewrite D in F. discriminate F.
      * destruct (length4 body L4) as (c & b' & Hc' & ->).
        rewrite error_body_code, validate_spec in D by assumption. cbn [fst] in D.
        rewrite D in F. destruct (negb _), (existsb _ _); try discriminate F;
          destruct (existsb _ _); discriminate F.
    + eapply O_ext. exact HH.
  - destruct t.
    all: try (match type of D with _ = body_dec _ ?t ?s ?fl _ =>
           destruct (body_tame 0 t s fl ltac:(discriminate) ltac:(discriminate) Zk body) as [_ [Ha|[a Ha]]];
           rewrite D, Ha in F; discriminate F end).
    + destruct (Nat.lt_ge_cases (length body) 4) as [L4|L4].
      * rewrite error_body_short in D by assumption. rewrite D in F. discriminate F.
      * destruct (length4 body L4) as (c & b' & Hc' & ->).
        rewrite error_body_code, validate_spec in D by assumption. cbn [fst] in D.
        rewrite D in F. destruct (negb _), (existsb _ _); try discriminate F;
          destruct (existsb _ _); discriminate F.
    + rewrite D in F. discriminate F.
Qed.

Lemma connection_header : forall input sid c w,
  has_header input sid c w -> connection_kind c -> sid <> 0 ->
  fst (decode input) = DErr (InvalidStreamId "0" sid).
Proof.
  intros input sid c w H K Hn. apply has_header_iff in H as (r & body & ? & ? & ? & ? & ->).
  rewrite decode_header by assumption.
  destruct (known_value c) as [t ->].
  { unfold connection_kind in K. unfold known_code. lia. }
  rewrite from_value. unfold after_header. rewrite (proj2 (needs_zero_kind t)) by assumption.
  now rewrite (proj2 (N.eqb_neq sid 0)).
Qed.

Lemma unknown_header : forall input sid c w,
  has_header input sid c w -> ~ known_code c ->
  fst (decode input) = DErr (UnrecognizedFrameType c).
Proof.
  intros input sid c w H K. apply has_header_iff in H as (r & body & ? & ? & ? & ? & ->).
  rewrite decode_header by assumption. now rewrite (proj2 (ft_from_value_none c)).
Qed.

Lemma ext_header : forall input sid w,
  has_header input sid 0x3F w -> fst (decode input) = DPanic.
Proof.
  intros input sid w H. apply has_header_iff in H as (r & body & ? & ? & ? & ? & ->).
  now rewrite decode_header by assumption.
Qed.

Lemma error_header : forall input sid w c,
  has_header input sid 0x0B w -> has_error_code input c ->
  exists d,
  fst (decode input) =
  if negb (sid =? 0) then
    if existsb (N.eqb c) [0x001; 0x002; 0x003; 0x004; 0x101; 0x102]
    then DErr (InvalidStreamId "0" sid) else DOk (FError (ErrorFrame sid c d))
  else
    if existsb (N.eqb c) [0x201; 0x202; 0x203; 0x204]
    then DErr (InvalidStreamId "> 0" sid) else DOk (FError (ErrorFrame sid c d)).
Proof.
  intros input sid w c H HE. apply has_header_iff in H as (r & body & ? & ? & ? & ? & ->).
  apply has_error_code_iff in HE as (Hc & b' & ->). exists (opt b').
  rewrite decode_header by assumption. change (ft_from_value 0x0B) with (Some FT_ERROR). cbv iota beta.
  unfold after_header. cbn [needs_stream_zero andb].
  rewrite error_body_code, validate_spec by assumption. cbn [fst].
  destruct (negb _).
  - destruct (existsb _ _); reflexivity.
  - destruct (existsb _ _); reflexivity.
Qed.

Lemma outcome_decode : forall input o, outcome input o -> fst (decode input) = o.
Proof.
  intros input o H. inversion H; subst.
  - unfold decode. now rewrite frame_decode_short.
  - eapply unknown_header; eassumption.
  - eapply ext_header; eassumption.
  - eapply connection_header; eassumption.
  - destruct (error_header _ _ _ _ H0 H1) as [d ->].
    rewrite (proj2 (N.eqb_neq sid 0)) by assumption. cbn [negb].
    now rewrite (proj2 (existsb_connection c)).
  - destruct (error_header _ _ _ _ H0 H1) as [d ->]. cbn [negb N.eqb].
    now rewrite (proj2 (existsb_stream c)).
  - apply decode_ok_iff in H0. now rewrite H0.
  - pose proof (decode_outcome input) as D. inversion D as [|? ? ? HH|? ? HH|? ? ? HH|? ? ? HH|? ? HH|f rest P|]; subst.
    + congruence.
    + destruct (has_header_unique _ _ _ _ _ _ _ H0 HH) as (-> & -> & ->). contradiction.
    + destruct (has_header_unique _ _ _ _ _ _ _ H0 HH) as (-> & -> & ->). congruence.
    + destruct (has_header_unique _ _ _ _ _ _ _ H0 HH) as (-> & -> & ->). tauto.
    + destruct (has_header_unique _ _ _ _ _ _ _ H0 HH) as (-> & -> & ->).
      exfalso. eapply H4; [reflexivity|eassumption].
    + destruct (has_header_unique _ _ _ _ _ _ _ H0 HH) as (-> & -> & ->).
      exfalso. eapply H4; [reflexivity|eassumption].
    + exfalso. eapply H5. eassumption.
    + congruence.
Qed.

Lemma outcome_iff : forall input o, outcome input o <-> fst (decode input) = o.
Proof.
  intros. split; [apply outcome_decode|]. intros <-. apply decode_outcome.
Qed.

(** ** Remaining buffer *)

Lemma frame_type_eq_dec : forall a b : frame_type, {a = b} + {a <> b}.
Proof. decide equality. Qed.

Lemma decode_suffix : forall input, suffix (snd (decode input)) input.
Proof.
  intros input.
  destruct (Nat.lt_ge_cases (length input) 6) as [L|L].
  { unfold decode. rewrite frame_decode_short by assumption. apply suffix_refl. }
  destruct (header_cases input L) as (r & sid & c & w & body & Hr & Hs & Hc & Hw & ->).
  rewrite decode_header by assumption.
  assert (suffix body (header_bytes r sid c w ++ body)) as SB by apply suffix_app.
  destruct (ft_from_value c) as [t|]; [|exact SB].
  unfold after_header.
  destruct (needs_stream_zero t && negb (sid =? 0)) eqn:Z; [exact SB|].
  assert (needs_stream_zero t = true -> sid = 0) as Zk.
  { intros N. rewrite N in Z. cbn in Z. apply negb_false_iff in Z. now apply N.eqb_eq. }
  eapply suffix_trans; [|exact SB].
  destruct (frame_type_eq_dec t FT_EXT) as [->|H1]; [apply suffix_refl|].
  destruct (frame_type_eq_dec t FT_ERROR) as [->|H2].
  - destruct (Nat.lt_ge_cases (length body) 4) as [L4|L4].
    + rewrite error_body_short by assumption. apply suffix_refl.
    + destruct (length4 body L4) as (c' & b' & Hc' & ->).
      rewrite error_body_code by assumption.
      destruct (fst _); cbn [snd]; try apply suffix_app.
      exists (to_be 4 c' ++ b'). now rewrite app_nil_r.
  - now apply body_tame.
Qed.

(** ** Present-but-empty parts *)

Lemma opt_part_drop : forall o, opt (part o) = drop_empty o.
Proof. now intros [[|]|]. Qed.

Lemma norm_payload_drop : forall p, norm_payload p = drop_empty_payload p.
Proof. intros p. unfold norm_payload, drop_empty_payload. now rewrite !opt_part_drop. Qed.

Lemma norm_drop : forall f, norm f = drop_empty_parts f.
Proof.
  intros [[]|[]|[]|[]|[]|[]|[]|[]|[]|[]|[]|[]|[]|[]]; unfold drop_empty_parts;
    cbn [norm payload_of set_payload tail_of set_tail]; unfold with_payload; cbn;
    rewrite ?norm_payload_drop, ?opt_part_drop; reflexivity.
Qed.

Lemma solid_iff : forall f, solid_frame f <-> ~ has_empty_part f.
Proof.
  intros []; unfold has_empty_part; cbn [solid_frame payload_of tail_of];
    unfold solid_payload, solid; try (intuition congruence);
    (split; intros H; [intros E; injection E as E; contradiction|intros E; apply H; now rewrite E]).
Qed.

Lemma encode_typed : forall f buf, typed f -> small f ->
  frame_encode f buf = EOk (buf ++ wire_bytes 0 (flag_word f) 0 0 f).
Proof. exact encode_ok. Qed.

Lemma flag_word_carries : forall f, in_range f -> carries (flag_word f) f.
Proof.
  intros [] H; cbn [in_range carries flag_word] in *; try exact I;
    try (symmetry; apply assigned_id; apply H).
  now destruct (kf_respond v).
Qed.

Lemma roundtrip_norm : forall f, in_range f -> coherent f ->
  exists bs, (forall buf, frame_encode f buf = EOk (buf ++ bs)) /\
  decode bs = (DOk (norm f), []).
Proof.
  intros f R C. exists (wire_bytes 0 (flag_word f) 0 0 f). split.
  - intros buf. apply encode_ok; [now apply in_range_typed|now apply in_range_small].
  - rewrite <- (app_nil_r (wire_bytes _ _ _ _ _)). unfold decode. apply decode_fwd; try reflexivity; try assumption.
    + apply flag_word_lt. now apply in_range_typed.
    + now apply flag_word_carries.
Qed.

(** ** Sizes *)

Lemma token_bytes_length : forall o,
  length (token_bytes o) = (match o with Some t => 2 + length t | None => 0 end)%nat.
Proof. intros [t|]; cbn [token_bytes]; [|reflexivity]. now rewrite app_length, to_be_length. Qed.

Lemma payload_bytes_length : forall p,
  length (payload_bytes p) = (3 + length (part (p_metadata p)) + length (part (p_data p)))%nat.
Proof. intros. unfold payload_bytes. rewrite !app_length, to_be_length. lia. Qed.

Lemma wire_bytes_length : forall r w r1 r2 r' w' r1' r2' f,
  length (wire_bytes r w r1 r2 f) = length (wire_bytes r' w' r1' r2' f).
Proof.
  intros. unfold wire_bytes. rewrite !app_length, !header_bytes_length. f_equal.
  destruct f; cbn [body_bytes]; rewrite ?app_length, ?to_be_length; reflexivity.
Qed.

Lemma frame_len_wire : forall f,
  frame_len f = size (wire_bytes 0 (flag_word f) 0 0 f) +
    match f with FSetup s => if present (sf_resume_token s) then 0 else 2 | _ => 0 end.
Proof.
  intros f. unfold size, wire_bytes. rewrite app_length, header_bytes_length.
  destruct f as [s|e|l|k|q|q|q|q|q|q|q|q|q|q]; cbn [body_bytes frame_len];
    rewrite ?app_length, ?to_be_length, ?payload_bytes_length, ?token_bytes_length, ?version_bytes_length.
  - unfold setup_len, payload_len, blen. destruct (sf_resume_token s); cbn [present];
      destruct (sf_payload s) as [[m|] [d|]]; cbn [part p_metadata p_data length]; lia.
  - unfold error_len, blen. destruct (ef_data e); cbn [part length]; lia.
  - unfold lease_len, blen. destruct (lf_metadata l); cbn [part length]; lia.
  - unfold keepalive_len, blen. destruct (kf_data k); cbn [part length]; lia.
  - unfold request_response_len, payload_len, blen.
    destruct (rr_payload q) as [[m|] [d|]]; cbn [part p_metadata p_data length]; lia.
  - unfold request_fnf_len, payload_len, blen.
    destruct (fnf_payload q) as [[m|] [d|]]; cbn [part p_metadata p_data length]; lia.
  - unfold request_stream_len, payload_len, blen.
    destruct (rs_payload q) as [[m|] [d|]]; cbn [part p_metadata p_data length]; lia.
  - unfold request_channel_len, payload_len, blen.
    destruct (rc_payload q) as [[m|] [d|]]; cbn [part p_metadata p_data length]; lia.
  - unfold request_n_len. cbn. lia.
  - unfold cancel_len. cbn. lia.
  - unfold payload_frame_len, payload_len, blen.
    destruct (pf_payload q) as [[m|] [d|]]; cbn [part p_metadata p_data length]; lia.
  - unfold metadata_push_len, blen. lia.
  - unfold resume_len, blen. lia.
  - unfold resume_ok_len. cbn. lia.
Qed.

(** ** Oversized metadata *)

Lemma put_metadata_len_panic : forall p buf, ~ small_metadata p -> put_metadata_len p buf = EPanic buf.
Proof.
  intros p buf H. unfold put_metadata_len. rewrite metadata_len_size.
  unfold small_metadata in H. unfold u24_from_usize. rewrite u24_max.
  destruct (N.leb_spec (size (part (p_metadata p))) (2 ^ 24 - 1)); [lia|reflexivity].
Qed.

Lemma enc_seq_panic : forall (a b : enc) buf buf1, a buf = EPanic buf1 -> (a ;; b)%enc buf = EPanic buf1.
Proof. unfold enc_seq. intros. now rewrite H. Qed.

Lemma small_empty : small_metadata (Payload None None).
Proof. reflexivity. Qed.

Lemma payload_empty : payload_bytes (Payload None None) = to_be 3 0.
Proof. reflexivity. Qed.

(** The bytes of [wire_bytes] in front of the payload. *)
Lemma before_payload : forall f p, payload_of f = Some p ->
  exists pre, forall q, wire_bytes 0 (flag_word f) 0 0 (set_payload f q) = pre ++ payload_bytes q.
Proof.
  intros f p H. unfold wire_bytes.
  destruct f; try discriminate H; cbn [set_payload body_bytes kind sid_of]; eexists; intros q0;
    cbn [sf_version sf_keepalive_interval sf_keepalive_timeout sf_resume_token sf_metadata_mimetype sf_data_mimetype sf_payload
         rr_payload fnf_payload rs_payload rc_payload pf_payload rr_stream_id fnf_stream_id rs_stream_id
         rc_stream_id pf_stream_id rs_initial_request_n rc_initial_request_n];
    rewrite ?app_assoc; reflexivity.
Qed.

Lemma set_payload_id : forall f p, payload_of f = Some p -> set_payload f p = f.
Proof. intros [[]|[]|[]|[]|[]|[]|[]|[]|[]|[]|[]|[]|[]|[]] p H; inversion H; reflexivity. Qed.

Lemma typed_set_payload : forall f p, typed (set_payload f p) <-> typed f.
Proof. intros [] p; cbn; tauto. Qed.

Lemma flag_word_set_payload : forall f p, flag_word (set_payload f p) = flag_word f.
Proof. now intros []. Qed.

Lemma small_set_payload : forall f p q, payload_of f = Some q -> small (set_payload f p) = small_metadata p.
Proof. intros [] p q H; try discriminate H; reflexivity. Qed.

Lemma encode_panic : forall f p, typed f -> payload_of f = Some p -> ~ small_metadata p ->
  exists pre, forall buf, frame_encode f buf = EPanic (buf ++ pre) /\
  frame_encode (set_payload f (Payload None None)) buf = EOk (buf ++ pre ++ to_be 3 0).
Proof.
  intros f p T H N. destruct (before_payload f p H) as [pre E].
  exists pre. intros buf. split.
  2: { rewrite encode_ok.
       - now rewrite flag_word_set_payload, E.
       - now apply typed_set_payload.
       - erewrite small_set_payload by eassumption. apply small_empty. }
  specialize (E (Payload None None)). rewrite payload_empty in E.
  unfold wire_bytes, header_bytes in E. pose proof (flag_word_lt f T) as Hw.
  destruct f as [s|e|l|k|q|q|q|q|q|q|q|q|q|q]; inversion H; subst p;
    cbn [frame_encode set_payload body_bytes kind sid_of flag_word sf_version sf_keepalive_interval
         sf_keepalive_timeout sf_resume_token sf_metadata_mimetype sf_data_mimetype sf_payload
         rr_payload fnf_payload rs_payload rc_payload pf_payload rr_stream_id fnf_stream_id rs_stream_id
         rc_stream_id pf_stream_id rs_initial_request_n rc_initial_request_n] in *;
    rewrite payload_empty, !N.mul_0_l, !N.add_0_l in E;
    (* drop the final length *)
    rewrite ?app_assoc in E; apply app_inv_tail in E; subst pre.
  - unfold setup_encode. rewrite put_header, word_flags by assumption.
    erewrite enc_seq_ok by apply version_encode_ok.
    erewrite enc_seq_ok by reflexivity. erewrite enc_seq_ok by reflexivity.
    erewrite enc_seq_ok by apply token_encode_ok.
    do 4 (erewrite enc_seq_ok by reflexivity).
    erewrite enc_seq_panic by (now apply put_metadata_len_panic).
    rewrite !to_be_as_u8. unfold blen, size. rewrite <- !app_assoc. reflexivity.
  - unfold request_response_encode. rewrite put_header, word_flags by assumption.
    erewrite enc_seq_panic by (now apply put_metadata_len_panic).
    now rewrite <- ?app_assoc.
  - unfold request_fnf_encode. rewrite put_header, word_flags by assumption.
    erewrite enc_seq_panic by (now apply put_metadata_len_panic). now rewrite <- ?app_assoc.
  - unfold request_stream_encode. rewrite put_header, word_flags by assumption.
    erewrite enc_seq_ok by reflexivity.
    erewrite enc_seq_panic by (now apply put_metadata_len_panic). now rewrite <- ?app_assoc.
  - unfold request_channel_encode. rewrite put_header, word_flags by assumption.
    erewrite enc_seq_ok by reflexivity.
    erewrite enc_seq_panic by (now apply put_metadata_len_panic). now rewrite <- ?app_assoc.
  - unfold payload_frame_encode. rewrite put_header, word_flags by assumption.
    erewrite enc_seq_panic by (now apply put_metadata_len_panic). now rewrite <- ?app_assoc.
Qed.

Lemma small_iff : forall f, small f <-> forall p, payload_of f = Some p -> small_metadata p.
Proof.
  intros []; cbn [small payload_of]; split; intros H; try exact I; try (intros p E; congruence);
    apply H; reflexivity.
Qed.

(** ** More bytes *)

Lemma opt_grow : forall o ext, solid o -> grow o ext = opt (part o ++ ext).
Proof.
  intros [[|]|] [|] H; cbn; try reflexivity; try (now elim H).
  now rewrite app_nil_r.
Qed.

Lemma solid_grow : forall o ext, solid o -> solid (grow o ext).
Proof. intros. rewrite opt_grow by assumption. apply solid_opt. Qed.

Lemma part_grow : forall o ext, solid o -> part (grow o ext) = part o ++ ext.
Proof. intros. rewrite opt_grow by assumption. apply part_opt. Qed.

Lemma extend_facts : forall f ext, fits f -> open_ended f ->
  fits (extend f ext) /\ open_ended (extend f ext) /\
  (forall w, carries w f -> carries w (extend f ext)) /\
  forall r w r1 r2, wire_bytes r w r1 r2 (extend f ext) = wire_bytes r w r1 r2 f ++ ext.
Proof.
  intros f ext F O. apply fits_split in F as (R & C & S).
  unfold extend, wire_bytes.
  destruct f as [s|e|l|k|q|q|q|q|q|q|q|q|q|q];
    cbn [payload_of tail_of set_payload set_tail open_ended solid_frame in_range coherent carries
         kind sid_of body_bytes] in *; try contradiction;
    (split; [apply fits_split; cbn [in_range coherent solid_frame]|split; [exact I|split; [tauto|]]]);
    unfold solid_payload in *; unfold small_metadata in *;
    cbn [sf_flags sf_version sf_keepalive_interval sf_keepalive_timeout sf_resume_token
         sf_metadata_mimetype sf_data_mimetype sf_payload ef_stream_id ef_code ef_data
         lf_ttl lf_number_of_requests lf_metadata kf_respond kf_last_received_position kf_data
         rr_payload fnf_payload rs_payload rc_payload pf_payload rr_stream_id fnf_stream_id rs_stream_id
         rc_stream_id pf_stream_id rs_initial_request_n rc_initial_request_n
         rr_flags fnf_flags rs_flags rc_flags pf_flags mp_metadata p_metadata p_data];
    split_and.
  all: try (repeat match goal with |- _ /\ _ => split end;
            first [assumption|exact I|now apply solid_grow]).
  all: intros; unfold payload_bytes; cbn [p_metadata p_data];
    rewrite ?part_grow by assumption; rewrite <- ?app_assoc; reflexivity.
Qed.

Lemma decode_extend : forall input f rest ext, decode input = (DOk f, rest) ->
  decode (input ++ ext) =
  (DOk (extend f ext), match f with FRequestN _ | FCancel _ | FResume _ | FResumeOk _ => rest ++ ext | _ => [] end).
Proof.
  intros input f rest ext H. apply decode_bwd in H as (r & w & r1 & r2 & H1 & H2 & H3 & H4 & F & C & O & ->).
  assert (open_ended f \/ ~ open_ended f) as [Op|Op] by (destruct f; cbn; tauto).
  - rewrite (O Op), app_nil_r. destruct (extend_facts f ext F Op) as (F' & O' & C' & W).
    rewrite <- W. apply fits_split in F' as (R & Co & S).
    rewrite <- (app_nil_r (wire_bytes _ _ _ _ _)). unfold decode.
    rewrite decode_fwd by auto. rewrite norm_id by assumption.
    destruct f; cbn in Op; try contradiction; reflexivity.
  - apply fits_split in F as (R & Co & S). rewrite <- app_assoc. unfold decode.
    rewrite decode_fwd by tauto. rewrite norm_id by assumption.
    destruct f; cbn in Op; try tauto; reflexivity.
Qed.

Lemma has_header_ext : forall input ext sid c w,
  has_header input sid c w -> has_header (input ++ ext) sid c w.
Proof.
  intros input ext sid c w (r & hd & body & H1 & H2 & H3 & H4 & -> & B).
  exists r, hd, (body ++ ext). rewrite <- app_assoc. tauto.
Qed.
Lemma has_error_code_ext : forall input ext c,
  has_error_code input c -> has_error_code (input ++ ext) c.
Proof.
  intros input ext c (hd & w32 & body & -> & L & Hc & B).
  exists hd, w32, (body ++ ext). rewrite <- !app_assoc. tauto.
Qed.

Lemma decode_error_stable : forall input ext o,
  fst (decode input) = o -> o <> DErr InComplete -> (forall f, o <> DOk f) ->
  fst (decode (input ++ ext)) = o.
Proof.
  intros input ext o H N1 N2. apply outcome_iff in H. apply outcome_iff.
  inversion H; subst; try congruence.
  - eapply O_unknown; [apply has_header_ext; eassumption|assumption].
  - eapply O_ext. apply has_header_ext; eassumption.
  - eapply O_connection; [apply has_header_ext; eassumption|assumption|assumption].
  - eapply O_error_connection;
      [apply has_header_ext; eassumption|apply has_error_code_ext; eassumption|assumption|assumption].
  - eapply O_error_stream;
      [apply has_header_ext; eassumption|apply has_error_code_ext; eassumption|assumption].
Qed.

(** ** A bound beyond which input is never too short *)

(** [m] succeeds on every input of [k] bytes or more and consumes at most [k]. *)
Definition ample {A} (P : A -> Prop) (k : N) (m : dec bytes A) : Prop := forall b,
  k <= size b -> exists a b', m b = (DOk a, b') /\ P a /\ size b <= size b' + k.

Lemma ample_bind : forall {A C} (P : A -> Prop) (Q : C -> Prop) k1 k2 (m : dec bytes A) h,
  ample P k1 m -> (forall a, P a -> ample Q k2 (h a)) -> ample Q (k1 + k2) (d_bind m h).
Proof.
  intros A C P Q k1 k2 m h Hm Hh b L.
  destruct (Hm b) as (a & b1 & E & Pa & L1); [lia|].
  destruct (Hh a Pa b1) as (c & b2 & E' & Qc & L2); [lia|].
  exists c, b2. erewrite bind_ok by exact E. split; [exact E'|]. split; [assumption|lia].
Qed.

Lemma ample_ret : forall {A} (a : A) k, ample (fun _ => True) k (d_ret a).
Proof. intros A a k b L. exists a, b. split; [reflexivity|]. split; [exact I|lia]. Qed.

Lemma ample_weaken : forall {A} (P Q : A -> Prop) k k' (m : dec bytes A),
  ample P k m -> k <= k' -> (forall a, P a -> Q a) -> ample Q k' m.
Proof.
  intros A P Q k k' m H L PQ b Lb. destruct (H b) as (a & b' & E & Pa & L'); [lia|].
  exists a, b'. split; [assumption|]. split; [auto|lia].
Qed.

Lemma ample_eat_n : forall k, ample (fun n => n < 256 ^ N.of_nat k) (N.of_nat k) (eat_n 0 k).
Proof.
  intros k b L. unfold size in L. exists (of_be (firstn k b)), (skipn k b).
  rewrite eat_n_spec. rewrite (proj2 (Nat.ltb_ge _ _)) by lia.
  assert (length (firstn k b) = k) as Lf by (apply firstn_length_le; lia).
  split; [reflexivity|]. split.
  - pose proof (of_be_lt (firstn k b)) as B. now rewrite Lf in B.
  - unfold size. rewrite skipn_length. lia.
Qed.

Lemma ample_map : forall {A C} (P : A -> Prop) k (f : A -> C) (m : dec bytes A),
  ample P k m -> ample (fun _ => True) k (d_map f m).
Proof.
  intros A C P k f m H b L. destruct (H b L) as (a & b' & E & _ & L').
  exists (f a), b'. split; [now apply map_ok|]. split; [exact I|lia].
Qed.

Lemma ample_u31 : ample (fun _ => True) 4 (eat_u31 flat 0).
Proof.
  intros b L. destruct (ample_eat_n 4 b L) as (a & b' & E & _ & L').
  exists (N.land a MAX_U31), b'. rewrite eat_u31_n.
  split; [erewrite bind_ok by exact E; reflexivity|]. split; [exact I|lia].
Qed.
Lemma ample_u63 : ample (fun _ => True) 8 (eat_u63 flat 0).
Proof.
  intros b L. destruct (ample_eat_n 8 b L) as (a & b' & E & _ & L').
  exists (N.land a MAX_U63), b'. rewrite eat_u63_n.
  split; [erewrite bind_ok by exact E; reflexivity|]. split; [exact I|lia].
Qed.
Lemma ample_version : ample (fun _ => True) 4 (eat_version flat 0).
Proof.
  intros b L. rewrite eat_version_spec. unfold size in *.
  rewrite (proj2 (Nat.ltb_ge _ _)) by lia.
  do 2 eexists. split; [reflexivity|]. split; [exact I|].
  rewrite skipn_length. lia.
Qed.
Lemma ample_u8 : ample (fun n => n < 256) 2 (eat_u8 flat).
Proof.
  intros b L. unfold size in *. destruct b as [|x [|y b]]; cbn in L; try lia.
  exists (b2n x), (y :: b). rewrite eat_u8_spec. split; [reflexivity|].
  split; [apply b2n_lt|]. cbn. lia.
Qed.
Lemma ample_bytes : forall n k, n <= k -> ample (fun _ => True) k (eat_bytes flat (N.to_nat n)).
Proof.
  intros n k H b L. unfold size in *. rewrite eat_bytes_spec.
  rewrite (proj2 (Nat.ltb_ge _ _)) by lia.
  do 2 eexists. split; [reflexivity|]. split; [exact I|]. rewrite skipn_length. lia.
Qed.
Lemma ample_rest : forall b, exists a, eat_rest flat b = (DOk a, []).
Proof. intros b. rewrite eat_rest_spec. eauto. Qed.
Lemma ample_token : forall fl, ample (fun _ => True) (2 + 65535) (eat_resume_token flat 0 fl).
Proof.
  intros fl. unfold eat_resume_token. destruct (fl_contains fl FL_RESUME).
  - eapply (ample_bind _ _ 2 65535); [apply (ample_eat_n 2)|].
    intros a Ha. cbn beta in Ha. change (256 ^ N.of_nat 2) with 65536 in Ha.
    rewrite <- (N.add_0_r 65535). eapply ample_bind; [apply ample_bytes; lia|].
    intros. apply ample_ret.
  - apply ample_ret.
Qed.

Lemma ample_len : ample (fun n => n < 2 ^ 24) (2 + 2) (eat_len 0).
Proof.
  intros b L. destruct (ample_bind _ (fun u => u24_hi u < 256 /\ u24_lo u < 65536) 2 2 (eat_u8 flat) (fun h =>
    d_bind (eat_n 0 2) (fun l => d_ret (U24 h l))) ample_u8) with (b := b)
    as (u & b' & E & [H1 H2] & L'); [|assumption|].
  - intros h Hh b1 L1. destruct (ample_eat_n 2 b1 L1) as (l & b2 & E & Hl & L2).
    exists (U24 h l), b2. split; [erewrite bind_ok by exact E; reflexivity|].
    split; [|exact L2]. split; assumption.
  - exists (u24_into_usize u), b'.
    split; [unfold eat_len, eat_u24; erewrite bind_ok by exact E; reflexivity|].
    split; [|assumption]. destruct u as [h l]. cbn [u24_hi u24_lo] in *.
    rewrite u24_value by exact H2. lia.
Qed.

(** Like [ample] without the bound on what is consumed. *)
Definition enough {A} (k : N) (m : dec bytes A) : Prop := forall b,
  k <= size b -> exists a b', m b = (DOk a, b').

Lemma ample_enough : forall {A} (P : A -> Prop) k (m : dec bytes A), ample P k m -> enough k m.
Proof. intros A P k m H b L. destruct (H b L) as (a & b' & E & _). eauto. Qed.

Lemma enough_bind : forall {A C} (P : A -> Prop) k1 k2 (m : dec bytes A) (h : A -> dec bytes C),
  ample P k1 m -> (forall a, P a -> enough k2 (h a)) -> enough (k1 + k2) (d_bind m h).
Proof.
  intros A C P k1 k2 m h Hm Hh b L.
  destruct (Hm b) as (a & b1 & E & Pa & L1); [lia|].
  destruct (Hh a Pa b1) as (c & b2 & E'); [lia|].
  exists c, b2. now erewrite bind_ok by exact E.
Qed.

Lemma enough_map : forall {A C} k (f : A -> C) (m : dec bytes A), enough k m -> enough k (d_map f m).
Proof.
  intros A C k f m H b L. destruct (H b L) as (a & b' & E). exists (f a), b'. now apply map_ok.
Qed.

Lemma enough_weaken : forall {A} k k' (m : dec bytes A), enough k m -> k <= k' -> enough k' m.
Proof. intros A k k' m H L b Lb. apply H. lia. Qed.

Lemma enough_ret : forall {A} (a : A) k, enough k (d_ret a).
Proof. intros A a k b _. unfold d_ret. eauto. Qed.

Lemma enough_rest : forall {C} (h : option bytes -> C), enough 0 (d_bind (eat_rest flat) (fun x => d_ret (h x))).
Proof.
  intros C h b _. erewrite bind_ok by apply eat_rest_spec. unfold d_ret. eauto.
Qed.

Lemma enough_payload : forall {C} (h : payload -> C),
  enough (2 + 2 + (2 ^ 24 - 1)) (d_bind (eat_payload flat 0 true) (fun x => d_ret (h x))).
Proof.
  intros C h b L. destruct (ample_len b) as (n & b1 & E1 & Hn & L1); [lia|].
  destruct (ample_bytes n (2 ^ 24 - 1) ltac:(lia) b1) as (l & b2 & E2 & _ & L2); [lia|].
  erewrite bind_ok; [unfold d_ret; eauto|].
  rewrite eat_payload_spec. erewrite bind_ok by exact E1. erewrite bind_ok by exact E2.
  erewrite bind_ok by apply eat_rest_spec. reflexivity.
Qed.

Definition plenty : N := 2 ^ 24 + 2 ^ 17 - 6.

Lemma body_enough : forall t sid fl, t <> FT_EXT -> t <> FT_ERROR ->
  (needs_stream_zero t = true -> sid = 0) -> enough plenty (body_dec 0 t sid fl).
Proof.
  intros t sid fl H1 H2 Z. unfold plenty.
  destruct t; try congruence; cbn [body_dec needs_stream_zero] in *;
    try (specialize (Z eq_refl); subst sid); apply enough_map.
  - unfold setup_decode. eapply enough_weaken.
    + eapply enough_bind; [apply ample_version|intros].
      eapply enough_bind; [apply ample_u31|intros].
      eapply enough_bind; [apply ample_u31|intros].
      eapply enough_bind; [apply ample_token|intros].
      eapply enough_bind; [apply ample_u8|intros n1 Hn1].
      eapply enough_bind; [apply (ample_bytes _ 255); cbn beta in Hn1; lia|intros].
      eapply enough_bind; [apply ample_u8|intros n2 Hn2].
      eapply enough_bind; [apply (ample_bytes _ 255); cbn beta in Hn2; lia|intros].
      apply enough_payload.
    + lia.
  - unfold lease_decode. change (negb (0 =? 0)) with false. cbv iota. eapply enough_weaken.
    + eapply enough_bind; [apply ample_u31|intros].
      eapply enough_bind; [apply ample_u31|intros]. apply enough_rest.
    + lia.
  - unfold keepalive_decode. change (negb (0 =? 0)) with false. cbv iota. eapply enough_weaken.
    + eapply enough_bind; [apply ample_u63|intros]. apply enough_rest.
    + lia.
  - eapply enough_weaken; [apply enough_payload|]. lia.
  - eapply enough_weaken; [apply enough_payload|]. lia.
  - eapply enough_weaken.
    + eapply enough_bind; [apply ample_u31|intros]. apply enough_payload.
    + lia.
  - eapply enough_weaken.
    + eapply enough_bind; [apply ample_u31|intros]. apply enough_payload.
    + lia.
  - eapply enough_weaken.
    + eapply enough_bind; [apply ample_u31|intros]. apply enough_ret.
    + instantiate (1 := 0). lia.
  - apply enough_ret.
  - eapply enough_weaken; [apply enough_payload|]. lia.
  - unfold metadata_push_decode. intros b L. erewrite bind_ok by reflexivity.
    erewrite bind_ok; [unfold d_ret; eauto|]. rewrite <- (app_nil_r b) at 2. apply eat_bytes_fwd.
  - unfold resume_decode. rewrite eat_u16_n. eapply enough_weaken.
    + eapply enough_bind; [apply ample_version|intros].
      eapply enough_bind; [apply (ample_eat_n 2)|intros n Hn].
      eapply enough_bind; [apply (ample_bytes _ 65535); cbn beta in Hn;
        change (256 ^ N.of_nat 2) with 65536 in Hn; lia|intros].
      eapply enough_bind; [apply ample_u63|intros].
      eapply enough_bind; [apply ample_u63|intros]. apply enough_ret.
    + instantiate (1 := 0). lia.
  - eapply enough_weaken.
    + eapply enough_bind; [apply ample_u63|intros]. apply enough_ret.
    + instantiate (1 := 0). lia.
Qed.

Lemma decode_plenty : forall input, 2 ^ 24 + 2 ^ 17 <= size input ->
  fst (decode input) <> DErr InComplete.
Proof.
  intros input L H.
  assert (6 <= length input)%nat as L6 by (unfold size in L; lia).
  destruct (header_cases input L6) as (r & sid & c & w & body & Hr & Hs & Hc & Hw & E).
  assert (plenty <= size body) as Lb.
  { unfold plenty, size in *. rewrite E, app_length, header_bytes_length in L. lia. }
  rewrite E, decode_header in H by assumption.
  destruct (ft_from_value c) as [t|]; [|discriminate].
  unfold after_header in H.
  destruct (needs_stream_zero t && negb (sid =? 0)) eqn:Z; [discriminate|].
  assert (needs_stream_zero t = true -> sid = 0) as Zk.
  { intros N. rewrite N in Z. cbn in Z. apply negb_false_iff in Z. now apply N.eqb_eq. }
  destruct (frame_type_eq_dec t FT_EXT) as [->|H1]; [discriminate|].
  destruct (frame_type_eq_dec t FT_ERROR) as [->|H2].
  - destruct (length4 body) as (c' & b' & Hc' & ->).
    { unfold size, plenty in Lb. lia. }
    rewrite error_body_code, validate_spec in H by assumption. cbn [fst] in H.
    destruct (negb _).
    + destruct (existsb _ _); discriminate H.
    + destruct (existsb _ _); discriminate H.
  - destruct (body_enough t sid (assigned w) H1 H2 Zk body Lb) as (a & b' & X).
    rewrite X in H. discriminate H.
Qed.

Lemma incomplete_extension : forall input, exists ext, fst (decode (input ++ ext)) <> DErr InComplete.
Proof.
  intros input. exists (repeat Coq.Init.Byte.x00 (N.to_nat (2 ^ 24 + 2 ^ 17))).
  apply decode_plenty. unfold size. rewrite app_length, repeat_length. lia.
Qed.
