(** * Flag queries; what the accessors of a decoded frame answer *)

From Verif Require Import Model.FrameM Spec.Codec Spec.Build.
From Verif Require Import Proofs.BitsP Proofs.EatP Proofs.CodecP Proofs.DecodeP Proofs.StableP Proofs.BuildP Proofs.CtorP.

Lemma fl_queries : forall w,
  fl_is_ignore w = N.testbit w 8 /\ fl_is_metadata w = N.testbit w 7 /\
  fl_is_follows w = N.testbit w 6 /\ fl_is_resume w = N.testbit w 6 /\
  fl_is_respond w = N.testbit w 6 /\
  fl_is_complete w = N.testbit w 5 /\ fl_is_lease w = N.testbit w 5 /\
  fl_is_next w = N.testbit w 4.
Proof. exact fl_positions. Qed.

Lemma testbit_assigned : forall w i, N.testbit (assigned w) i = N.testbit w i && (4 <=? i) && (i <=? 8).
Proof.
  intros w i. rewrite <- assigned_land, N.land_spec, <- andb_assoc. f_equal.
  destruct (N.leb_spec 4 i), (N.leb_spec i 8); cbn [andb].
  - assert (i = 4 \/ i = 5 \/ i = 6 \/ i = 7 \/ i = 8) as [->|[->|[->|[->| ->]]]] by lia; reflexivity.
  - apply (testbit_high _ 9); [reflexivity|lia].
  - assert (i = 0 \/ i = 1 \/ i = 2 \/ i = 3) as [->|[->|[->| ->]]] by lia; reflexivity.
  - lia.
Qed.

Lemma truncate_bits : forall w i,
  N.testbit (fl_from_bits_truncate w) i = N.testbit w i && (4 <=? i) && (i <=? 8).
Proof.
  intros w i. change (fl_from_bits_truncate w) with (N.land w 0x1F0).
  rewrite assigned_land. apply testbit_assigned.
Qed.

Lemma decoded_header : forall input f rest sid c w,
  decode input = (DOk f, rest) -> has_header input sid c w ->
  sid = sid_of f /\ c = ft_value (kind f) /\ carries w f.
Proof.
  intros input f rest sid c w D HH. apply decode_ok_iff in D. apply parses_iff in D.
  destruct D as (r' & w' & r1 & r2 & Hr & Hw & _ & _ & F & C & _ & E).
  assert (X : has_header input (sid_of f) (ft_value (kind f)) w').
  { rewrite E. unfold wire_bytes. rewrite <- app_assoc. apply has_header_iff.
    exists r', (body_bytes r1 r2 f ++ rest). split; [exact Hr|].
    split; [apply in_range_sid; apply F|]. split; [destruct f; reflexivity|].
    split; [exact Hw|reflexivity]. }
  destruct (has_header_unique _ _ _ _ _ _ _ HH X) as (-> & -> & ->). auto.
Qed.

Lemma decoded_queries : forall input f rest sid c w,
  decode input = (DOk f, rest) -> has_header input sid c w ->
  match f with
  | FSetup v => c = 0x01 /\ sid = 0 /\
      setup_is_resume v = N.testbit w 6 /\ setup_is_lease v = N.testbit w 5
  | FLease _ => c = 0x02 /\ sid = 0
  | FKeepalive v => c = 0x03 /\ sid = 0 /\ keepalive_is_respond v = N.testbit w 6
  | FRequestResponse v => c = 0x04 /\ sid = request_response_stream_id v /\
      request_response_is_follows v = N.testbit w 6
  | FRequestFnf v => c = 0x05 /\ sid = request_fnf_stream_id v /\
      request_fnf_is_follows v = N.testbit w 6
  | FRequestStream v => c = 0x06 /\ sid = request_stream_stream_id v /\
      request_stream_is_follows v = N.testbit w 6
  | FRequestChannel v => c = 0x07 /\ sid = request_channel_stream_id v /\
      request_channel_is_follows v = N.testbit w 6 /\ request_channel_is_complete v = N.testbit w 5
  | FRequestN v => c = 0x08 /\ sid = request_n_stream_id v
  | FCancel v => c = 0x09 /\ sid = cancel_stream_id v
  | FPayload v => c = 0x0A /\ sid = payload_frame_stream_id v /\
      payload_frame_is_follows v = N.testbit w 6 /\ payload_frame_is_complete v = N.testbit w 5 /\
      payload_frame_is_next v = N.testbit w 4
  | FError v => c = 0x0B /\ sid = error_stream_id v
  | FMetadataPush _ => c = 0x0C /\ sid = 0
  | FResume _ => c = 0x0D /\ sid = 0
  | FResumeOk _ => c = 0x0E /\ sid = 0
  end.
Proof.
  intros input f rest sid c w D HH. destruct (decoded_header _ _ _ _ _ _ D HH) as (-> & -> & C).
  assert (Q : forall k n, 4 <= k <= 8 -> n = 2 ^ k ->
    fl_contains (assigned w) n = N.testbit w k).
  { intros k n Hk ->. rewrite contains_pow2, testbit_assigned.
    replace (4 <=? k) with true by (symmetry; apply N.leb_le; lia).
    replace (k <=? 8) with true by (symmetry; apply N.leb_le; lia). now rewrite !andb_true_r. }
  destruct f; cbn [carries sid_of kind ft_value] in *; repeat split;
    try (unfold setup_is_resume, setup_is_lease, request_response_is_follows, request_fnf_is_follows,
           request_stream_is_follows, request_channel_is_follows, request_channel_is_complete,
           payload_frame_is_follows, payload_frame_is_complete, payload_frame_is_next;
         rewrite C; apply Q; [lia|reflexivity]).
  exact C.
Qed.

(** ** Versions *)

Lemma version_fields : forall major minor,
  version_major (version_new major minor) = major /\ version_minor (version_new major minor) = minor.
Proof. intros. split; reflexivity. Qed.
Lemma version_reported : forall v buf out, version_encode v buf = EOk out ->
  N.of_nat (length out) = N.of_nat (length buf) + version_len v.
Proof.
  intros v buf out E. injection E as <-. rewrite !app_length. unfold version_len. cbn [length]. lia.
Qed.

(** ** The payload of SETUP *)

Lemma setup_payload_history : forall bd cs f, setup_run bd cs = Ret f ->
  is_latest sets_metadata None cs (payload_metadata (setup_payload f)) /\
  is_latest sets_data None cs (payload_data (setup_payload f)).
Proof.
  intros bd cs f E. destruct (setup_history _ _ _ E) as (_ & _ & _ & _ & _ & _ & H7 & H8 & _). auto.
Qed.

(** ** U24 *)

Lemma u24_limits : forall v, U24_MIN <= v <= U24_MAX <-> v < 2 ^ 24.
Proof. intros v. change U24_MAX with (2 ^ 24 - 1). change U24_MIN with 0. lia. Qed.

(** ** Reserved bits do not move the end of a frame *)

Lemma reserved_within : forall input f rest sid c w k, decode input = (DOk f, rest) ->
  has_header input sid c w -> reserved_at input c k ->
  (k + length rest < length input)%nat \/ rest = [].
Proof.
  intros input f rest sid c w k D HH HR. destruct (decoded_header _ _ _ _ _ _ D HH) as (_ & Hc & _).
  destruct (decode_consumes input) as (consumed & Ei & _ & K). rewrite D in Ei, K. cbn [fst snd] in Ei, K.
  specialize (K f eq_refl). apply (f_equal (@length _)) in Ei as El. rewrite app_length in El.
  destruct f as [q|q|q|q|q|q|q|q|q|q|q|q|q|q]; try (right; exact K); left.
  - clear D HH Ei. destruct HR; try discriminate Hc; lia.
  - clear D HH Ei. destruct HR; discriminate Hc.
  - apply decode_ok_iff in D. apply parses_iff in D as (r' & w' & r1 & r2 & _ & _ & _ & _ & F & _ & _ & E).
    assert (Ht : size (rf_resume_token q) < 2 ^ 16) by apply F.
    assert (X : forall a len b n, input = a ++ len ++ b -> length a = 10%nat -> length len = 2%nat ->
      bytes_bits len = bits 16 n -> n < 2 ^ 16 -> N.to_nat n = length (rf_resume_token q)).
    { intros a len b n E' La Ll B Hn. rewrite E in E'. unfold wire_bytes in E'. cbn [body_bytes sid_of kind] in E'.
      rewrite <- !app_assoc in E'.
      assert (E2 : len = to_be 2 (size (rf_resume_token q))).
      { rewrite !app_assoc in E'. rewrite <- (app_assoc _ len) in E'. revert E'.
        set (pre := header_bytes _ _ _ _ ++ version_bytes _).
        assert (Lp : length pre = 10%nat) by reflexivity. clearbody pre. rewrite <- !app_assoc. intros E'.
        apply (f_equal (skipn 10)) in E'. rewrite <- La in E' at 2. rewrite <- Lp in E' at 1. rewrite !skipn_app, !skipn_all, !Nat.sub_diag in E'.
        cbn [skipn app] in E'. apply (f_equal (firstn 2)) in E'. cbn in E'. destruct len as [|? [|? [|]]]; try discriminate Ll. cbn in E'. now symmetry. }
      rewrite E2, bytes_bits_to_be in B. apply bits_inj in B; [|exact Ht|exact Hn]. rewrite <- B. unfold size. lia. }
    clear HH Ei E. destruct HR as [ | | | | | | | | |a len b H1 H2 H3 n H4 H5|a len b H1 H2 H3 n H4 H5]; try discriminate Hc;
      rewrite (X _ _ _ _ H1 H2 H3 H4 H5); lia.
  - clear D HH Ei. destruct HR; try discriminate Hc; lia.
Qed.

Lemma body_reserved_all : forall pre x y post sid c w f rest,
  has_header (pre ++ x :: post) sid c w -> reserved_at (pre ++ x :: post) c (length pre) ->
  bits 7 (Coq.Strings.Byte.to_N x) = bits 7 (Coq.Strings.Byte.to_N y) ->
  decode (pre ++ x :: post) = (DOk f, rest) -> decode (pre ++ y :: post) = (DOk f, rest).
Proof.
  intros pre x y post sid c w f rest HH HR S D.
  pose proof (body_reserved pre x y post sid c w HH HR S) as E1. rewrite D in E1. cbn [fst] in E1.
  destruct (decode (pre ++ y :: post)) as [o rest'] eqn:D'. cbn [fst] in E1. subst o. f_equal.
  destruct (decode_stable _ _ _ D) as (bs & B1 & _ & L1). destruct (decode_stable _ _ _ D') as (bs' & B2 & _ & L2).
  rewrite B1 in B2. injection B2 as <-. rewrite app_length in L1, L2. cbn [length] in L1, L2.
  assert (L : length rest' = length rest) by lia.
  destruct (reserved_within _ _ _ _ _ _ _ D HH HR) as [W| ->]; [|now destruct rest'].
  destruct (decode_consumes (pre ++ x :: post)) as (c1 & E1 & _). rewrite D in E1.
  destruct (decode_consumes (pre ++ y :: post)) as (c2 & E2 & _). rewrite D' in E2. cbn [snd] in E1, E2.
  rewrite app_length in W. cbn [length] in W.
  assert (K1 : rest = skipn (length post - length rest) post).
  { apply (f_equal (skipn (length pre + 1 + (length post - length rest)))) in E1 as Q.
    apply (f_equal (@length _)) in E1. rewrite !app_length in E1. cbn [length] in E1.
    rewrite !skipn_app in Q. rewrite (skipn_all2 c1) in Q by lia. rewrite (skipn_all2 pre) in Q by lia. cbn [app] in Q.
    replace (length pre + 1 + (length post - length rest) - length c1)%nat with 0%nat in Q by lia. cbn [skipn] in Q.
    rewrite <- Q at 1. replace (length pre + 1 + (length post - length rest) - length pre)%nat with (Datatypes.S (length post - length rest)) by lia.
    reflexivity. }
  assert (K2 : rest' = skipn (length post - length rest) post).
  { apply (f_equal (skipn (length pre + 1 + (length post - length rest)))) in E2 as Q.
    apply (f_equal (@length _)) in E2. rewrite !app_length in E2. cbn [length] in E2.
    rewrite !skipn_app in Q. rewrite (skipn_all2 c2) in Q by lia. rewrite (skipn_all2 pre) in Q by lia. cbn [app] in Q.
    replace (length pre + 1 + (length post - length rest) - length c2)%nat with 0%nat in Q by lia. cbn [skipn] in Q.
    rewrite <- Q at 1. replace (length pre + 1 + (length post - length rest) - length pre)%nat with (Datatypes.S (length post - length rest)) by lia.
    reflexivity. }
  now rewrite K1, K2.
Qed.
