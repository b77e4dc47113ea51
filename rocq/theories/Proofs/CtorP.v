(** * Constructors and accessors; flag positions; the metadata length *)

From Verif Require Import Model.FrameM Spec.Codec Spec.Build.
From Verif Require Import Proofs.BitsP Proofs.EatP Proofs.CodecP Proofs.DecodeP Proofs.StableP Proofs.BuildP.

(** ** Flag words of the constructors *)

Lemma flags_fm : forall (follows m : bool),
  let w := if follows then fl_union fl_empty FL_FOLLOWS else fl_empty in
  let w := if m then fl_union w FL_METADATA else w in
  flag_bits w [(7, m); (6, follows)] /\
  fl_contains w FL_FOLLOWS = follows.
Proof.
  intros follows m. cbv zeta. split.
  - intros i. destruct follows, m; cbn [existsb fst snd]; rewrite ?andb_true_r, ?andb_false_r, ?orb_false_r;
    cbn [orb].
    + change (fl_union (fl_union fl_empty FL_FOLLOWS) FL_METADATA) with (N.lor (2 ^ 7) (2 ^ 6)).
      rewrite N.lor_spec, !testbit_pow2. reflexivity.
    + change (fl_union fl_empty FL_FOLLOWS) with (2 ^ 6). apply testbit_pow2.
    + change (fl_union fl_empty FL_METADATA) with (2 ^ 7). apply testbit_pow2.
    + apply N.bits_0.
  - destruct follows, m; reflexivity.
Qed.

Lemma flags_fcm : forall (follows complete m : bool),
  let w := if follows then fl_union fl_empty FL_FOLLOWS else fl_empty in
  let w := if complete then fl_union w FL_COMPLETE else w in
  let w := if m then fl_union w FL_METADATA else w in
  flag_bits w [(7, m); (6, follows); (5, complete)] /\
  fl_contains w FL_FOLLOWS = follows /\ fl_contains w FL_COMPLETE = complete.
Proof.
  intros follows complete m. cbv zeta. split.
  - pose proof (flag3_step 0 false false false) as S.
    assert (Z : flag_bits 0 [(7, false); (6, false); (5, false)]).
    { intros i. rewrite N.bits_0. cbn [existsb fst snd]. rewrite !andb_false_r. reflexivity. }
    intros i. destruct follows, complete, m; cbn [existsb fst snd];
      rewrite ?andb_true_r, ?andb_false_r, ?orb_false_r; cbn [orb].
    + change (fl_union (fl_union (fl_union fl_empty FL_FOLLOWS) FL_COMPLETE) FL_METADATA)
        with (N.lor (2 ^ 7) (N.lor (2 ^ 6) (2 ^ 5))). rewrite !N.lor_spec, !testbit_pow2. reflexivity.
    + change (fl_union (fl_union fl_empty FL_FOLLOWS) FL_COMPLETE)
        with (N.lor (2 ^ 6) (2 ^ 5)). rewrite !N.lor_spec, !testbit_pow2. reflexivity.
    + change (fl_union (fl_union fl_empty FL_FOLLOWS) FL_METADATA)
        with (N.lor (2 ^ 7) (2 ^ 6)). rewrite !N.lor_spec, !testbit_pow2. reflexivity.
    + change (fl_union fl_empty FL_FOLLOWS) with (2 ^ 6). apply testbit_pow2.
    + change (fl_union (fl_union fl_empty FL_COMPLETE) FL_METADATA)
        with (N.lor (2 ^ 7) (2 ^ 5)). rewrite !N.lor_spec, !testbit_pow2. reflexivity.
    + change (fl_union fl_empty FL_COMPLETE) with (2 ^ 5). apply testbit_pow2.
    + change (fl_union fl_empty FL_METADATA) with (2 ^ 7). apply testbit_pow2.
    + apply N.bits_0.
  - destruct follows, complete, m; split; reflexivity.
Qed.

(** PAYLOAD keeps only F, C and N of the given flags. *)
Lemma flags_fcnm : forall (w0 : flags) (m : bool),
  let w := fl_inter w0 (fl_union (fl_union FL_FOLLOWS FL_COMPLETE) FL_NEXT) in
  let w := if m then fl_union w FL_METADATA else w in
  flag_bits w [(7, m); (6, N.testbit w0 6); (5, N.testbit w0 5); (4, N.testbit w0 4)] /\
  fl_contains w FL_FOLLOWS = N.testbit w0 6 /\
  fl_contains w FL_COMPLETE = N.testbit w0 5 /\
  fl_contains w FL_NEXT = N.testbit w0 4.
Proof.
  intros w0 m. cbv zeta.
  assert (B : flag_bits (if m then fl_union (fl_inter w0 (fl_union (fl_union FL_FOLLOWS FL_COMPLETE) FL_NEXT)) FL_METADATA
               else fl_inter w0 (fl_union (fl_union FL_FOLLOWS FL_COMPLETE) FL_NEXT))
      [(7, m); (6, N.testbit w0 6); (5, N.testbit w0 5); (4, N.testbit w0 4)]).
  { intros i.
    assert (X : N.testbit (fl_inter w0 (fl_union (fl_union FL_FOLLOWS FL_COMPLETE) FL_NEXT)) i =
                ((6 =? i) && N.testbit w0 6) || ((5 =? i) && N.testbit w0 5) || ((4 =? i) && N.testbit w0 4)).
    { unfold fl_inter. change (fl_union (fl_union FL_FOLLOWS FL_COMPLETE) FL_NEXT) with (N.lor (N.lor (2 ^ 6) (2 ^ 5)) (2 ^ 4)).
      rewrite N.land_spec, !N.lor_spec, !testbit_pow2.
      destruct (N.eqb_spec 6 i) as [E6|_], (N.eqb_spec 5 i) as [E5|_], (N.eqb_spec 4 i) as [E4|_];
        try congruence; cbn [orb andb];
        rewrite ?andb_true_r, ?andb_false_r, ?orb_false_r; congruence. }
    destruct m; cbn [existsb fst snd].
    - unfold fl_union at 1. change FL_METADATA with (2 ^ 7). rewrite N.lor_spec, X, testbit_pow2.
      rewrite andb_true_r, orb_false_r. generalize ((6 =? i) && N.testbit w0 6), ((5 =? i) && N.testbit w0 5), ((4 =? i) && N.testbit w0 4), (7 =? i).
      intros [] [] [] []; reflexivity.
    - rewrite X, andb_false_r, orb_false_r. cbn [orb]. symmetry. apply orb_assoc. }
  split; [exact B|].
  change FL_FOLLOWS with (2 ^ 6). change FL_COMPLETE with (2 ^ 5). change FL_NEXT with (2 ^ 4).
  change (2 ^ 6) with FL_FOLLOWS in B. change (2 ^ 5) with FL_COMPLETE in B. change (2 ^ 4) with FL_NEXT in B.
  split; [|split]; (etransitivity; [eapply contains_flag; exact B|]); cbn [existsb fst snd N.eqb Pos.eqb andb orb];
    rewrite ?orb_false_r; reflexivity.
Qed.

Lemma has_metadata_present : forall p, payload_has_metadata p = present (p_metadata p).
Proof. intros [[m|] d]; reflexivity. Qed.

(** ** In-range arguments *)

Ltac in_range_ctor :=
  rewrite ?max_u31_ok by assumption; rewrite ?max_u63_ok by assumption;
  rewrite ?non_zero_ok by assumption;
  rewrite ?land31_id by assumption; rewrite ?land63_id by assumption;
  eexists; split; [reflexivity|].

Lemma rr_args : forall bd sid follows p, sid < 2 ^ 31 -> exists f,
  request_response_new bd sid follows p = Ret f /\
  request_response_stream_id f = sid /\ request_response_is_follows f = follows /\
  request_response_payload f = p /\
  request_response_metadata f = p_metadata p /\ request_response_data f = p_data p /\
  flag_bits (rr_flags f) [(7, present (p_metadata p)); (6, follows)].
Proof.
  intros bd sid follows p H. unfold request_response_new. in_range_ctor.
  destruct (flags_fm follows (payload_has_metadata p)) as [A B].
  rewrite <- has_metadata_present. repeat (split; [reflexivity || exact B|]). exact A.
Qed.

Lemma fnf_args : forall bd sid follows p, sid < 2 ^ 31 -> exists f,
  request_fnf_new bd sid follows p = Ret f /\
  request_fnf_stream_id f = sid /\ request_fnf_is_follows f = follows /\
  request_fnf_payload f = p /\
  request_fnf_metadata f = p_metadata p /\ request_fnf_request_data f = p_data p /\
  flag_bits (fnf_flags f) [(7, present (p_metadata p)); (6, follows)].
Proof.
  intros bd sid follows p H. unfold request_fnf_new. in_range_ctor.
  destruct (flags_fm follows (payload_has_metadata p)) as [A B].
  rewrite <- has_metadata_present. repeat (split; [reflexivity || exact B|]). exact A.
Qed.

Lemma rs_args : forall bd sid follows n p, sid < 2 ^ 31 -> 0 < n -> n < 2 ^ 31 -> exists f,
  request_stream_new bd sid follows n p = Ret f /\
  request_stream_stream_id f = sid /\ request_stream_is_follows f = follows /\
  request_stream_initial_request_n f = n /\ request_stream_payload f = p /\
  request_stream_metadata f = p_metadata p /\ request_stream_data f = p_data p /\
  flag_bits (rs_flags f) [(7, present (p_metadata p)); (6, follows)].
Proof.
  intros bd sid follows n p H H0 H1. unfold request_stream_new. in_range_ctor.
  destruct (flags_fm follows (payload_has_metadata p)) as [A B].
  rewrite <- has_metadata_present. repeat (split; [reflexivity || exact B|]). exact A.
Qed.

Lemma rc_args : forall bd sid follows complete n p, sid < 2 ^ 31 -> 0 < n -> n < 2 ^ 31 -> exists f,
  request_channel_new bd sid follows complete n p = Ret f /\
  request_channel_stream_id f = sid /\
  request_channel_is_follows f = follows /\ request_channel_is_complete f = complete /\
  request_channel_initial_request_n f = n /\ request_channel_payload f = p /\
  request_channel_metadata f = p_metadata p /\ request_channel_data f = p_data p /\
  flag_bits (rc_flags f) [(7, present (p_metadata p)); (6, follows); (5, complete)].
Proof.
  intros bd sid follows complete n p H H0 H1. unfold request_channel_new. in_range_ctor.
  destruct (flags_fcm follows complete (payload_has_metadata p)) as (A & B & C).
  rewrite <- has_metadata_present. repeat (split; [reflexivity || exact B || exact C|]). exact A.
Qed.

Lemma pf_args : forall bd sid w p, sid < 2 ^ 31 -> exists f,
  payload_frame_new bd sid w p = Ret f /\
  payload_frame_stream_id f = sid /\
  payload_frame_is_follows f = N.testbit w 6 /\
  payload_frame_is_complete f = N.testbit w 5 /\
  payload_frame_is_next f = N.testbit w 4 /\
  payload_frame_payload f = p /\
  payload_frame_metadata f = p_metadata p /\ payload_frame_data f = p_data p /\
  flag_bits (pf_flags f) [(7, present (p_metadata p)); (6, N.testbit w 6);
                          (5, N.testbit w 5); (4, N.testbit w 4)].
Proof.
  intros bd sid w p H. unfold payload_frame_new. in_range_ctor.
  destruct (flags_fcnm w (payload_has_metadata p)) as (A & B & C & D).
  rewrite <- has_metadata_present.
  repeat (split; [reflexivity || exact B || exact C || exact D|]). exact A.
Qed.

Lemma rn_args : forall bd sid n, sid < 2 ^ 31 -> 0 < n -> n < 2 ^ 31 -> exists f,
  request_n_new bd sid n = Ret f /\ request_n_stream_id f = sid /\ request_n_request_n f = n.
Proof. intros bd sid n H H0 H1. unfold request_n_new. in_range_ctor. split; reflexivity. Qed.

Lemma cancel_args : forall bd sid, sid < 2 ^ 31 -> exists f,
  cancel_new bd sid = Ret f /\ cancel_stream_id f = sid.
Proof. intros bd sid H. unfold cancel_new. in_range_ctor. reflexivity. Qed.

Lemma error_args : forall bd sid c d, sid < 2 ^ 31 -> c < 2 ^ 31 -> exists f,
  error_new bd sid c d = Ret f /\
  error_stream_id f = sid /\ error_error_code f = c /\ error_data f = d.
Proof. intros bd sid c d H H1. unfold error_new. in_range_ctor. repeat split. Qed.

Lemma lease_args : forall bd ttl n m, ttl < 2 ^ 31 -> n < 2 ^ 31 -> exists f,
  lease_new bd ttl n m = Ret f /\
  lease_ttl f = ttl /\ lease_number_of_requests f = n /\ lease_metadata f = m.
Proof. intros bd ttl n m H H1. unfold lease_new. in_range_ctor. repeat split. Qed.

Lemma keepalive_args : forall bd pos d respond, pos < 2 ^ 63 -> exists f,
  keepalive_new bd pos d respond = Ret f /\
  keepalive_last_received_position f = pos /\ keepalive_data f = d /\
  keepalive_is_respond f = respond.
Proof. intros bd pos d respond H. unfold keepalive_new. in_range_ctor. repeat split. Qed.

Lemma resume_args : forall bd v t a b, a < 2 ^ 63 -> b < 2 ^ 63 -> exists f,
  resume_new bd v t a b = Ret f /\
  resume_version f = v /\ resume_resume_token f = t /\
  resume_last_received_server_position f = a /\ resume_first_available_client_position f = b.
Proof. intros bd v t a b H H1. unfold resume_new. in_range_ctor. repeat split. Qed.

Lemma resume_ok_args : forall bd a, a < 2 ^ 63 -> exists f,
  resume_ok_new bd a = Ret f /\ resume_ok_last_received_server_position f = a.
Proof. intros bd a H. unfold resume_ok_new. in_range_ctor. reflexivity. Qed.

Lemma metadata_push_args : forall m, metadata_push_metadata (metadata_push_new m) = m.
Proof. reflexivity. Qed.

(** ** Out-of-range arguments, debug assertions on *)

Ltac panics :=
  rewrite ?max_u31_panic; rewrite ?max_u63_panic; rewrite ?non_zero_panic;
  rewrite ?max_u31_panic; rewrite ?max_u63_panic; rewrite ?non_zero_panic;
  rewrite ?max_u31_panic; rewrite ?max_u63_panic; rewrite ?non_zero_panic;
  intuition discriminate.

Lemma debug_panics :
  (forall sid follows p, request_response_new Debug sid follows p = Panic <-> 2 ^ 31 <= sid) /\
  (forall sid follows p, request_fnf_new Debug sid follows p = Panic <-> 2 ^ 31 <= sid) /\
  (forall sid follows n p, request_stream_new Debug sid follows n p = Panic <->
     2 ^ 31 <= sid \/ 2 ^ 31 <= n \/ n = 0) /\
  (forall sid follows complete n p, request_channel_new Debug sid follows complete n p = Panic <->
     2 ^ 31 <= sid \/ 2 ^ 31 <= n \/ n = 0) /\
  (forall sid w p, payload_frame_new Debug sid w p = Panic <-> 2 ^ 31 <= sid) /\
  (forall sid n, request_n_new Debug sid n = Panic <-> 2 ^ 31 <= sid \/ 2 ^ 31 <= n \/ n = 0) /\
  (forall sid, cancel_new Debug sid = Panic <-> 2 ^ 31 <= sid) /\
  (forall sid c d, error_new Debug sid c d = Panic <-> 2 ^ 31 <= sid \/ 2 ^ 31 <= c) /\
  (forall ttl n m, lease_new Debug ttl n m = Panic <-> 2 ^ 31 <= ttl \/ 2 ^ 31 <= n) /\
  (forall pos d r, keepalive_new Debug pos d r = Panic <-> 2 ^ 63 <= pos) /\
  (forall v t a b, resume_new Debug v t a b = Panic <-> 2 ^ 63 <= a \/ 2 ^ 63 <= b) /\
  (forall a, resume_ok_new Debug a = Panic <-> 2 ^ 63 <= a).
Proof.
  repeat match goal with |- _ /\ _ => split end; intros;
    unfold request_response_new, request_fnf_new, request_stream_new, request_channel_new,
      payload_frame_new, request_n_new, cancel_new, error_new, lease_new, keepalive_new,
      resume_new, resume_ok_new; cbv zeta; panics.
Qed.

(** ** Out-of-range arguments, debug assertions off *)

Ltac release_ctor :=
  rewrite ?land_max_u31, ?land_max_u63, ?N.mod_mod by discriminate; reflexivity.

(** A release build treats every argument like its low 31 or 63 bits. *)
Lemma release_masks :
  (forall sid follows p, request_response_new Release sid follows p =
     request_response_new Release (sid mod 2 ^ 31) follows p) /\
  (forall sid follows p, request_fnf_new Release sid follows p =
     request_fnf_new Release (sid mod 2 ^ 31) follows p) /\
  (forall sid follows n p, request_stream_new Release sid follows n p =
     request_stream_new Release (sid mod 2 ^ 31) follows (n mod 2 ^ 31) p) /\
  (forall sid follows complete n p, request_channel_new Release sid follows complete n p =
     request_channel_new Release (sid mod 2 ^ 31) follows complete (n mod 2 ^ 31) p) /\
  (forall sid w p, payload_frame_new Release sid w p =
     payload_frame_new Release (sid mod 2 ^ 31) w p) /\
  (forall sid n, request_n_new Release sid n =
     Ret (RequestNFrame (sid mod 2 ^ 31) (n mod 2 ^ 31))) /\
  (forall sid, cancel_new Release sid = Ret (CancelFrame (sid mod 2 ^ 31))) /\
  (forall sid c d, error_new Release sid c d =
     Ret (ErrorFrame (sid mod 2 ^ 31) (c mod 2 ^ 31) d)) /\
  (forall pos d r, keepalive_new Release pos d r = Ret (KeepaliveFrame r (pos mod 2 ^ 63) d)) /\
  (forall v t a b, resume_new Release v t a b =
     Ret (ResumeFrame v t (a mod 2 ^ 63) (b mod 2 ^ 63))) /\
  (forall a, resume_ok_new Release a = Ret (ResumeOkFrame (a mod 2 ^ 63))).
Proof.
  repeat match goal with |- _ /\ _ => split end; intros;
    unfold request_response_new, request_fnf_new, request_stream_new, request_channel_new,
      payload_frame_new, request_n_new, cancel_new, error_new, keepalive_new,
      resume_new, resume_ok_new, debug_assert_max_u31, debug_assert_max_u63,
      debug_assert_non_zero, debug_assert; cbv zeta; release_ctor.
Qed.

(** The initial request count 0 is not refused in release builds. *)
Lemma release_request_zero : forall sid follows complete n p, n mod 2 ^ 31 = 0 ->
  (exists f, request_stream_new Release sid follows n p = Ret f /\
     request_stream_initial_request_n f = 0 /\ request_stream_stream_id f = sid mod 2 ^ 31 /\
     request_stream_is_follows f = follows /\ request_stream_payload f = p) /\
  (exists f, request_channel_new Release sid follows complete n p = Ret f /\
     request_channel_initial_request_n f = 0 /\ request_channel_stream_id f = sid mod 2 ^ 31 /\
     request_channel_is_follows f = follows /\ request_channel_is_complete f = complete /\
     request_channel_payload f = p) /\
  (exists f, request_n_new Release sid n = Ret f /\ request_n_request_n f = 0).
Proof.
  intros sid follows complete n p H. split; [|split].
  - eexists. split; [reflexivity|]. cbn [request_stream_initial_request_n request_stream_stream_id
      request_stream_is_follows request_stream_payload rs_initial_request_n rs_stream_id rs_flags rs_payload].
    rewrite !land_max_u31, H. destruct (flags_fm follows (payload_has_metadata p)) as [A B].
    repeat (split; [reflexivity || exact B|]). reflexivity.
  - eexists. split; [reflexivity|]. cbn [request_channel_initial_request_n request_channel_stream_id
      request_channel_is_follows request_channel_is_complete request_channel_payload
      rc_initial_request_n rc_stream_id rc_flags rc_payload].
    rewrite !land_max_u31, H. destruct (flags_fcm follows complete (payload_has_metadata p)) as (A & B & C).
    repeat (split; [reflexivity || exact B || exact C|]). reflexivity.
  - eexists. split; [reflexivity|]. cbn [request_n_request_n rn_request_n].
    rewrite land_max_u31, H. reflexivity.
Qed.

(** LEASE keeps the value and does not survive the wire when it is out of range. *)
Lemma release_lease : forall ttl n m, ttl < 2 ^ 32 -> n < 2 ^ 32 -> exists f bs,
  lease_new Release ttl n m = Ret f /\
  lease_ttl f = ttl /\ lease_number_of_requests f = n /\ lease_metadata f = m /\
  frame_encode (FLease f) [] = EOk bs /\
  (2 ^ 31 <= ttl \/ 2 ^ 31 <= n -> forall rest, decode bs <> (DOk (FLease f), rest)).
Proof.
  intros ttl n m Ht Hn. exists (LeaseFrame ttl n m).
  assert (E : exists bs, frame_encode (FLease (LeaseFrame ttl n m)) [] = EOk bs).
  { eexists. rewrite encode_typed; [reflexivity| |exact I]. split; assumption. }
  destruct E as [bs E]. exists bs. repeat (split; [reflexivity|]). split; [exact E|].
  intros O rest D. pose proof (roundtrip_only _ _ _ E D) as F. destruct F as [F _].
  cbn [in_range lf_ttl lf_number_of_requests] in F. lia.
Qed.

(** ** Flag positions *)

Lemma fl_positions : forall w,
  fl_contains w FL_IGNORE = N.testbit w 8 /\
  fl_contains w FL_METADATA = N.testbit w 7 /\
  fl_contains w FL_FOLLOWS = N.testbit w 6 /\ fl_contains w FL_RESUME = N.testbit w 6 /\
  fl_contains w FL_RESPOND = N.testbit w 6 /\
  fl_contains w FL_COMPLETE = N.testbit w 5 /\ fl_contains w FL_LEASE = N.testbit w 5 /\
  fl_contains w FL_NEXT = N.testbit w 4.
Proof.
  intros w.
  change FL_IGNORE with (2 ^ 8). change FL_METADATA with (2 ^ 7). change FL_RESUME with (2 ^ 6).
  change FL_RESPOND with (2 ^ 6). change FL_FOLLOWS with (2 ^ 6). change FL_COMPLETE with (2 ^ 5).
  change FL_LEASE with (2 ^ 5). change FL_NEXT with (2 ^ 4).
  repeat split; apply contains_pow2.
Qed.

Lemma encoded_header : forall f buf out, in_range f -> frame_encode f buf = EOk out ->
  exists bs, out = buf ++ bs /\ has_header bs (sid_of f) (type_code (kind f)) (flag_word f).
Proof.
  intros f buf out R E. rewrite encode_typed in E;
    [|now apply in_range_typed|now apply in_range_small]. injection E as <-.
  eexists. split; [reflexivity|]. unfold wire_bytes.
  exists 0, (header_bytes 0 (sid_of f) (ft_value (kind f)) (flag_word f)), (body_bytes 0 0 f).
  split; [reflexivity|]. split; [now apply in_range_sid|].
  split; [destruct f; reflexivity|]. split; [apply flag_word_lt; now apply in_range_typed|].
  split; [reflexivity|]. apply header_bits.
  - now apply in_range_sid.
  - apply flag_word_lt; now apply in_range_typed.
Qed.

(** What a reader of the diagrams sees in a REQUEST_FNF frame with metadata. *)
Lemma fnf_misread : forall bd sid follows p m f, sid < 2 ^ 31 ->
  p_metadata p = Some m -> size m < 2 ^ 24 ->
  request_fnf_new bd sid follows p = Ret f ->
  exists bs w, frame_encode (FRequestFnf f) [] = EOk bs /\ has_header bs sid 5 w /\
    N.testbit w drawn_ignore = false /\ N.testbit w drawn_metadata = false /\
    N.testbit w drawn_follows = true /\ N.testbit w drawn_complete = follows /\
    N.testbit w drawn_next = false.
Proof.
  intros bd sid follows p m f H Hp Hm E.
  destruct (fnf_args bd sid follows p H) as (f' & E' & S & _ & P & _ & _ & B).
  rewrite E in E'. injection E' as <-.
  assert (FO : flags_ok (fnf_flags f)).
  { apply (flag_bits_ok _ (present (p_metadata p)) follows false). intros i. rewrite B.
    cbn [existsb fst snd]. rewrite andb_false_r. reflexivity. }
  assert (R : in_range (FRequestFnf f)).
  { cbn [in_range]. unfold request_fnf_stream_id, request_fnf_payload in *. rewrite S, P.
    split; [exact H|]. split; [exact FO|]. unfold small_metadata. rewrite Hp. exact Hm. }
  assert (X : exists out, frame_encode (FRequestFnf f) [] = EOk out).
  { eexists. apply encode_typed; [now apply in_range_typed|now apply in_range_small]. }
  destruct X as [out X]. destruct (encoded_header _ _ _ R X) as (bs & -> & HH).
  exists bs, (fnf_flags f). split; [exact X|]. unfold request_fnf_stream_id in S.
  cbn [sid_of kind type_code flag_word] in HH. rewrite S in HH. split; [exact HH|].
  rewrite !B, Hp. destruct follows; repeat split.
Qed.

(** ** The metadata length field *)

Lemma layout_payload : forall f p, payload_of f = Some p ->
  exists fixed, layout f = fixed ++ payload_fields p /\ fixed_fields f = fixed.
Proof.
  intros f p H.
  assert (X : exists fixed, layout f = fixed ++ payload_fields p).
  { destruct f; inversion H; subst p; unfold layout; cbn [wire]; eexists;
      rewrite ?app_assoc; reflexivity. }
  destruct X as [fixed X]. exists fixed. split; [exact X|]. unfold fixed_fields. rewrite X, app_length.
  change (length (payload_fields p)) with 3%nat.
  replace (length fixed + 3 - 3)%nat with (length fixed) by lia.
  rewrite firstn_app, Nat.sub_diag, firstn_all. apply app_nil_r.
Qed.

Lemma no_metadata_bytes : forall f p, payload_of f = Some p -> p_metadata p = None -> in_range f ->
  exists pre,
    bytes_bits pre = render (fixed_fields f) /\
    forall buf, frame_encode f buf = EOk (buf ++ pre ++ map n2b [0; 0; 0] ++ part (p_data p)).
Proof.
  intros f p H M R.
  pose proof (in_range_typed _ R) as T. pose proof (in_range_small _ R) as S.
  destruct (before_payload f p H) as [pre W]. specialize (W p). rewrite (set_payload_id f p H) in W.
  exists pre. split.
  - destruct (encode_layout f [] R) as (bs & E & B). rewrite encode_typed in E by assumption.
    injection E as <-. cbn [app] in B. rewrite W, bytes_bits_app, payload_bits in B.
    destruct (layout_payload f p H) as (fixed & L & ->). rewrite L in B.
    unfold render in B at 2. rewrite flat_map_app in B. apply app_inv_tail in B. exact B.
  - intros buf. rewrite encode_typed by assumption. rewrite W. destruct p as [mm d].
    cbn [p_metadata] in M. subst mm. reflexivity.
Qed.

(** Data placed directly behind a header is never read back. *)
Lemma compact_misread : forall hd sid c w data f rest p,
  c = 0x04 \/ c = 0x05 \/ c = 0x0A ->
  has_header hd sid c w -> length hd = 6%nat ->
  decode (hd ++ data) = (DOk f, rest) -> payload_of f = Some p ->
  size (part (p_data p)) + 3 <= size data.
Proof.
  intros hd sid c w data f rest p C HH L D P.
  apply decode_ok_iff in D. apply parses_iff in D.
  destruct D as (r' & w' & r1 & r2 & Hr & Hw & _ & _ & F & _ & _ & E).
  assert (HH' : has_header (hd ++ data) sid c w) by (now apply has_header_ext).
  assert (X : has_header (hd ++ data) (sid_of f) (ft_value (kind f)) w').
  { rewrite E. unfold wire_bytes. rewrite <- app_assoc. apply has_header_iff.
    exists r', (body_bytes r1 r2 f ++ rest). split; [exact Hr|].
    split; [apply in_range_sid; apply F|]. split; [destruct f; reflexivity|].
    split; [exact Hw|reflexivity]. }
  destruct (has_header_unique _ _ _ _ _ _ _ HH' X) as (_ & K & _).
  apply (f_equal (@length byte)) in E. unfold wire_bytes in E.
  rewrite !app_length, header_bytes_length, L in E. unfold size.
  destruct f; inversion P; subst p; cbn [kind ft_value] in K; cbn [body_bytes] in E; try lia;
    unfold payload_bytes in E; rewrite !app_length, to_be_length in E; lia.
Qed.

(** The claims of C10 and C54 fail. *)
Lemma fnf_claim_false :
  (forall bd sid follows p f bs c w,
    sid < 2 ^ 31 -> size (part (p_metadata p)) < 2 ^ 24 ->
    request_fnf_new bd sid follows p = Ret f ->
    frame_encode (FRequestFnf f) [] = EOk bs -> has_header bs sid c w ->
    N.testbit w drawn_metadata = present (p_metadata p) /\ N.testbit w drawn_follows = follows) ->
  False.
Proof.
  intros H. set (p := Payload (Some [n2b 1]) None).
  destruct (fnf_misread Debug 1 false p [n2b 1] (RequestFnfFrame 1 0x80 p)) as (bs & w & E & HH & _ & M & _);
    try reflexivity.
  destruct (H Debug 1 false p (RequestFnfFrame 1 0x80 p) bs 5 w) as [X _]; try reflexivity; try assumption.
  rewrite M in X. discriminate.
Qed.

Lemma compact_claim_false :
  (forall f p bs, payload_of f = Some p -> p_metadata p = None ->
    in_range f -> frame_encode f [] = EOk bs ->
    bytes_bits bs = render (fixed_fields f) ++ bytes_bits (part (p_data p))) -> False.
Proof.
  intros H. set (f := FPayload (PayloadFrame 1 0 (Payload None None))).
  assert (R : in_range f) by (cbn; unfold flags_ok, small_metadata; repeat split).
  destruct (no_metadata_bytes f _ eq_refl eq_refl R) as (pre & B & E).
  specialize (H f _ _ eq_refl eq_refl R (E [])). cbn [app] in H.
  rewrite bytes_bits_app, B in H. apply app_inv_head in H. vm_compute in H. discriminate.
Qed.

Lemma setup_flag_queries : forall bd cs f, setup_run bd cs = Ret f ->
  setup_is_resume f = existsb raises_resume cs /\ setup_is_lease f = existsb raises_lease cs.
Proof.
  intros bd cs f E. destruct (setup_history _ _ _ E) as (_ & _ & _ & _ & _ & _ & _ & _ & B).
  unfold setup_is_resume, setup_is_lease. change FL_RESUME with (2 ^ 6). change FL_LEASE with (2 ^ 5).
  rewrite !contains_pow2, !B. cbn [existsb fst snd N.eqb Pos.eqb andb orb]. rewrite !orb_false_r.
  split; reflexivity.
Qed.
