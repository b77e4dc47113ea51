(** * Reserved bits and truncation *)

From Coq Require Import Lia.
From Verif Require Import Model.FrameM Spec.Codec Proofs.BitsP Proofs.EatP Proofs.CodecP Proofs.DecodeP.

(** ** Reserved bits of the header *)

Lemma header_reserved : forall r r' sid c w w' body,
  r < 2 -> r' < 2 -> sid < 2 ^ 31 -> c < 64 -> w < 1024 -> w' < 1024 -> assigned w = assigned w' ->
  decode (header_bytes r sid c w ++ body) = decode (header_bytes r' sid c w' ++ body).
Proof. intros. rewrite !decode_header by assumption. now rewrite H5. Qed.

(** ** Reserved bits of the body *)

Definition same7 (x y : byte) : Prop := bits 7 (b2n x) = bits 7 (b2n y).

Lemma same7_mod : forall x y, same7 x y -> b2n x mod 128 = b2n y mod 128.
Proof.
  intros x y H. unfold same7 in H. rewrite <- (bits_mod 7), <- (bits_mod 7 (b2n y)) in H.
  apply bits_inj in H; [assumption|apply N.mod_lt; lia|apply N.mod_lt; lia].
Qed.

(** The outcome of [m] does not depend on the top bit of the first byte. *)
Definition blind {A} (m : dec bytes A) : Prop := forall x y t,
  same7 x y -> fst (m (x :: t)) = fst (m (y :: t)).

Lemma top_mod : forall x y l k, same7 x y -> length l = k ->
  of_be (x :: l) mod (2 ^ 7 * 256 ^ N.of_nat k) = of_be (y :: l) mod (2 ^ 7 * 256 ^ N.of_nat k).
Proof.
  intros x y l k H L. apply same7_mod in H. rewrite !of_be_cons, L.
  set (P := 256 ^ N.of_nat k). assert (0 < P) by apply pow256_pos.
  pose proof (of_be_lt l) as Hl. rewrite L in Hl. fold P in Hl.
  pose proof (N.div_mod (b2n x) 128 ltac:(lia)) as Ex.
  pose proof (N.div_mod (b2n y) 128 ltac:(lia)) as Ey.
  rewrite <- H in Ey. set (m := b2n x mod 128) in *.
  assert (m < 128) by (apply N.mod_lt; lia).
  change (2 ^ 7) with 128.
  transitivity (m * P + of_be l).
  - symmetry. apply (N.mod_unique _ _ (b2n x / 128)); [nia|]. rewrite Ex at 1. lia.
  - apply (N.mod_unique _ _ (b2n y / 128)); [nia|]. rewrite Ey at 1. lia.
Qed.

Lemma blind_u31 : forall {A} (k : N -> dec bytes A), blind (d_bind (eat_u31 flat 0) k).
Proof.
  intros A k x y t H. unfold d_bind at 1 2. rewrite !eat_u31_n. unfold d_bind.
  rewrite !eat_n_spec. cbn [length].
  destruct (Nat.ltb (S (length t)) 4) eqn:E; [reflexivity|]. apply Nat.ltb_ge in E.
  change (firstn 4 (x :: t)) with (x :: firstn 3 t). change (firstn 4 (y :: t)) with (y :: firstn 3 t).
  change (skipn 4 (x :: t)) with (skipn 3 t). change (skipn 4 (y :: t)) with (skipn 3 t).
  unfold d_ret. rewrite !land_max_u31.
  assert (length (firstn 3 t) = 3%nat) as L by (apply firstn_length_le; lia).
  change (2 ^ 31) with (2 ^ 7 * 256 ^ N.of_nat 3). now rewrite (top_mod x y _ _ H L).
Qed.

Lemma blind_u63 : forall {A} (k : N -> dec bytes A), blind (d_bind (eat_u63 flat 0) k).
Proof.
  intros A k x y t H. unfold d_bind at 1 2. rewrite !eat_u63_n. unfold d_bind.
  rewrite !eat_n_spec. cbn [length].
  destruct (Nat.ltb (S (length t)) 8) eqn:E; [reflexivity|]. apply Nat.ltb_ge in E.
  change (firstn 8 (x :: t)) with (x :: firstn 7 t). change (firstn 8 (y :: t)) with (y :: firstn 7 t).
  change (skipn 8 (x :: t)) with (skipn 7 t). change (skipn 8 (y :: t)) with (skipn 7 t).
  unfold d_ret. rewrite !land_max_u63.
  assert (length (firstn 7 t) = 7%nat) as L by (apply firstn_length_le; lia).
  change (2 ^ 63) with (2 ^ 7 * 256 ^ N.of_nat 7). now rewrite (top_mod x y _ _ H L).
Qed.

Lemma blind_map : forall {A C} (f : A -> C) (m : dec bytes A), blind m -> blind (d_map f m).
Proof.
  intros A C f m H x y t S. specialize (H x y t S). unfold d_map, d_bind.
  destruct (m (x :: t)) as [a b], (m (y :: t)) as [a' b']. cbn in H. subst a'. now destruct a.
Qed.

(** The same after [n] bytes. *)
Definition blind_at {A} (n : nat) (m : dec bytes A) : Prop := forall p x y t,
  length p = n -> same7 x y -> fst (m (p ++ x :: t)) = fst (m (p ++ y :: t)).

Lemma blind_at_0 : forall {A} (m : dec bytes A), blind m -> blind_at 0 m.
Proof. intros A m H p x y t L S. destruct p; [now apply H|discriminate]. Qed.

Lemma blind_at_map : forall {A C} n (f : A -> C) (m : dec bytes A), blind_at n m -> blind_at n (d_map f m).
Proof.
  intros A C n f m H p x y t L S. specialize (H p x y t L S). unfold d_map, d_bind.
  destruct (m (p ++ x :: t)) as [a b], (m (p ++ y :: t)) as [a' b']. cbn in H. subst a'. now destruct a.
Qed.

(** [m] consumes exactly [n] bytes when they are there. *)
Definition exactly {A} (n : nat) (m : dec bytes A) : Prop := forall p,
  length p = n -> exists a, forall q, m (p ++ q) = (DOk a, q).

Lemma blind_at_bind : forall {A C} n k (m : dec bytes A) (h : A -> dec bytes C),
  exactly n m -> (forall a, blind_at k (h a)) -> blind_at (n + k) (d_bind m h).
Proof.
  intros A C n k m h Hm Hh p x y t L S.
  destruct (Hm (firstn n p)) as [a E]; [apply firstn_length_le; lia|].
  rewrite <- (firstn_skipn n p), <- !app_assoc.
  erewrite !bind_ok by apply E. apply Hh; [rewrite skipn_length; lia|assumption].
Qed.

Lemma exactly_eat_n : forall k, exactly k (eat_n 0 k).
Proof.
  intros k p L. exists (of_be p). intros q. rewrite eat_n_spec, app_length.
  rewrite (proj2 (Nat.ltb_ge _ _)) by lia. subst k.
  rewrite firstn_app, skipn_app, firstn_all, skipn_all, Nat.sub_diag. cbn. now rewrite app_nil_r.
Qed.
Lemma exactly_u31 : exactly 4 (eat_u31 flat 0).
Proof.
  intros p L. destruct (exactly_eat_n 4 p L) as [a E]. exists (N.land a MAX_U31). intros q.
  rewrite eat_u31_n. now erewrite bind_ok by apply E.
Qed.
Lemma exactly_u63 : exactly 8 (eat_u63 flat 0).
Proof.
  intros p L. destruct (exactly_eat_n 8 p L) as [a E]. exists (N.land a MAX_U63). intros q.
  rewrite eat_u63_n. now erewrite bind_ok by apply E.
Qed.
Lemma exactly_version : exactly 4 (eat_version flat 0).
Proof.
  intros p L. do 4 (destruct p as [|? p]; [discriminate|]). destruct p; [|discriminate].
  exists (Version (of_be [b; b0]) (of_be [b1; b2])). intros q. rewrite eat_version_spec. reflexivity.
Qed.
Lemma exactly_bytes : forall k, exactly k (eat_bytes flat k).
Proof. intros k p L. exists p. intros q. subst k. apply eat_bytes_fwd. Qed.

Lemma body_blind : forall t sid fl k, (needs_stream_zero t = true -> sid = 0) ->
  In (t, k) [(FT_SETUP, 4); (FT_SETUP, 8); (FT_LEASE, 0); (FT_LEASE, 4); (FT_KEEPALIVE, 0);
             (FT_REQUEST_STREAM, 0); (FT_REQUEST_CHANNEL, 0); (FT_REQUEST_N, 0); (FT_RESUME_OK, 0)]%nat ->
  blind_at k (body_dec 0 t sid fl).
Proof.
  intros t sid fl k Z H. cbn [In] in H.
  repeat (destruct H as [H|H]; [injection H as <- <-; cbn [body_dec needs_stream_zero] in *;
    try (specialize (Z eq_refl); subst sid); apply blind_at_map|]).
  - unfold setup_decode. apply (blind_at_bind 4 0); [apply exactly_version|intros].
    apply blind_at_0, blind_u31.
  - unfold setup_decode. apply (blind_at_bind 4 4); [apply exactly_version|intros].
    apply (blind_at_bind 4 0); [apply exactly_u31|intros]. apply blind_at_0, blind_u31.
  - apply blind_at_0. apply blind_u31.
  - unfold lease_decode. change (negb (0 =? 0)) with false. cbv iota.
    apply (blind_at_bind 4 0); [apply exactly_u31|intros]. apply blind_at_0, blind_u31.
  - apply blind_at_0. apply blind_u63.
  - apply blind_at_0. apply blind_u31.
  - apply blind_at_0. apply blind_u31.
  - apply blind_at_0. apply blind_u31.
  - apply blind_at_0. apply blind_u63.
  - contradiction.
Qed.

Lemma resume_blind : forall v len tok x y t n fl,
  length v = 4%nat -> len = to_be 2 n -> n < 2 ^ 16 -> same7 x y ->
  (length tok = N.to_nat n \/ exists tok' srv, tok = tok' ++ srv /\ length tok' = N.to_nat n /\ length srv = 8%nat) ->
  fst (body_dec 0 FT_RESUME 0 fl (v ++ len ++ tok ++ x :: t)) =
  fst (body_dec 0 FT_RESUME 0 fl (v ++ len ++ tok ++ y :: t)).
Proof.
  intros v len tok x y t n fl Lv -> Hn S D. cbn [body_dec].
  assert (forall (m : dec bytes resume_frame) b1 b2, fst (m b1) = fst (m b2) ->
    fst (d_map FResume m b1) = fst (d_map FResume m b2)) as M.
  { intros m b1 b2 E. unfold d_map, d_bind. destruct (m b1) as [a ?], (m b2) as [a' ?].
    cbn in E. subst a'. now destruct a. }
  apply M. clear M.
  assert (exists K, forall z,
    resume_decode flat 0 0 fl (v ++ to_be 2 n ++ tok ++ z :: t) = d_bind (eat_u63 flat 0) K (z :: t)) as [K G].
  { destruct (exactly_version v Lv) as [vv E].
    destruct D as [D|(tok' & srv & -> & D1 & D2)].
    - eexists. intros z. unfold resume_decode. erewrite bind_ok by apply E.
      rewrite eat_u16_n. erewrite bind_ok by (now apply eat_n_fwd).
      erewrite bind_ok by (rewrite <- D; apply eat_bytes_fwd). reflexivity.
    - destruct (exactly_u63 srv D2) as [s E'].
      eexists. intros z. unfold resume_decode. erewrite bind_ok by apply E.
      rewrite eat_u16_n. erewrite bind_ok by (now apply eat_n_fwd).
      rewrite <- app_assoc.
      erewrite bind_ok by (rewrite <- D1; apply eat_bytes_fwd).
      erewrite bind_ok by apply E'. reflexivity. }
  rewrite !G. now apply blind_u63.
Qed.

Lemma split_at : forall (a b c d : bytes), length a = length c -> a ++ b = c ++ d -> a = c /\ b = d.
Proof.
  induction a as [|x a IH]; intros b [|y c] d L E; try discriminate L; cbn in *.
  - auto.
  - injection E as <- E. injection L as L. destruct (IH _ _ _ L E) as [-> ->]. auto.
Qed.

Lemma split_long : forall (a b c d : bytes), (length a <= length c)%nat -> a ++ b = c ++ d ->
  exists e, c = a ++ e /\ b = e ++ d.
Proof.
  induction a as [|x a IH]; intros b c d L E; cbn in *.
  - exists c. auto.
  - destruct c as [|y c]; cbn in *; [lia|]. injection E as <- E.
    destruct (IH b c d) as (e & -> & ->); [lia|assumption|]. exists e. auto.
Qed.

Lemma after_header_fst : forall t sid fl b1 b2,
  ((needs_stream_zero t = true -> sid = 0) ->
   fst (body_dec 0 t sid fl b1) = fst (body_dec 0 t sid fl b2)) ->
  fst (after_header 0 t sid fl b1) = fst (after_header 0 t sid fl b2).
Proof.
  intros t sid fl b1 b2 H. unfold after_header.
  destruct (needs_stream_zero t && negb (sid =? 0)) eqn:Z; [reflexivity|].
  apply H. intros N. rewrite N in Z. cbn in Z. apply negb_false_iff in Z. now apply N.eqb_eq.
Qed.

Lemma body_reserved : forall pre x y post sid c w,
  has_header (pre ++ x :: post) sid c w ->
  reserved_at (pre ++ x :: post) c (length pre) -> same7 x y ->
  fst (decode (pre ++ x :: post)) = fst (decode (pre ++ y :: post)).
Proof.
  intros pre x y post sid c w HH HR S.
  apply has_header_iff in HH as (r & body & Hr & Hs & Hc & Hw & E).
  assert (6 <= length pre)%nat as L6 by (inversion HR; lia).
  destruct (split_long (header_bytes r sid c w) body pre (x :: post)) as (p & -> & ->);
    [now rewrite header_bytes_length|now symmetry|].
  rewrite <- !app_assoc, !decode_header by assumption.
  rewrite app_length, header_bytes_length in HR.
  assert (exists t, c = ft_value t) as [t ->].
  { inversion HR; subst; (apply known_value; unfold known_code; lia). }
  rewrite from_value. apply after_header_fst. intros Z.
  destruct (frame_type_eq_dec t FT_RESUME) as [->|NR].
  - specialize (Z eq_refl). subst sid.
    assert (exists a len b n, (header_bytes r 0 (ft_value FT_RESUME) w ++ p) ++ x :: post = a ++ len ++ b /\
      length a = 10%nat /\ length len = 2%nat /\ bytes_bits len = bits 16 n /\ n < 2 ^ 16 /\
      (length p = 6 + N.to_nat n \/ length p = 14 + N.to_nat n)%nat) as
      (a & len & b & n & E' & La & Ll & B & Hn & Lp).
    { inversion HR; subst.
      - exists a, len, b, n. repeat (split; [assumption|]). left. lia.
      - exists a, len, b, n. repeat (split; [assumption|]). right. lia. }
    assert (len = to_be 2 n) as ->.
    { apply bytes_bits_inj. now rewrite B, bytes_bits_to_be. }
    clear HR E B. rewrite <- app_assoc in E'.
    destruct (split_long (header_bytes r 0 (ft_value FT_RESUME) w) (p ++ x :: post) a (to_be 2 n ++ b))
      as (v & -> & E2); [rewrite header_bytes_length; lia|assumption|].
    rewrite app_length, header_bytes_length in La.
    rewrite app_assoc in E2.
    destruct (split_long (v ++ to_be 2 n) b p (x :: post)) as (tok & -> & ->);
      [rewrite app_length, to_be_length; lia|now symmetry|].
    rewrite !app_length, to_be_length in Lp. rewrite <- !app_assoc.
    apply (resume_blind v _ tok x y post n); [lia|reflexivity|assumption|assumption|].
    destruct Lp as [Lp|Lp]; [left; lia|right].
    exists (firstn (N.to_nat n) tok), (skipn (N.to_nat n) tok). rewrite firstn_skipn.
    split; [reflexivity|]. split; [apply firstn_length_le; lia|rewrite skipn_length; lia].
  - apply body_blind with (k := length p); [assumption| |reflexivity|assumption].
    clear E. remember (6 + length p)%nat as k eqn:Hl. remember (ft_value t) as cc eqn:Hc1.
    remember ((header_bytes r sid cc w ++ p) ++ x :: post) as inp eqn:Hi.
    destruct HR; destruct t; try discriminate Hc1; try congruence;
      match goal with |- In (_, length p) _ =>
        assert (length p = 0 \/ length p = 4 \/ length p = 8)%nat as [H|[H|H]] by lia;
        rewrite H in *; try discriminate Hl; cbn; auto 20 end.
Qed.

(** ** Truncation *)

Lemma absent_opt : forall l, absent_if_empty l = opt l.
Proof. reflexivity. Qed.

Lemma wire_tail : forall f, exists pre,
  wire_bytes 0 (flag_word f) 0 0 f = pre ++ open_tail f.
Proof.
  intros f. unfold wire_bytes, open_tail.
  destruct f; cbn [payload_of tail_of body_bytes]; unfold payload_bytes;
    rewrite ?app_assoc;
    try (eexists; reflexivity);
    (eexists; rewrite app_nil_r; reflexivity).
Qed.

Lemma open_tail_extend : forall f ext, fits f -> open_ended f ->
  open_tail (extend f ext) = open_tail f ++ ext.
Proof.
  intros f ext F O. apply fits_split in F as (_ & _ & S). unfold open_tail, extend.
  destruct f; cbn in O; try contradiction; cbn in *;
    try (apply part_grow; assumption); try (apply part_grow; apply S). reflexivity.
Qed.

Lemma extend_shorten : forall f l m, fits f -> open_tail f = l ++ m -> open_ended f ->
  fits (with_open_tail f l) /\ open_ended (with_open_tail f l) /\
  (forall w, carries w f -> carries w (with_open_tail f l)) /\
  (forall r w r1 r2, wire_bytes r w r1 r2 (with_open_tail f l) ++ m = wire_bytes r w r1 r2 f).
Proof.
  intros f l m F E O. apply fits_split in F as (R & C & S).
  unfold open_tail, with_open_tail, wire_bytes in *.
  destruct f as [s|e|la|k|q|q|q|q|q|q|q|q|q|q];
    cbn [payload_of tail_of set_payload set_tail open_ended solid_frame in_range coherent carries
         kind sid_of body_bytes] in *; try contradiction;
    (split; [apply fits_split; cbn [in_range coherent solid_frame]|split; [exact I|split; [tauto|]]]);
    unfold solid_payload in *; unfold small_metadata in *;
    cbn [sf_flags sf_version sf_keepalive_interval sf_keepalive_timeout sf_resume_token
         sf_metadata_mimetype sf_data_mimetype sf_payload ef_stream_id ef_code ef_data
         lf_ttl lf_number_of_requests lf_metadata kf_respond kf_last_received_position kf_data
         rr_payload fnf_payload rs_payload rc_payload pf_payload rr_stream_id fnf_stream_id rs_stream_id
         rc_stream_id pf_stream_id rs_initial_request_n rc_initial_request_n
         rr_flags fnf_flags rs_flags rc_flags pf_flags mp_metadata p_metadata p_data];
    split_and.
  all: try (repeat match goal with |- _ /\ _ => split end;
            first [assumption|exact I|apply solid_opt]).
  all: intros; unfold payload_bytes; cbn [p_metadata p_data];
    rewrite ?absent_opt, ?part_opt, ?E; rewrite <- ?app_assoc; reflexivity.
Qed.

Lemma decode_truncate : forall f bs, fits f -> frame_encode f [] = EOk bs ->
  exists pre, bs = pre ++ open_tail f /\
    (forall l m, open_tail f = l ++ m -> decode (pre ++ l) = (DOk (with_open_tail f l), [])) /\
    (forall a b, pre = a ++ b -> b <> [] -> fst (decode a) = DErr InComplete).
Proof.
  intros f bs F E. destruct (wire_tail f) as [pre W]. exists pre.
  pose proof F as F0. destruct F0 as [R _].
  rewrite encode_ok in E by (try apply in_range_typed; try apply in_range_small; assumption).
  injection E as E. cbn [app] in E. rewrite W in E. subst bs. split; [reflexivity|].
  assert (flag_word f < 1024) as Hw by (apply flag_word_lt; now apply in_range_typed).
  assert (forall l m, open_tail f = l ++ m -> decode (pre ++ l) = (DOk (with_open_tail f l), [])) as D.
  { intros l m T.
    assert (open_ended f \/ ~ open_ended f) as [O|O] by (destruct f; cbn; tauto).
    - destruct (extend_shorten f l m F T O) as (F' & O' & C' & W').
      specialize (W' 0 (flag_word f) 0 0). rewrite W, T, app_assoc in W'. apply app_inv_tail in W'.
      rewrite <- W', <- (app_nil_r (wire_bytes _ _ _ _ _)).
      apply fits_split in F' as (R' & Co' & S').
      unfold decode. rewrite decode_fwd; try reflexivity; try assumption.
      + now rewrite norm_id.
      + apply C'. now apply flag_word_carries.
    - assert (open_tail f = []) as T0 by (destruct f; cbn in *; tauto).
      rewrite T0 in T. destruct l; [|discriminate]. rewrite T0, app_nil_r in W.
      rewrite app_nil_r, <- W, <- (app_nil_r (wire_bytes _ _ _ _ _)).
      apply fits_split in F as (_ & Co' & S').
      unfold decode. rewrite decode_fwd; try reflexivity; try assumption.
      + rewrite norm_id by assumption. destruct f; cbn in *; try tauto; reflexivity.
      + now apply flag_word_carries. }
  split; [exact D|].
  intros a b -> Nb.
  assert (decode (a ++ b ++ open_tail f) = (DOk f, [])) as Full.
  { rewrite app_assoc. specialize (D (open_tail f) [] (eq_sym (app_nil_r _))).
    rewrite D. f_equal. f_equal. apply fits_split in F as (_ & _ & S).
    unfold with_open_tail, open_tail.
    destruct f as [[]|[]|[]|[]|[]|[]|[]|[]|[]|[]|[]|[]|[]|[]]; cbn in *; try reflexivity;
      rewrite absent_opt, opt_part by (try assumption; apply S); try reflexivity;
      match goal with p : payload |- _ => destruct p end; reflexivity. }
  destruct (fst (decode a)) as [g|e| |] eqn:Fa.
  - exfalso. assert (decode a = (DOk g, snd (decode a))) as Da by (rewrite <- Fa; now destruct (decode a)).
    pose proof (decode_extend a g _ (b ++ open_tail f) Da) as X. rewrite Full in X.
    apply decode_bwd in Da as (r & w & r1 & r2 & ? & ? & ? & ? & Fg & Cg & Og & Ea).
    assert (open_ended g \/ ~ open_ended g) as [O|O] by (destruct g; cbn; tauto).
    + injection X as X1 X2. apply (f_equal open_tail) in X1.
      rewrite open_tail_extend in X1 by assumption.
      apply (f_equal (@length byte)) in X1. rewrite !app_length in X1.
      destruct b; [congruence|]. cbn in X1. lia.
    + injection X as X1 X2. destruct g; cbn in O; try tauto; symmetry in X2;
        apply app_eq_nil in X2 as [_ X2]; apply app_eq_nil in X2 as [X2 _]; congruence.
  - destruct e; [|exfalso|exfalso].
    + reflexivity.
    + pose proof (decode_error_stable a (b ++ open_tail f) _ Fa) as X. rewrite Full in X.
      specialize (X ltac:(discriminate) ltac:(discriminate)). discriminate X.
    + pose proof (decode_error_stable a (b ++ open_tail f) _ Fa) as X. rewrite Full in X.
      specialize (X ltac:(discriminate) ltac:(discriminate)). discriminate X.
  - exfalso. pose proof (decode_error_stable a (b ++ open_tail f) _ Fa) as X. rewrite Full in X.
    specialize (X ltac:(discriminate) ltac:(discriminate)). discriminate X.
  - exfalso. pose proof (decode_error_stable a (b ++ open_tail f) _ Fa) as X. rewrite Full in X.
    specialize (X ltac:(discriminate) ltac:(discriminate)). discriminate X.
Qed.

(** ** Statements used by the property files *)

Lemma roundtrip : forall f, fits f ->
  exists bs, (forall buf, frame_encode f buf = EOk (buf ++ bs)) /\ decode bs = (DOk f, []).
Proof.
  intros f F. apply fits_split in F as (R & C & S).
  destruct (roundtrip_norm f R C) as (bs & E & D). exists bs. split; [assumption|].
  now rewrite norm_id in D.
Qed.

Lemma roundtrip_only : forall f bs rest, frame_encode f [] = EOk bs -> decode bs = (DOk f, rest) -> fits f.
Proof.
  intros f bs rest _ D. apply decode_ok_iff, parses_iff in D.
  destruct D as (? & ? & ? & ? & ? & ? & ? & ? & F & _). exact F.
Qed.

Lemma roundtrip_drop : forall f, in_range f -> coherent f ->
  exists bs, (forall buf, frame_encode f buf = EOk (buf ++ bs)) /\
    decode bs = (DOk (drop_empty_parts f), []).
Proof.
  intros f R C. destruct (roundtrip_norm f R C) as (bs & E & D). exists bs.
  now rewrite norm_drop in D.
Qed.

Lemma roundtrip_exact_iff : forall f bs, in_range f -> coherent f -> frame_encode f [] = EOk bs ->
  (decode bs = (DOk f, []) <-> ~ has_empty_part f).
Proof.
  intros f bs R C E. destruct (roundtrip_norm f R C) as (bs' & E' & D).
  rewrite E' in E. cbn in E. injection E as <-. rewrite D, <- solid_iff. split.
  - intros X. injection X as X. rewrite <- X. apply norm_solid_frame.
  - intros S. now rewrite norm_id.
Qed.

Lemma decode_total : forall input,
  match fst (decode input) with
  | DOk _ => True
  | DErr _ => True
  | DPanic => exists sid w, has_header input sid 0x3F w
  | DLoop => False
  end.
Proof.
  intros input. pose proof (decode_outcome input) as O.
  inversion O; try exact I. eauto.
Qed.

Lemma decode_panic_iff : forall input,
  fst (decode input) = DPanic <-> exists sid w, has_header input sid 0x3F w.
Proof.
  intros input. split.
  - intros H. pose proof (decode_total input) as T. now rewrite H in T.
  - intros (sid & w & H). now apply ext_header in H.
Qed.

Lemma decode_consumes : forall input, exists consumed,
  input = consumed ++ snd (decode input) /\
  ((length input < 6)%nat -> consumed = []) /\
  forall f, fst (decode input) = DOk f ->
    match f with
    | FCancel _ => length consumed = 6%nat
    | FRequestN _ => length consumed = 10%nat
    | FResumeOk _ => length consumed = 14%nat
    | FResume q => length consumed = (28 + length (rf_resume_token q))%nat
    | _ => snd (decode input) = []
    end.
Proof.
  intros input. destruct (decode_suffix input) as [pre E]. exists pre. split; [assumption|]. split.
  - intros L. unfold decode in E. rewrite frame_decode_short in E by assumption. cbn [snd] in E.
    destruct pre; [reflexivity|]. apply (f_equal (@length byte)) in E.
    cbn in E. rewrite app_length in E. lia.
  - intros f F. destruct (decode input) as [o rest] eqn:D. cbn [fst snd] in *. subst o.
    apply decode_bwd in D as (r & w & r1 & r2 & _ & _ & _ & _ & _ & _ & O & E').
    rewrite E' in E. apply app_inv_tail in E. subst pre.
    destruct f; try (apply O; exact I);
      unfold wire_bytes; cbn [body_bytes]; rewrite app_length, header_bytes_length, ?app_length,
        ?version_bytes_length, ?to_be_length; cbn [length]; lia.
Qed.

Lemma decode_stable : forall input f rest, decode input = (DOk f, rest) ->
  exists bs, frame_encode f [] = EOk bs /\ decode bs = (DOk f, []) /\
    length input = (length bs + length rest)%nat.
Proof.
  intros input f rest D.
  apply decode_bwd in D as (r & w & r1 & r2 & _ & _ & _ & _ & F & _ & _ & ->).
  destruct (roundtrip f F) as (bs & E & D). exists bs. split; [apply (E [])|].
  split; [assumption|]. rewrite app_length. f_equal.
  specialize (E []). destruct F as [R _].
  rewrite encode_ok in E by (try apply in_range_typed; try apply in_range_small; assumption).
  injection E as <-. apply wire_bytes_length.
Qed.

Lemma encode_len : forall f buf out, typed f -> frame_encode f buf = EOk out ->
  exists bs, out = buf ++ bs /\ frame_to_bytes f = Ret bs /\
    frame_len f = size bs + (match f with
                             | FSetup s => if present (sf_resume_token s) then 0 else 2
                             | _ => 0
                             end) /\
    frame_is_empty f = false.
Proof.
  intros f buf out T E.
  assert (small f) as S.
  { apply small_iff. intros p P.
    destruct (N.lt_ge_cases (size (part (p_metadata p))) (2 ^ 24)) as [|G]; [assumption|].
    destruct (encode_panic f p T P) as [pre H].
    - unfold small_metadata. lia.
    - destruct (H buf) as [H' _]. congruence. }
  rewrite encode_ok in E by assumption. injection E as <-.
  exists (wire_bytes 0 (flag_word f) 0 0 f). split; [reflexivity|]. split.
  - unfold frame_to_bytes. now rewrite encode_ok.
  - split; [apply frame_len_wire|]. unfold frame_is_empty. rewrite frame_len_wire.
    apply N.eqb_neq. unfold size, wire_bytes. rewrite app_length, header_bytes_length. lia.
Qed.

Lemma encode_total : forall f, typed f ->
  ((forall p, payload_of f = Some p -> size (part (p_metadata p)) < 2 ^ 24) /\
   exists bs, forall buf, frame_encode f buf = EOk (buf ++ bs)) \/
  (exists p pre, payload_of f = Some p /\ 2 ^ 24 <= size (part (p_metadata p)) /\
     forall buf, frame_encode f buf = EPanic (buf ++ pre) /\
       frame_encode (set_payload f (Payload None None)) buf = EOk (buf ++ pre ++ to_be 3 0)).
Proof.
  intros f T.
  destruct (payload_of f) as [p|] eqn:P.
  - destruct (N.lt_ge_cases (size (part (p_metadata p))) (2 ^ 24)) as [L|G].
    + left. split; [congruence|]. eexists. intros buf. apply encode_ok; [assumption|].
      apply small_iff. congruence.
    + right. destruct (encode_panic f p T P) as [pre H].
      * unfold small_metadata. lia.
      * exists p, pre. auto.
  - left. split; [congruence|]. eexists. intros buf. apply encode_ok; [assumption|].
    apply small_iff. congruence.
Qed.

Lemma to_bytes_total : forall f, typed f ->
  ((forall p, payload_of f = Some p -> size (part (p_metadata p)) < 2 ^ 24) /\
   exists bs, frame_to_bytes f = Ret bs /\ forall buf, frame_encode f buf = EOk (buf ++ bs)) \/
  (frame_to_bytes f = Panic /\
   exists p, payload_of f = Some p /\ 2 ^ 24 <= size (part (p_metadata p))).
Proof.
  intros f T. destruct (encode_total f T) as [[S [bs E]]|(p & pre & P & G & E)].
  - left. split; [assumption|]. exists bs. split; [|assumption].
    unfold frame_to_bytes. now rewrite (E []).
  - right. split; [|eauto]. unfold frame_to_bytes. now rewrite (proj1 (E [])).
Qed.

Lemma encode_layout : forall f buf, in_range f -> exists bs,
  frame_encode f buf = EOk (buf ++ bs) /\ bytes_bits bs = render (layout f).
Proof.
  intros f buf R. exists (wire_bytes 0 (flag_word f) 0 0 f). split.
  - apply encode_ok; [now apply in_range_typed|now apply in_range_small].
  - apply wire_bits; [assumption|]. apply flag_word_lt. now apply in_range_typed.
Qed.

Lemma invalid_stream_id_iff : forall input sid c w, has_header input sid c w -> c <> 0x0B ->
  forall e s, fst (decode input) = DErr (InvalidStreamId e s) <->
    connection_kind c /\ sid <> 0 /\ e = "0"%string /\ s = sid.
Proof.
  intros input sid c w H NE e s. split.
  - intros D. apply outcome_iff in D. inversion D as [| | |sid' c' w' HH K Z|sid' w' c' HH|w' c' HH| |]; subst.
    + destruct (has_header_unique _ _ _ _ _ _ _ H HH) as (-> & -> & ->). auto.
    + destruct (has_header_unique _ _ _ _ _ _ _ H HH) as (-> & -> & ->). congruence.
    + destruct (has_header_unique _ _ _ _ _ _ _ H HH) as (-> & -> & ->). congruence.
  - intros (K & Z & -> & ->). eapply connection_header; eassumption.
Qed.

Lemma error_frame_iff : forall input sid w c, has_header input sid 0x0B w -> has_error_code input c ->
  (connection_code c -> sid <> 0 -> fst (decode input) = DErr (InvalidStreamId "0" sid)) /\
  (stream_code c -> sid = 0 -> fst (decode input) = DErr (InvalidStreamId "> 0" 0)) /\
  ((connection_code c -> sid = 0) -> (stream_code c -> sid <> 0) ->
     exists d, fst (decode input) = DOk (FError (ErrorFrame sid c d))).
Proof.
  intros input sid w c H HE. destruct (error_header input sid w c H HE) as [d E].
  repeat split.
  - intros K Z. rewrite E, (proj2 (N.eqb_neq sid 0) Z). cbn [negb].
    now rewrite (proj2 (existsb_connection c)).
  - intros K ->. rewrite E. cbn [negb N.eqb]. now rewrite (proj2 (existsb_stream c)).
  - intros K1 K2. exists d. rewrite E. clear E. destruct (N.eqb_spec sid 0) as [->|Z]; cbn [negb].
    + destruct (existsb (N.eqb c) [0x201; 0x202; 0x203; 0x204]) eqn:X; [|reflexivity].
      apply existsb_stream in X. now elim (K2 X).
    + destruct (existsb (N.eqb c) [0x001; 0x002; 0x003; 0x004; 0x101; 0x102]) eqn:X; [|reflexivity].
      apply existsb_connection in X. now elim (Z (K1 X)).
Qed.

Lemma error_frame_sound : forall input e rest, decode input = (DOk (FError e), rest) ->
  (connection_code (ef_code e) -> ef_stream_id e = 0) /\
  (stream_code (ef_code e) -> ef_stream_id e <> 0).
Proof.
  intros input e rest D. apply decode_ok_iff, parses_iff in D.
  destruct D as (? & ? & ? & ? & ? & ? & ? & ? & F & _). destruct F as [_ C]. cbn in C. tauto.
Qed.

Lemma unknown_type_iff : forall input sid c w, has_header input sid c w ->
  forall v, fst (decode input) = DErr (UnrecognizedFrameType v) <-> ~ known_code c /\ v = c.
Proof.
  intros input sid c w H v. split.
  - intros D. apply outcome_iff in D. inversion D as [|sid' c' w' HH K| | | | | |]; subst.
    destruct (has_header_unique _ _ _ _ _ _ _ H HH) as (-> & -> & ->). auto.
  - intros [K ->]. eapply unknown_header; eassumption.
Qed.

Lemma unknown_type_needs_header : forall input v,
  fst (decode input) = DErr (UnrecognizedFrameType v) -> exists sid w, has_header input sid v w.
Proof. intros input v D. apply outcome_iff in D. inversion D; subst. eauto. Qed.

Lemma header_reserved_spec : forall hd hd' body r r' sid c w w',
  r < 2 -> r' < 2 -> sid < 2 ^ 31 -> c < 64 -> w < 1024 -> w' < 1024 -> assigned w = assigned w' ->
  bytes_bits hd = render (header r sid c w) -> bytes_bits hd' = render (header r' sid c w') ->
  decode (hd ++ body) = decode (hd' ++ body).
Proof.
  intros hd hd' body r r' sid c w w' Hr Hr' Hs Hc Hw Hw' A B B'.
  rewrite <- header_bits in B, B' by assumption.
  apply bytes_bits_inj in B, B'. subst. now apply header_reserved.
Qed.

Lemma encode_injective : forall f g bs, fits f -> fits g ->
  frame_encode f [] = EOk bs -> frame_encode g [] = EOk bs -> f = g.
Proof.
  intros f g bs F G E E'. destruct (roundtrip f F) as (b1 & E1 & D1), (roundtrip g G) as (b2 & E2 & D2).
  rewrite E1 in E. rewrite E2 in E'. cbn in E, E'. injection E as <-. injection E' as ->. congruence.
Qed.

Lemma encode_prefix_free : forall f g bs ext, fits f -> fits g -> ~ open_ended f ->
  frame_encode f [] = EOk bs -> frame_encode g [] = EOk (bs ++ ext) -> f = g /\ ext = [].
Proof.
  intros f g bs ext F G O E E'. destruct (roundtrip f F) as (b1 & E1 & D1), (roundtrip g G) as (b2 & E2 & D2).
  rewrite E1 in E. rewrite E2 in E'. cbn in E, E'. injection E as <-. injection E' as ->.
  apply decode_extend with (ext := ext) in D1. rewrite D2 in D1.
  destruct f; cbn in O; try tauto; cbn in D1; injection D1 as D1 D1'; auto.
Qed.
