(** * Where a decoding that lacks bytes stops *)

From Coq Require Import Lia.
From Verif Require Import Model.FrameM Spec.Codec Proofs.BitsP Proofs.EatP Proofs.CodecP Proofs.DecodeP Proofs.StableP.

Definition stops {A} (m : dec bytes A) (is : list item) : Prop :=
  forall b rest, m b = (DErr InComplete, rest) <-> halts is b rest.

Lemma stops_ret : forall {A} (a : A), stops (d_ret a) [].
Proof. intros A a b rest. split; [discriminate|]. intros H. inversion H. Qed.

Lemma stops_ok : forall {A} (m : dec bytes A), (forall b, exists a c, m b = (DOk a, c)) -> stops m [].
Proof.
  intros A m H b rest. split; [|intros Q; inversion Q].
  destruct (H b) as (a & c & ->). discriminate.
Qed.

Lemma stops_map : forall {A C} (f : A -> C) (m : dec bytes A) is, stops m is -> stops (d_map f m) is.
Proof.
  intros A C f m is H b rest. specialize (H b rest). rewrite <- H. unfold d_map, d_bind, d_ret.
  destruct (m b) as [[]]; split; congruence.
Qed.

Lemma stops_fixed : forall {A C} n (m : dec bytes A) (g : bytes -> A) (k : A -> dec bytes C) is,
  (forall b, m b = if Nat.ltb (length b) n then (DErr InComplete, b) else (DOk (g b), skipn n b)) ->
  (forall a, stops (k a) is) -> stops (d_bind m k) (Fixed n :: is).
Proof.
  intros A C n m g k is Hm Hk b rest. unfold d_bind. rewrite Hm. destruct (Nat.ltb_spec (length b) n) as [L|L].
  - split.
    + intros H. injection H as <-. now constructor.
    + intros H. inversion H; subst; [reflexivity|]. rewrite app_length in L. lia.
  - rewrite (Hk (g b) (skipn n b) rest). split.
    + intros H. rewrite <- (firstn_skipn n b). constructor; [now apply firstn_length_le|assumption].
    + intros H. inversion H; subst; [lia|].
      rewrite skipn_app, skipn_all, Nat.sub_diag. assumption.
Qed.

(** A length and that many bytes. *)
Lemma stops_counted : forall {C} w (m : dec bytes N) (k : bytes -> dec bytes C) is,
  (w = 1 \/ w = 2 \/ w = 3)%nat ->
  (forall n rest, n < 2 ^ N.of_nat (8 * w) -> (2 <= length (to_be w n ++ rest))%nat -> m (to_be w n ++ rest) = (DOk n, rest)) ->
  (forall b, (length b < 2)%nat -> m b = (DErr InComplete, b)) ->
  (w = 3%nat -> forall x y, m [x; y] = (DErr InComplete, [y])) ->
  (forall l, stops (k l) is) ->
  stops (let! n := m in let! l := eat_bytes flat (N.to_nat n) in k l) (Counted w :: is).
Proof.
  intros C w m k is W M1 M2 M3 Hk b rest.
  assert (forall n, 256 ^ N.of_nat w = 2 ^ N.of_nat (8 * w) /\ (n < 256 ^ N.of_nat w -> bytes_bits (to_be w n) = bits (8 * w) n)) as P.
  { intros n. split; [destruct W as [->|[->| ->]]; reflexivity|].
    intros _. destruct W as [->|[->| ->]]; apply bytes_bits_to_be. }
  assert (forall l n, length l = w -> bytes_bits l = bits (8 * w) n -> n < 2 ^ N.of_nat (8 * w) -> l = to_be w n) as Q.
  { intros l n L B Hn. apply bytes_bits_inj. rewrite B. symmetry. apply P. now rewrite (proj1 (P n)). }
  split.
  - intros H. unfold d_bind at 1 in H.
    destruct (Nat.ltb_spec (length b) 2) as [L|L].
    { rewrite (M2 _ L) in H. injection H as <-. now constructor. }
    destruct (Nat.ltb_spec (length b) w) as [L3|L3].
    { assert (w = 3%nat) as -> by lia. destruct b as [|x [|y [|]]]; cbn [length] in *; try lia.
      rewrite (M3 eq_refl) in H. injection H as <-. constructor. }
    assert (length (firstn w b) = w) as F by now apply firstn_length_le.
    assert (exists n, n < 2 ^ N.of_nat (8 * w) /\ firstn w b = to_be w n) as (n & Hn & En).
    { exists (of_be (firstn w b)). rewrite to_be_of_be by exact F.
      split; [|reflexivity]. rewrite <- (proj1 (P 0)). pose proof (of_be_lt (firstn w b)) as X. rewrite F in X. exact X. }
    rewrite <- (firstn_skipn w b) in H |- *. rewrite En in H |- *.
    assert (2 <= length (to_be w n ++ skipn w b))%nat as L2.
    { rewrite app_length, to_be_length, skipn_length. lia. }
    rewrite (M1 n _ Hn L2) in H. unfold d_bind in H. rewrite eat_bytes_spec in H.
    destruct (Nat.ltb_spec (length (skipn w b)) (N.to_nat n)) as [S|S].
    + injection H as <-. apply (Ha_counted_short w is _ n); auto; [apply to_be_length|apply P; now rewrite (proj1 (P n))|].
      unfold size. lia.
    + rewrite <- (firstn_skipn (N.to_nat n) (skipn w b)). 
      assert (size (firstn (N.to_nat n) (skipn w b)) = n) as Z.
      { unfold size. rewrite firstn_length_le by assumption. apply N2Nat.id. }
      apply Ha_counted; rewrite ?Z; auto; [apply to_be_length|apply P; now rewrite (proj1 (P n))| |].
      * rewrite firstn_skipn. exact L2.
      * apply (Hk (firstn (N.to_nat n) (skipn w b))). exact H.
  - intros H. inversion H; subst.
    + unfold d_bind at 1. now rewrite M2.
    + unfold d_bind at 1. now rewrite (M3 eq_refl).
    + match goal with E : bytes_bits l = _ |- _ => pose proof (Q l n eq_refl E ltac:(assumption)) as El end.
      assert (m (l ++ rest) = (DOk n, rest)) as E by (rewrite El; apply M1; [assumption|now rewrite <- El]).
      unfold d_bind at 1. rewrite E.
      unfold d_bind. rewrite eat_bytes_spec. rewrite (proj2 (Nat.ltb_lt _ _)); [reflexivity|]. unfold size in *. lia.
    + match goal with E : bytes_bits l = _ |- _ => pose proof (Q l (size a) eq_refl E ltac:(assumption)) as El end.
      assert (m (l ++ a ++ b0) = (DOk (size a), a ++ b0)) as E by (rewrite El; apply M1; [assumption|now rewrite <- El]).
      unfold d_bind at 1. rewrite E.
      unfold d_bind. rewrite eat_bytes_fwd_size. now apply (Hk a).
Qed.

(** ** The readers *)

Lemma u31_read : forall b, eat_u31 flat 0 b =
  if Nat.ltb (length b) 4 then (DErr InComplete, b) else (DOk (N.land (of_be (firstn 4 b)) MAX_U31), skipn 4 b).
Proof. intros b. rewrite eat_u31_n. unfold d_bind. rewrite eat_n_spec. now destruct (Nat.ltb (length b) 4). Qed.
Lemma u63_read : forall b, eat_u63 flat 0 b =
  if Nat.ltb (length b) 8 then (DErr InComplete, b) else (DOk (N.land (of_be (firstn 8 b)) MAX_U63), skipn 8 b).
Proof. intros b. rewrite eat_u63_n. unfold d_bind. rewrite eat_n_spec. now destruct (Nat.ltb (length b) 8). Qed.

Lemma stops_u8 : forall {C} (k : bytes -> dec bytes C) is, (forall l, stops (k l) is) ->
  stops (let! n := eat_u8 flat in let! l := eat_bytes flat (N.to_nat n) in k l) (Counted 1 :: is).
Proof.
  intros C k is H. apply stops_counted; auto; [|intros [|? [|? ?]] ?; cbn [length] in *; try lia; reflexivity|discriminate].
  intros n rest Hn L. apply eat_u8_fwd; [assumption|]. intros ->. rewrite app_nil_r, to_be_length in L. lia.
Qed.
Lemma stops_u16 : forall {C} (k : bytes -> dec bytes C) is, (forall l, stops (k l) is) ->
  stops (let! n := eat_u16 flat 0 in let! l := eat_bytes flat (N.to_nat n) in k l) (Counted 2 :: is).
Proof.
  intros C k is H. rewrite eat_u16_n. apply stops_counted; auto; [|intros; now apply eat_n_incomplete|discriminate].
  intros n rest Hn L. now apply eat_n_fwd.
Qed.
Lemma stops_len : forall {C} (k : bytes -> dec bytes C) is, (forall l, stops (k l) is) ->
  stops (let! n := eat_len 0 in let! l := eat_bytes flat (N.to_nat n) in k l) (Counted 3 :: is).
Proof.
  intros C k is H. apply stops_counted; auto.
  - intros n rest Hn L. now apply eat_len_fwd.
  - intros [|? [|? ?]] ?; cbn [length] in *; try lia; reflexivity.
Qed.

Lemma stops_ext : forall {A} (m m' : dec bytes A) is, (forall b, m b = m' b) -> stops m' is -> stops m is.
Proof. intros A m m' is E H b rest. rewrite E. apply H. Qed.

Lemma stops_payload : forall {C} (f : payload -> C),
  stops (let! p := eat_payload flat 0 true in d_ret (f p)) [Counted 3].
Proof.
  intros C f. eapply stops_ext.
  { intros b. unfold d_bind at 1. rewrite eat_payload_spec.
    instantiate (1 := let! n := eat_len 0 in let! l := eat_bytes flat (N.to_nat n) in
      (fun l => let! d := eat_rest flat in d_ret (f (Payload (opt l) d))) l).
    cbv beta. unfold d_bind. destruct (eat_len 0 b) as [[n| | |] b1]; try reflexivity.
    destruct (eat_bytes flat (N.to_nat n) b1) as [[l| | |] b2]; try reflexivity.
    now destruct (eat_rest flat b2) as [[d| | |] b3]. }
  apply (stops_len (fun l => let! d := eat_rest flat in d_ret (f (Payload (opt l) d)))).
  intros l. apply stops_ok. intros b. unfold d_bind. rewrite eat_rest_spec. eexists _, _. reflexivity.
Qed.

Lemma stops_rest : forall {C} (f : option bytes -> C), stops (let! p := eat_rest flat in d_ret (f p)) [].
Proof. intros C f. apply stops_ok. intros b. unfold d_bind. rewrite eat_rest_spec. eexists _, _. reflexivity. Qed.

Ltac fixed31 := apply (stops_fixed 4 _ _ _ _ u31_read); intros.
Ltac fixed63 := apply (stops_fixed 8 _ _ _ _ u63_read); intros.
Ltac fixedv := apply (stops_fixed 4 _ _ _ _ (eat_version_spec 0)); intros.

Lemma body_stops : forall t sid fl, t <> FT_EXT -> (needs_stream_zero t = true -> sid = 0) ->
  stops (body_dec 0 t sid fl) (items (ft_value t) (fl_contains fl FL_RESUME)).
Proof.
  intros t sid fl T Z. destruct t; try congruence; cbn [body_dec needs_stream_zero] in *;
    try (specialize (Z eq_refl); subst sid); apply stops_map.
  - unfold setup_decode. change (items _ _) with
      ([Fixed 4; Fixed 4; Fixed 4] ++ (if fl_contains fl FL_RESUME then [Counted 2] else []) ++ [Counted 1; Counted 1; Counted 3]).
    cbn [app]. fixedv. fixed31. fixed31.
    set (K := fun tok => let! metadata_mimetype_len := eat_u8 flat in
      let! metadata_mimetype := eat_bytes flat (N.to_nat metadata_mimetype_len) in
      let! data_mimetype_len := eat_u8 flat in
      let! data_mimetype := eat_bytes flat (N.to_nat data_mimetype_len) in
      let! payload := eat_payload flat 0 true in
      d_ret (SetupFrame fl a a0 a1 tok metadata_mimetype data_mimetype payload)).
    assert (forall tok, stops (K tok) [Counted 1; Counted 1; Counted 3]) as R.
    { intros tok. unfold K. apply (stops_u8 (fun mm => let! n := eat_u8 flat in let! dm := eat_bytes flat (N.to_nat n) in _)). intros mm.
      apply (stops_u8 (fun dm => _)). intros dm. apply stops_payload. }
    unfold eat_resume_token. destruct (fl_contains fl FL_RESUME); cbn [app].
    + eapply stops_ext; [|apply (stops_u16 (fun l => K (Some l))); intros l; apply (R (Some l))].
      intros b. fold K. rewrite bind_assoc. cbv [d_bind]. destruct (eat_u16 flat 0 b) as [[n| | |] b1]; try reflexivity.
      now destruct (eat_bytes flat (N.to_nat n) b1) as [[l| | |] b2].
    + eapply stops_ext; [|apply (R None)]. reflexivity.
  - fixed31. fixed31. apply stops_rest.
  - unfold keepalive_decode. change (negb (0 =? 0)) with false. cbv iota. fixed63. apply stops_rest.
  - apply stops_payload.
  - apply stops_payload.
  - unfold request_stream_decode. change (items _ _) with [Fixed 4; Counted 3]. fixed31. apply stops_payload.
  - unfold request_channel_decode. change (items _ _) with [Fixed 4; Counted 3]. fixed31. apply stops_payload.
  - unfold request_n_decode. change (items _ _) with [Fixed 4]. fixed31. apply stops_ret.
  - apply stops_ret.
  - apply stops_payload.
  - unfold error_decode. change (items _ _) with [Fixed 4].
    apply (stops_fixed 4 _ _ _ _ (eat_n_spec 0 4)). intros code b rest. split; [|intros H; inversion H].
    unfold d_bind at 1, validate_stream_id, d_err, d_ret.
    repeat match goal with |- context [if ?c then _ else _] => destruct c end; try discriminate;
    unfold d_bind; rewrite eat_rest_spec; discriminate.
  - unfold metadata_push_decode. apply stops_ok. intros b. erewrite bind_ok by reflexivity.
    change (b_remaining flat b) with (length b). exists (MetadataPushFrame b), [].
    erewrite bind_ok; [reflexivity|]. rewrite <- (app_nil_r b) at 2. apply eat_bytes_fwd.
  - unfold resume_decode. change (items _ _) with [Fixed 4; Counted 2; Fixed 8; Fixed 8]. fixedv.
    apply (stops_u16 (fun l => let! p := eat_u63 flat 0 in let! q := eat_u63 flat 0 in d_ret (ResumeFrame a l p q))). intros l.
    fixed63. fixed63. apply stops_ret.
  - unfold resume_ok_decode. change (items _ _) with [Fixed 8]. fixed63. apply stops_ret.
Qed.

(** ** Whole frames *)

Lemma known_items : forall c k, items c k <> [] -> exists t, c = ft_value t /\ t <> FT_EXT.
Proof.
  intros c k H. destruct (ft_from_value c) as [t|] eqn:E.
  - apply ft_from_value_some in E. exists t. split; [assumption|]. intros ->. subst c. now apply H.
  - exfalso. apply H. destruct c as [|p]; [reflexivity|].
    do 6 (try destruct p as [p|p|]); try discriminate E; reflexivity.
Qed.

Lemma skip_header : forall r sid c w body, skipn 6 (header_bytes r sid c w ++ body) = body.
Proof. intros. rewrite <- (header_bytes_length r sid c w) at 1. now rewrite skipn_app, skipn_all, Nat.sub_diag. Qed.

Theorem stall_iff : forall input rest, decode input = (DErr InComplete, rest) <-> stalls input rest.
Proof.
  intros input rest. destruct (Nat.ltb_spec (length input) 6) as [L|L].
  - assert (decode input = (DErr InComplete, input)) as E.
    { unfold decode, frame_decode. apply bind_err. rewrite need_flat. now rewrite (proj2 (Nat.ltb_lt _ _)). }
    rewrite E. split.
    + intros H. injection H as <-. now constructor.
    + intros H. inversion H; subst; [reflexivity|]. rewrite app_length in L. lia.
  - destruct (header_cases input L) as (r & sid & c & w & body & Hr & Hs & Hc & Hw & ->).
    assert (has_header (header_bytes r sid c w ++ body) sid c w) as HH by (apply has_header_iff; exists r, body; tauto).
    rewrite decode_header by assumption.
    assert (stalls (header_bytes r sid c w ++ body) rest <->
      (connection_kind c -> sid = 0) /\ halts (items c (N.testbit w 6)) body rest) as ->.
    { split.
      - intros H. remember (header_bytes r sid c w ++ body) as input eqn:E0.
        destruct H as [b Hl|hd b sid' c' w' rest Lh Hh Z Ha].
        + rewrite E0, app_length, header_bytes_length in Hl. lia.
        + destruct (has_header_unique _ _ _ _ _ _ _ HH Hh) as (<- & <- & <-).
          apply (f_equal (skipn 6)) in E0. rewrite skip_header in E0.
          rewrite <- Lh in E0 at 1. rewrite skipn_app, skipn_all, Nat.sub_diag in E0. cbn in E0. subst b. auto.
      - intros [Z Ha]. apply (St_body _ _ sid c w); auto using header_bytes_length. }
    destruct (ft_from_value c) as [t|] eqn:E.
    + pose proof E as E'. apply ft_from_value_some in E'. subst c. unfold after_header.
      destruct (needs_stream_zero t && negb (sid =? 0)) eqn:Z.
      * apply andb_true_iff in Z as [Z1 Z2]. apply negb_true_iff, N.eqb_neq in Z2. apply needs_zero_kind in Z1.
        split; [discriminate|]. intros [H _]. destruct (Z2 (H Z1)).
      * assert (connection_kind (ft_value t) -> sid = 0) as Z'.
        { intros K. apply needs_zero_kind in K. rewrite K in Z. cbn in Z. apply negb_false_iff, N.eqb_eq in Z. exact Z. }
        destruct (frame_type_eq_dec t FT_EXT) as [->|T].
        { split; [discriminate|]. intros [_ H]. inversion H. }
        rewrite (body_stops t sid (assigned w) T ltac:(intros K; apply Z'; now apply needs_zero_kind) body rest).
        rewrite contains_resume, assigned_testbit6. tauto.
    + split; [discriminate|]. intros [_ H].
      assert (items c (N.testbit w 6) = []) as I.
      { destruct c as [|p]; [reflexivity|]. do 6 (try destruct p as [p|p|]); try discriminate E; reflexivity. }
      rewrite I in H. inversion H.
Qed.

Lemma halts_suffix : forall is b rest, halts is b rest -> suffix rest b.
Proof.
  intros is b rest H. induction H; try apply suffix_refl.
  - destruct IHhalts as [p ->]. exists (a ++ p). now rewrite app_assoc.
  - now exists [x].
  - now exists l.
  - destruct IHhalts as [p ->]. exists (l ++ a ++ p). now rewrite <- !app_assoc.
Qed.

Theorem rejected_at : forall input e rest sid c w, decode input = (DErr e, rest) -> e <> InComplete ->
  has_header input sid c w -> rest = skipn (if c =? 0x0B then 10 else 6) input.
Proof.
  intros input e rest sid c w D N H.
  apply has_header_iff in H as (r & body & Hr & Hs & Hc & Hw & ->).
  rewrite decode_header in D by assumption.
  assert (forall k, skipn (6 + k) (header_bytes r sid c w ++ body) = skipn k body) as K.
  { intros k. rewrite skipn_app, header_bytes_length.
    rewrite skipn_all2 by (rewrite header_bytes_length; lia). now replace (6 + k - 6)%nat with k by lia. }
  destruct (ft_from_value c) as [t|] eqn:E.
  - apply ft_from_value_some in E. subst c. unfold after_header in D.
    destruct (needs_stream_zero t && negb (sid =? 0)) eqn:Z.
    { injection D as <- <-. destruct t; try discriminate Z; cbn [ft_value N.eqb Pos.eqb]; symmetry; apply (K 0%nat). }
    assert (needs_stream_zero t = true -> sid = 0) as Z'.
    { intros Q. rewrite Q in Z. cbn in Z. apply negb_false_iff, N.eqb_eq in Z. exact Z. }
    destruct (frame_type_eq_dec t FT_EXT) as [->|H1]; [discriminate|].
    destruct (frame_type_eq_dec t FT_ERROR) as [->|H2].
    + change (ft_value FT_ERROR =? 0x0B) with true. cbv iota. change 10%nat with (6 + 4)%nat. rewrite (K 4%nat).
      destruct (Nat.ltb_spec (length body) 4) as [L|L].
      { rewrite error_body_short in D by assumption. injection D as <- <-. congruence. }
      assert (length (firstn 4 body) = 4%nat) as F by now apply firstn_length_le.
      rewrite <- (firstn_skipn 4 body), <- (to_be_of_be 4 (firstn 4 body) F) in D.
      rewrite error_body_code in D.
      * destruct (fst (validate_stream_id _ _ _)); try discriminate D. now injection D as _ <-.
      * pose proof (of_be_lt (firstn 4 body)) as X. rewrite F in X. exact X.
    + destruct (body_tame 0 t sid (assigned w) H1 H2 Z' body) as [_ [Q|[a Q]]]; rewrite D in Q; cbn in Q; congruence.
  - injection D as <- <-. replace (c =? 0x0B) with false; [symmetry; apply (K 0%nat)|].
    symmetry. apply N.eqb_neq. intros ->. discriminate.
Qed.

Theorem retry_lost : forall f bs seg m rest, frame_encode f [] = EOk bs -> bs = seg ++ m ->
  decode seg = (DErr InComplete, rest) -> (6 <= length seg)%nat -> fst (decode (rest ++ m)) <> DOk f.
Proof.
  intros f bs seg m rest E -> D L Q.
  destruct (decode (rest ++ m)) as [o r] eqn:R. cbn in Q. subst o.
  apply decode_stable in R as (bs' & E' & _ & R). rewrite E in E'. injection E' as <-.
  apply stall_iff in D. inversion D as [? H|hd body sid c w ? Lh HH Z Ha]; subst; [lia|].
  apply halts_suffix in Ha as [pre ->]. rewrite !app_length in R. lia.
Qed.
