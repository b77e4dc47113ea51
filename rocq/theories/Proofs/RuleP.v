(** * The documented rules: proofs *)

From Verif Require Import Model.RuleM Spec.Rules Spec.Codec Proofs.BitsP Proofs.CodecP Proofs.DecodeP Proofs.StableP
  Proofs.BuildP Proofs.CtorP.

Lemma is_latest_inv : forall {C A} (sel : C -> option A) d h c a,
  is_latest sel d (h ++ [c]) a ->
  match sel c with Some x => a = x | None => is_latest sel d h a end.
Proof.
  intros C A sel d h c a [(h1 & c1 & h2 & E & S & Q)|[Q ->]].
  - destruct h2 as [|x h2] using rev_ind.
    + apply app_inj_tail in E. destruct E as [_ <-]. rewrite S. reflexivity.
    + rewrite app_comm_cons, app_assoc in E. apply app_inj_tail in E. destruct E as [-> <-].
      rewrite (Q c) by (apply in_or_app; right; left; reflexivity). left. exists h1, c1, h2.
      split; [reflexivity|]. split; [exact S|]. intros c' I. apply Q. apply in_or_app. auto.
  - rewrite (Q c) by (apply in_or_app; right; left; reflexivity). right. split; [|reflexivity].
    intros c' I. apply Q. apply in_or_app. auto.
Qed.
Lemma is_latest_unique : forall {C A} (sel : C -> option A) d h a b,
  is_latest sel d h a -> is_latest sel d h b -> a = b.
Proof.
  intros C A sel d h. induction h as [|c h IH] using rev_ind; intros a b Ha Hb.
  - destruct Ha as [(h1 & c1 & h2 & E & _)|[_ ->]]; [destruct h1; discriminate|].
    destruct Hb as [(h1 & c1 & h2 & E & _)|[_ ->]]; [destruct h1; discriminate|reflexivity].
  - apply is_latest_inv in Ha, Hb. destruct (sel c); [congruence|auto].
Qed.
Lemma oc_map_ret : forall {A B} (f : A -> B) o b, oc_map f o = Ret b -> exists a, o = Ret a /\ b = f a.
Proof. intros A B f [a| |] b H; try discriminate. injection H as <-. eauto. Qed.

Lemma max_u31_ret : forall {A} bd v (k : oc A) a, debug_assert_max_u31 bd v k = Ret a ->
  k = Ret a /\ (bd = Debug -> v < 2 ^ 31).
Proof.
  intros A bd v k a H. unfold debug_assert_max_u31, debug_assert in H. destruct bd; [|split; [exact H|discriminate]].
  destruct (N.leb_spec v MAX_U31) as [L|]; [|discriminate]. change MAX_U31 with (2 ^ 31 - 1) in L.
  split; [exact H|]. intros _. lia.
Qed.
Lemma max_u63_ret : forall {A} bd v (k : oc A) a, debug_assert_max_u63 bd v k = Ret a -> k = Ret a.
Proof.
  intros A bd v k a H. unfold debug_assert_max_u63, debug_assert in H. destruct bd; [|exact H].
  destruct (v <=? MAX_U63); [exact H|discriminate].
Qed.
Lemma non_zero_ret : forall {A} bd v (k : oc A) a, debug_assert_non_zero bd v k = Ret a -> k = Ret a.
Proof.
  intros A bd v k a H. unfold debug_assert_non_zero, debug_assert in H. destruct bd; [|exact H].
  destruct (negb (v =? 0)); [exact H|discriminate].
Qed.

Ltac strip :=
  repeat match goal with
         | H : debug_assert_max_u31 _ _ _ = Ret _ |- _ => apply max_u31_ret in H; destruct H as [H _]
         | H : debug_assert_max_u63 _ _ _ = Ret _ |- _ => apply max_u63_ret in H
         | H : debug_assert_non_zero _ _ _ = Ret _ |- _ => apply non_zero_ret in H
         end.

Lemma mod31 : forall n, n mod 2 ^ 31 < 2 ^ 31.
Proof. intro n. apply N.mod_lt. discriminate. Qed.
Lemma mod63 : forall n, n mod 2 ^ 63 < 2 ^ 63.
Proof. intro n. apply N.mod_lt. discriminate. Qed.

Lemma sets_interval_lt : forall c n, sets_interval c = Some n -> n < 2 ^ 31.
Proof. intros [] n H; try discriminate. injection H as <-. apply mod31. Qed.
Lemma sets_timeout_lt : forall c n, sets_timeout c = Some n -> n < 2 ^ 31.
Proof. intros [] n H; try discriminate. injection H as <-. apply mod31. Qed.

(** What a chain of builder calls guarantees by itself. *)
Lemma setup_ranges : forall bd cs f, setup_run bd cs = Ret f ->
  sf_keepalive_interval f < 2 ^ 31 /\ sf_keepalive_timeout f < 2 ^ 31 /\ size (part (sf_resume_token f)) <= 65535.
Proof.
  intros bd cs f H. destruct (setup_history _ _ _ H) as (_ & I & T & K & _).
  split; [|split].
  - change (setup_keepalive_interval f) with (sf_keepalive_interval f) in I.
    destruct (is_latest_from _ _ _ _ I) as [->|(c & _ & S)]; [reflexivity|]. eapply sets_interval_lt; eassumption.
  - change (setup_keepalive_timeout f) with (sf_keepalive_timeout f) in T.
    destruct (is_latest_from _ _ _ _ T) as [->|(c & _ & S)]; [reflexivity|]. eapply sets_timeout_lt; eassumption.
  - change (setup_resume_token f) with (sf_resume_token f) in K.
    destruct (is_latest_from _ _ _ _ K) as [->|(c & N & S)]; [cbn; unfold size; cbn; lia|].
    destruct c; try discriminate. injection S as <-. cbn [part].
    destruct (N.leb_spec (size token) 65535) as [L|L]; [exact L|]. exfalso.
    assert (P : setup_run bd cs = Panic) by (apply setup_panics; exists (SetResumeToken token); split; [exact N|exact L]).
    congruence.
Qed.

Lemma testbit_payload_new : forall w p i, (i = 5 \/ i = 4) ->
  N.testbit (let fl := fl_inter w (fl_union (fl_union FL_FOLLOWS FL_COMPLETE) FL_NEXT) in
             if payload_has_metadata p then fl_union fl FL_METADATA else fl) i = N.testbit w i.
Proof.
  intros w p i H. cbv zeta. unfold fl_inter, fl_union.
  destruct H as [->| ->]; destruct (payload_has_metadata p); rewrite ?N.lor_spec, N.land_spec;
    cbn; rewrite ?orb_false_r, andb_true_r; reflexivity.
Qed.

Lemma built_iff : forall bd c f, new_run bd c = Ret f -> (obeys f <-> careful c).
Proof.
  intros bd c f H.
  assert (Z : forall n, 0 < n mod 2 ^ 31 <-> n mod 2 ^ 31 <> 0) by (intro n; symmetry; apply N.neq_0_lt_0).
  destruct c; cbn [new_run] in H;
    try (apply oc_map_ret in H; destruct H as (q & H & ->));
    unfold error_new, lease_new, keepalive_new, request_response_new, request_fnf_new, request_stream_new,
      request_channel_new, request_n_new, cancel_new, payload_frame_new, resume_new, resume_ok_new in H.
  - (* SETUP *)
    destruct (setup_ranges _ _ _ H) as (A & B & C). destruct (setup_history _ _ _ H) as (_ & I & T & _).
    change (setup_keepalive_interval q) with (sf_keepalive_interval q) in I.
    change (setup_keepalive_timeout q) with (sf_keepalive_timeout q) in T.
    cbn [obeys careful]. split.
    + intros (X & _ & Y & _). split; eexists; (split; [eassumption|lia]).
    + intros [(i & I' & X) (t & T' & Y)].
      rewrite (is_latest_unique _ _ _ _ _ I' I) in X. rewrite (is_latest_unique _ _ _ _ _ T' T) in Y.
      unfold u31. repeat split; try assumption; lia.
  - strip. injection H as <-. cbn [obeys careful ef_stream_id ef_code]. rewrite !land_max_u31.
    split; [intros [_ X]; exact X|]. intro X. split; [apply mod31|exact X].
  - strip. injection H as <-. cbn [obeys careful lf_ttl lf_number_of_requests]. tauto.
  - strip. injection H as <-. cbn [obeys careful kf_last_received_position]. rewrite land_max_u63.
    split; [auto|]. intros _. apply mod63.
  - strip. injection H as <-. cbn [obeys careful rr_stream_id]. rewrite land_max_u31. split; [auto|]. intros _. apply mod31.
  - strip. injection H as <-. cbn [obeys careful fnf_stream_id]. rewrite land_max_u31. split; [auto|]. intros _. apply mod31.
  - strip. injection H as <-. cbn [obeys careful rs_stream_id rs_initial_request_n]. rewrite !land_max_u31, <- Z.
    split; [tauto|]. intro X. split; [apply mod31|]. split; [exact X|apply mod31].
  - strip. injection H as <-. cbn [obeys careful rc_stream_id rc_initial_request_n]. rewrite !land_max_u31, <- Z.
    split; [tauto|]. intro X. split; [apply mod31|]. split; [exact X|apply mod31].
  - strip. injection H as <-. cbn [obeys careful rn_stream_id rn_request_n]. rewrite !land_max_u31, <- Z.
    split; [tauto|]. intro X. split; [apply mod31|]. split; [exact X|apply mod31].
  - strip. injection H as <-. cbn [obeys careful cf_stream_id]. rewrite land_max_u31. split; [auto|]. intros _. apply mod31.
  - strip. injection H as <-. cbn [obeys careful pf_stream_id pf_flags]. rewrite land_max_u31.
    rewrite !testbit_payload_new by auto. split; [tauto|]. intro X. split; [apply mod31|exact X].
  - injection H as <-. cbn [obeys careful]. tauto.
  - strip. injection H as <-. cbn [obeys careful rf_resume_token rf_last_received_server_position rf_first_available_client_position].
    rewrite !land_max_u63. split; [tauto|]. intro X. split; [exact X|]. split; apply mod63.
  - strip. injection H as <-. cbn [obeys careful ro_last_received_client_position]. rewrite land_max_u63.
    split; [auto|]. intros _. apply mod63.
Qed.

Lemma lawful_careful : forall c, lawful_arguments c -> careful c \/ exists cs, c = NewSetup cs.
Proof.
  intros c H. destruct c; cbn [lawful_arguments careful] in *; unfold u31, u63 in *; try (left; exact Logic.I); try tauto; eauto;
    left; rewrite ?N.mod_small by tauto; try tauto; lia.
Qed.

Lemma lawful_built : forall bd c, lawful_arguments c -> exists f, new_run bd c = Ret f /\ obeys f.
Proof.
  intros bd c H.
  assert (R : exists f, new_run bd c = Ret f).
  { destruct c; cbn [new_run lawful_arguments] in *; unfold u31, u63 in *;
      unfold error_new, lease_new, keepalive_new, request_response_new, request_fnf_new, request_stream_new,
        request_channel_new, request_n_new, cancel_new, payload_frame_new, resume_new, resume_ok_new;
      try (rewrite ?max_u31_ok, ?max_u63_ok, ?non_zero_ok by tauto; eexists; reflexivity).
    destruct (setup_run bd cs) as [f| |] eqn:E; [eexists; reflexivity| |exfalso; exact (setup_no_loop bd cs E)].
    exfalso. destruct (proj1 (setup_panics bd cs) E) as (c & I & R). destruct H as (A & B & C & D).
    destruct c; cbn [refused] in R; try exact R.
    - destruct R as [_ R]. apply A in I. lia.
    - destruct R as [_ R]. apply B in I. lia.
    - apply C in I. lia.
    - specialize (D _ (or_introl I)). lia.
    - specialize (D _ (or_intror I)). lia. }
  destruct R as [f R]. exists f. split; [exact R|]. apply (built_iff _ _ _ R).
  destruct (lawful_careful c H) as [X|[cs ->]]; [exact X|].
  cbn [lawful_arguments] in H. destruct H as (A & B & _). cbn [new_run] in R.
  apply oc_map_ret in R. destruct R as (q & R & _). destruct (setup_history _ _ _ R) as (_ & I & T & _).
  cbn [careful]. split; eexists; (split; [eassumption|]).
  - destruct (is_latest_from _ _ _ _ I) as [->|(c & N & S)]; [discriminate|].
    destruct c; try discriminate. injection S as <-. apply A in N. unfold u31 in N. rewrite N.mod_small; lia.
  - destruct (is_latest_from _ _ _ _ T) as [->|(c & N & S)]; [discriminate|].
    destruct c; try discriminate. injection S as <-. apply B in N. unfold u31 in N. rewrite N.mod_small; lia.
Qed.

Lemma received_iff : forall input f rest, decode input = (DOk f, rest) -> (obeys f <-> nothing_missing f).
Proof.
  intros input f rest H. apply decode_ok_iff in H. apply parses_iff in H.
  destruct H as (r & w & r1 & r2 & _ & _ & _ & _ & [R C] & _).
  destruct f as [v|v|v|v|v|v|v|v|v|v|v|v|v|v]; cbn [in_range consistent obeys nothing_missing] in *;
    unfold u31, u63, right_stream in *; try tauto; try (split; [lia|]); try (intro; repeat split; try tauto; lia).
Qed.

(** ** Application error codes *)

Lemma application_usable : forall bd sid c d, sid < 2 ^ 31 -> application_code c ->
  ((exists f, error_new bd sid c d = Ret f /\ error_error_code f = c) <-> c < 2 ^ 31) /\
  (2 ^ 31 <= c -> error_new bd sid c d =
     match bd with Debug => Panic | Release => Ret (ErrorFrame sid (c - 2 ^ 31) d) end).
Proof.
  intros bd sid c d S [A1 A2].
  assert (B : 2 ^ 31 <= c -> error_new bd sid c d =
     match bd with Debug => Panic | Release => Ret (ErrorFrame sid (c - 2 ^ 31) d) end).
  { intro L. destruct bd.
    - apply (proj1 (proj2 (proj2 (proj2 (proj2 (proj2 (proj2 (proj2 debug_panics)))))))). auto.
    - unfold error_new. rewrite max_u31_release, max_u31_release, !land_max_u31, (N.mod_small sid) by assumption.
      do 2 f_equal. replace c with (c - 2 ^ 31 + 1 * 2 ^ 31) at 1 by lia.
      rewrite N.mod_add by discriminate. apply N.mod_small. lia. }
  split; [|exact B]. split.
  - intros (f & E & Q). destruct (N.lt_ge_cases c (2 ^ 31)) as [L|L]; [exact L|].
    rewrite (B L) in E. destruct bd; [discriminate|]. injection E as <-. cbn in Q. lia.
  - intro L. destruct (error_args bd sid c d S L) as (f & E & _ & Q & _). eauto.
Qed.

Lemma application_sent : forall sid c d, 0 < sid < 2 ^ 31 -> application_code c -> solid d -> exists f bs,
  error_new Release sid c d = Ret f /\ frame_encode (FError f) [] = EOk bs /\
  (connection_code (c mod 2 ^ 31) -> fst (decode bs) = DErr (InvalidStreamId "0" sid)) /\
  (~ connection_code (c mod 2 ^ 31) -> decode bs = (DOk (FError (ErrorFrame sid (c mod 2 ^ 31) d)), [])).
Proof.
  intros sid c d [S0 S] A D.
  assert (E : error_new Release sid c d = Ret (ErrorFrame sid (c mod 2 ^ 31) d)).
  { unfold error_new. rewrite max_u31_release, max_u31_release, !land_max_u31, (N.mod_small sid) by assumption. reflexivity. }
  set (e := ErrorFrame sid (c mod 2 ^ 31) d) in *. pose proof (mod31 c) as M.
  assert (R : in_range (FError e)) by (cbn [in_range e ef_stream_id ef_code]; split; [exact S|cbn in *; lia]).
  assert (B : frame_encode (FError e) [] = EOk (wire_bytes 0 (flag_word (FError e)) 0 0 (FError e))).
  { rewrite encode_ok; [reflexivity|now apply in_range_typed|now apply in_range_small]. }
  eexists e, _. split; [exact E|]. split; [exact B|]. split; intro K.
  - refine (proj1 (error_frame_iff _ sid (flag_word (FError e)) (c mod 2 ^ 31) _ _) K _); [| |lia]; unfold wire_bytes.
    + apply has_header_iff. exists 0, (body_bytes 0 0 (FError e)). repeat split; try reflexivity; exact S.
    + apply has_error_code_iff. split; [cbn in *; lia|]. exists (part d). reflexivity.
  - assert (F : fits (FError e)).
    { split; [exact R|]. cbn [consistent e ef_stream_id ef_code ef_data]. split; [contradiction|]. split; [lia|exact D]. }
    destruct (roundtrip _ F) as (bs & B' & Q). rewrite (B' []) in B. cbn [app] in B.
    apply (f_equal (fun r => match r with EOk x => x | EPanic x => x end)) in B. rewrite <- B. exact Q.
Qed.

Lemma application_carried : forall sid c d, sid < 2 ^ 31 -> application_code c -> solid d -> exists bs,
  frame_encode (FError (ErrorFrame sid c d)) [] = EOk bs /\ decode bs = (DOk (FError (ErrorFrame sid c d)), []).
Proof.
  intros sid c d S [A1 A2] D.
  assert (F : fits (FError (ErrorFrame sid c d))).
  { split; [cbn [in_range ef_stream_id ef_code]; split; [exact S|cbn; lia]|]. cbn [consistent ef_stream_id ef_code ef_data].
    unfold connection_code, stream_code. split; [lia|]. split; [lia|exact D]. }
  destruct (roundtrip _ F) as (bs & B & Q). exists bs. rewrite B. auto.
Qed.
