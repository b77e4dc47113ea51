(** * Debug texts of frames and their parts *)

From Coq Require Import Lia ZifyBool Ascii.
From Verif Require Import Model.DebugM Spec.Debug.
From Verif Require Import Proofs.BitsP Proofs.TextP Proofs.DebugP.
Open Scope string_scope.
Open Scope N_scope.

(** Drop the characters both sides start with ([injection] would unfold what follows). *)
Lemma cons_tail : forall c a b, String c a = String c b -> a = b.
Proof. intros c a b H. now injection H. Qed.
Ltac strip H := match type of H with String _ _ = String _ _ => idtac end;
  repeat match type of H with String _ _ = String _ _ => apply cons_tail in H end.

Definition all_bytes : list byte := map (fun k => n2b (N.of_nat k)) (seq 0 256).
Lemma all_bytes_in : forall b, In b all_bytes.
Proof.
  intros b. unfold all_bytes. apply in_map_iff. exists (N.to_nat (b2n b)). split.
  - rewrite N2Nat.id. apply n2b_b2n.
  - apply in_seq. pose proof (b2n_lt b). lia.
Qed.

(** ** Byte strings *)

Fixpoint is_prefix (a b : string) : bool :=
  match a, b with
  | "", _ => true
  | String c a', String d b' => Ascii.eqb c d && is_prefix a' b'
  | _, _ => false
  end.
Lemma app_prefix : forall a b r r', a ++ r = b ++ r' -> is_prefix a b = true \/ is_prefix b a = true.
Proof.
  induction a as [|c a IH]; intros [|d b] r r' H; cbn in *; auto.
  injection H as -> H. rewrite Ascii.eqb_refl. cbn. eauto.
Qed.
Lemma codes_checked : forallb (fun b => forallb (fun c =>
  implb (is_prefix (byte_debug b) (byte_debug c)) (b2n b =? b2n c)) all_bytes) all_bytes = true.
Proof. vm_compute. reflexivity. Qed.
Lemma codes_free : forall b c, is_prefix (byte_debug b) (byte_debug c) = true -> b = c.
Proof.
  intros b c H. pose proof codes_checked as X. rewrite forallb_forall in X.
  specialize (X b (all_bytes_in b)). cbv beta in X. rewrite forallb_forall in X.
  specialize (X c (all_bytes_in c)). cbv beta in X. rewrite H in X. cbn [implb] in X.
  apply b2n_inj. now apply N.eqb_eq.
Qed.
Lemma byte_debug_split : forall b c r r', byte_debug b ++ r = byte_debug c ++ r' -> b = c /\ r = r'.
Proof.
  intros b c r r' H. assert (b = c) as ->.
  { destruct (app_prefix _ _ _ _ H) as [E|E]; apply codes_free in E; auto. }
  split; [reflexivity|]. now apply sapp_inv_head in H.
Qed.
(** No code is empty or starts with a quote. *)
Lemma codes_start : forallb (fun b => match byte_debug b with
  | String c _ => negb (Ascii.eqb c "034") | _ => false end) all_bytes = true.
Proof. vm_compute. reflexivity. Qed.
Lemma byte_debug_start : forall b r r', byte_debug b ++ r <> String "034" r'.
Proof.
  intros b r r' H. pose proof codes_start as X. rewrite forallb_forall in X.
  specialize (X b (all_bytes_in b)). cbv beta in X. destruct (byte_debug b) as [|c s]; [discriminate|].
  cbn in H. injection H as -> _. discriminate.
Qed.
Lemma bytes_debug_split : forall a b r r', bytes_debug a ++ r = bytes_debug b ++ r' -> a = b /\ r = r'.
Proof.
  intros a b r r' H. unfold bytes_debug, quote in H. cbn [append] in H. injection H as H.
  rewrite !sapp_assoc in H. revert b H.
  induction a as [|x a IH]; intros [|y b] H; cbn [fold_right] in H; rewrite ?sapp_assoc in H; cbn [append] in H.
  - now injection H.
  - symmetry in H. now apply byte_debug_start in H.
  - now apply byte_debug_start in H.
  - apply byte_debug_split in H as [-> H]. apply IH in H as [-> ->]. auto.
Qed.

Lemma option_debug_split : forall a b r r',
  option_debug bytes_debug a ++ r = option_debug bytes_debug b ++ r' -> a = b /\ r = r'.
Proof.
  intros [a|] [b|] r r' H; unfold option_debug, debug_tuple in H; cbn [join append] in H;
    try discriminate H; strip H; rewrite ?sapp_assoc in H; cbn [append] in H.
  - apply bytes_debug_split in H as [-> H]. strip H. auto.
  - auto.
Qed.
Lemma bool_debug_split : forall a b r r', bool_debug a ++ r = bool_debug b ++ r' -> a = b /\ r = r'.
Proof. intros [|] [|] r r' H; cbn in H; try discriminate H; injection H as ->; auto. Qed.

(** ** Flags *)

Definition flag_words (f : flags) : list string :=
  (map snd (filter (fun x => fl_contains f (fst x)) flag_names) ++
   (if N.ldiff f fl_all =? 0 then [] else ["0x" ++ fmt_base 16 (N.ldiff f fl_all)]%string))%list.
Lemma flags_debug_words : forall f,
  flags_debug f = match flag_words f with [] => "(empty)" | l => join " | " l end.
Proof. intros f. unfold flags_debug. cbv zeta. fold (flag_words f). now destruct (flag_words f). Qed.

Definition wordy (w : string) : Prop := w <> "" /\ forall c, has c w -> c <> " "%char /\ c <> ","%char /\ c <> "("%char.
Definition wordyb (w : string) : bool :=
  match w with "" => false | _ => true end &&
  (fix go (s : string) := match s with "" => true
     | String c s' => negb (Ascii.eqb c " ") && negb (Ascii.eqb c ",") && negb (Ascii.eqb c "(") && go s' end) w.
Lemma wordyb_ok : forall w, wordyb w = true -> wordy w.
Proof.
  intros w H. unfold wordyb in H. apply andb_true_iff in H as [H1 H2]. split; [now destruct w|]. clear H1.
  induction w as [|c w IH]; intros d Hd; cbn in *; [destruct Hd|].
  rewrite !andb_true_iff, !negb_true_iff, !Ascii.eqb_neq in H2. destruct Hd as [->|Hd]; [tauto|]. now apply IH.
Qed.
Lemma extra_wordy : forall n, wordy ("0x" ++ fmt_base 16 n).
Proof.
  intros n. split; [discriminate|]. intros c H.
  assert (X : forall d, digit_value d = None -> d <> "0"%char -> d <> "x"%char -> c <> d).
  { intros d Hd H0 Hx ->. cbn in H. destruct H as [H|[H|H]]; [now apply H0|now apply Hx|].
    now apply (fmt_base_has 16 n d) in H; [|lia|]. }
  repeat split; (apply X; [reflexivity|discriminate|discriminate]).
Qed.
Lemma flag_words_wordy : forall f, Forall wordy (flag_words f).
Proof.
  intros f. unfold flag_words. apply Forall_app. split.
  - apply Forall_forall. intros w H. apply in_map_iff in H as ([b w'] & E & H). cbn in E. subst w'.
    apply filter_In in H as [H _]. apply wordyb_ok.
    repeat (destruct H as [H|H]; [injection H as <- <-; reflexivity|]). destruct H.
  - destruct (_ =? 0); [constructor|]. constructor; [apply extra_wordy|constructor].
Qed.
Lemma join_comma : forall l, Forall wordy l -> ~ has "," (join " | " l).
Proof.
  induction l as [|w l IH]; intros H; [cbn; tauto|]. inversion H as [|? ? Hw Hl]; subst. intros X.
  destruct l as [|v l]; [cbn in X; now apply Hw in X as (_ & X & _)|].
  change (has "," (w ++ " | " ++ join " | " (v :: l))) in X. rewrite !has_app in X.
  destruct X as [X|[X|X]]; [now apply Hw in X as (_ & X & _)|cbn in X; intuition discriminate|now apply IH in X].
Qed.
Lemma join_inj : forall l l', Forall wordy l -> Forall wordy l' -> l <> [] -> l' <> [] ->
  join " | " l = join " | " l' -> l = l'.
Proof.
  induction l as [|w l IH]; intros [|w' l'] H H' N N' E; [congruence..|].
  inversion H as [|? ? Hw Hl]; subst. inversion H' as [|? ? Hw' Hl']; subst.
  assert (A : forall v, wordy v -> ~ has " " v) by (intros v Hv X; now apply Hv in X as (X & _)).
  destruct l as [|v l], l' as [|v' l'].
  - cbn in E. now subst.
  - exfalso. change (w = w' ++ " | " ++ join " | " (v' :: l')) in E.
    apply (A w Hw). rewrite E, !has_app. cbn. auto.
  - exfalso. change (w ++ " | " ++ join " | " (v :: l) = w') in E.
    apply (A w' Hw'). rewrite <- E, !has_app. cbn. auto.
  - change (w ++ String " " ("| " ++ join " | " (v :: l)) = w' ++ String " " ("| " ++ join " | " (v' :: l'))) in E.
    apply split_first in E as [-> E]; [|now apply A..]. apply sapp_inv_head in E. f_equal.
    apply IH; auto; discriminate.
Qed.
Lemma flags_comma : forall f, ~ has "," (flags_debug f).
Proof.
  intros f. rewrite flags_debug_words. pose proof (flag_words_wordy f) as H.
  destruct (flag_words f) as [|w l]; [cbn; intuition discriminate|]. now apply join_comma.
Qed.

Definition known_flags : list N := filter (fun k => N.ldiff k fl_all =? 0) (map N.of_nat (seq 0 512)).
Lemma known_in : forall f, In (N.land f fl_all) known_flags.
Proof.
  intros f. apply filter_In. split.
  - apply in_map_iff. exists (N.to_nat (N.land f fl_all)). rewrite N2Nat.id. split; [reflexivity|].
    apply in_seq. assert (N.land f fl_all < 512); [|lia].
    change fl_all with (N.land 0x1F0 (N.ones 9)). rewrite N.land_assoc, N.land_ones. apply N.mod_lt. discriminate.
  - apply N.eqb_eq. apply N.bits_inj. intros i. rewrite N.ldiff_spec, N.land_spec, N.bits_0.
    now destruct (N.testbit f i), (N.testbit fl_all i).
Qed.
Definition names_of (f : N) : list string := map snd (filter (fun x => fl_contains f (fst x)) flag_names).
Lemma names_known : forall f, names_of f = names_of (N.land f fl_all).
Proof.
  intros f. unfold names_of. f_equal. apply filter_ext_in. intros [b w] H. cbn [fst]. unfold fl_contains.
  rewrite <- N.land_assoc.
  repeat (destruct H as [H|H]; [injection H as <- <-; reflexivity|]). destruct H.
Qed.
Definition list_eqb (a b : list string) : bool := if list_eq_dec string_dec a b then true else false.
Lemma names_checked : forallb (fun a => forallb (fun b =>
  implb (list_eqb (names_of a) (names_of b)) (a =? b)) known_flags) known_flags = true.
Proof. vm_compute. reflexivity. Qed.
Lemma names_inj : forall f g, names_of f = names_of g -> N.land f fl_all = N.land g fl_all.
Proof.
  intros f g H. rewrite names_known, (names_known g) in H. pose proof names_checked as X.
  rewrite forallb_forall in X. specialize (X _ (known_in f)). cbv beta in X.
  rewrite forallb_forall in X. specialize (X _ (known_in g)). cbv beta in X.
  unfold list_eqb in X. destruct (list_eq_dec _ _ _) as [_|N]; [|contradiction].
  now apply N.eqb_eq.
Qed.
Lemma names_no_extra : forall f n, ~ In ("0x" ++ fmt_base 16 n) (names_of f).
Proof.
  intros f n H. apply in_map_iff in H as ([b w] & E & H). cbn in E. subst w.
  apply filter_In in H as [H _].
  repeat (destruct H as [H|H]; [discriminate H|]). destruct H.
Qed.
Lemma flag_words_inj : forall f g, flag_words f = flag_words g -> f = g.
Proof.
  intros f g H. unfold flag_words in H. fold (names_of f) (names_of g) in H.
  assert (names_of f = names_of g /\ N.ldiff f fl_all = N.ldiff g fl_all) as [A B].
  { destruct (N.ldiff f fl_all =? 0) eqn:E, (N.ldiff g fl_all =? 0) eqn:F; rewrite ?app_nil_r in H.
    - split; [exact H|]. lia.
    - exfalso. apply (names_no_extra f (N.ldiff g fl_all)). rewrite H. apply in_app_iff. right. now left.
    - exfalso. apply (names_no_extra g (N.ldiff f fl_all)). rewrite <- H. apply in_app_iff. right. now left.
    - apply app_inj_tail in H as [A B]. split; [exact A|]. apply sapp_inv_head in B.
      apply fmt_base_inj in B; [exact B|lia]. }
  apply names_inj in A. apply N.bits_inj. intros i.
  apply (f_equal (fun x => N.testbit x i)) in A. apply (f_equal (fun x => N.testbit x i)) in B.
  rewrite !N.land_spec in A. rewrite !N.ldiff_spec in B.
  destruct (N.testbit fl_all i); [now rewrite !andb_true_r in A|now rewrite !andb_true_r in B].
Qed.
Lemma flags_debug_inj : forall f g, flags_debug f = flags_debug g -> f = g.
Proof.
  intros f g H. rewrite !flags_debug_words in H. apply flag_words_inj.
  pose proof (flag_words_wordy f) as Hf. pose proof (flag_words_wordy g) as Hg.
  assert (X : forall w l, Forall wordy (w :: l) -> join " | " (w :: l) <> "(empty)").
  { intros w l Hw E. inversion Hw as [|? ? [N W] ?]; subst. destruct w as [|c w]; [congruence|].
    destruct l as [|v l]; cbn in E; injection E as -> _; destruct (W "("%char) as (_ & _ & K); now cbn; auto. }
  destruct (flag_words f) as [|w l], (flag_words g) as [|v m].
  - reflexivity.
  - exfalso. symmetry in H. now apply X in H.
  - exfalso. now apply X in H.
  - apply join_inj in H; auto; discriminate.
Qed.
Lemma flags_debug_split : forall a b r r',
  flags_debug a ++ String "," r = flags_debug b ++ String "," r' -> a = b /\ r = r'.
Proof.
  intros a b r r' H. apply split_first in H as [H ->]; [|apply flags_comma..].
  now apply flags_debug_inj in H as ->.
Qed.

(** ** Structs *)

Ltac flat H := unfold debug_struct, debug_tuple in H; cbn [join map fst snd append] in H;
  repeat match type of H with context [append (append _ _) _] => rewrite !sapp_assoc in H; cbn [append] in H end.
Lemma version_debug_split : forall a b r r', version_debug a ++ r = version_debug b ++ r' -> a = b /\ r = r'.
Proof.
  intros [a1 a2] [b1 b2] r r' H. unfold version_debug in H. flat H. cbn [v_major v_minor] in H.
  strip H. apply dec_split in H as [-> H]; [|reflexivity]. strip H. apply dec_split in H as [-> H]; [|reflexivity].
  strip H. auto.
Qed.
Lemma payload_debug_split : forall a b r r', payload_debug a ++ r = payload_debug b ++ r' -> a = b /\ r = r'.
Proof.
  intros [a1 a2] [b1 b2] r r' H. unfold payload_debug in H. flat H. cbn [p_metadata p_data] in H.
  strip H. apply option_debug_split in H as [-> H]. strip H. apply option_debug_split in H as [-> H].
  strip H. auto.
Qed.

Ltac pull H := first
  [ strip H
  | apply dec_split in H as [? H]; [|reflexivity]
  | apply flags_debug_split in H as [? H]
  | apply option_debug_split in H as [? H]
  | apply bytes_debug_split in H as [? H]
  | apply bool_debug_split in H as [? H]
  | apply version_debug_split in H as [? H]
  | apply payload_debug_split in H as [? H] ].

Ltac fields H :=
  cbn [sf_flags sf_version sf_keepalive_interval sf_keepalive_timeout sf_resume_token sf_metadata_mimetype
      sf_data_mimetype sf_payload ef_stream_id ef_code ef_data lf_ttl lf_number_of_requests lf_metadata
      kf_respond kf_last_received_position kf_data rr_stream_id rr_flags rr_payload fnf_stream_id fnf_flags
      fnf_payload rs_stream_id rs_flags rs_initial_request_n rs_payload rc_stream_id rc_flags
      rc_initial_request_n rc_payload rn_stream_id rn_request_n cf_stream_id pf_stream_id pf_flags pf_payload
      mp_metadata rf_version rf_resume_token rf_last_received_server_position rf_first_available_client_position
      ro_last_received_client_position] in H.

Lemma frame_debug_inj : forall f g, frame_debug f = frame_debug g -> f = g.
Proof.
  intros f g H. destruct f as [[]|[]|[]|[]|[]|[]|[]|[]|[]|[]|[]|[]|[]|[]], g as [[]|[]|[]|[]|[]|[]|[]|[]|[]|[]|[]|[]|[]|[]];
    unfold frame_debug in H; try discriminate H;
    cbv delta [setup_debug setup_fields error_frame_debug lease_debug keepalive_debug request_response_debug
      request_fnf_debug request_stream_debug request_channel_debug request_n_debug cancel_debug
      payload_frame_debug metadata_push_debug resume_debug resume_ok_debug] in H; cbv beta in H; flat H;
    fields H;
    repeat pull H; subst; reflexivity.
Qed.

Lemma u24_debug_inj : forall a b, u24_debug a = u24_debug b -> a = b.
Proof.
  intros [a1 a2] [b1 b2] H. unfold u24_debug in H. flat H. cbn [u24_hi u24_lo] in H. repeat pull H. now subst.
Qed.
Lemma version_debug_inj : forall a b, version_debug a = version_debug b -> a = b.
Proof. intros a b H. apply (f_equal (fun s => s ++ "")) in H. now apply version_debug_split in H as [-> _]. Qed.
Lemma payload_debug_inj : forall a b, payload_debug a = payload_debug b -> a = b.
Proof. intros a b H. apply (f_equal (fun s => s ++ "")) in H. now apply payload_debug_split in H as [-> _]. Qed.
Lemma payload_builder_debug_inj : forall a b, payload_builder_debug a = payload_builder_debug b -> a = b.
Proof. intros a b H. unfold payload_builder_debug in H. flat H. repeat pull H. now subst. Qed.
Lemma chunks_debug_inj : forall a b, chunks_debug a = chunks_debug b -> a = b.
Proof.
  intros [a1 a2 a3] [b1 b2 b3] H. unfold chunks_debug in H. flat H. cbn [ch_size ch_metadata ch_data] in H.
  repeat pull H. now subst.
Qed.
Lemma setup_builder_debug_inj : forall a b, setup_builder_debug a = setup_builder_debug b -> a = b.
Proof.
  intros [] [] H. unfold setup_builder_debug, setup_fields in H. flat H. fields H. repeat pull H. now subst.
Qed.
Lemma frame_type_debug_inj : forall a b, frame_type_debug a = frame_type_debug b -> a = b.
Proof. intros a b H. destruct a, b; (reflexivity || discriminate H). Qed.

(** ** What is shown *)

Lemma byte_shown_code : forall b, byte_shown b (byte_debug b).
Proof.
  intros b. pose proof (b2n_lt b) as L. unfold byte_debug. change (Byte.to_N b) with (b2n b).
  assert (S : forall n c, In (n, c) short_escapes -> b2n b = n -> byte_shown b (String "\" (String c ""))).
  { intros n c H E. apply Shown_short. change (Byte.to_N b) with (b2n b). now rewrite E. }
  destruct (b2n b =? 10) eqn:E1; [apply (S 10); [cbn; tauto|lia]|].
  destruct (b2n b =? 13) eqn:E2; [apply (S 13); [cbn; tauto|lia]|].
  destruct (b2n b =? 9) eqn:E3; [apply (S 9); [cbn; tauto|lia]|].
  destruct ((b2n b =? 92) || (b2n b =? 34)) eqn:E4.
  { apply orb_true_iff in E4 as [E4|E4]; apply N.eqb_eq in E4; rewrite E4; [apply (S 92)|apply (S 34)]; cbn; tauto. }
  destruct (b2n b =? 0) eqn:E5; [apply (S 0); [cbn; tauto|lia]|].
  assert (X : ~ In (b2n b) (map fst short_escapes)) by (cbn; lia).
  destruct ((32 <=? b2n b) && (b2n b <? 127)) eqn:E6.
  - apply Shown_self; change (Byte.to_N b) with (b2n b); [apply N_ascii_embedding; lia|lia|exact X].
  - apply Shown_hex; change (Byte.to_N b) with (b2n b); [lia|exact X|..].
    + assert (K : forallb (fun b => Nat.eqb (String.length ((if b2n b <? 16 then "0" else "") ++ fmt_base 16 (b2n b))) 2)
        all_bytes = true) by (vm_compute; reflexivity).
      rewrite forallb_forall in K. apply Nat.eqb_eq. apply (K b (all_bytes_in b)).
    + destruct (fmt_base_numeral 16 (b2n b) ltac:(lia)) as [[N R] _].
      destruct (b2n b <? 16); [|split; assumption]. split; [discriminate|]. exact R.
Qed.
Lemma blob_shown : forall l, shown (Blob l) (bytes_debug l).
Proof.
  intros l. unfold bytes_debug, quote. cbn [append]. apply (Shown_blob l).
  induction l as [|b l IH]; cbn [fold_right]; [constructor|]. apply Shown_cons; [apply byte_shown_code|exact IH].
Qed.

Lemma join_barred : forall l, l <> [] -> barred l (join " | " l).
Proof.
  induction l as [|w l IH]; intros N; [congruence|]. destruct l as [|v l]; [constructor|].
  apply Barred_more. now apply IH.
Qed.
Lemma names_bits : forall f, names_of f = map snd (filter (fun x => N.testbit f (fst x)) bit_names).
Proof.
  intros f. rewrite names_known.
  assert (E : filter (fun x : N * string => N.testbit f (fst x)) bit_names =
              filter (fun x : N * string => N.testbit (N.land f fl_all) (fst x)) bit_names).
  { apply filter_ext_in. intros [i w] H. cbn [fst]. rewrite N.land_spec.
    repeat (destruct H as [H|H]; [injection H as <- <-; cbn; now rewrite andb_true_r|]). destruct H. }
  rewrite E.
  assert (K : forallb (fun k => list_eqb (names_of k)
    (map snd (filter (fun x : N * string => N.testbit k (fst x)) bit_names))) known_flags = true)
    by (vm_compute; reflexivity).
  rewrite forallb_forall in K. specialize (K _ (known_in f)). cbv beta in K. unfold list_eqb in K.
  now destruct (list_eq_dec _ _ _).
Qed.
Lemma all_bits : forall i, N.testbit fl_all i = true <-> In i (map fst bit_names).
Proof.
  intros i. split.
  - intros H. destruct (N.leb_spec i 8) as [L|L].
    + assert (K : forallb (fun i => implb (N.testbit fl_all i) (existsb (N.eqb i) (map fst bit_names)))
        (map N.of_nat (seq 0 9)) = true) by (vm_compute; reflexivity).
      rewrite forallb_forall in K. specialize (K i). cbv beta in K. rewrite H in K. cbn [implb] in K.
      assert (I : In i (map N.of_nat (seq 0 9))).
      { apply in_map_iff. exists (N.to_nat i). split; [apply N2Nat.id|]. apply in_seq. lia. }
      apply K in I. apply existsb_exists in I as (x & I & E). apply N.eqb_eq in E as ->. exact I.
    + rewrite N.bits_above_log2 in H; [discriminate|]. change (N.log2 fl_all) with 8. lia.
  - intros H. repeat (destruct H as [<-|H]; [reflexivity|]). destruct H.
Qed.
Lemma flags_shown : forall f, shown (Bits f) (flags_debug f).
Proof.
  intros f. apply Shown_bits. rewrite flags_debug_words. unfold flag_words. fold (names_of f).
  rewrite names_bits. set (l := map snd _) in *.
  destruct (N.eqb_spec (N.ldiff f fl_all) 0) as [E|E].
  - assert (A : forall i, N.testbit f i = true -> In i (map fst bit_names)).
    { intros i Hi. apply all_bits. apply (f_equal (fun x => N.testbit x i)) in E.
      rewrite N.ldiff_spec, N.bits_0, Hi in E. now destruct (N.testbit fl_all i). }
    rewrite app_nil_r. destruct l as [|w l'] eqn:L.
    + apply Bits_none. intros i. destruct (N.testbit f i) eqn:B; [exfalso|reflexivity].
      pose proof (A i B) as I. apply in_map_iff in I as ([j w] & <- & I).
      assert (J : In w l).
      { unfold l. apply (in_map snd _ (j, w)). apply filter_In. split; [exact I|exact B]. }
      rewrite L in J. destruct J.
    + apply Bits_named; [exact A|]. fold l. rewrite L. now apply join_barred.
  - set (h := fmt_base 16 (N.ldiff f fl_all)).
    assert (N0 : (l ++ ["0x" ++ h]%string)%list <> []) by (now destruct l).
    destruct (l ++ ["0x" ++ h]%string)%list as [|w m] eqn:L; [congruence|]. rewrite <- L.
    apply (Bits_extra f (N.ldiff f fl_all) h); [exact E|apply fmt_base_numeral; lia| |].
    + intros i. rewrite N.ldiff_spec, andb_true_iff, negb_true_iff, <- all_bits.
      destruct (N.testbit fl_all i); intuition congruence.
    + fold l. apply join_barred. congruence.
Qed.

Lemma maybe_shown : forall o, shown (maybe o) (option_debug bytes_debug o).
Proof.
  intros [b|]; cbn [maybe option_debug]; [|apply Shown_word].
  apply Shown_tuple, blob_shown.
Qed.
Lemma truth_shown : forall b, shown (truth b) (bool_debug b).
Proof. intros b. apply Shown_word. Qed.
Lemma number_shown : forall n, shown (Number n) (fmt_dec n).
Proof. intros n. apply Shown_number, fmt_dec_numeral. Qed.
Lemma struct_shown : forall name ts fs, ts <> [] ->
  Forall2 (fun t f => fst t = fst f /\ shown (snd t) (snd f)) ts fs ->
  shown (Struct name ts) (debug_struct name fs).
Proof.
  intros name ts fs N H. apply Shown_struct. revert N. induction H as [|[k t] [k' s] ts fs [E S] H IH]; intros N.
  - congruence.
  - cbn [fst snd] in E, S. subst k'. cbn [map fst snd]. destruct fs as [|f fs].
    + inversion H; subst. apply Fields_one, S.
    + cbn [map] in *. set (l := (fst f ++ ": " ++ snd f)%string :: _) in *.
      change (fields_shown ((k, t) :: ts) ((k ++ ": " ++ s) ++ ", " ++ join ", " l)). rewrite !sapp_assoc.
      apply Fields_more; [exact S|]. apply IH. intros ->. inversion H.
Qed.
Ltac struct := apply struct_shown; [discriminate|]; repeat (apply Forall2_cons; [split; [reflexivity|]|]); [..|apply Forall2_nil];
  cbn [snd].
Lemma version_shown : forall v, shown (version_tree v) (version_debug v).
Proof. intros v. struct; apply number_shown. Qed.
Lemma payload_shown : forall p, shown (payload_tree p) (payload_debug p).
Proof. intros p. struct; apply maybe_shown. Qed.
Ltac leaf := first [apply number_shown|apply flags_shown|apply maybe_shown|apply truth_shown|apply blob_shown
  |apply version_shown|apply payload_shown].
Lemma setup_shown : forall s,
  shown (setup_tree "SetupFrame" s) (setup_debug s) /\
  shown (setup_tree "SetupFrameBuilder" s) (setup_builder_debug s).
Proof. intros s. split; (struct; leaf). Qed.
Lemma frame_shown : forall f, shown (frame_tree f) (frame_debug f).
Proof.
  intros f. destruct f; unfold frame_tree, frame_debug; (apply Shown_tuple; [..]; cbn [join]);
    try apply setup_shown; (struct; leaf).
Qed.

(** ** Printable texts *)

Fixpoint clean (s : string) : bool :=
  match s with
  | "" => true
  | String c s' => (32 <=? N_of_ascii c) && (N_of_ascii c <? 127) && clean s'
  end.
Lemma clean_printable : forall s, clean s = true -> printable s.
Proof.
  induction s as [|c s IH]; intros H i d E; [now destruct i|]. cbn in H. apply andb_true_iff in H as [A B].
  destruct i as [|i]; cbn in E; [injection E as <-; lia|]. now apply (IH B i).
Qed.
Lemma clean_app : forall a b, clean (a ++ b) = clean a && clean b.
Proof. induction a as [|c a IH]; intros b; cbn; [reflexivity|]. now rewrite IH, andb_assoc. Qed.
Lemma clean_join : forall a l, clean a = true -> Forall (fun s => clean s = true) l -> clean (join a l) = true.
Proof.
  intros a l Ha H. induction H as [|x l Hx Hl IH]; [reflexivity|]. destruct l as [|y l]; [exact Hx|].
  change (clean (x ++ a ++ join a (y :: l)) = true). rewrite !clean_app, Hx, Ha. exact IH.
Qed.
Lemma clean_struct : forall name fs, clean name = true ->
  Forall (fun f => clean (fst f) = true /\ clean (snd f) = true) fs -> clean (debug_struct name fs) = true.
Proof.
  intros name fs N H. unfold debug_struct. rewrite !clean_app, N. cbn [andb].
  rewrite clean_join; [reflexivity|reflexivity|]. apply Forall_forall. intros s I.
  apply in_map_iff in I as ([k v] & <- & I). rewrite Forall_forall in H. destruct (H _ I) as [K V].
  cbn [fst snd] in *. now rewrite !clean_app, K, V.
Qed.
Lemma clean_tuple : forall name s, clean name = true -> clean s = true -> clean (debug_tuple name [s]) = true.
Proof. intros name s N H. unfold debug_tuple. cbn [join]. now rewrite !clean_app, N, H. Qed.
Lemma clean_number : forall base n, 2 <= base <= 16 -> clean (fmt_base base n) = true.
Proof.
  intros base n Hb. destruct (fmt_base_numeral base n Hb) as [[_ R] _]. revert R. generalize 0 at 1.
  induction (fmt_base base n) as [|c s IH]; intros acc R; [reflexivity|]. cbn in R |- *.
  unfold digit_value in R.
  destruct ((48 <=? N_of_ascii c) && (N_of_ascii c <=? 57)) eqn:A.
  - destruct (_ <? base) in R; [|discriminate]. apply IH in R. rewrite R. lia.
  - destruct ((97 <=? N_of_ascii c) && (N_of_ascii c <=? 102)) eqn:B; [|discriminate].
    destruct (_ <? base) in R; [|discriminate]. apply IH in R. rewrite R. lia.
Qed.
Lemma clean_dec : forall n, clean (fmt_dec n) = true.
Proof. intros n. apply clean_number. lia. Qed.
Lemma clean_bytes : forall l, clean (bytes_debug l) = true.
Proof.
  intros l. unfold bytes_debug. rewrite !clean_app. cbn [clean quote]. rewrite !andb_true_r. cbn [andb].
  assert (K : forallb (fun b => clean (byte_debug b)) all_bytes = true) by (vm_compute; reflexivity).
  rewrite forallb_forall in K. cbn.
  enough (E : clean (fold_right (fun b s => byte_debug b ++ s) "" l) = true) by now rewrite E.
  induction l as [|b l IH]; [reflexivity|]. cbn [fold_right].
  now rewrite clean_app, (K b (all_bytes_in b)), IH.
Qed.
Lemma clean_option : forall o, clean (option_debug bytes_debug o) = true.
Proof. intros [b|]; [|reflexivity]. apply clean_tuple; [reflexivity|apply clean_bytes]. Qed.
Lemma clean_bool : forall b, clean (bool_debug b) = true.
Proof. intros [|]; reflexivity. Qed.
Lemma clean_flags : forall f, clean (flags_debug f) = true.
Proof.
  intros f. rewrite flags_debug_words.
  assert (H : Forall (fun s => clean s = true) (flag_words f)).
  { unfold flag_words. apply Forall_app. split.
    - apply Forall_forall. intros w H. apply in_map_iff in H as ([b w'] & E & H). cbn in E. subst w'.
      apply filter_In in H as [H _]. repeat (destruct H as [H|H]; [injection H as <- <-; reflexivity|]). destruct H.
    - destruct (_ =? 0); [constructor|]. constructor; [|constructor]. rewrite clean_app, clean_number by lia. reflexivity. }
  destruct (flag_words f) as [|w l]; [reflexivity|]. now apply clean_join.
Qed.
Ltac cstruct := apply clean_struct; [reflexivity|]; repeat (apply Forall_cons; [split; [reflexivity|]|]); [..|apply Forall_nil];
  cbn [snd].
Lemma clean_version : forall v, clean (version_debug v) = true.
Proof. intros v. cstruct; apply clean_dec. Qed.
Lemma clean_payload : forall p, clean (payload_debug p) = true.
Proof. intros p. cstruct; apply clean_option. Qed.
Lemma frame_clean : forall f, clean (frame_debug f) = true.
Proof.
  intros f. destruct f; unfold frame_debug; (apply clean_tuple; [reflexivity|]);
    (cstruct; match goal with
      | |- clean (fmt_dec _) = _ => apply clean_dec
      | |- clean (flags_debug _) = _ => apply clean_flags
      | |- clean (option_debug _ _) = _ => apply clean_option
      | |- clean (bool_debug _) = _ => apply clean_bool
      | |- clean (bytes_debug _) = _ => apply clean_bytes
      | |- clean (version_debug _) = _ => apply clean_version
      | |- clean (payload_debug _) = _ => apply clean_payload
      end).
Qed.
Lemma frame_printable : forall f, printable (frame_debug f).
Proof. intros f. apply clean_printable, frame_clean. Qed.

(** ** Equality *)

Lemma bytes_eq_spec : forall a b, bytes_eq a b = true <-> a = b.
Proof.
  induction a as [|x a IH]; intros [|y b]; cbn; try (split; [discriminate|discriminate]); [tauto|].
  rewrite andb_true_iff, N.eqb_eq, IH. split.
  - intros [X ->]. now apply b2n_inj in X as ->.
  - intros E. injection E as -> ->. auto.
Qed.
Lemma option_eq_spec : forall a b, option_eq a b = true <-> a = b.
Proof.
  intros [a|] [b|]; cbn; try (split; congruence). rewrite bytes_eq_spec. split; congruence.
Qed.
Lemma version_eq_spec : forall a b, version_eq a b = true <-> a = b.
Proof.
  intros [a1 a2] [b1 b2]. unfold version_eq. cbn. rewrite andb_true_iff, !N.eqb_eq.
  split; [intros [-> ->]; reflexivity|]. intros E. now injection E.
Qed.
Lemma payload_eq_spec : forall a b, payload_eq a b = true <-> a = b.
Proof.
  intros [a1 a2] [b1 b2]. unfold payload_eq. cbn. rewrite andb_true_iff, !option_eq_spec.
  split; [intros [-> ->]; reflexivity|]. intros E. now injection E.
Qed.
Ltac eqs := cbn; rewrite ?andb_true_iff, ?N.eqb_eq, ?eqb_true_iff, ?bytes_eq_spec, ?option_eq_spec, ?version_eq_spec,
  ?payload_eq_spec.
Lemma frame_eq_spec : forall f g, frame_eq f g = true <-> f = g.
Proof.
  intros f g. split.
  - destruct f as [[]|[]|[]|[]|[]|[]|[]|[]|[]|[]|[]|[]|[]|[]], g as [[]|[]|[]|[]|[]|[]|[]|[]|[]|[]|[]|[]|[]|[]];
      try discriminate; eqs; intuition congruence.
  - intros <-. destruct f as [[]|[]|[]|[]|[]|[]|[]|[]|[]|[]|[]|[]|[]|[]]; eqs; tauto.
Qed.
