(** * The messages of panics *)

From Verif Require Import Model.MessageM Spec.Message Spec.Buf Proofs.BufP Proofs.CodecP Proofs.DecodeP Proofs.StableP.
From Coq Require Import Ascii.
Local Open Scope string_scope.

(** ** A message where there is a panic *)

Lemma put_take_no_panic : forall c v fuel limit acc l,
  put_take (BufOps (bl_remaining flat) (bl_chunk flat) (bl_advance flat) c v) fuel limit acc l <> Panic.
Proof.
  intros c v. induction fuel as [|fuel IH]; intros limit acc l; cbn [put_take b_remaining b_chunk b_advance];
    destruct (Nat.min (bl_remaining flat l) limit); try discriminate.
  set (s := firstn _ _). pose proof (flat_advance_spec l (length s)) as A.
  assert (L : (length s <= length (concat l))%nat).
  { unfold s. rewrite firstn_length. destruct l as [|b l]; [cbn; lia|]. cbn [bl_chunk flat b_chunk concat]. rewrite app_length. lia. }
  apply Nat.leb_le in L. rewrite L in A. destruct A as (l' & -> & _). apply IH.
Qed.

Lemma copy_panics : forall fuel n l, panics (bl_copy_to_bytes flat fuel n l) = negb (Nat.leb n (bl_remaining flat l)).
Proof.
  intros fuel n l.
  assert (Slow : panics (bl_copy_slow flat fuel n l) = negb (Nat.leb n (bl_remaining flat l))).
  { unfold bl_copy_slow. destruct (Nat.leb n (bl_remaining flat l)); [|reflexivity].
    pose proof (put_take_no_panic (fun _ _ => Panic) (bl_vectored flat) fuel n [] l) as P.
    destruct (put_take _ fuel n [] l); try reflexivity. congruence. }
  destruct l as [|b l]; [exact Slow|]. unfold bl_copy_to_bytes.
  change (b_remaining flat b) with (length b). change (b_copy_to_bytes flat n b) with (flat_copy_to_bytes n b). unfold flat_copy_to_bytes.
  destruct (Nat.eqb_spec (length b) n) as [E|E]; [|destruct (Nat.ltb_spec n (length b)) as [L|L]; [|exact Slow]];
    (rewrite (proj2 (Nat.leb_le n (length b))) by lia); (rewrite (proj2 (Nat.leb_le n (bl_remaining _ _))); [reflexivity|]);
    change (bl_remaining flat (b :: l)) with (length b + bl_remaining flat l)%nat; lia.
Qed.

Lemma metadata_iff : forall p buf,
  match put_metadata_len p buf with EOk _ => metadata_says p = None | EPanic _ => metadata_says p <> None end.
Proof.
  intros p buf. unfold put_metadata_len, metadata_says, from_usize_says, says_assert, u24_from_usize.
  destruct (_ <=? U24_MAX)%N; cbn; congruence.
Qed.

Lemma encode_iff : forall f, encode_says f <> None <-> panics (frame_to_bytes f) = true.
Proof.
  intros f. unfold frame_to_bytes. destruct f as [v|v|v|v|v|v|v|v|v|v|v|v|v|v]; cbn [frame_encode encode_says];
    unfold setup_encode, error_encode, lease_encode, keepalive_encode, request_response_encode, request_fnf_encode, request_stream_encode,
      request_channel_encode, request_n_encode, cancel_encode, payload_frame_encode, metadata_push_encode, resume_encode, resume_ok_encode.
  all: unfold payload_encode, version_encode; unfold enc_seq, put_u8, put_u16, put_u32, put_u64, put_slice, enc_opt, enc_nop.
  all: repeat match goal with |- context [match ?o with Some _ => _ | None => _ end] =>
         lazymatch type of o with option bytes => destruct o end end.
  all: repeat match goal with |- context [if ?b then _ else _] => destruct b end.
  all: try (cbn; split; congruence).
  all: match goal with |- context [put_metadata_len ?p ?b] => pose proof (metadata_iff p b) as M; destruct (put_metadata_len p b) end;
       cbn [panics]; try (split; congruence).
Qed.

Ltac asserted := repeat match goal with |- context [(?a <=? ?b)%N] => destruct (a <=? b)%N | |- context [(?a =? 0)%N] => destruct (a =? 0)%N end;
  cbn; split; congruence.
Lemma message_iff : forall bd c, message bd c <> None <-> call_panics bd c = true.
Proof.
  intros bd c. destruct c as [sid fo p|sid fo p|sid fo n p|sid fo co n p|sid fl p|sid n|sid|sid code d|ttl n m|pos d r|v t a b|a|b s|v|v|p n|l b|l n|f|input];
    cbn [message call_panics];
    unfold request_response_new, request_fnf_new, request_stream_new, request_channel_new, payload_frame_new, request_n_new, cancel_new, error_new,
      lease_new, keepalive_new, resume_new, resume_ok_new, u24_from_u32, u24_from_usize, payload_chunks, from_usize_says;
    unfold says_max_u31, says_max_u63, says_non_zero, says_assert, debug_says, debug_assert_max_u31, debug_assert_max_u63, debug_assert_non_zero, debug_assert.
  13: { destruct s; cbn [setup_says setup_apply]; unfold says_max_u31, says_assert, debug_says, debug_assert_max_u31, debug_assert; destruct bd; asserted. }
  1-15: destruct bd; asserted.
  - unfold bl_push. cbn [flat b_remaining]. destruct bd, b; cbn; split; congruence.
  - rewrite copy_panics. destruct (Nat.leb n (bl_remaining flat l)); cbn; split; congruence.
  - apply encode_iff.
  - destruct (fst (decode input)); split; congruence.
Qed.

(** ** Limited arguments *)

Fixpoint first_says (bd : build) (l : list (string * N * limit)) : option string :=
  match l with
  | [] => None
  | (arg, v, Below31) :: l' => says_max_u31 bd arg v (first_says bd l')
  | (arg, v, Below63) :: l' => says_max_u63 bd arg v (first_says bd l')
  | (arg, v, NotZero) :: l' => says_non_zero bd arg v (first_says bd l')
  end.
Lemma message_first : forall bd c, limited c <> [] -> message bd c = first_says bd (limited c).
Proof. intros bd c H. destruct c; try reflexivity; try (exfalso; now apply H). destruct c; try reflexivity; exfalso; now apply H. Qed.

Lemma says_break : forall bd arg v x k,
  first_says bd ((arg, v, x) :: k) =
  match bd with
  | Release => first_says bd k
  | Debug => if match x with Below31 => (v <? 2 ^ 31)%N | Below63 => (v <? 2 ^ 63)%N | NotZero => negb (v =? 0)%N end
             then first_says bd k else Some (limit_text arg x)
  end.
Proof.
  intros bd arg v x k. destruct x; cbn [first_says]; unfold says_max_u31, says_max_u63, says_non_zero, debug_says; destruct bd; try reflexivity.
  - assert (E : (v <=? MAX_U31)%N = (v <? 2 ^ 31)%N).
    { unfold MAX_U31. destruct (N.leb_spec v 2147483647), (N.ltb_spec v (2 ^ 31)); try reflexivity; lia. }
    rewrite E. reflexivity.
  - assert (E : (v <=? MAX_U63)%N = (v <? 2 ^ 63)%N).
    { unfold MAX_U63. destruct (N.leb_spec v 9223372036854775807), (N.ltb_spec v (2 ^ 63)); try reflexivity; lia. }
    rewrite E. reflexivity.
Qed.
Lemma breaks_test : forall x v,
  match x with Below31 => (v <? 2 ^ 31)%N | Below63 => (v <? 2 ^ 63)%N | NotZero => negb (v =? 0)%N end = false <-> breaks x v.
Proof.
  intros [] v; cbn [breaks].
  - apply N.ltb_ge.
  - apply N.ltb_ge.
  - destruct (N.eqb_spec v 0); cbn; split; congruence.
Qed.

Lemma first_says_iff : forall bd l m, first_says bd l = Some m <->
  bd = Debug /\ exists arg x, m = limit_text arg x /\
    exists pre v post, l = (pre ++ (arg, v, x) :: post)%list /\ breaks x v /\ Forall (fun l => ~ breaks (snd l) (snd (fst l))) pre.
Proof.
  intros bd l m. induction l as [|[[arg v] x] l IH].
  - split; [discriminate|]. intros (_ & arg & x & _ & pre & v & post & E & _). now destruct pre.
  - rewrite says_break. destruct bd; cycle 1.
    { rewrite IH. split; intros [H _]; discriminate. }
    destruct (match x with Below31 => (v <? 2 ^ 31)%N | Below63 => (v <? 2 ^ 63)%N | NotZero => negb (v =? 0)%N end) eqn:B.
    + assert (NB : ~ breaks x v) by (rewrite <- breaks_test, B; discriminate). rewrite IH. split.
      * intros (_ & a & y & -> & pre & w & post & -> & Hb & F). split; [reflexivity|]. exists a, y. split; [reflexivity|].
        exists ((arg, v, x) :: pre), w, post. split; [reflexivity|]. split; [exact Hb|]. constructor; assumption.
      * intros (_ & a & y & -> & pre & w & post & E & Hb & F). split; [reflexivity|]. exists a, y. split; [reflexivity|].
        destruct pre as [|p0 pre]; cbn in E; [injection E as -> -> -> ->; contradiction|].
        injection E as <- ->. inversion F; subst. exists pre, w, post. auto.
    + apply breaks_test in B. split.
      * intros E. injection E as <-. split; [reflexivity|]. exists arg, x. split; [reflexivity|]. exists [], v, l. auto.
      * intros (_ & a & y & -> & pre & w & post & E & Hb & F).
        destruct pre as [|p0 pre]; cbn in E; [injection E as -> -> -> ->; reflexivity|].
        injection E as <- ->. inversion F as [|q r Q]; subst. cbn in Q. contradiction.
Qed.

Lemma argument_named : forall bd c m, limited c <> [] ->
  (message bd c = Some m <-> bd = Debug /\ exists arg x, first_broken c arg x /\ m = limit_text arg x).
Proof.
  intros bd c m H. rewrite (message_first bd c H), first_says_iff. unfold first_broken.
  split; intros (-> & arg & x & A & B); (split; [reflexivity|]); exists arg, x; auto.
Qed.

(** ** The other calls *)

Lemma others : forall bd c m, limited c = [] -> (message bd c = Some m <-> complains bd c m).
Proof.
  intros bd c m H. destruct c as [sid fo p|sid fo p|sid fo n p|sid fo co n p|sid fl p|sid n|sid|sid code d|ttl n0 m0|pos d r|v t a b|a|b s|v|v|p n|l b|l n|f|input];
    try discriminate H; cbn [message]; unfold from_usize_says, says_assert.
  - destruct s; try discriminate H; cbn [setup_says]; unfold says_assert; try (split; [discriminate|intros C; inversion C]).
    + destruct (N.leb_spec (blen token) 65535); (split; [try discriminate|]).
      * intros C. inversion C; subst. change (size token) with (blen token) in *. lia.
      * intros E. injection E as <-. constructor. change (size token) with (blen token). lia.
      * intros C. inversion C; subst. reflexivity.
    + destruct (N.leb_spec (blen mimetype) 256); (split; [try discriminate|]).
      * intros C. inversion C; subst. change (size mimetype) with (blen mimetype) in *. lia.
      * intros E. injection E as <-. constructor. change (size mimetype) with (blen mimetype). lia.
      * intros C. inversion C; subst. reflexivity.
    + destruct (N.leb_spec (blen mimetype) 256); (split; [try discriminate|]).
      * intros C. inversion C; subst. change (size mimetype) with (blen mimetype) in *. lia.
      * intros E. injection E as <-. constructor. change (size mimetype) with (blen mimetype). lia.
      * intros C. inversion C; subst. reflexivity.
  - rewrite u24_max. destruct (N.leb_spec v (2 ^ 24 - 1)); (split; [try discriminate|]).
    + intros C. inversion C; subst. lia.
    + intros E. injection E as <-. constructor. lia.
    + intros C. inversion C; subst. reflexivity.
  - rewrite u24_max. destruct (N.leb_spec v (2 ^ 24 - 1)); (split; [try discriminate|]).
    + intros C. inversion C; subst. lia.
    + intros E. injection E as <-. constructor. lia.
    + intros C. inversion C; subst. reflexivity.
  - destruct (N.eqb_spec n 0) as [->|NZ]; cbn [negb]; (split; [try discriminate|]).
    + intros E. injection E as <-. constructor.
    + intros C. inversion C; subst. reflexivity.
    + intros C. inversion C; subst. congruence.
  - destruct bd, b; cbn; split; try discriminate; try (intros E; injection E as <-; constructor); intros C; inversion C; reflexivity.
  - rewrite (remaining_concat l : bl_remaining flat l = _). destruct (Nat.leb_spec n (length (concat l))); (split; [try discriminate|]).
    + intros C. inversion C; subst. lia.
    + intros E. injection E as <-. now constructor.
    + intros C. inversion C; subst. reflexivity.
  - assert (X : forall p, metadata_says p = if (size (part (p_metadata p)) <=? 2 ^ 24 - 1)%N then None
      else Some "assertion failed: val <= U24::MAX as usize").
    { intros p. unfold metadata_says, from_usize_says, says_assert. now rewrite metadata_len_size, u24_max. }
    split.
    + intros E. destruct f; cbn [encode_says] in E; try discriminate E; rewrite X in E;
        (match type of E with context [(size (part (p_metadata ?p)) <=? _)%N] =>
          destruct (N.leb_spec (size (part (p_metadata p))) (2 ^ 24 - 1)); [discriminate E|]; injection E as <-;
          apply (Says_encode bd _ p); [reflexivity|lia] end).
    + intros C. inversion C as [| | | | | | | |bd' f' p Hp Hs|]; subst.
      destruct f; try discriminate Hp; injection Hp as <-; cbn [encode_says]; rewrite X;
        (match goal with |- context [(?a <=? ?b)%N] => destruct (N.leb_spec a b); [lia|reflexivity] end).
  - split.
    + intros E. destruct (fst (decode input)) eqn:D; try discriminate E. injection E as <-.
      destruct (proj1 (decode_panic_iff input) D) as (sid & w & Hh). econstructor; exact Hh.
    + intros C. inversion C as [| | | | | | | | |bd' i sid w Hh]; subst.
      assert (D : fst (decode input) = DPanic) by (apply decode_panic_iff; eauto). now rewrite D.
Qed.

(** ** From the message to the rule *)

Lemma app_string_assoc : forall a b c : string, a ++ b ++ c = (a ++ b) ++ c.
Proof. induction a as [|x a IH]; intros b c; cbn; [reflexivity|]. now rewrite IH. Qed.

Lemma identifier_tail : forall x s, identifier (String x s) -> x <> " "%char /\ identifier s.
Proof.
  intros x s H. split.
  - intros ->. apply (H "" s). reflexivity.
  - intros a b ->. apply (H (String x a) b). reflexivity.
Qed.

Lemma identifier_split : forall a b t u, identifier a -> identifier b -> a ++ " " ++ t = b ++ " " ++ u -> a = b /\ t = u.
Proof.
  induction a as [|x a IH]; intros [|y b] t u A B E; cbn in E.
  - injection E as ->. auto.
  - injection E as E _. apply identifier_tail in B. destruct B as [B _]. congruence.
  - injection E as E _. apply identifier_tail in A. destruct A as [A _]. congruence.
  - injection E as -> E. apply identifier_tail in A, B. destruct (IH b t u (proj2 A) (proj2 B) E) as [-> ->]. auto.
Qed.

Lemma rule_text_inj : forall x y, rule_text x = rule_text y -> x = y.
Proof. intros [] [] H; try reflexivity; discriminate H. Qed.

Lemma limit_text_inj : forall a b x y, identifier a -> identifier b -> limit_text a x = limit_text b y -> a = b /\ x = y.
Proof.
  intros a b x y A B E. unfold limit_text in E.
  change (a ++ " " ++ ("MUST be " ++ rule_text x) = b ++ " " ++ ("MUST be " ++ rule_text y)) in E.
  apply identifier_split in E; [|assumption|assumption]. destruct E as [-> E]. split; [reflexivity|].
  cbn in E. injection E as E. now apply rule_text_inj.
Qed.

Fixpoint spaceless (s : string) : bool :=
  match s with "" => true | String x s' => negb (Ascii.eqb x " ") && spaceless s' end.
Lemma spaceless_identifier : forall s, spaceless s = true -> identifier s.
Proof.
  induction s as [|x s IH]; intros H a b E.
  - destruct a; discriminate E.
  - cbn in H. apply andb_prop in H. destruct H as [H1 H2]. destruct a as [|y a]; cbn in E; injection E as -> E.
    + discriminate H1.
    + now apply (IH H2 a b).
Qed.
Lemma limited_names : forall c arg v x, In (arg, v, x) (limited c) -> identifier arg.
Proof.
  intros c arg v x H. apply spaceless_identifier.
  destruct c as [| | | | | | | | | | | |b s| | | | | | |]; try destruct s; cbn in H;
    repeat (destruct H as [H|H]; [injection H as <- _ _; reflexivity|]); contradiction.
Qed.

Lemma complains_other : forall bd c m arg x, complains bd c m -> identifier arg -> m <> limit_text arg x.
Proof.
  intros bd c m arg x C A E. unfold limit_text in E.
  change (m = arg ++ " " ++ ("MUST be " ++ rule_text x)) in E.
  assert (X : forall a t, identifier a -> a ++ " " ++ t = arg ++ " " ++ ("MUST be " ++ rule_text x) ->
    match t with String y _ => y = "M"%char | "" => False end).
  { intros a t B Q. apply identifier_split in Q; [|assumption|assumption]. destruct Q as [_ ->]. reflexivity. }
  assert (Y : forall a, spaceless a = true -> identifier a) by exact spaceless_identifier.
  destruct C; first
    [ pose proof (X "assertion" "failed: token.len() <= 65_535" (Y "assertion" eq_refl) E) as Z; cbn in Z; discriminate Z
    | pose proof (X "assertion" "failed: mimetype.len() <= 256" (Y "assertion" eq_refl) E) as Z; cbn in Z; discriminate Z
    | pose proof (X "assertion" "failed: val <= U24::MAX" (Y "assertion" eq_refl) E) as Z; cbn in Z; discriminate Z
    | pose proof (X "assertion" "failed: val <= U24::MAX as usize" (Y "assertion" eq_refl) E) as Z; cbn in Z; discriminate Z
    | pose proof (X "assertion" "failed: chunk_size != 0" (Y "assertion" eq_refl) E) as Z; cbn in Z; discriminate Z
    | pose proof (X "assertion" "failed: buf.has_remaining()" (Y "assertion" eq_refl) E) as Z; cbn in Z; discriminate Z
    | pose proof (X "`len`" "greater than remaining" (Y "`len`" eq_refl) E) as Z; cbn in Z; discriminate Z
    | pose proof (X "not" "implemented" (Y "not" eq_refl) E) as Z; cbn in Z; discriminate Z ].
Qed.

(** Two panics that say the same about limited arguments are about the same argument and limit. *)
Lemma message_tells : forall bd bd' c c' m, limited c <> [] -> message bd c = Some m -> message bd' c' = Some m ->
  exists arg x, first_broken c arg x /\ first_broken c' arg x /\ m = limit_text arg x.
Proof.
  intros bd bd' c c' m H M M'. apply (argument_named bd c m H) in M. destruct M as (_ & arg & x & F & E).
  assert (In1 : exists v, In (arg, v, x) (limited c)).
  { destruct F as (pre & v & post & L & _). exists v. rewrite L. apply in_or_app. right. now left. }
  destruct In1 as [v In1]. pose proof (limited_names c arg v x In1) as I1.
  destruct (limited c') as [|l0 ls] eqn:L'.
  - apply (others bd' c' m L') in M'. exfalso. exact (complains_other bd' c' m arg x M' I1 E).
  - assert (H' : limited c' <> []) by congruence. apply (argument_named bd' c' m H') in M'.
    destruct M' as (_ & arg' & x' & F' & E').
    assert (In2 : exists v, In (arg', v, x') (limited c')).
    { destruct F' as (pre & w & post & Lx & _). exists w. rewrite Lx. apply in_or_app. right. now left. }
    destruct In2 as [w In2]. pose proof (limited_names c' arg' w x' In2) as I2.
    rewrite E in E'. apply limit_text_inj in E'; [|assumption|assumption]. destruct E' as [<- <-].
    exists arg, x. auto.
Qed.

(** A chain of builder calls says what its first refused call says. *)
Lemma chain_message : forall bd b cs, setup_apply_all bd b cs = Panic ->
  exists pre c post b' m, cs = (pre ++ c :: post)%list /\ setup_apply_all bd b pre = Ret b' /\ message bd (BuildSetup b' c) = Some m.
Proof.
  intros bd b cs. revert b. induction cs as [|c cs IH]; intros b H; [discriminate|]. cbn [setup_apply_all] in H.
  destruct (setup_apply bd b c) as [b1| |] eqn:E; try discriminate H.
  - destruct (IH b1 H) as (pre & c' & post & b' & m & -> & A & M). exists (c :: pre), c', post, b', m.
    split; [reflexivity|]. split; [|exact M]. cbn [setup_apply_all]. now rewrite E.
  - assert (P : message bd (BuildSetup b c) <> None) by (apply message_iff; cbn [call_panics]; now rewrite E).
    destruct (message bd (BuildSetup b c)) as [m|] eqn:M; [|congruence]. exists [], c, cs, b, m. auto.
Qed.
