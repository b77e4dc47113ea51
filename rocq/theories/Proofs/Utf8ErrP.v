(** * Where UTF-8 validation stops *)

From Coq Require Import Lia ZifyBool.
From Verif Require Import Model.Utf8M Spec.Text Proofs.BitsP Proofs.Utf8P.
Ltac Zify.zify_post_hook ::= Z.to_euclidean_division_equations.

Notation V := utf8_valid.

Lemma completable_valid : forall l, completable l <-> exists r, V (l ++ r) = true.
Proof. intros l. split; intros [r H]; exists r; now apply utf8_valid_iff. Qed.

(** A fault in the first character. *)
Lemma fault_here : forall l k, (0 < length l)%nat -> (k <= length l)%nat ->
  (forall j, (1 <= j <= k)%nat -> V (firstn j l) = false) -> (exists r, V (firstn k l ++ r) = true) ->
  (k = length l -> fault l (Utf8Error 0 None)) /\
  ((k < length l)%nat -> (forall x, V (firstn (k + 1) l ++ x) = false) -> fault l (Utf8Error 0 (Some (Nat.max 1 k)))).
Proof.
  intros l k Hl Hk Hj Hc. split.
  - intros ->. unfold fault. cbn [ue_valid_up_to ue_error_len]. split.
    + split; [lia|]. split; [now apply utf8_valid_iff|]. intros k' Hk'. rewrite <- utf8_valid_iff, Hj by lia. discriminate.
    + apply completable_valid. now rewrite firstn_all in Hc.
  - intros Lt Hx.
    assert (B : forall k' y, (k < k')%nat -> V (firstn k' l ++ y) = false).
    { intros k' y Hk'. replace (firstn k' l) with (firstn (k + 1) l ++ firstn (k' - (k + 1)) (skipn (k + 1) l)).
      - rewrite <- app_assoc. apply Hx.
      - replace (firstn (k + 1) l) with (firstn (k + 1) (firstn k' l)) by (rewrite firstn_firstn; f_equal; lia).
        replace (firstn (k' - (k + 1)) (skipn (k + 1) l)) with (skipn (k + 1) (firstn k' l)) by apply skipn_firstn_comm.
        apply firstn_skipn. }
    unfold fault. cbn [ue_valid_up_to ue_error_len]. split; [|split].
    + split; [lia|]. split; [now apply utf8_valid_iff|]. intros k' Hk'. rewrite <- utf8_valid_iff.
      destruct (Nat.le_gt_cases k' k) as [L|L]; [rewrite Hj by lia; discriminate|].
      specialize (B k' [] L). rewrite app_nil_r in B. rewrite B. discriminate.
    + rewrite completable_valid. intros [r Hr]. specialize (B (length l) r Lt). rewrite firstn_all in B. congruence.
    + exists k. split; [|lia]. split; [lia|]. split; [now apply completable_valid|].
      intros k' Hk'. rewrite completable_valid. intros [r Hr]. rewrite B in Hr by lia. discriminate.
Qed.

(** A fault after some characters. *)
Lemma fault_shift : forall c r o n, c <> [] -> (forall x, V (c ++ x) = V x) ->
  fault r (Utf8Error o n) -> fault (c ++ r) (Utf8Error (length c + o) n).
Proof.
  intros c r o n Hc Hv F. unfold fault in *. cbn [ue_valid_up_to ue_error_len] in *. destruct F as ((L & U & M) & F).
  assert (Fn : forall k, firstn (length c + k) (c ++ r) = c ++ firstn k r) by (intros; apply firstn_app_2).
  assert (Uc : forall x, utf8 (c ++ x) <-> utf8 x) by (intros; now rewrite <- !utf8_valid_iff, Hv).
  assert (Cc : forall x, completable (c ++ x) <-> completable x).
  { intros x. unfold completable. split; intros [y Hy]; exists y; [rewrite <- app_assoc in Hy|rewrite <- app_assoc]; now apply Uc. }
  assert (Lo : forall (P : bytes -> Prop) k, (forall x, P (c ++ x) <-> P x) -> longest P r k -> longest P (c ++ r) (length c + k)).
  { intros P k HP (A & B & C). split; [rewrite app_length; lia|]. split; [rewrite Fn; now apply HP|].
    intros k' Hk'. rewrite app_length in Hk'. replace k' with (length c + (k' - length c))%nat by lia. rewrite Fn, HP. apply C. lia. }
  split; [apply Lo; [exact Uc|now repeat split]|].
  destruct n as [n|]; [|now apply Cc].
  destruct F as (F1 & k & Hk & ->). split; [now rewrite Cc|].
  exists (length c + k)%nat. split; [now apply Lo|]. f_equal. lia.
Qed.

(** Characters that can begin with the bytes read so far. *)
Lemma width_cases : forall b, let w := char_width (b2n b) in
  (w = 1 /\ b2n b < 128) \/ (w = 2 /\ 194 <= b2n b <= 223) \/ (w = 3 /\ 224 <= b2n b <= 239) \/ (w = 4 /\ 240 <= b2n b <= 244) \/
  (w = 0).
Proof.
  intros b. cbv zeta. unfold char_width.
  destruct (b2n b <? 128) eqn:E1; [left; lia|].
  destruct ((194 <=? b2n b) && (b2n b <=? 223)) eqn:E2; [right; left; lia|].
  destruct ((224 <=? b2n b) && (b2n b <=? 239)) eqn:E3; [do 2 right; left; lia|].
  destruct ((240 <=? b2n b) && (b2n b <=? 244)) eqn:E4; [do 3 right; left; lia|].
  do 4 right. reflexivity.
Qed.

Definition low : byte := n2b 0x80.
Lemma low_cont : is_cont low = true. Proof. reflexivity. Qed.
Definition second (b1 : byte) : byte :=
  if b2n b1 =? 0xE0 then n2b 0xA0 else if b2n b1 =? 0xF0 then n2b 0x90 else low.
Lemma second_3 : forall b1, 224 <= b2n b1 <= 239 -> second_of_3 (b2n b1) (b2n (second b1)) = true.
Proof.
  intros b1 H. unfold second. destruct (b2n b1 =? 0xE0) eqn:E; [|destruct (b2n b1 =? 0xF0) eqn:F; [lia|]].
  - replace (b2n b1) with 0xE0 by lia. reflexivity.
  - change (b2n low) with 0x80. unfold second_of_3. lia.
Qed.
Lemma second_4 : forall b1, 240 <= b2n b1 <= 244 -> second_of_4 (b2n b1) (b2n (second b1)) = true.
Proof.
  intros b1 H. unfold second. destruct (b2n b1 =? 0xE0) eqn:E; [lia|destruct (b2n b1 =? 0xF0) eqn:F].
  - replace (b2n b1) with 0xF0 by lia. reflexivity.
  - change (b2n low) with 0x80. unfold second_of_4. lia.
Qed.

(** The validator on a character of known width. *)
Ltac width W := cbn [app utf8_valid]; cbv zeta; rewrite ?W; cbn [N.eqb Pos.eqb].
Ltac each j := let H := fresh in intros j H; destruct j as [|[|[|[|j]]]]; cbn [firstn]; try lia.

Lemma check_fault : forall k l o e, (length l <= k)%nat -> utf8_check o l = Some e ->
  exists v, ue_valid_up_to e = (o + v)%nat /\ fault l (Utf8Error v (ue_error_len e)).
Proof.
  induction k as [|k IH]; intros l o e Hk H; (destruct l as [|b1 r1]; [discriminate|]); [cbn in Hk; lia|].
  cbn [utf8_check length] in *. cbv zeta in H.
  assert (Shift : forall c r, (length r <= k)%nat -> c <> [] -> (forall x, V (c ++ x) = V x) ->
    utf8_check (o + length c) r = Some e -> exists v, ue_valid_up_to e = (o + v)%nat /\ fault (c ++ r) (Utf8Error v (ue_error_len e))).
  { intros c r Lr Nc Hv Hc. destruct (IH r (o + length c)%nat e Lr Hc) as (v & E & F).
    exists (length c + v)%nat. split; [lia|]. now apply fault_shift. }
  assert (Here : forall l n, fault l (Utf8Error 0 n) -> Some (Utf8Error o n) = Some e ->
    exists v, ue_valid_up_to e = (o + v)%nat /\ fault l (Utf8Error v (ue_error_len e))).
  { intros l n F E. injection E as <-. exists 0%nat. cbn. split; [lia|exact F]. }
  destruct (width_cases b1) as [[W R]|[[W R]|[[W R]|[[W R]|W]]]]; rewrite W in H; cbn [N.eqb Pos.eqb] in H.
  - apply (Shift [b1] r1); [lia|discriminate| |exact H]. intros x. width W. reflexivity.
  - destruct r1 as [|b2 r2].
    { apply (Here _ None); [|exact H]. apply (fault_here [b1] 1); cbn; try lia; [each j; width W; reflexivity|].
      exists [low]. width W. reflexivity. }
    destruct (is_cont b2) eqn:C2.
    { cbn [length] in Hk. apply (Shift [b1; b2] r2); [lia|discriminate| |exact H]. intros x. width W. now rewrite C2. }
    apply (Here _ (Some 1%nat)); [|exact H]. apply (fault_here (b1 :: b2 :: r2) 1); cbn [length]; try lia.
    + each j. width W. reflexivity.
    + exists [low]. cbn [firstn]. width W. reflexivity.
    + intros x. cbn [firstn Nat.add]. width W. now rewrite C2.
  - assert (C1 : exists r, V ([b1] ++ r) = true).
    { exists [second b1; low]. width W. now rewrite second_3. }
    destruct r1 as [|b2 r2].
    { apply (Here _ None); [|exact H]. apply (fault_here [b1] 1); cbn [length firstn]; try lia; [each j; width W; reflexivity|exact C1]. }
    destruct (second_of_3 (b2n b1) (b2n b2)) eqn:C2.
    2:{ apply (Here _ (Some 1%nat)); [|exact H]. apply (fault_here (b1 :: b2 :: r2) 1); cbn [length]; try lia.
      + each j. width W. reflexivity.
      + exact C1.
      + intros x. cbn [firstn Nat.add]. width W. destruct x; [reflexivity|now rewrite C2]. }
    assert (C1' : exists r, V ([b1; b2] ++ r) = true).
    { exists [low]. width W. now rewrite C2. }
    destruct r2 as [|b3 r3].
    { apply (Here _ None); [|exact H]. apply (fault_here [b1; b2] 2); cbn [length firstn]; try lia; [each j; width W; reflexivity|exact C1']. }
    destruct (is_cont b3) eqn:C3.
    { cbn [length] in Hk. apply (Shift [b1; b2; b3] r3); [lia|discriminate| |exact H]. intros x. width W. now rewrite C2, C3. }
    apply (Here _ (Some 2%nat)); [|exact H]. apply (fault_here (b1 :: b2 :: b3 :: r3) 2); cbn [length]; try lia.
    + each j; width W; reflexivity.
    + exact C1'.
    + intros x. cbn [firstn Nat.add]. width W. now rewrite C2, C3.
  - assert (C1 : exists r, V ([b1] ++ r) = true).
    { exists [second b1; low; low]. width W. now rewrite second_4. }
    destruct r1 as [|b2 r2].
    { apply (Here _ None); [|exact H]. apply (fault_here [b1] 1); cbn [length firstn]; try lia; [each j; width W; reflexivity|exact C1]. }
    destruct (second_of_4 (b2n b1) (b2n b2)) eqn:C2.
    2:{ apply (Here _ (Some 1%nat)); [|exact H]. apply (fault_here (b1 :: b2 :: r2) 1); cbn [length]; try lia.
      + each j. width W. reflexivity.
      + exact C1.
      + intros x. cbn [firstn Nat.add]. width W. destruct x as [|? [|? ?]]; [reflexivity|reflexivity|now rewrite C2]. }
    assert (C1' : exists r, V ([b1; b2] ++ r) = true).
    { exists [low; low]. width W. now rewrite C2. }
    destruct r2 as [|b3 r3].
    { apply (Here _ None); [|exact H]. apply (fault_here [b1; b2] 2); cbn [length firstn]; try lia; [each j; width W; reflexivity|exact C1']. }
    destruct (is_cont b3) eqn:C3.
    2:{ apply (Here _ (Some 2%nat)); [|exact H]. apply (fault_here (b1 :: b2 :: b3 :: r3) 2); cbn [length]; try lia.
      + each j; width W; reflexivity.
      + exact C1'.
      + intros x. cbn [firstn Nat.add]. width W. destruct x as [|? ?]; [reflexivity|now rewrite C2, C3]. }
    assert (C1'' : exists r, V ([b1; b2; b3] ++ r) = true).
    { exists [low]. width W. now rewrite C2, C3. }
    destruct r3 as [|b4 r4].
    { apply (Here _ None); [|exact H]. apply (fault_here [b1; b2; b3] 3); cbn [length firstn]; try lia; [each j; width W; reflexivity|exact C1'']. }
    destruct (is_cont b4) eqn:C4.
    { cbn [length] in Hk. apply (Shift [b1; b2; b3; b4] r4); [lia|discriminate| |exact H]. intros x. width W. now rewrite C2, C3, C4. }
    apply (Here _ (Some 3%nat)); [|exact H]. apply (fault_here (b1 :: b2 :: b3 :: b4 :: r4) 3); cbn [length]; try lia.
    + each j; width W; reflexivity.
    + exact C1''.
    + intros x. cbn [firstn Nat.add]. width W. now rewrite C2, C3, C4.
  - apply (Here _ (Some 1%nat)); [|exact H]. apply (fault_here (b1 :: r1) 0); cbn [length]; try lia.
    + exists []. reflexivity.
    + intros x. cbn [firstn Nat.add]. width W. reflexivity.
Qed.

Lemma longest_unique : forall P l a b, longest P l a -> longest P l b -> a = b.
Proof.
  intros P l a b (A & B & C) (A' & B' & C'). destruct (Nat.lt_trichotomy a b) as [L|[L|L]]; [|exact L|].
  - destruct (C b); [lia|exact B'].
  - destruct (C' a); [lia|exact B].
Qed.

Lemma fault_unique : forall l e e', fault l e -> fault l e' -> e = e'.
Proof.
  intros l [v n] [v' n'] (L & F) (L' & F'). cbn [ue_valid_up_to ue_error_len] in *.
  pose proof (longest_unique _ _ _ _ L L') as <-.
  destruct n as [n|], n' as [n'|]; try tauto.
  destruct F as (_ & k & K & ->), F' as (_ & k' & K' & ->). now rewrite (longest_unique _ _ _ _ K K').
Qed.

Lemma from_utf8_error : forall v e, from_utf8 v = inr e <-> ~ utf8 v /\ fault v e.
Proof.
  intros v e. unfold from_utf8. destruct (utf8_check 0 v) as [e'|] eqn:E.
  - destruct (check_fault (length v) v 0 e' (le_n _) E) as (x & X & F).
    assert (N : ~ utf8 v).
    { rewrite <- utf8_valid_iff, <- (utf8_check_valid (length v) v 0) by lia. congruence. }
    destruct e' as [v' n']. cbn [ue_valid_up_to ue_error_len] in *. cbn [Nat.add] in X. subst x. split.
    + intros H. injection H as <-. auto.
    + intros [_ F']. f_equal. now apply (fault_unique v).
  - apply utf8_check_valid with (k := length v) in E; [|lia]. apply utf8_valid_iff in E.
    split; [discriminate|tauto].
Qed.

Lemma check_within : forall k l o e, (length l <= k)%nat -> utf8_check o l = Some e ->
  (o <= ue_valid_up_to e)%nat /\
  match ue_error_len e with
  | None => (ue_valid_up_to e + 1 <= o + length l <= ue_valid_up_to e + 3)%nat
  | Some n => (1 <= n <= 3)%nat /\ (ue_valid_up_to e + n <= o + length l)%nat
  end.
Proof.
  induction k as [|k IH]; intros l o e Hk H; (destruct l as [|b1 r1]; [discriminate|]); [cbn in Hk; lia|].
  cbn [utf8_check length] in *. cbv zeta in H.
  assert (R : forall r d, (length r + d <= S k)%nat -> (1 <= d)%nat -> utf8_check (o + d) r = Some e ->
    (o <= ue_valid_up_to e)%nat /\
    match ue_error_len e with
    | None => (ue_valid_up_to e + 1 <= o + (length r + d) <= ue_valid_up_to e + 3)%nat
    | Some n => (1 <= n <= 3)%nat /\ (ue_valid_up_to e + n <= o + (length r + d))%nat
    end).
  { intros r d Lr Ld Hr. destruct (IH r (o + d)%nat e) as (A & B); [lia|exact Hr|]. destruct (ue_error_len e); lia. }
  destruct (char_width (b2n b1) =? 1); [destruct (R r1 1%nat ltac:(lia) ltac:(lia) H) as (A & B); destruct (ue_error_len e); lia|].
  destruct (char_width (b2n b1) =? 2).
  { destruct r1 as [|b2 r2]; [injection H as <-; cbn; lia|]. cbn [length] in *.
    destruct (is_cont b2); [|injection H as <-; cbn; lia]. destruct (R r2 2%nat ltac:(lia) ltac:(lia) H) as (A & B). destruct (ue_error_len e); lia. }
  destruct (char_width (b2n b1) =? 3).
  { destruct r1 as [|b2 r2]; [injection H as <-; cbn; lia|].
    destruct (second_of_3 _ _); [|injection H as <-; cbn; lia].
    destruct r2 as [|b3 r3]; [injection H as <-; cbn; lia|]. cbn [length] in *.
    destruct (is_cont b3); [|injection H as <-; cbn; lia]. destruct (R r3 3%nat ltac:(lia) ltac:(lia) H) as (A & B). destruct (ue_error_len e); lia. }
  destruct (char_width (b2n b1) =? 4); [|injection H as <-; cbn; lia].
  destruct r1 as [|b2 r2]; [injection H as <-; cbn; lia|].
  destruct (second_of_4 _ _); [|injection H as <-; cbn; lia].
  destruct r2 as [|b3 r3]; [injection H as <-; cbn; lia|].
  destruct (is_cont b3); [|injection H as <-; cbn; lia].
  destruct r3 as [|b4 r4]; [injection H as <-; cbn; lia|]. cbn [length] in *.
  destruct (is_cont b4); [|injection H as <-; cbn; lia]. destruct (R r4 4%nat ltac:(lia) ltac:(lia) H) as (A & B). destruct (ue_error_len e); lia.
Qed.

Lemma payload_utf8_error : forall p e,
  (payload_data_utf8 p = inr e <-> exists d, p_data p = Some d /\ ~ utf8 d /\ fault d e) /\
  (payload_metadata_utf8 p = inr e <-> exists m, p_metadata p = Some m /\ ~ utf8 m /\ fault m e).
Proof.
  assert (X : forall o e, match o with Some d => from_utf8 d | None => inl [] end = inr e <->
    exists d, o = Some d /\ ~ utf8 d /\ fault d e).
  { intros [d|] e.
    - rewrite from_utf8_error. split; [intros H; exists d; tauto|]. intros (d' & E & H). injection E as <-. exact H.
    - split; [discriminate|]. intros (d & E & _). discriminate. }
  intros p e. split; apply X.
Qed.

Lemma payload_utf8_within : forall p e,
  let fits l :=
    match ue_error_len e with
    | None => (ue_valid_up_to e < length l <= ue_valid_up_to e + 3)%nat
    | Some n => (1 <= n <= 3 /\ ue_valid_up_to e + n <= length l)%nat
    end in
  (payload_data_utf8 p = inr e -> exists d, p_data p = Some d /\ fits d) /\
  (payload_metadata_utf8 p = inr e -> exists m, p_metadata p = Some m /\ fits m).
Proof.
  intros p e fits.
  assert (X : forall o, match o with Some d => from_utf8 d | None => inl [] end = inr e ->
    exists d, o = Some d /\ fits d).
  { intros [d|]; [|discriminate]. unfold from_utf8. destruct (utf8_check 0 d) as [e'|] eqn:E; [|discriminate].
    intros H. injection H as ->. exists d. split; [reflexivity|].
    destruct (check_within (length d) d 0 e (le_n _) E) as (_ & B). unfold fits. destruct (ue_error_len e); lia. }
  split; apply X.
Qed.
