(** * UTF-8 validation *)

From Coq Require Import Lia ZifyBool.
From Verif Require Import Model.Utf8M Spec.Text Proofs.BitsP.
Ltac Zify.zify_post_hook ::= Z.to_euclidean_division_equations.

Ltac same_list :=
  repeat match goal with |- _ :: _ = _ :: _ => apply (f_equal2 cons); [lia|] end; reflexivity.

Ltac goal_lt F :=
  match goal with |- context [?x <? ?y] => destruct (x <? y) eqn:F end.
Ltac goal_and k F :=
  match goal with |- context [(k <=? ?x) && ?y] => destruct ((k <=? x) && y) eqn:F end.

(** ** Acceptance, without the position of the fault *)

Fixpoint utf8_valid (l : bytes) : bool :=
  match l with
  | [] => true
  | b1 :: r1 =>
    let w := char_width (b2n b1) in
    if w =? 1 then utf8_valid r1
    else if w =? 2 then
      match r1 with
      | b2 :: r2 => is_cont b2 && utf8_valid r2
      | [] => false
      end
    else if w =? 3 then
      match r1 with
      | b2 :: b3 :: r3 => second_of_3 (b2n b1) (b2n b2) && is_cont b3 && utf8_valid r3
      | _ => false
      end
    else if w =? 4 then
      match r1 with
      | b2 :: b3 :: b4 :: r4 =>
        second_of_4 (b2n b1) (b2n b2) && is_cont b3 && is_cont b4 && utf8_valid r4
      | _ => false
      end
    else false
  end.

Lemma utf8_check_valid : forall k l o, (length l <= k)%nat -> utf8_check o l = None <-> utf8_valid l = true.
Proof.
  induction k as [|k IH]; intros l o Hk; (destruct l as [|b1 r1]; [easy|]); [cbn in Hk; lia|].
  cbn [utf8_check utf8_valid length] in *. cbv zeta.
  destruct (char_width (b2n b1) =? 1); [apply IH; lia|].
  destruct (char_width (b2n b1) =? 2).
  { destruct r1 as [|b2 r2]; [easy|]. cbn [length] in *. destruct (is_cont b2); [|easy]. apply IH; lia. }
  destruct (char_width (b2n b1) =? 3).
  { destruct r1 as [|b2 r2]; [easy|]. destruct r2 as [|b3 r3]; [destruct (second_of_3 _ _); easy|].
    destruct (second_of_3 _ _); [|easy]. cbn [length] in *. destruct (is_cont b3); [|easy]. apply IH; lia. }
  destruct (char_width (b2n b1) =? 4); [|easy].
  destruct r1 as [|b2 r2]; [easy|]. destruct r2 as [|b3 r3]; [destruct (second_of_4 _ _); easy|].
  destruct r3 as [|b4 r4]; [destruct (second_of_4 _ _), (is_cont b3); easy|].
  destruct (second_of_4 _ _); [|easy]. cbn [length] in *.
  destruct (is_cont b3); [|easy]. destruct (is_cont b4); [|easy]. apply IH; lia.
Qed.

(** ** One character *)

(** What the validator accepts at the head of its input. *)
Lemma utf8_valid_spells : forall k l, (length l <= k)%nat -> utf8_valid l = true -> utf8 l.
Proof.
  induction k as [|k IH]; intros l Hk H.
  - destruct l; [|cbn in Hk; lia]. exists []. split; [constructor|reflexivity].
  - destruct l as [|b1 r1].
    { exists []. split; [constructor|reflexivity]. }
    cbn [utf8_valid] in H. cbn [length] in Hk.
    assert (step : forall pre rest c, (length rest <= k)%nat -> utf8_valid rest = true ->
              scalar c -> map Byte.to_N pre = utf8_of c -> utf8 (pre ++ rest)).
    { intros pre rest c Hl Hv Hs He. destruct (IH rest Hl Hv) as [cs [Hcs Hm]].
      exists (c :: cs). split; [now constructor|].
      rewrite map_app, He, Hm. reflexivity. }
    pose proof (b2n_lt b1) as L1. unfold char_width in H.
    destruct (b2n b1 <? 128) eqn:E1.
    { cbn [N.eqb Pos.eqb] in H. apply (step [b1] r1 (b2n b1)); [lia|exact H|left; lia|].
      unfold utf8_of. now rewrite E1. }
    destruct ((194 <=? b2n b1) && (b2n b1 <=? 223)) eqn:E2.
    { cbn [N.eqb Pos.eqb] in H. destruct r1 as [|b2 r2]; [discriminate|].
      pose proof (b2n_lt b2) as L2. unfold is_cont in H. cbn [length] in Hk.
      apply andb_prop in H. destruct H as [H Hv].
      apply (step [b1; b2] r2 ((b2n b1 - 192) * 64 + (b2n b2 - 128))); [lia|exact Hv|clear Hv; unfold scalar; lia|clear Hv].
      cbn [map]. change (Byte.to_N b1) with (b2n b1). change (Byte.to_N b2) with (b2n b2).
      unfold utf8_of.
      goal_lt F1; [lia|]. goal_lt F2; [|lia].
      same_list. }
    destruct ((224 <=? b2n b1) && (b2n b1 <=? 239)) eqn:E3.
    { cbn [N.eqb Pos.eqb] in H. destruct r1 as [|b2 [|b3 r3]]; try discriminate.
      pose proof (b2n_lt b2) as L2. pose proof (b2n_lt b3) as L3.
      unfold is_cont, second_of_3 in H. cbn [length] in Hk.
      apply andb_prop in H. destruct H as [H Hv].
      apply (step [b1; b2; b3] r3
               ((b2n b1 - 224) * 4096 + (b2n b2 - 128) * 64 + (b2n b3 - 128)));
        [lia|exact Hv|clear Hv; unfold scalar; lia|clear Hv].
      cbn [map]. change (Byte.to_N b1) with (b2n b1). change (Byte.to_N b2) with (b2n b2).
      change (Byte.to_N b3) with (b2n b3).
      unfold utf8_of.
      goal_lt F1; [lia|]. goal_lt F2; [lia|].
      goal_lt F3; [|lia].
      same_list. }
    destruct ((240 <=? b2n b1) && (b2n b1 <=? 244)) eqn:E4.
    { cbn [N.eqb Pos.eqb] in H. destruct r1 as [|b2 [|b3 [|b4 r4]]]; try discriminate.
      pose proof (b2n_lt b2) as L2. pose proof (b2n_lt b3) as L3. pose proof (b2n_lt b4) as L4.
      unfold is_cont, second_of_4 in H. cbn [length] in Hk.
      apply andb_prop in H. destruct H as [H Hv].
      apply (step [b1; b2; b3; b4] r4
               ((b2n b1 - 240) * 262144 + (b2n b2 - 128) * 4096 + (b2n b3 - 128) * 64
                + (b2n b4 - 128)));
        [lia|exact Hv|clear Hv; unfold scalar; lia|clear Hv].
      cbn [map]. change (Byte.to_N b1) with (b2n b1). change (Byte.to_N b2) with (b2n b2).
      change (Byte.to_N b3) with (b2n b3). change (Byte.to_N b4) with (b2n b4).
      unfold utf8_of.
      goal_lt F1; [lia|]. goal_lt F2; [lia|].
      goal_lt F3; [lia|].
      same_list. }
    discriminate.
Qed.

Lemma b2n_cons : forall b l x m, map Byte.to_N (b :: l) = x :: m -> b2n b = x /\ map Byte.to_N l = m.
Proof. intros b l x m H. injection H as H1 H2. now split. Qed.

Lemma spells_utf8_valid : forall cs l, spells cs l -> utf8_valid l = true.
Proof.
  induction cs as [|c cs IH]; intros l [Hs Hm].
  - destruct l; [reflexivity|discriminate].
  - inversion Hs as [|? ? Hc Hcs]. subst.
    assert (IH' : forall r, map Byte.to_N r = concat (map utf8_of cs) -> utf8_valid r = true).
    { intros r Hr. apply IH. now split. }
    clear IH. cbn [map concat] in Hm. unfold utf8_of at 1 in Hm. unfold scalar in Hc.
    destruct (c <? 0x80) eqn:F1; [|destruct (c <? 0x800) eqn:F2; [|destruct (c <? 0x10000) eqn:F3]];
      cbn [app] in Hm.
    + destruct l as [|b1 r1]; [discriminate|]. apply b2n_cons in Hm as [H1 Hm].
      cbn [utf8_valid]. unfold char_width. rewrite H1, F1. cbn [N.eqb Pos.eqb]. auto.
    + destruct l as [|b1 r1]; [discriminate|]. apply b2n_cons in Hm as [H1 Hm].
      destruct r1 as [|b2 r2]; [discriminate|]. apply b2n_cons in Hm as [H2 Hm].
      apply IH' in Hm. cbn [utf8_valid]. rewrite Hm, andb_true_r.
      unfold char_width, is_cont. rewrite H1, H2.
      goal_lt E1; [lia|].
      goal_and 194 E2; [|lia]. cbn [N.eqb Pos.eqb]. lia.
    + destruct l as [|b1 r1]; [discriminate|]. apply b2n_cons in Hm as [H1 Hm].
      destruct r1 as [|b2 r2]; [discriminate|]. apply b2n_cons in Hm as [H2 Hm].
      destruct r2 as [|b3 r3]; [discriminate|]. apply b2n_cons in Hm as [H3 Hm].
      apply IH' in Hm. cbn [utf8_valid]. rewrite Hm, andb_true_r.
      unfold char_width, is_cont, second_of_3. rewrite H1, H2, H3.
      goal_lt E1; [lia|].
      goal_and 194 E2; [lia|].
      goal_and 224 E3; [|lia]. cbn [N.eqb Pos.eqb]. lia.
    + destruct l as [|b1 r1]; [discriminate|]. apply b2n_cons in Hm as [H1 Hm].
      destruct r1 as [|b2 r2]; [discriminate|]. apply b2n_cons in Hm as [H2 Hm].
      destruct r2 as [|b3 r3]; [discriminate|]. apply b2n_cons in Hm as [H3 Hm].
      destruct r3 as [|b4 r4]; [discriminate|]. apply b2n_cons in Hm as [H4 Hm].
      apply IH' in Hm. cbn [utf8_valid]. rewrite Hm, andb_true_r.
      unfold char_width, is_cont, second_of_4. rewrite H1, H2, H3, H4.
      goal_lt E1; [lia|].
      goal_and 194 E2; [lia|].
      goal_and 224 E3; [lia|].
      goal_and 240 E4; [|lia]. cbn [N.eqb Pos.eqb]. lia.
Qed.

Lemma utf8_valid_iff : forall l, utf8_valid l = true <-> utf8 l.
Proof.
  intros l. split.
  - apply (utf8_valid_spells (length l)). lia.
  - intros [cs H]. now apply (spells_utf8_valid cs).
Qed.

Lemma from_utf8_iff : forall v s, from_utf8 v = inl s <-> utf8 v /\ s = v.
Proof.
  intros v s. unfold from_utf8. rewrite <- utf8_valid_iff, <- (utf8_check_valid (length v) v 0) by lia.
  destruct (utf8_check 0 v); split.
  - discriminate.
  - intros [H _]. discriminate.
  - intros H. injection H as <-. auto.
  - intros [_ ->]. reflexivity.
Qed.

Lemma ok_from_utf8_iff : forall v s, ok (from_utf8 v) = Some s <-> utf8 v /\ s = v.
Proof.
  intros v s. rewrite <- from_utf8_iff. destruct (from_utf8 v); cbn; split; intros H; (discriminate || congruence).
Qed.

(** ** The text is determined by its bytes *)

(** The first character is determined by the bytes it starts. *)
Lemma utf8_of_prefix : forall c d x y, scalar c -> scalar d ->
  utf8_of c ++ x = utf8_of d ++ y -> c = d /\ x = y.
Proof.
  intros c d x y Hc Hd H. unfold scalar in *. unfold utf8_of in H.
  destruct (c <? 0x80) eqn:C1; [|destruct (c <? 0x800) eqn:C2; [|destruct (c <? 0x10000) eqn:C3]];
  (destruct (d <? 0x80) eqn:D1; [|destruct (d <? 0x800) eqn:D2; [|destruct (d <? 0x10000) eqn:D3]]);
    cbn [app] in H.
  all: repeat match goal with
    | H : ?a :: ?l = ?b :: ?m |- _ =>
      let H1 := fresh in assert (H1 : a = b) by congruence; assert (l = m) by congruence; clear H
    end.
  all: split; [lia|assumption || (exfalso; lia)].
Qed.

Lemma spells_inj : forall cs ds l, spells cs l -> spells ds l -> cs = ds.
Proof.
  intros cs ds l [Hc H] [Hd H']. rewrite H in H'. clear H l.
  revert ds Hd H'. induction Hc as [|c cs Hc Hcs IH]; intros ds Hd H.
  - destruct ds as [|d ds]; [reflexivity|]. cbn in H. unfold utf8_of in H.
    destruct (d <? 0x80), (d <? 0x800), (d <? 0x10000); discriminate.
  - destruct ds as [|d ds].
    + cbn in H. unfold utf8_of in H.
      destruct (c <? 0x80), (c <? 0x800), (c <? 0x10000); discriminate.
    + inversion Hd. subst. cbn in H. apply utf8_of_prefix in H; auto.
      destruct H as [-> H]. f_equal. auto.
Qed.

(** ** ASCII *)

Lemma is_ascii_iff : forall l, is_ascii l = true <-> ascii_only l.
Proof.
  intros l. unfold is_ascii, ascii_only. rewrite forallb_forall, Forall_forall.
  split; intros H b Hb; specialize (H b Hb); unfold b2n in *; lia.
Qed.

Lemma ascii_utf8 : forall l, ascii_only l -> utf8 l.
Proof.
  intros l H. exists (map Byte.to_N l). split.
  - apply Forall_map. apply Forall_impl with (2 := H). intros b Hb. unfold scalar. lia.
  - induction H as [|b l Hb Hl IH]; [reflexivity|]. cbn [map concat].
    unfold utf8_of at 1. goal_lt E; [|lia]. cbn. now f_equal.
Qed.

Lemma mimetype_text : forall v,
  match ok (from_utf8 v) with Some x => if is_ascii x then Some x else None | None => None end
  = if is_ascii v then Some v else None.
Proof.
  intros v. destruct (is_ascii v) eqn:E.
  - assert (E' : ok (from_utf8 v) = Some v) by now apply ok_from_utf8_iff; split; [apply ascii_utf8, is_ascii_iff|].
    now rewrite E', E.
  - destruct (ok (from_utf8 v)) as [x|] eqn:F; [|reflexivity].
    apply ok_from_utf8_iff in F. destruct F as [_ ->]. now rewrite E.
Qed.
