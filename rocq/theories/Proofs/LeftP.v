(** * Which buffers of a list are left *)

From Verif Require Import Model.BufM Spec.Buf.
From Verif Require Import Proofs.BufP.

Lemma leftover_0 : forall l, solid l -> leftover 0 l = l.
Proof. intros [|[|x b] l] S; [reflexivity| |reflexivity]. inversion S. congruence. Qed.

Lemma leftover_nil : forall n l, (length (concat l) <= n)%nat -> leftover n l = [].
Proof.
  intros n l. revert n. induction l as [|b l IH]; intros n H; [reflexivity|].
  cbn [concat] in H. rewrite app_length in H. cbn [leftover]. rewrite (proj2 (Nat.leb_le _ _)) by lia.
  apply IH. lia.
Qed.

Lemma leftover_app : forall n l m, solid m -> (n <= length (concat l))%nat -> leftover n (l ++ m) = leftover n l ++ m.
Proof.
  intros n l m Sm. revert n. induction l as [|b l IH]; intros n H.
  - cbn in H. replace n with O by lia. now apply leftover_0.
  - cbn [concat] in H. rewrite app_length in H. cbn [leftover app].
    destruct (Nat.leb_spec (length b) n); [|reflexivity]. apply IH. lia.
Qed.

Lemma leftover_add : forall a b l, leftover a (leftover b l) = leftover (b + a) l.
Proof.
  intros a b l. revert b. induction l as [|x l IH]; intros b; [reflexivity|]. cbn [leftover].
  destruct (Nat.leb_spec (length x) b) as [L|L].
  - rewrite (proj2 (Nat.leb_le (length x) (b + a))) by lia. rewrite IH. f_equal. lia.
  - cbn [leftover]. rewrite skipn_length. destruct (Nat.leb_spec (length x - b) a) as [M|M].
    + rewrite (proj2 (Nat.leb_le (length x) (b + a))) by lia. f_equal. lia.
    + rewrite (proj2 (Nat.leb_gt (length x) (b + a))) by lia. now rewrite skipn_add.
Qed.

Lemma advance_leftover : forall l n l', solid l -> l_advance n l = Ret l' -> l' = leftover n l.
Proof.
  induction l as [|b l IH]; intros n l' S E; destruct n as [|n]; cbn [l_advance] in E; try discriminate;
    try (injection E as <-; symmetry; now apply leftover_0).
  inversion S as [|x y P Q]; subst x y. cbn [leftover].
  destruct (Nat.ltb_spec (Datatypes.S n) (length b)) as [L|L].
  - rewrite (proj2 (Nat.leb_gt _ _)) by lia. now injection E as <-.
  - rewrite (proj2 (Nat.leb_le _ _)) by lia. apply IH; assumption.
Qed.

Lemma put_take_leftover : forall fuel limit acc l b l', solid l -> (limit <= length (concat l))%nat ->
  l_put_take fuel limit acc l = Ret (b, l') -> l' = leftover limit l.
Proof.
  induction fuel as [|fuel IH]; intros limit acc l b l' S H E; cbn [l_put_take] in E;
    rewrite remaining_concat, Nat.min_r in E by lia; destruct limit as [|k];
    try (injection E as _ <-; symmetry; now apply leftover_0); try discriminate.
  pose proof (advance_spec l (length (firstn (Nat.min (length (l_chunk l)) (Datatypes.S k)) (l_chunk l)))) as A.
  set (s := firstn (Nat.min (length (l_chunk l)) (Datatypes.S k)) (l_chunk l)) in *.
  assert (Ls : (length s <= Datatypes.S k)%nat) by (unfold s; rewrite firstn_length; lia).
  rewrite (proj2 (Nat.leb_le _ _)) in A by lia. destruct A as (l1 & E1 & C1 & S1 & _).
  rewrite E1 in E. apply IH in E; [|auto|rewrite C1, skipn_length; lia].
  rewrite (advance_leftover _ _ _ S E1), leftover_add in E. rewrite E. f_equal. lia.
Qed.

Lemma copy_leftover : forall fuel n l b l', solid l -> l_copy_to_bytes fuel n l = Ret (b, l') -> l' = leftover n l.
Proof.
  intros fuel n l b l' S E.
  assert (Slow : l_copy_slow fuel n l = Ret (b, l') -> l' = leftover n l).
  { unfold l_copy_slow. rewrite remaining_concat. destruct (Nat.leb_spec n (length (concat l))); [|discriminate].
    now apply put_take_leftover. }
  destruct l as [|x l]; [exact (Slow E)|]. unfold l_copy_to_bytes in E. inversion S as [|u v P Q]; subst u v.
  destruct (Nat.eqb_spec (length x) n) as [Ex|Ex].
  - unfold flat_copy_to_bytes in E. rewrite (proj2 (Nat.leb_le _ _)) in E by lia. injection E as _ <-.
    cbn [leftover]. rewrite (proj2 (Nat.leb_le _ _)) by lia. replace (n - length x)%nat with O by lia.
    symmetry. now apply leftover_0.
  - destruct (Nat.ltb_spec n (length x)) as [L|L]; [|exact (Slow E)].
    unfold flat_copy_to_bytes in E. rewrite (proj2 (Nat.leb_le _ _)) in E by lia. injection E as _ <-.
    cbn [leftover]. now rewrite (proj2 (Nat.leb_gt _ _)) by lia.
Qed.

Lemma run_leftover : forall bd fuel ops l, solid l -> solid (pushes ops) ->
  (length l + length (pushes ops) <= fuel)%nat ->
  let (r, l') := l_run bd fuel ops l in
  ~ In ResPanic r -> l' = leftover (taken ops) (l ++ pushes ops).
Proof.
  intros bd fuel ops. induction ops as [|o ops IH]; intros l S P F.
  - cbn. intros _. rewrite app_nil_r. symmetry. now apply leftover_0.
  - destruct o as [b| |n|n]; cbn [l_run].
    + cbn [pushes flat_map app] in P, F. inversion P as [|x y Pb P']; subst x y.
      replace (l_push bd b l) with (Ret (l ++ [b])) by (destruct bd, b; reflexivity || congruence).
      specialize (IH (l ++ [b])). destruct (l_run bd fuel ops (l ++ [b])) as [r l'].
      intros N. rewrite IH.
      * cbn [taken map list_sum fold_right pushes flat_map app Nat.add]. now rewrite <- app_assoc.
      * apply Forall_app. split; [exact S|]. constructor; [exact Pb|constructor].
      * exact P'.
      * rewrite app_length. cbn [length] in F |- *. unfold pushes in F |- *. lia.
      * intros I. apply N. now right.
    + specialize (IH l S P F). destruct (l_run bd fuel ops l) as [r l'].
      intros N. apply IH. intros I. apply N. now right.
    + pose proof (advance_spec l n) as A. destruct (Nat.leb_spec n (length (concat l))) as [L|L].
      * destruct A as (l1 & E & C & S1 & N1). rewrite E. specialize (IH l1 (S1 S) P).
        destruct (l_run bd fuel ops l1) as [r l']. intros N. rewrite IH.
        -- rewrite (advance_leftover _ _ _ S E). change (pushes (OpAdvance n :: ops)) with (pushes ops) in *.
           rewrite <- leftover_app by assumption. rewrite leftover_add. reflexivity.
        -- change (pushes (OpAdvance n :: ops)) with (pushes ops) in F. lia.
        -- intros I. apply N. now right.
      * rewrite A. intros N. exfalso. apply N. now left.
    + change (pushes (OpCopy n :: ops)) with (pushes ops) in *.
      assert (Fl : (length l <= fuel)%nat) by lia.
      pose proof (copy_spec fuel n l S Fl) as A. destruct (Nat.leb_spec n (length (concat l))) as [L|L].
      * destruct A as (l1 & E & C & S1 & N1). rewrite E. specialize (IH l1 (S1 S) P).
        destruct (l_run bd fuel ops l1) as [r l']. intros N. rewrite IH; [|lia|].
        -- rewrite (copy_leftover _ _ _ _ _ S E).
           rewrite <- leftover_app by assumption. rewrite leftover_add. reflexivity.
        -- intros I. apply N. now right.
      * rewrite A. intros N. exfalso. apply N. now left.
Qed.

Lemma flat_run_leftover : forall bd fuel ops l r l', solid l -> solid (pushes ops) ->
  (length l + length (pushes ops) <= fuel)%nat ->
  bl_run flat bd fuel ops l = (r, l') -> ~ In ResPanic r ->
  l' = leftover (taken ops) (l ++ pushes ops) /\
  bl_len l' = length (leftover (taken ops) (l ++ pushes ops)).
Proof.
  intros bd fuel ops l r l' S P F E N. pose proof (run_leftover bd fuel ops l S P F) as H.
  rewrite <- run_flat, E in H. rewrite (H N). split; reflexivity.
Qed.
