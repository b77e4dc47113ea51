(** * The buffer list over any buffer *)

From Verif Require Import Model.BufM Spec.Buf Proofs.EatP Proofs.StableP Proofs.BufP.

Section Gen.
Context {T : Type} (ops : buf_ops T) (repr : T -> bytes -> Prop) (law : lawful ops repr).

Lemma gen_remaining : forall l ss, Forall2 repr l ss -> bl_remaining ops l = length (concat ss).
Proof.
  intros l ss H. induction H as [|b s l ss R H IH]; [reflexivity|].
  cbn [bl_remaining fold_right concat]. fold (bl_remaining ops l).
  now rewrite app_length, IH, (law_remaining ops repr law b s R).
Qed.

Lemma gen_chunk : forall l s, together repr l s ->
  exists r, s = bl_chunk ops l ++ r /\ (bl_chunk ops l = [] -> s = []).
Proof.
  intros l s (ss & H & S & <-). destruct H as [|b t l ss R H]; [exists []; auto|].
  cbn [bl_chunk concat]. inversion S as [|x y P Q]; subst x y.
  destruct (law_chunk ops repr law b t R) as (r & E & Z). exists (r ++ concat ss). split.
  - rewrite E at 1. now rewrite app_assoc.
  - intros N. now apply Z in N.
Qed.

Lemma gen_advance : forall l ss k, Forall2 repr l ss -> solid ss ->
  if Nat.leb k (length (concat ss))
  then exists l', bl_advance ops k l = Ret l' /\ together repr l' (skipn k (concat ss))
  else bl_advance ops k l = Panic.
Proof.
  intros l ss k H. revert k. induction H as [|b t l ss R H IH]; intros k S.
  - destruct k; cbn; [|reflexivity]. exists []. split; [reflexivity|]. exists []. repeat constructor.
  - inversion S as [|x y P Q]; subst x y. destruct k as [|k].
    { exists (b :: l). split; [reflexivity|]. exists (t :: ss). repeat split; auto. }
    cbn [bl_advance concat]. rewrite app_length, skipn_app, (law_remaining ops repr law b t R).
    destruct (Nat.ltb_spec (Datatypes.S k) (length t)) as [L|L].
    + rewrite (proj2 (Nat.leb_le _ _)) by lia.
      pose proof (law_advance ops repr law b t (Datatypes.S k) R) as A.
      rewrite (proj2 (Nat.leb_le _ _)) in A by lia. destruct A as (b' & -> & R').
      exists (b' :: l). split; [reflexivity|]. exists (skipn (Datatypes.S k) t :: ss).
      split; [now constructor|]. split.
      * constructor; [|exact Q]. intros E. apply (f_equal (@length byte)) in E.
        rewrite skipn_length in E. cbn [length] in E. lia.
      * replace (Datatypes.S k - length t)%nat with O by lia. reflexivity.
    + pose proof (law_advance ops repr law b t (length t) R) as A. rewrite Nat.leb_refl in A.
      destruct A as (b' & -> & _). specialize (IH (Datatypes.S k - length t)%nat Q).
      rewrite (skipn_all2 t) by lia. cbn [app].
      destruct (Nat.leb_spec (Datatypes.S k - length t) (length (concat ss))) as [M|M].
      * now rewrite (proj2 (Nat.leb_le _ _)) by lia.
      * now rewrite (proj2 (Nat.leb_gt _ _)) by lia.
Qed.

Lemma together_bytes : forall l s, together repr l s -> bl_remaining ops l = length s.
Proof. intros l s (ss & H & _ & <-). now apply gen_remaining. Qed.
Lemma together_advance : forall l s k, together repr l s ->
  if Nat.leb k (length s) then exists l', bl_advance ops k l = Ret l' /\ together repr l' (skipn k s)
  else bl_advance ops k l = Panic.
Proof. intros l s k (ss & H & S & <-). now apply gen_advance. Qed.

Lemma gen_put_take : forall c v fuel limit acc l s, together repr l s ->
  (limit <= length s)%nat -> (limit <= fuel)%nat ->
  exists l', put_take (BufOps (bl_remaining ops) (bl_chunk ops) (bl_advance ops) c v) fuel limit acc l
      = Ret (acc ++ firstn limit s, l') /\ together repr l' (skipn limit s).
Proof.
  intros c v fuel. induction fuel as [|fuel IH]; intros limit acc l s H L F.
  - replace limit with O by lia. exists l. cbn [put_take]. rewrite Nat.min_0_r. cbn. rewrite app_nil_r. auto.
  - cbn [put_take b_remaining b_chunk b_advance]. rewrite (together_bytes l s H), Nat.min_r by lia.
    destruct limit as [|k]; [exists l; cbn; rewrite app_nil_r; auto|].
    destruct (gen_chunk l s H) as (r & E & Z). set (ch := bl_chunk ops l) in *.
    assert (Lc : (0 < length ch <= length s)%nat).
    { split; [|rewrite E, app_length; lia]. destruct ch; [rewrite (Z eq_refl) in L; cbn in L; lia|cbn; lia]. }
    rewrite firstn_length. set (n := Nat.min (Nat.min (length ch) (Datatypes.S k)) (length ch)).
    assert (En : n = Nat.min (length ch) (Datatypes.S k)) by lia.
    pose proof (together_advance l s n H) as A. rewrite (proj2 (Nat.leb_le _ _)) in A by lia.
    destruct A as (l1 & -> & H1).
    destruct (IH (Datatypes.S k - n)%nat (acc ++ firstn (Nat.min (length ch) (Datatypes.S k)) ch) l1 _ H1) as (l2 & E2 & H2).
    { rewrite skipn_length. lia. }
    { lia. }
    exists l2. rewrite E2. split.
    + f_equal. f_equal. rewrite <- app_assoc. f_equal. rewrite <- En.
      replace (firstn n ch) with (firstn n s).
      * apply firstn_cut. lia.
      * rewrite E, firstn_app. replace (n - length ch)%nat with O by lia. cbn [firstn]. now rewrite app_nil_r.
    + rewrite skipn_add in H2. now replace (n + (Datatypes.S k - n))%nat with (Datatypes.S k) in H2 by lia.
Qed.

Lemma gen_copy : forall fuel len l s, together repr l s -> (length s <= fuel)%nat ->
  if Nat.leb len (length s)
  then exists l', bl_copy_to_bytes ops fuel len l = Ret (firstn len s, l') /\ together repr l' (skipn len s)
  else bl_copy_to_bytes ops fuel len l = Panic.
Proof.
  intros fuel len l s H F.
  assert (Slow : if Nat.leb len (length s)
    then exists l', bl_copy_slow ops fuel len l = Ret (firstn len s, l') /\ together repr l' (skipn len s)
    else bl_copy_slow ops fuel len l = Panic).
  { unfold bl_copy_slow. rewrite (together_bytes l s H).
    destruct (Nat.leb_spec len (length s)) as [L|L]; [|reflexivity].
    apply (gen_put_take _ _ fuel len [] l s); [exact H|lia|lia]. }
  destruct H as (ss & H & S & <-). destruct H as [|b t l ss R H]; [exact Slow|].
  inversion S as [|x y P Q]; subst x y.
  unfold bl_copy_to_bytes. rewrite (law_remaining ops repr law b t R).
  pose proof (law_copy ops repr law b t len R) as A.
  destruct (Nat.eqb_spec (length t) len) as [E|E].
  - cbn [concat]. rewrite app_length, (proj2 (Nat.leb_le _ _)) by lia.
    rewrite (proj2 (Nat.leb_le _ _)) in A by lia. destruct A as (b' & -> & _). exists l. split.
    + f_equal. f_equal. rewrite firstn_app. replace (len - length t)%nat with O by lia. cbn [firstn]. now rewrite app_nil_r.
    + exists ss. split; [exact H|]. split; [exact Q|]. rewrite skipn_app, skipn_all2 by lia.
      replace (len - length t)%nat with O by lia. reflexivity.
  - destruct (Nat.ltb_spec len (length t)) as [L|L]; [|exact Slow].
    cbn [concat]. rewrite app_length, (proj2 (Nat.leb_le _ _)) by lia.
    rewrite (proj2 (Nat.leb_le _ _)) in A by lia. destruct A as (b' & -> & R'). exists (b' :: l). split.
    + f_equal. f_equal. rewrite firstn_app. replace (len - length t)%nat with O by lia. cbn [firstn]. now rewrite app_nil_r.
    + exists (skipn len t :: ss). split; [now constructor|]. split.
      * constructor; [|exact Q]. intros Z. apply (f_equal (@length byte)) in Z.
        rewrite skipn_length in Z. cbn [length] in Z. lia.
      * rewrite skipn_app. replace (len - length t)%nat with O by lia. reflexivity.
Qed.

Lemma gen_lawful : forall fuel,
  lawful (buf_list_ops ops fuel) (fun l s => together repr l s /\ (length s <= fuel)%nat).
Proof.
  intros fuel. constructor; cbn [buf_list_ops b_remaining b_chunk b_advance b_copy_to_bytes].
  - intros l s [H _]. now apply together_bytes.
  - intros l s [H _]. now apply gen_chunk.
  - intros l s k [H F]. pose proof (together_advance l s k H) as A. destruct (Nat.leb k (length s)); [|exact A].
    destruct A as (l' & E & H'). exists l'. rewrite skipn_length. repeat split; auto. lia.
  - intros l s k [H F]. pose proof (gen_copy fuel k l s H F) as A. destruct (Nat.leb k (length s)); [|exact A].
    destruct A as (l' & E & H'). exists l'. rewrite skipn_length. repeat split; auto. lia.
Qed.

Lemma gen_push : forall bd b t l s, repr b t -> t <> [] -> together repr l s ->
  bl_push ops bd b l = Ret (l ++ [b]) /\ together repr (l ++ [b]) (s ++ t).
Proof.
  intros bd b t l s R N (ss & H & S & <-). split.
  - unfold bl_push. rewrite (law_remaining ops repr law b t R). destruct bd, t; reflexivity || congruence.
  - exists (ss ++ [t]). split; [apply Forall2_app; auto|]. split.
    + apply Forall_app. auto.
    + rewrite concat_app. cbn. now rewrite app_nil_r.
Qed.

Lemma gen_run : forall bd fuel h hs l s, Forall2 (same_op repr) h hs -> together repr l s ->
  solid (pushes hs) -> (length s + length (concat (pushes hs)) <= fuel)%nat ->
  fst (bl_run ops bd fuel h l) = fst (queue_run hs s) /\
  together repr (snd (bl_run ops bd fuel h l)) (snd (queue_run hs s)).
Proof.
  intros bd fuel h hs l s X. revert l s. induction X as [|o o' h hs O X IH]; intros l s H P F; [auto|].
  destruct O as [b t R| |n|n]; cbn [bl_run queue_run queue_step].
  - cbn [pushes flat_map app] in P, F. fold (pushes hs) in P, F. inversion P as [|x y Pb P']; subst x y.
    destruct (gen_push bd b t l s R Pb H) as [-> H']. cbn [concat] in F. rewrite app_length in F.
    specialize (IH _ _ H' P'). rewrite app_length in IH.
    destruct (bl_run ops bd fuel h (l ++ [b])), (queue_run hs (s ++ t)). cbn [fst snd] in *.
    destruct IH as [-> H2]; [lia|auto].
  - specialize (IH l s H P F). rewrite (together_bytes l s H).
    destruct (bl_run ops bd fuel h l), (queue_run hs s). cbn [fst snd] in *. destruct IH as [-> H2]. auto.
  - pose proof (together_advance l s n H) as A. destruct (Nat.leb n (length s)).
    + destruct A as (l1 & -> & H1). specialize (IH _ _ H1 P). rewrite skipn_length in IH.
      change (pushes (OpAdvance n :: hs)) with (pushes hs) in F.
      destruct (bl_run ops bd fuel h l1), (queue_run hs (skipn n s)). cbn [fst snd] in *.
      destruct IH as [-> H2]; [lia|auto].
    + rewrite A. auto.
  - change (pushes (OpCopy n :: hs)) with (pushes hs) in P, F.
    pose proof (gen_copy fuel n l s H ltac:(lia)) as A. destruct (Nat.leb n (length s)).
    + destruct A as (l1 & -> & H1). specialize (IH _ _ H1 P). rewrite skipn_length in IH.
      destruct (bl_run ops bd fuel h l1), (queue_run hs (skipn n s)). cbn [fst snd] in *.
      destruct IH as [-> H2]; [lia|auto].
    + rewrite A. auto.
Qed.

Lemma gen_try : forall fuel l ss, (8 <= fuel)%nat -> Forall2 repr l ss ->
  bl_try_into ops fuel l = bl_try_into flat 0 ss.
Proof.
  intros fuel l ss F H. unfold bl_try_into. generalize (@nil byte) at 1 3 as m. generalize (@nil byte) as d.
  induction H as [|b s l ss R H IH]; intros d m; [reflexivity|]. cbn [bl_try_into_loop].
  destruct (decode_any T ops repr fuel b s law F R) as [E _]. unfold decode in E. rewrite E.
  destruct (fst (frame_decode flat 0 s)); try reflexivity. destruct (fragment_parts a). apply IH.
Qed.
End Gen.

Lemma flat_gathers : gathers flat eq.
Proof.
  intros b s n ->. cbn [flat b_vectored]. destruct n as [|n]; [|destruct s as [|x s]]; cbn; rewrite ?app_nil_r.
  - repeat split; auto. now exists s.
  - repeat split; auto; [lia|]. now exists [].
  - repeat split; auto; [lia|]. exists []. now rewrite app_nil_r.
Qed.

Lemma gen_gathers : forall T (ops : buf_ops T) repr fuel, gathers ops repr ->
  gathers (buf_list_ops ops fuel) (fun l s => exists ss, Forall2 repr l ss /\ concat ss = s).
Proof.
  intros T ops repr fuel G l s n (ss & H & <-). cbn [buf_list_ops b_vectored].
  destruct n as [|n]; [cbn; repeat split; auto; now exists (concat ss)|]. unfold bl_vectored.
  generalize (S n) as k. clear n. induction H as [|b t l ss R H IH]; intros k.
  - cbn. repeat split; auto; [lia|]. now exists [].
  - cbn [bl_vectored_loop concat]. destruct (G b t k R) as (L & (r & E) & D).
    set (w := b_vectored ops k b) in *. destruct (k - length w)%nat as [|m] eqn:Em.
    + repeat split; [exact L| |left; lia]. exists (r ++ concat ss). rewrite E at 1. now rewrite app_assoc.
    + destruct D as [D|D]; [lia|]. destruct (IH (S m)) as (L2 & (r2 & E2) & D2).
      rewrite app_length, concat_app. repeat split.
      * lia.
      * exists r2. rewrite D, <- app_assoc. now rewrite <- E2.
      * destruct D2 as [D2|D2]; [left; lia|]. right. now rewrite D, D2.
Qed.
