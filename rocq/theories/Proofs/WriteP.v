(** * Writing a buffer out, slices at a time *)

From Verif Require Import Model.BufM Spec.Buf Proofs.BufP Proofs.BufGenP.

Section Writer.
  Context {T : Type} (ops : buf_ops T) (repr : T -> bytes -> Prop).
  Hypothesis law : lawful ops repr.
  Hypothesis gat : gathers ops repr.
  Variable fuel : nat.

  Lemma list_gathered : forall l s k, together repr l s ->
    (length (bl_vectored ops k l) <= k)%nat /\
    (exists r, s = concat (bl_vectored ops k l) ++ r) /\
    (length (bl_vectored ops k l) = k \/ concat (bl_vectored ops k l) = s).
  Proof.
    intros l s k (ss & F & _ & C). exact (gen_gathers _ ops repr fuel gat l s k (ex_intro _ ss (conj F C))).
  Qed.
  Lemma list_advance : forall l s n, together repr l s -> (n <= length s)%nat ->
    exists l', bl_advance ops n l = Ret l' /\ together repr l' (skipn n s).
  Proof.
    intros l s n H L. pose proof (law_advance _ _ (gen_lawful ops repr law (length s)) l s n (conj H (le_n _))) as A.
    apply Nat.leb_le in L. rewrite L in A. destruct A as (l' & A & R & _). exists l'. auto.
  Qed.

  Lemma turn : forall l s k n, together repr l s -> (n <= length (concat (bl_vectored ops k l)))%nat ->
    exists l', bl_advance ops n l = Ret l' /\ together repr l' (skipn n s) /\
      s = firstn n (concat (bl_vectored ops k l)) ++ skipn n s.
  Proof.
    intros l s k n H L. destruct (list_gathered l s k H) as (_ & (r & E) & _).
    assert (Ls : (n <= length s)%nat) by (rewrite E, app_length; lia).
    destruct (list_advance l s n H Ls) as (l' & A & R). exists l'. split; [exact A|]. split; [exact R|].
    rewrite <- (firstn_skipn n s) at 1. f_equal. rewrite E, firstn_app.
    replace (n - length (concat (bl_vectored ops k l)))%nat with 0%nat by lia. cbn [firstn]. now rewrite app_nil_r.
  Qed.

  Lemma written_content : forall l out l', written (buf_list_ops ops fuel) l out l' ->
    forall s, together repr l s -> exists s', s = out ++ s' /\ together repr l' s'.
  Proof.
    intros l out l' W. induction W as [l|k n l l1 out l2 L A W IH]; intros s H; [exists s; auto|].
    cbn [b_vectored b_advance buf_list_ops] in *. destruct (turn l s k n H L) as (l1' & A' & R & E).
    rewrite A in A'. injection A' as <-. destruct (IH _ R) as (s' & E' & R'). exists s'. split; [|exact R'].
    now rewrite <- app_assoc, <- E'.
  Qed.

  Lemma written_turn : forall l s k n, together repr l s ->
    (n <= length (concat (b_vectored (buf_list_ops ops fuel) k l)))%nat ->
    exists l', b_advance (buf_list_ops ops fuel) n l = Ret l'.
  Proof. intros l s k n H L. destruct (turn l s k n H L) as (l' & A & _). exists l'. exact A. Qed.

  Lemma vectored_solid : (forall n b, solid (b_vectored ops n b)) -> forall l k, solid (bl_vectored ops k l).
  Proof.
    intros Hs l k. destruct k as [|k]; [constructor|]. unfold bl_vectored. generalize (Datatypes.S k). clear k.
    induction l as [|b l IH]; intros k; [constructor|]. cbn [bl_vectored_loop].
    destruct (k - length (b_vectored ops k b))%nat; [apply Hs|]. apply Forall_app. split; [apply Hs|apply IH].
  Qed.
  Lemma written_progress : (forall n b, solid (b_vectored ops n b)) -> forall l s k, together repr l s ->
    s <> [] -> (0 < k)%nat -> (0 < length (concat (b_vectored (buf_list_ops ops fuel) k l)))%nat.
  Proof.
    intros Hs l s k H Ns Hk. cbn [b_vectored buf_list_ops]. destruct (list_gathered l s k H) as (_ & _ & G).
    pose proof (vectored_solid Hs l k) as V. destruct (bl_vectored ops k l) as [|v vs].
    - destruct G as [G|G]; cbn in G; [lia|congruence].
    - inversion V as [|? ? Hv _]; subst. cbn [concat]. rewrite app_length. destruct v; [congruence|]. cbn [length]. lia.
  Qed.

  Lemma written_finishes : (forall n b, solid (b_vectored ops n b)) -> forall k, (0 < k)%nat ->
    forall l s, together repr l s -> exists l', written (buf_list_ops ops fuel) l s l' /\ together repr l' [].
  Proof.
    intros Hs k Hk l s. revert l. remember (length s) as m eqn:Em. revert s Em.
    induction m as [m IH] using lt_wf_ind. intros s -> l H. destruct s as [|x s]; [exists l; split; [constructor|exact H]|].
    pose proof (written_progress Hs l (x :: s) k H ltac:(discriminate) Hk) as P.
    destruct (turn l (x :: s) k _ H (le_n _)) as (l1 & A & R & E).
    set (n := length (concat (bl_vectored ops k l))) in *. cbn [b_vectored buf_list_ops] in P. fold n in P.
    destruct (IH (length (skipn n (x :: s))) ltac:(rewrite skipn_length; cbn [length]; lia) _ eq_refl _ R) as (l2 & W & R2).
    exists l2. split; [|exact R2]. rewrite E.
    exact (Wr_turn (buf_list_ops ops fuel) k n l l1 _ l2 (le_n _) A W).
  Qed.
End Writer.
