(** * Frames encoded one after the other *)

From Verif Require Import Model.FrameM Spec.Codec.
From Verif Require Import Proofs.DecodeP Proofs.StableP.

Lemma part_grow : forall o ext, part (grow o ext) = part o ++ ext.
Proof. intros [l|] [|x ext]; cbn; rewrite ?app_nil_r; reflexivity. Qed.

Lemma extend_differs : forall f ext, open_ended f -> ext <> [] -> extend f ext <> f.
Proof.
  intros f ext O Hx H. apply (f_equal open_tail) in H.
  assert (X : open_tail (extend f ext) = open_tail f ++ ext).
  { destruct f; cbn in O; try tauto; unfold open_tail, extend; cbn; rewrite ?part_grow; reflexivity. }
  rewrite X in H. apply (f_equal (@length _)) in H. rewrite app_length in H. destruct ext; [congruence|]. cbn in H. lia.
Qed.

Lemma writes_content : forall fs a c, Forall fits fs -> writes frame_encode a fs c -> exists b, c = a ++ b /\
  writes frame_encode [] fs b.
Proof.
  induction fs as [|f fs IH]; intros a c F W; inversion W as [|? ? b ? ? E W']; subst.
  - exists []. split; [now rewrite app_nil_r|constructor].
  - inversion F as [|? ? Ff F']; subst. destruct (roundtrip f Ff) as (bs & E1 & _). rewrite E1 in E. injection E as <-.
    destruct (IH _ _ F' W') as (b2 & -> & W2). exists (bs ++ b2). split; [now rewrite app_assoc|].
    econstructor; [apply E1|]. cbn [app]. clear - W2 F'. revert bs. revert W2 F'.
    assert (X : forall fs a b, writes frame_encode a fs b -> Forall fits fs -> forall p, writes frame_encode (p ++ a) fs (p ++ b)).
    { intros fs0 a b W. induction W as [b|a f b fs1 c E W IH]; intros F p; [constructor|].
      inversion F as [|? ? Ff F']; subst. destruct (roundtrip f Ff) as (bs & E1 & _). rewrite E1 in E. injection E as <-.
      econstructor; [apply E1|]. rewrite <- app_assoc. now apply IH. }
    intros W2 F' bs. specialize (X _ _ _ W2 F' bs). now rewrite app_nil_r in X.
Qed.

Lemma writes_cons : forall f fs bs, Forall fits (f :: fs) -> writes frame_encode [] (f :: fs) bs ->
  exists b1 b2, bs = b1 ++ b2 /\ decode b1 = (DOk f, []) /\ writes frame_encode [] fs b2.
Proof.
  intros f fs bs F W. inversion F as [|? ? Ff F']; subst. inversion W as [|? ? b ? ? E W']; subst.
  destruct (roundtrip f Ff) as (b1 & E1 & D). rewrite E1 in E. injection E as <-.
  destruct (writes_content _ _ _ F' W') as (b2 & -> & W2). exists b1, b2. auto.
Qed.

Lemma writes_empty : forall fs, Forall fits fs -> writes frame_encode [] fs [] -> fs = [].
Proof.
  intros [|f fs] F W; [reflexivity|]. exfalso. destruct (writes_cons _ _ _ F W) as (b1 & b2 & E & D & _).
  symmetry in E. apply app_eq_nil in E as [-> _]. discriminate D.
Qed.

Lemma back_to_back : forall fs bs, Forall fits fs -> writes frame_encode [] fs bs ->
  (reads decode bs fs <-> forall l f r, fs = l ++ f :: r -> r <> [] -> ~ open_ended f).
Proof.
  induction fs as [|f fs IH]; intros bs F W.
  - inversion W; subst. split; [|constructor]. intros _ l f r H. destruct l; discriminate.
  - destruct (writes_cons _ _ _ F W) as (b1 & b2 & -> & D & W2). inversion F as [|? ? Ff F']; subst.
    specialize (IH b2 F' W2). pose proof (decode_extend b1 f [] b2 D) as X. split.
    + intros R. inversion R as [|? ? rest ? D' R']; subst. rewrite X in D'. injection D' as E1 E2.
      assert (C : fs = [] \/ ~ open_ended f).
      { destruct fs as [|g fs]; [now left|right]. intros O. apply (extend_differs f b2 O); [|exact E1].
        intros ->. apply writes_empty in W2; [discriminate|exact F']. }
      intros l h r E Hr. destruct l as [|x l]; injection E as <- E.
      * subst r. destruct C as [C|C]; [contradiction|exact C].
      * assert (N0 : ~ open_ended f) by (destruct C as [C|C]; [subst fs; destruct l; discriminate|exact C]).
        assert (rest = b2) as -> by (destruct f; cbn in N0; try tauto; symmetry; exact E2).
        eapply IH; eauto.
    + intros H. destruct fs as [|g fs].
      * inversion W2; subst. rewrite app_nil_r. econstructor; [exact D|constructor].
      * assert (N0 : ~ open_ended f) by (apply (H [] f (g :: fs)); [reflexivity|discriminate]).
        econstructor; [|apply IH].
        -- rewrite X. destruct f; cbn in N0; try tauto; reflexivity.
        -- intros l h r E Hr. apply (H (f :: l) h r); [now rewrite E|exact Hr].
Qed.

(** What a frame that is not the last one becomes. *)
Lemma swallows : forall f fs bs, Forall fits (f :: fs) -> open_ended f -> writes frame_encode [] (f :: fs) bs ->
  exists ext, writes frame_encode [] fs ext /\ decode bs = (DOk (extend f ext), []).
Proof.
  intros f fs bs F O W. destruct (writes_cons _ _ _ F W) as (b1 & b2 & -> & D & W2). exists b2. split; [exact W2|].
  rewrite (decode_extend b1 f [] b2 D). destruct f; cbn in O; try tauto; reflexivity.
Qed.
