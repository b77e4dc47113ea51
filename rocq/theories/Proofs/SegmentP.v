(** * Frames arriving in segments *)

From Verif Require Import Model.FrameM Spec.Codec Proofs.BitsP Proofs.DecodeP Proofs.StableP Proofs.BackP.

Definition closed (f : frame) : Prop := ~ open_ended f.

Lemma extend_open : forall g ext, open_ended (extend g ext) <-> open_ended g.
Proof. intros [] ext; cbn; tauto. Qed.
Lemma extend_closed : forall g ext, ~ open_ended g -> extend g ext = g.
Proof. intros [] ext H; cbn in *; try reflexivity; exfalso; apply H; exact I. Qed.

(** What a prefix of an input decodes to. *)
Lemma prefix_frame : forall a c f rest, decode (a ++ c) = (DOk f, rest) -> ~ open_ended f ->
  fst (decode a) = DErr InComplete \/ exists r, decode a = (DOk f, r) /\ rest = r ++ c.
Proof.
  intros a c f rest H C. destruct (decode a) as [o r] eqn:D.
  assert (N : o = DErr InComplete \/ (exists g, o = DOk g) \/ (o <> DErr InComplete /\ forall g, o <> DOk g)).
  { destruct o as [g|e| |]; [right; left; eauto| |right; right; split; intros; discriminate|right; right; split; intros; discriminate].
    destruct e; try (left; reflexivity); right; right; split; intros; discriminate. }
  destruct N as [->|[[g ->]|[N1 N2]]]; [left; reflexivity| |].
  - right. pose proof (decode_extend a g r c D) as X. rewrite H in X. injection X as -> ->.
    rewrite extend_open in C. exists r. rewrite extend_closed by exact C. split; [reflexivity|].
    destruct g; cbn in *; try reflexivity; exfalso; apply C; exact I.
  - exfalso. pose proof (decode_error_stable a c o (f_equal fst D) N1 N2) as X. rewrite H in X. cbn in X. exact (N2 f (eq_sym X)).
Qed.
Lemma prefix_other : forall a c o, fst (decode (a ++ c)) = o -> (forall f, o <> DOk f) ->
  fst (decode a) = DErr InComplete \/ (fst (decode a) = o /\ o <> DErr InComplete).
Proof.
  intros a c o H NF. destruct (decode a) as [o' r] eqn:D. cbn [fst].
  assert (N : o' = DErr InComplete \/ (exists g, o' = DOk g) \/ (o' <> DErr InComplete /\ forall g, o' <> DOk g)).
  { destruct o' as [g|e| |]; [right; left; eauto| |right; right; split; intros; discriminate|right; right; split; intros; discriminate].
    destruct e; try (left; reflexivity); right; right; split; intros; discriminate. }
  destruct N as [->|[[g ->]|[N1 N2]]]; [left; reflexivity| |].
  - exfalso. rewrite (decode_extend a g r c D) in H. cbn in H. exact (NF _ (eq_sym H)).
  - right. rewrite (decode_error_stable a c o' (f_equal fst D) N1 N2) in H. now subst.
Qed.

Lemma drains_split : forall b fs e, drains decode b fs e -> Forall closed fs -> forall a c, b = a ++ c ->
  exists fs1, (exists q fs2, fs = fs1 ++ fs2 /\ drains decode a fs1 (Waiting q) /\ drains decode (q ++ c) fs2 e) \/
              (exists o, fs = fs1 /\ e = Stopped o /\ drains decode a fs1 (Stopped o)).
Proof.
  intros b fs e H. induction H as [b W|b o W N1 N2|b f rest fs e D H IH]; intros C a c ->.
  - exists []. left. exists a, []. split; [reflexivity|]. split; [|now constructor].
    destruct (prefix_other a c _ W) as [X|[_ X]]; [discriminate|now constructor|congruence].
  - destruct (prefix_other a c _ W N2) as [X|[X _]]; exists [].
    + left. exists a, []. split; [reflexivity|]. split; [now constructor|now constructor].
    + right. exists o. split; [reflexivity|]. split; [reflexivity|]. now constructor.
  - inversion C as [|? ? Cf Cs]; subst.
    destruct (prefix_frame a c f rest D Cf) as [X|(r & X & ->)].
    + exists []. left. exists a, (f :: fs). split; [reflexivity|]. split; [now constructor|]. econstructor; eauto.
    + destruct (IH Cs r c eq_refl) as (fs1 & [(q & fs2 & -> & A & B)|(o & -> & -> & A)]); exists (f :: fs1).
      * left. exists q, fs2. split; [reflexivity|]. split; [econstructor; eauto|exact B].
      * right. exists o. split; [reflexivity|]. split; [reflexivity|]. econstructor; eauto.
Qed.

Lemma drains_det : forall b fs e, drains decode b fs e -> forall fs' e', drains decode b fs' e' -> fs = fs' /\ e = e'.
Proof.
  intros b fs e H. induction H as [b W|b o W N1 N2|b f rest fs e D H IH]; intros fs' e' H'; inversion H'; subst; try congruence.
  - auto.
  - rewrite H in W. cbn in W. discriminate.
  - auto.
  - rewrite H in N2. cbn in N2. now destruct (N2 f).
  - rewrite D in H0. cbn in H0. discriminate.
  - rewrite D in *. cbn in *. exfalso. eapply H2. reflexivity.
  - rewrite D in H0. injection H0 as <- <-. destruct (IH _ _ H1) as [-> ->]. auto.
Qed.

Lemma drains_waiting : forall b fs q, drains decode b fs (Waiting q) -> fst (decode q) = DErr InComplete.
Proof.
  intros b fs q H. remember (Waiting q) as e eqn:E. induction H; [|discriminate|auto].
  injection E as ->. assumption.
Qed.
Lemma decode_nothing : fst (decode []) = DErr InComplete.
Proof. reflexivity. Qed.

Lemma drains_more : forall a fs e, drains decode a fs e -> Forall closed fs -> forall c,
  match e with
  | Waiting q => forall fs2 e2, drains decode (q ++ c) fs2 e2 -> drains decode (a ++ c) (fs ++ fs2) e2
  | Stopped o => drains decode (a ++ c) fs (Stopped o)
  end.
Proof.
  intros a fs e H. induction H as [b W|b o W N1 N2|b f rest fs e D H IH]; intros C c.
  - intros fs2 e2 H. exact H.
  - apply Dr_stop; auto. now apply decode_error_stable.
  - inversion C as [|? ? Cf Cs]; subst. pose proof (decode_extend b f rest c D) as X. unfold closed in Cf.
    rewrite extend_closed in X by exact Cf.
    assert (Y : decode (b ++ c) = (DOk f, rest ++ c)) by (rewrite X; destruct f; cbn in *; try reflexivity; exfalso; apply Cf; exact I).
    specialize (IH Cs c). destruct e as [q|o].
    + intros fs2 e2 H2. cbn [app]. econstructor; [exact Y|]. now apply IH.
    + econstructor; [exact Y|exact IH].
Qed.

Lemma segments_iff : forall segs p fs e, fst (decode p) = DErr InComplete -> Forall closed fs ->
  (receives decode p segs fs e <-> drains decode (p ++ concat segs) fs e).
Proof.
  induction segs as [|seg segs IH]; intros p fs e P C; cbn [concat]; split; intros H.
  - inversion H; subst. rewrite app_nil_r. now constructor.
  - rewrite app_nil_r in H. destruct (drains_det _ _ _ H [] (Waiting p)) as [-> ->]; constructor. exact P.
  - rewrite app_assoc. inversion H as [|? ? ? fs1 q gs ? D R|? ? ? ? o D]; subst.
    + apply Forall_app in C as [C1 C2]. pose proof (drains_more _ _ _ D C1 (concat segs)) as M. cbn in M. apply M.
      apply IH; auto. eapply drains_waiting; eauto.
    + exact (drains_more _ _ _ D C (concat segs)).
  - rewrite app_assoc in H. destruct (drains_split _ _ _ H C (p ++ seg) (concat segs) eq_refl) as (fs1 & [(q & fs2 & -> & A & B)|(o & -> & -> & A)]).
    + apply Forall_app in C as [C1 C2]. apply Rc_more with (q := q); [exact A|]. apply IH; auto. eapply drains_waiting; eauto.
    + now apply Rc_stop.
Qed.

Lemma decode_error_eq_dec_incomplete : forall e : decode_error, e = InComplete \/ e <> InComplete.
Proof. intros []; (left; reflexivity) || (right; discriminate). Qed.
Lemma drains_total : forall b, exists fs e, drains decode b fs e.
Proof.
  intros b. remember (length b) as n eqn:L. revert b L. induction n as [n IH] using (well_founded_induction lt_wf). intros b ->.
  destruct (decode b) as [o rest] eqn:D. destruct (decode_consumes b) as (k & Eb & Sm & Co). rewrite D in Eb, Co. cbn [fst snd] in *.
  destruct o as [f|e| |].
  - specialize (Co f eq_refl).
    assert (R : rest = [] \/ (length rest < length b)%nat).
    { destruct f; auto; right; rewrite Eb, app_length; lia. }
    destruct R as [->|R].
    + exists [f], (Waiting []). econstructor; [exact D|]. constructor. reflexivity.
    + destruct (IH (length rest) R rest eq_refl) as (fs & e & H). exists (f :: fs), e. econstructor; eauto.
  - destruct (decode_error_eq_dec_incomplete e) as [->|N].
    + exists [], (Waiting b). constructor. now rewrite D.
    + exists [], (Stopped (DErr e)). constructor; [now rewrite D|congruence|discriminate].
  - exists [], (Stopped DPanic). constructor; [now rewrite D|discriminate|discriminate].
  - exists [], (Stopped DLoop). constructor; [now rewrite D|discriminate|discriminate].
Qed.

Lemma writes_lift : forall fs a b, writes frame_encode a fs b -> Forall fits fs -> forall p, writes frame_encode (p ++ a) fs (p ++ b).
Proof.
  intros fs a b W. induction W as [b|a f b fs c E W IH]; intros F p; [constructor|].
  inversion F as [|? ? Ff F']; subst. destruct (roundtrip f Ff) as (bs & E1 & _). rewrite E1 in E. injection E as <-.
  econstructor; [apply E1|]. rewrite <- app_assoc. now apply IH.
Qed.

Lemma app_longer : forall (A : Type) (a b c d : list A), a ++ b = c ++ d -> (length c <= length a)%nat -> a = c ++ skipn (length c) a.
Proof.
  intros A a b c. revert a. induction c as [|x c IH]; intros a d E L; [reflexivity|].
  destruct a as [|y a]; [cbn in L; lia|]. injection E as -> E. cbn [length skipn app]. f_equal. apply (IH a d E). cbn in L. lia.
Qed.

Lemma drains_arrived : forall fs bs u missing, Forall fits fs -> Forall closed fs -> writes frame_encode [] fs bs -> u ++ missing = bs ->
  exists done todo pending, fs = done ++ todo /\ drains decode u done (Waiting pending) /\
    (exists b, writes frame_encode [] done b /\ u = b ++ pending) /\
    match todo with
    | [] => pending = []
    | g :: _ => exists b, frame_encode g [] = EOk b /\ (length pending < length b)%nat
    end.
Proof.
  induction fs as [|f fs IH]; intros bs u missing F C W E.
  - assert (Z : u ++ missing = []) by (inversion W; congruence). apply app_eq_nil in Z as [-> ->]. exists [], [], []. split; [reflexivity|]. split; [now constructor|].
    split; [|reflexivity]. exists []. split; [constructor|reflexivity].
  - inversion F as [|? ? Ff F']; subst. inversion C as [|? ? Cf C']; subst. inversion W as [|? ? b ? ? E0 W']; subst.
    destruct (roundtrip f Ff) as (b1 & E1 & D). pose proof (E1 []) as E2. rewrite E0 in E2. injection E2 as ->. cbn [app] in *.
    destruct (writes_content _ _ _ F' W') as (b2 & Eb & W2).
    destruct (Nat.lt_ge_cases (length u) (length b1)) as [L|L].
    + exists [], (f :: fs), u. split; [reflexivity|]. split; [|split].
      * constructor. destruct (decode_truncate f b1 Ff E0) as (pre & Ep & _ & T).
        assert (O : open_tail f = []) by (destruct f; cbn in Cf; try reflexivity; exfalso; apply Cf; exact I).
        rewrite O, app_nil_r in Ep. subst pre.
        assert (X : b1 = u ++ skipn (length u) b1).
        { apply (app_longer _ b1 b2 u missing (eq_sym Eb)). lia. }
        apply (T u (skipn (length u) b1) X). intros N. apply (f_equal (@length _)) in N. rewrite skipn_length in N. cbn in N. lia.
      * exists []. split; [constructor|reflexivity].
      * exists b1. auto.
    + assert (X : u = b1 ++ skipn (length b1) u).
      { exact (app_longer _ u missing b1 b2 Eb L). }
      set (u' := skipn (length b1) u) in *. rewrite X, <- app_assoc in Eb. apply app_inv_head in Eb.
      destruct (IH b2 u' missing F' C' W2 Eb) as (dn & todo & pending & -> & Dr & (b & Wb & Ub) & T).
      exists (f :: dn), todo, pending. split; [reflexivity|]. split; [|split; [|exact T]].
      * econstructor; [|exact Dr]. rewrite X. pose proof (decode_extend b1 f [] u' D) as Y. unfold closed in Cf.
        rewrite extend_closed in Y by exact Cf. rewrite Y. destruct f; cbn in Cf; try reflexivity; exfalso; apply Cf; exact I.
      * exists (b1 ++ b). split; [|rewrite X, Ub, <- app_assoc; reflexivity].
        apply W_cons with (b := b1); [exact E0|]. pose proof (writes_lift _ _ _ Wb) as Z.
        apply Forall_app in F' as [F1 _]. specialize (Z F1 b1). now rewrite app_nil_r in Z.
Qed.

Lemma segments_arrived : forall fs bs segs missing, Forall fits fs -> Forall closed fs -> writes frame_encode [] fs bs ->
  concat segs ++ missing = bs ->
  exists done todo pending, fs = done ++ todo /\ receives decode [] segs done (Waiting pending) /\
    (exists b, writes frame_encode [] done b /\ concat segs = b ++ pending) /\
    match todo with
    | [] => pending = []
    | g :: _ => exists b, frame_encode g [] = EOk b /\ (length pending < length b)%nat
    end.
Proof.
  intros fs bs segs missing F C W E. destruct (drains_arrived fs bs _ missing F C W E) as (dn & todo & pending & -> & D & B & T).
  exists dn, todo, pending. split; [reflexivity|]. split; [|auto].
  apply segments_iff; [reflexivity| |exact D]. now apply Forall_app in C.
Qed.

Lemma receives_det : forall p segs fs e, receives decode p segs fs e -> forall fs' e', receives decode p segs fs' e' ->
  fs = fs' /\ e = e'.
Proof.
  intros p segs fs e H. induction H as [p|p seg segs fs q gs e D R IH|p seg segs fs o D]; intros fs' e' H'.
  - inversion H'; subst. auto.
  - inversion H' as [|? ? ? fs1 q' gs' ? D' R'|? ? ? ? o' D']; subst; destruct (drains_det _ _ _ D _ _ D') as [-> X]; [|discriminate].
    injection X as ->. destruct (IH _ _ R') as [-> ->]. auto.
  - inversion H' as [|? ? ? fs1 q' gs' ? D' R'|? ? ? ? o' D']; subst; destruct (drains_det _ _ _ D _ _ D') as [-> X]; [discriminate|auto].
Qed.
Lemma receives_total : forall segs p, exists fs e, receives decode p segs fs e.
Proof.
  induction segs as [|seg segs IH]; intros p; [exists [], (Waiting p); constructor|].
  destruct (drains_total (p ++ seg)) as (fs & [q|o] & D).
  - destruct (IH q) as (gs & e & R). exists (fs ++ gs), e. econstructor; eauto.
  - exists fs, (Stopped o). now constructor.
Qed.
Lemma receives_one : forall segs, exists fs e, receives decode [] segs fs e /\
  forall fs' e', receives decode [] segs fs' e' -> fs' = fs /\ e' = e.
Proof.
  intros segs. destruct (receives_total segs []) as (fs & e & R). exists fs, e. split; [exact R|].
  intros fs' e' R'. destruct (receives_det _ _ _ _ R _ _ R'). auto.
Qed.

(** A frame without a fixed end is delivered with what has arrived of its last part. *)
Lemma segments_early : forall f bs seg m, fits f -> frame_encode f [] = EOk bs -> bs = seg ++ m ->
  (length m <= length (open_tail f))%nat -> m <> [] ->
  exists l, open_tail f = l ++ m /\ with_open_tail f l <> f /\
    receives decode [] [seg] [with_open_tail f l] (Waiting []).
Proof.
  intros f bs seg m F E S L N. destruct (decode_truncate f bs F E) as (pre & Ep & T & _).
  set (k := (length (open_tail f) - length m)%nat). exists (firstn k (open_tail f)).
  assert (P : open_tail f = firstn k (open_tail f) ++ m).
  { rewrite <- (firstn_skipn k (open_tail f)) at 1. f_equal.
    assert (X : skipn (length pre + k) bs = m).
    { rewrite S. rewrite skipn_app. replace (length pre + k)%nat with (length seg).
      - now rewrite skipn_all, Nat.sub_diag.
      - apply (f_equal (@length _)) in Ep. rewrite S, !app_length in Ep. unfold k. lia. }
    rewrite Ep, skipn_app in X. rewrite (skipn_all2 pre) in X by lia. cbn [app] in X.
    replace (length pre + k - length pre)%nat with k in X by lia. exact X. }
  set (l := firstn k (open_tail f)) in *. clearbody l. split; [exact P|]. split.
  - intros Eq. apply (f_equal open_tail) in Eq.
    assert (X : open_tail (with_open_tail f l) = l \/ open_tail f = []).
    { destruct f; unfold open_tail, with_open_tail; cbn; auto; left; destruct l; reflexivity. }
    destruct X as [X|X].
    + rewrite X, P in Eq. apply (f_equal (@length _)) in Eq. rewrite app_length in Eq. destruct m; [congruence|]. cbn in Eq. lia.
    + rewrite X in P. destruct l; [|discriminate]. cbn in P. congruence.
  - assert (Sg : seg = pre ++ l).
    { rewrite P, app_assoc, S in Ep. now apply app_inv_tail in Ep. }
    apply (Rc_more decode [] seg [] [with_open_tail f l] [] []); [|constructor].
    cbn [app]. econstructor; [rewrite Sg; exact (T l m P)|]. now constructor.
Qed.
