(** * Flags as sets: proofs *)

From Verif Require Import Model.FlagOpsM Model.FrameM Spec.FlagSets Spec.Build Proofs.BitsP Proofs.BuildP Proofs.CtorP Proofs.FlagsP.

(** The 32 values. *)
Definition all32 : list N := map (fun k => 16 * N.of_nat k) (seq 0 32).
Definition all5 : list flag5 := [F_ignore; F_metadata; F_follows; F_complete; F_next].
Lemma ok_in : forall w, flags_ok w <-> In w all32.
Proof.
  intro w. split.
  - intro H. destruct (flags_ok_cases w H) as (k & L & ->). apply in_map_iff. exists (N.to_nat k).
    split; [rewrite N2Nat.id; reflexivity|]. apply in_seq. lia.
  - intro H. apply in_map_iff in H. destruct H as (k & <- & I). apply in_seq in I. unfold flags_ok.
    rewrite N.mul_comm, N.mod_mul by discriminate. split; [lia|reflexivity].
Qed.
Lemma in5 : forall x, In x all5.
Proof. intros []; cbn; tauto. Qed.

Definition mem32 (w : N) : bool := existsb (N.eqb w) all32.
Lemma mem32_ok : forall w, mem32 w = true -> flags_ok w.
Proof. intros w H. apply existsb_exists in H. destruct H as (v & I & E). apply N.eqb_eq in E. subst. now apply ok_in. Qed.

Definition check2 (f : N -> N -> N) (g : bool -> bool -> bool) : bool :=
  forallb (fun a => forallb (fun b => mem32 (f a b) &&
    forallb (fun x => Bool.eqb (has (f a b) x) (g (has a x) (has b x))) all5) all32) all32.
Lemma check2_ok : forall f g, check2 f g = true -> forall a b, flags_ok a -> flags_ok b ->
  flags_ok (f a b) /\ forall x, has (f a b) x = g (has a x) (has b x).
Proof.
  intros f g H a b A B. unfold check2 in H. rewrite forallb_forall in H. apply ok_in in A, B.
  specialize (H a A). rewrite forallb_forall in H. specialize (H b B). apply andb_true_iff in H. destruct H as [M H].
  split; [apply mem32_ok; exact M|]. intro x. rewrite forallb_forall in H. apply Bool.eqb_prop, H, in5.
Qed.

Lemma or_sets : forall a b, flags_ok a -> flags_ok b ->
  flags_ok (fl_union a b) /\ forall x, has (fl_union a b) x = has a x || has b x.
Proof. apply (check2_ok fl_union orb). vm_compute. reflexivity. Qed.
Lemma and_sets : forall a b, flags_ok a -> flags_ok b ->
  flags_ok (fl_inter a b) /\ forall x, has (fl_inter a b) x = has a x && has b x.
Proof. apply (check2_ok fl_inter andb). vm_compute. reflexivity. Qed.
Lemma xor_sets : forall a b, flags_ok a -> flags_ok b ->
  flags_ok (fl_xor a b) /\ forall x, has (fl_xor a b) x = xorb (has a x) (has b x).
Proof. apply (check2_ok fl_xor xorb). vm_compute. reflexivity. Qed.
Lemma toggle_sets : forall a b, flags_ok a -> flags_ok b ->
  flags_ok (fl_toggle a b) /\ forall x, has (fl_toggle a b) x = xorb (has a x) (has b x).
Proof. apply (check2_ok fl_toggle xorb). vm_compute. reflexivity. Qed.
Lemma sub_sets : forall a b, flags_ok a -> flags_ok b ->
  flags_ok (fl_sub a b) /\ forall x, has (fl_sub a b) x = has a x && negb (has b x).
Proof. apply (check2_ok fl_sub (fun p q => p && negb q)). vm_compute. reflexivity. Qed.
Lemma remove_sets : forall a b, flags_ok a -> flags_ok b ->
  flags_ok (fl_remove a b) /\ forall x, has (fl_remove a b) x = has a x && negb (has b x).
Proof. apply (check2_ok fl_remove (fun p q => p && negb q)). vm_compute. reflexivity. Qed.
Lemma insert_sets : forall a b, flags_ok a -> flags_ok b ->
  flags_ok (fl_insert a b) /\ forall x, has (fl_insert a b) x = has a x || has b x.
Proof. apply (check2_ok fl_insert orb). vm_compute. reflexivity. Qed.
Lemma not_sets : forall a, flags_ok a -> flags_ok (fl_not a) /\ forall x, has (fl_not a) x = negb (has a x).
Proof.
  intros a A. apply (check2_ok (fun p _ => fl_not p) (fun p _ => negb p)) with (b := 0); [vm_compute; reflexivity|exact A|].
  split; reflexivity.
Qed.
Lemma extend_sets : forall l a, flags_ok a -> Forall flags_ok l ->
  flags_ok (fl_extend a l) /\ forall x, has (fl_extend a l) x = has a x || existsb (fun b => has b x) l.
Proof.
  induction l as [|b l IH]; intros a A L; cbn [fl_extend fold_left existsb].
  - split; [exact A|]. intro x. rewrite orb_false_r. reflexivity.
  - inversion L as [|? ? B L']; subst. destruct (insert_sets a b A B) as [O I].
    destruct (IH (fl_insert a b) O L') as [P J]. split; [exact P|]. intro x. unfold fl_extend in J.
    rewrite J, I, orb_assoc. reflexivity.
Qed.

Lemma truncate_sets : forall w, flags_ok (fl_from_bits_truncate w) /\ forall x, has (fl_from_bits_truncate w) x = has w x.
Proof.
  intro w. split.
  - change (fl_from_bits_truncate w) with (N.land w 0x1F0). rewrite assigned_land. apply assigned_ok.
  - intro x. unfold has. rewrite truncate_bits. destruct x; cbn; rewrite !andb_true_r; reflexivity.
Qed.

Lemma same_sets : forall a b, flags_ok a -> flags_ok b -> (forall x, has a x = has b x) -> a = b.
Proof.
  assert (H : forallb (fun a => forallb (fun b => if forallb (fun x => Bool.eqb (has a x) (has b x)) all5 then a =? b else true) all32) all32 = true)
    by (vm_compute; reflexivity).
  intros a b A B E. apply ok_in in A, B. rewrite forallb_forall in H. specialize (H a A). rewrite forallb_forall in H.
  specialize (H b B). replace (forallb _ all5) with true in H; [apply N.eqb_eq; exact H|].
  symmetry. apply forallb_forall. intros x _. rewrite E. apply Bool.eqb_reflx.
Qed.

(** [from_bits] of a [u16]. *)
Lemma from_bits_iff : forall w f, w < 2 ^ 16 -> (fl_from_bits w = Some f <-> f = w /\ flags_ok w).
Proof.
  intros w f L. unfold fl_from_bits. change (u16_not fl_all) with 0xFE0F.
  assert (E : N.land w 0xFE0F = 0 <-> flags_ok w).
  { split.
    - intro Z. assert (X : w = N.land w 0x1F0).
      { rewrite <- (N.lor_0_l (N.land w 0x1F0)), <- Z, <- N.land_lor_distr_r. change (N.lor 0xFE0F 0x1F0) with (N.ones 16).
        rewrite N.land_ones. symmetry. apply N.mod_small. exact L. }
      rewrite X, assigned_land. apply assigned_ok.
    - intro O. rewrite <- (assigned_id w O), <- assigned_land, <- N.land_assoc. apply N.land_0_r. }
  destruct (N.eqb_spec (N.land w 0xFE0F) 0) as [Z|Z].
  - split; [intro H; injection H as <-; split; [reflexivity|apply E; exact Z]|intros [-> _]; reflexivity].
  - split; [discriminate|]. intros [_ O]. elim Z. apply E. exact O.
Qed.
Lemma from_bits_cases : forall w, w < 2 ^ 16 ->
  (flags_ok w /\ fl_from_bits w = Some w) \/ (~ flags_ok w /\ fl_from_bits w = None).
Proof.
  intros w L. destruct (fl_from_bits w) as [f|] eqn:E.
  - apply from_bits_iff in E; [|exact L]. destruct E as [-> O]. auto.
  - right. split; [|reflexivity]. intro O.
    assert (X : fl_from_bits w = Some w) by (apply from_bits_iff; auto). congruence.
Qed.

(** Every expression is the set it stands for; it panics exactly at a [from_bits] of other bits. *)
Lemma eval_sets : forall e, words16 e ->
  match flags_eval e with
  | Ret w => flags_ok w /\ (forall x, has w x = holds e x) /\ Forall flags_ok (taken e)
  | Panic => Exists (fun w => ~ flags_ok w) (taken e)
  | Loop => False
  end.
Proof.
  assert (T2 : forall (f : N -> N -> N) g a b e,
    (forall p q, flags_ok p -> flags_ok q -> flags_ok (f p q) /\ forall x, has (f p q) x = g (has p x) (has q x)) ->
    taken e = (taken a ++ taken b)%list -> (forall x, holds e x = g (holds a x) (holds b x)) ->
    match flags_eval a with
    | Ret w => flags_ok w /\ (forall x, has w x = holds a x) /\ Forall flags_ok (taken a)
    | Panic => Exists (fun w => ~ flags_ok w) (taken a) | Loop => False end ->
    match flags_eval b with
    | Ret w => flags_ok w /\ (forall x, has w x = holds b x) /\ Forall flags_ok (taken b)
    | Panic => Exists (fun w => ~ flags_ok w) (taken b) | Loop => False end ->
    match match flags_eval a with
          | Ret x => match flags_eval b with Ret y => Ret (f x y) | o => o end | o => o end with
    | Ret w => flags_ok w /\ (forall x, has w x = holds e x) /\ Forall flags_ok (taken e)
    | Panic => Exists (fun w => ~ flags_ok w) (taken e)
    | Loop => False
    end).
  { intros f g a b e F T G A B. rewrite T. destruct (flags_eval a) as [p| |]; [|apply Exists_app; left; exact A|exact A].
    destruct (flags_eval b) as [q| |]; [|apply Exists_app; right; exact B|exact B].
    destruct A as (A1 & A2 & A3), B as (B1 & B2 & B3). destruct (F p q A1 B1) as [F1 F2].
    split; [exact F1|]. split; [intro x; rewrite F2, A2, B2, G; reflexivity|]. apply Forall_app. auto. }
  induction e; cbn [words16]; intro W; cbn [flags_eval].
  - repeat split; constructor.
  - repeat split; try constructor. intros []; reflexivity.
  - repeat split; try (destruct c; reflexivity); try constructor. intros []; destruct c; reflexivity.
  - destruct (truncate_sets w) as [O H]. repeat split; try apply O; [exact H|constructor].
  - destruct (from_bits_cases w W) as [[O ->]|[O ->]]; cbn [taken].
    + split; [exact O|]. split; [reflexivity|]. constructor; [exact O|constructor].
    + constructor. exact O.
  - apply (T2 fl_union orb e1 e2); [exact or_sets|reflexivity|reflexivity|tauto|tauto].
  - apply (T2 fl_inter andb e1 e2); [exact and_sets|reflexivity|reflexivity|tauto|tauto].
  - apply (T2 fl_xor xorb e1 e2); [exact xor_sets|reflexivity|reflexivity|tauto|tauto].
  - apply (T2 fl_sub (fun p q => p && negb q) e1 e2); [exact sub_sets|reflexivity|reflexivity|tauto|tauto].
  - specialize (IHe W). cbn [taken]. destruct (flags_eval e) as [p| |]; [|exact IHe|exact IHe].
    destruct IHe as (A1 & A2 & A3). destruct (not_sets p A1) as [N1 N2]. split; [exact N1|].
    split; [intro x; rewrite N2, A2; reflexivity|exact A3].
  - apply (T2 fl_insert orb e1 e2); [exact insert_sets|reflexivity|reflexivity|tauto|tauto].
  - apply (T2 fl_remove (fun p q => p && negb q) e1 e2); [exact remove_sets|reflexivity|reflexivity|tauto|tauto].
  - apply (T2 fl_toggle xorb e1 e2); [exact toggle_sets|reflexivity|reflexivity|tauto|tauto].
  - apply (T2 (fun x y => fl_set x y v) (fun p q => if v then p || q else p && negb q) e1 e2); try tauto;
      destruct v; cbn [fl_set]; try exact insert_sets; try exact remove_sets; reflexivity.
  - destruct W as (W1 & W2 & W3). specialize (IHe1 W1). specialize (IHe2 W2). specialize (IHe3 W3). cbn [taken].
    destruct (flags_eval e1) as [p| |]; [|apply Exists_app; left; exact IHe1|exact IHe1].
    destruct (flags_eval e2) as [q| |]; [|apply Exists_app; right; apply Exists_app; left; exact IHe2|exact IHe2].
    destruct (flags_eval e3) as [r| |]; [|apply Exists_app; right; apply Exists_app; right; exact IHe3|exact IHe3].
    destruct IHe1 as (A1 & A2 & A3), IHe2 as (B1 & B2 & B3), IHe3 as (C1 & C2 & C3).
    destruct (extend_sets [q; r] p A1) as [X Y]; [repeat constructor; apply B1 || apply C1|].
    split; [exact X|]. split; [|apply Forall_app; split; [exact A3|apply Forall_app; auto]].
    intro x. rewrite Y. cbn [existsb holds]. rewrite orb_false_r, A2, B2, C2, orb_assoc. reflexivity.
Qed.

Lemma eval_ret : forall e w, words16 e -> flags_eval e = Ret w -> flags_ok w /\ forall x, has w x = holds e x.
Proof. intros e w W E. pose proof (eval_sets e W) as H. rewrite E in H. tauto. Qed.
Lemma eval_panic_iff : forall e, words16 e ->
  (flags_eval e = Panic <-> exists w, In w (taken e) /\ ~ flags_ok w) /\ flags_eval e <> Loop.
Proof.
  intros e W. pose proof (eval_sets e W) as H. destruct (flags_eval e) as [w| |]; [| |destruct H].
  - split; [|discriminate]. split; [discriminate|]. intros (v & I & X). destruct H as (_ & _ & H).
    rewrite Forall_forall in H. elim X. auto.
  - split; [|discriminate]. split; [intros _; apply Exists_exists; exact H|reflexivity].
Qed.
Lemma all_reached : forall w, flags_ok w <-> exists e, words16 e /\ flags_eval e = Ret w.
Proof.
  intro w. split; [|intros (e & W & E); eapply eval_ret; eassumption].
  intro O. exists (EFromBits w). assert (L : w < 2 ^ 16) by (destruct O; cbn; lia). split; [exact L|].
  cbn [flags_eval]. destruct (from_bits_cases w L) as [[_ ->]|[X _]]; [reflexivity|contradiction].
Qed.

(** ** Questions *)
Lemma questions : forall a b, flags_ok a -> flags_ok b ->
  (fl_contains a b = true <-> forall x, has b x = true -> has a x = true) /\
  (fl_intersects a b = true <-> exists x, has a x = true /\ has b x = true) /\
  (fl_is_empty a = true <-> forall x, has a x = false) /\
  (fl_is_all a = true <-> forall x, has a x = true) /\
  (a = b <-> forall x, has a x = has b x).
Proof.
  intros a b A B.
  assert (Z : flags_ok 0) by (split; reflexivity). assert (T : flags_ok fl_all) by (split; reflexivity).
  destruct (and_sets a b A B) as [O I]. change (fl_inter a b) with (N.land a b) in *.
  split; [|split; [|split; [|split]]].
  - unfold fl_contains. rewrite N.eqb_eq. split.
    + intros E x H. rewrite <- E, I in H. apply andb_true_iff in H. tauto.
    + intro H. apply same_sets; [exact O|exact B|]. intro x. rewrite I. specialize (H x).
      destruct (has b x); [rewrite H by reflexivity; reflexivity|apply andb_false_r].
  - unfold fl_intersects, fl_is_empty. rewrite negb_true_iff, N.eqb_neq. split.
    + intro H. destruct (existsb (fun x => has a x && has b x) all5) eqn:E.
      * apply existsb_exists in E. destruct E as (x & _ & E). apply andb_true_iff in E. eauto.
      * elim H. apply same_sets; [exact O|exact Z|]. intro x. rewrite I.
        destruct (has a x && has b x) eqn:Q; [|destruct x; reflexivity].
        assert (existsb (fun x => has a x && has b x) all5 = true) by (apply existsb_exists; exists x; split; [apply in5|exact Q]).
        congruence.
    + intros (x & P & Q) E. assert (X : has (N.land a b) x = true) by (rewrite I, P, Q; reflexivity).
      rewrite E in X. destruct x; discriminate X.
  - unfold fl_is_empty. rewrite N.eqb_eq. split; [intros -> []; reflexivity|].
    intro H. apply same_sets; [exact A|exact Z|]. intro x. rewrite H. destruct x; reflexivity.
  - unfold fl_is_all. rewrite N.eqb_eq. split; [intros -> []; reflexivity|].
    intro H. apply same_sets; [exact A|exact T|]. intro x. rewrite H. destruct x; reflexivity.
  - split; [intros ->; reflexivity|]. apply same_sets; assumption.
Qed.

Definition outranksb (a b : N) : bool :=
  existsb (fun x => has a x && negb (has b x) &&
    forallb (fun y => if place x <? place y then Bool.eqb (has a y) (has b y) else true) all5) all5.
Lemma outranks_iff : forall a b, outranksb a b = true <-> outranks a b.
Proof.
  intros a b. unfold outranksb, outranks. rewrite existsb_exists. split.
  - intros (x & _ & H). apply andb_true_iff in H. destruct H as [H K]. apply andb_true_iff in H. destruct H as [P Q].
    exists x. split; [exact P|]. split; [apply negb_true_iff; exact Q|]. intros y L.
    rewrite forallb_forall in K. specialize (K y (in5 y)). apply N.ltb_lt in L. rewrite L in K. apply Bool.eqb_prop. exact K.
  - intros (x & P & Q & K). exists x. split; [apply in5|]. rewrite P, Q. cbn [andb negb]. apply forallb_forall. intros y _.
    destruct (N.ltb_spec (place x) (place y)) as [L|L]; [|reflexivity]. rewrite (K y L). apply Bool.eqb_reflx.
Qed.
Lemma order : forall a b, flags_ok a -> flags_ok b ->
  (fl_cmp a b = Gt <-> outranks a b) /\ (fl_cmp a b = Lt <-> outranks b a) /\ (fl_cmp a b = Eq <-> a = b).
Proof.
  assert (H : forallb (fun a => forallb (fun b => Bool.eqb (outranksb a b) (b <? a)) all32) all32 = true)
    by (vm_compute; reflexivity).
  assert (K : forall a b, flags_ok a -> flags_ok b -> (outranks a b <-> b < a)).
  { intros a b A B. apply ok_in in A, B. rewrite forallb_forall in H. specialize (H a A). rewrite forallb_forall in H.
    specialize (H b B). apply Bool.eqb_prop in H. rewrite <- outranks_iff, H. apply N.ltb_lt. }
  intros a b A B. unfold fl_cmp. rewrite (K a b A B), (K b a B A), N.compare_gt_iff, N.compare_lt_iff, N.compare_eq_iff. tauto.
Qed.

Lemma eval_queries : forall e w, words16 e -> flags_eval e = Ret w ->
  fl_is_ignore w = holds e F_ignore /\ fl_is_metadata w = holds e F_metadata /\
  fl_is_follows w = holds e F_follows /\ fl_is_resume w = holds e F_follows /\ fl_is_respond w = holds e F_follows /\
  fl_is_complete w = holds e F_complete /\ fl_is_lease w = holds e F_complete /\ fl_is_next w = holds e F_next.
Proof.
  intros e w W E. destruct (eval_ret e w W E) as [_ H]. destruct (fl_queries w) as (-> & -> & -> & -> & -> & -> & -> & ->).
  rewrite <- !H. repeat split.
Qed.

Lemma eval_payload : forall bd sid e w p, words16 e -> flags_eval e = Ret w -> sid < 2 ^ 31 ->
  exists f, payload_frame_new bd sid w p = Ret f /\
  payload_frame_is_follows f = holds e F_follows /\ payload_frame_is_complete f = holds e F_complete /\
  payload_frame_is_next f = holds e F_next /\
  (forall x, has (pf_flags f) x = match x with
     | F_ignore => false | F_metadata => present (p_metadata p)
     | F_follows | F_complete | F_next => holds e x end).
Proof.
  intros bd sid e w p W E S. destruct (eval_ret e w W E) as [_ H].
  destruct (pf_args bd sid w p S) as (f & N & _ & F & C & X & _ & _ & _ & B). exists f.
  rewrite <- !H. split; [exact N|]. split; [exact F|]. split; [exact C|]. split; [exact X|].
  intros []; unfold has; rewrite <- ?H; unfold has; rewrite B; cbn; rewrite ?orb_false_r; reflexivity.
Qed.
