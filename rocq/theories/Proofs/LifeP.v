(** * Who keeps the connection of a machine alive *)

From Verif Require Import Model.LifeM Spec.Life.
From Verif Require Import Proofs.SystemP.

Lemma same_holder_eq : forall h k, same_holder h k = true <-> h = k.
Proof.
  intros [t| |] [u| |]; cbn; split; intros H; try discriminate H; try reflexivity.
  - apply Nat.eqb_eq in H. now subst.
  - injection H as ->. apply Nat.eqb_refl.
Qed.
Lemma in_without : forall h k l, In k (without h l) <-> In k l /\ k <> h.
Proof.
  intros h k l. unfold without. rewrite filter_In. split; intros [H1 H2]; split; try assumption.
  - intros ->. apply negb_true_iff in H2. assert (same_holder h h = true) by now apply same_holder_eq. congruence.
  - apply negb_true_iff. destruct (same_holder h k) eqn:E; [|reflexivity]. apply same_holder_eq in E. congruence.
Qed.
Lemma without_nodup : forall h l, NoDup l -> NoDup (without h l).
Proof. intros. now apply NoDup_filter. Qed.
Lemma without_absent : forall h l, ~ In h l -> without h l = l.
Proof.
  intros h l. induction l as [|k l IH]; intros H; [reflexivity|]. cbn.
  destruct (same_holder h k) eqn:E.
  - apply same_holder_eq in E. subst. exfalso. apply H. now left.
  - cbn. f_equal. apply IH. intros C. apply H. now right.
Qed.
Lemma without_length : forall h l, NoDup l -> In h l -> N.of_nat (length l) = N.of_nat (length (without h l)) + 1.
Proof.
  intros h l. induction l as [|k l IH]; intros HN HI; [destruct HI|]. inversion HN as [|? ? HK HN']; subst.
  cbn. destruct (same_holder h k) eqn:E; cbn [negb].
  - apply same_holder_eq in E. subst. change (filter _ l) with (without k l). rewrite (without_absent _ _ HK). cbn [length]. lia.
  - destruct HI as [->|HI]; [assert (same_holder h h = true) by (now apply same_holder_eq); congruence|].
    cbn [length]. specialize (IH HN' HI). change (filter _ l) with (without h l). lia.
Qed.

Lemma some_refl : forall A (l : list A), some_of l l.
Proof. induction l; [apply So_nil|now apply So_take]. Qed.
Lemma some_more : forall A (c d b : list A), some_of c d -> some_of c (b ++ d).
Proof. intros A c d b H. induction b as [|x b IH]; [exact H|]. cbn. now apply So_skip. Qed.
Lemma some_app : forall A (a b c d : list A), some_of a b -> some_of c d -> some_of (a ++ c) (b ++ d).
Proof. intros A a b c d H K. induction H; cbn; [now apply some_more|now apply So_skip|now apply So_take]. Qed.

Section Life.
  Context {S E : Type} (cn : connection S E) (status : S -> option connection_status).
  Variables (bd : build) (chunk : option N) (timeout : N) (init : Z) (st0 : store) (conn0 : S) (now0 : N).

  Notation lstep := (life_step cn status bd chunk timeout).
  Notation lexec := (life_exec cn status bd chunk timeout).
  Notation sstep := (sys_step cn status bd chunk timeout).
  Notation sexec := (sys_exec cn status bd chunk timeout).
  Notation start := (life_init init st0 conn0 now0).
  Notation run acts := (lexec acts start).
  Notation trace := (list (life_event E)).

  Lemma lexec_snoc : forall acts a y, lexec (acts ++ [a]) y =
    (fst (lexec acts y) ++ fst (lstep a (snd (lexec acts y))), snd (lstep a (snd (lexec acts y)))).
  Proof.
    induction acts as [|x acts IH]; intros a y; cbn [app life_exec].
    - cbn [fst snd app]. destruct (lstep a y) as [ev y']. cbn. now rewrite app_nil_r.
    - destruct (lstep x y) as [ev y']. rewrite IH. destruct (lexec acts y') as [evs y''].
      cbn [fst snd]. destruct (lstep a y'') as [ev3 y3]. cbn. now rewrite app_assoc.
  Qed.
  Lemma lexec_app : forall a b y, lexec (a ++ b) y =
    (fst (lexec a y) ++ fst (lexec b (snd (lexec a y))), snd (lexec b (snd (lexec a y)))).
  Proof.
    induction a as [|x a IH]; intros b y; cbn [app life_exec].
    - cbn [fst snd app]. now destruct (lexec b y).
    - destruct (lstep x y) as [ev y']. rewrite IH. destruct (lexec a y') as [evs y''].
      cbn [fst snd]. now rewrite app_assoc.
  Qed.

  Lemma holders_app : forall (a b : trace), holders (a ++ b) = fold_left holders_step b (holders a).
  Proof. intros. unfold holders. apply fold_left_app. Qed.
  Lemma holders_snoc : forall (a : trace) e, holders (a ++ [e]) = holders_step (holders a) e.
  Proof. intros. now rewrite holders_app. Qed.

  (** Every event is one its holders are entitled to. *)
  Definition rightful (tr : trace) : Prop := forall pre e post, tr = pre ++ e :: post -> entitled (holders pre) e.
  Lemma rightful_nil : rightful [].
  Proof. intros [|? ?] e post H; discriminate H. Qed.
  Lemma rightful_snoc : forall tr e, rightful tr -> entitled (holders tr) e -> rightful (tr ++ [e]).
  Proof.
    intros tr e R HE pre x post H. destruct post as [|y post] using rev_ind.
    - apply app_inj_tail in H. destruct H as [-> ->]. exact HE.
    - clear IHpost. change (x :: post ++ [y]) with ((x :: post) ++ [y]) in H. rewrite app_assoc in H.
      apply app_inj_tail in H. destruct H as [-> ->]. now apply (R pre x post).
  Qed.

  (** [d] of the counted machines are about to be dropped. *)
  Record inv (d : N) (tr : trace) (y : @life S) : Prop := Inv {
    i_nodup : NoDup (holders tr);
    i_users : forall t, In (User t) (holders tr) <-> owns y t = true;
    i_watch : In Watchdog (holders tr) <-> lf_watch y = true;
    i_listen : In Listener (holders tr) <-> lf_listen y = true;
    i_strong : lf_strong y = N.of_nat (length (holders tr)) + d;
    i_busy : forall t, borrowed y t = true -> owns y t = true;
    i_rightful : rightful tr;
    i_wrun : lf_watch y = true -> sy_watch (lf_sys y) <> WDone;
    i_lrun : lf_listen y = true -> sy_listen (lf_sys y) <> LDone;
    i_wend : lf_watch y = false -> In (LifeSys SysWatchClose) tr \/ In LifeWatchCancelled tr;
    i_lend : lf_listen y = false -> In (LifeSys (SysStatus None)) tr \/ In LifeListenCancelled tr }.
  (** Between actions: the connection is dropped exactly if there are no holders, and then last. *)
  Definition settled (tr : trace) (y : @life S) : Prop :=
    inv 0 tr y /\ (In LifeFreed tr <-> holders tr = []) /\ (forall pre post, tr = pre ++ LifeFreed :: post -> post = []).

  Lemma no_freed_ends : forall tr : trace, ~ In LifeFreed tr -> forall pre post, tr = pre ++ LifeFreed :: post -> post = [].
  Proof. intros tr H pre post ->. exfalso. apply H. apply in_or_app. right. now left. Qed.

  Lemma fields_eq : forall d tr y y', inv d tr y -> lf_owners y' = lf_owners y -> lf_strong y' = lf_strong y ->
    lf_watch y' = lf_watch y -> lf_listen y' = lf_listen y ->
    (forall t, borrowed y' t = true -> owns y' t = true) ->
    (lf_watch y = true -> sy_watch (lf_sys y') <> WDone) -> (lf_listen y = true -> sy_listen (lf_sys y') <> LDone) ->
    inv d tr y'.
  Proof.
    intros d tr y y' I HO HS HW HL HB HWD HLD. destruct I. constructor; try assumption;
      unfold owns in *; try rewrite HO; try rewrite HS; try rewrite HW; try rewrite HL; auto.
  Qed.

  (** An event that makes and unmakes no holder. *)
  Definition neutral (e : life_event E) : Prop :=
    e <> LifeFreed /\ forall l, holders_step l e = l.
  Lemma inv_neutral : forall d tr y e, inv d tr y -> neutral e -> entitled (holders tr) e -> inv d (tr ++ [e]) y.
  Proof.
    intros d tr y e I [NF HN] HE. destruct I. constructor; rewrite ?holders_snoc, ?HN; try assumption.
    - now apply rightful_snoc.
    - intros H. destruct (i_wend0 H); [left|right]; apply in_or_app; now left.
    - intros H. destruct (i_lend0 H); [left|right]; apply in_or_app; now left.
  Qed.
  Lemma settle_none : forall tr y, inv 0 tr y -> holders tr <> [] -> ~ In LifeFreed tr -> settled tr y.
  Proof. intros tr y I HN NF. split; [exact I|]. split; [tauto|]. now apply no_freed_ends. Qed.

  (** Dropping a machine. *)
  Lemma inv_release : forall tr y, inv 1 tr y -> ~ In LifeFreed tr ->
    settled (tr ++ fst (@release S E y)) (snd (@release S E y)).
  Proof.
    intros tr y I NF. unfold release. cbn [fst snd]. set (y' := Life _ _ _ _ _).
    assert (I0 : inv 0 tr y').
    { destruct I. constructor; subst y'; unfold borrowed, owns in *; cbn [lf_strong lf_sys lf_owners lf_watch lf_listen] in *; try assumption.
      lia. }
    pose proof (i_strong _ _ _ I) as HS. destruct (lf_strong y =? 1) eqn:E1.
    - apply N.eqb_eq in E1. assert (HH : holders tr = []).
      { destruct (holders tr); [reflexivity|]. cbn [length] in HS. lia. }
      split; [|split].
      + destruct I0. constructor; rewrite ?holders_snoc; cbn [holders_step]; try assumption.
        * apply rightful_snoc; assumption.
        * intros H. destruct (i_wend0 H); [left|right]; apply in_or_app; now left.
        * intros H. destruct (i_lend0 H); [left|right]; apply in_or_app; now left.
      + rewrite holders_snoc. cbn [holders_step]. split; intros _; [exact HH|]. apply in_or_app. right. now left.
      + intros pre post H. destruct post as [|x post] using rev_ind; [reflexivity|]. clear IHpost.
        change (LifeFreed :: post ++ [x]) with ((LifeFreed :: post) ++ [x]) in H. rewrite app_assoc in H.
        apply app_inj_tail in H. destruct H as [H _]. exfalso. apply NF. rewrite H. apply in_or_app. right. now left.
    - apply N.eqb_neq in E1. rewrite app_nil_r. apply settle_none; try assumption.
      intros HH. rewrite HH in HS. cbn in HS. lia.
  Qed.

  (** Steps of the threads. *)
  Definition actor (a : action) : option nat :=
    match a with Call t _ | Run t | Push t _ | Request t => Some t | _ => None end.
  Lemma step_events : forall a c,
    (fst (step cn bd chunk a c) = [] \/
     exists e, fst (step cn bd chunk a c) = [e] /\ by_thread e = actor a) /\
    (forall u, cf_threads (snd (step cn bd chunk a c)) u = cf_threads c u \/ actor a = Some u).
  Proof.
    intros a c. destruct a as [t p|t|t m| |k|k|t]; cbn [step actor].
    - destruct (cf_threads c t); cbn; (split; [now left|]); intros u; try (now left).
      unfold set_thread. destruct (Nat.eqb u t) eqn:E1; [|now left]. apply Nat.eqb_eq in E1. subst. now right.
    - assert (HT : forall x u, set_thread (cf_threads c) t x u = cf_threads c u \/ Some t = Some u).
      { intros x u. unfold set_thread. destruct (Nat.eqb u t) eqn:E1; [|now left]. apply Nat.eqb_eq in E1. subst. now right. }
      destruct (cf_threads c t) as [|p|p sid|p sid st|].
      + cbn. split; [now left|]. intros; now left.
      + destruct (sid_draw (cf_counter c)) as [sid k]. cbn [fst snd cf_threads]. split; [|apply HT].
        right. eexists. split; reflexivity.
      + destruct (cf_store c sid); [|destruct (fnf_start chunk sid p)]; cbn [fst snd cf_threads];
          (split; [|apply HT]); right; eexists; split; reflexivity.
      + destruct (fnf_next bd st) as [[[f st']|]| |]; try (cbn [fst snd cf_threads]; (split; [|apply HT]); right; eexists; split; reflexivity).
        destruct (cn_send_and_forget cn (cf_conn c) f) as [conn' r]. cbn [fst snd cf_threads]. split; [|apply HT].
        right. eexists. split; reflexivity.
      + cbn. split; [now left|]. intros; now left.
    - destruct (cf_threads c t); cbn; (split; [|intros; now left]); try (now left). right. eexists. split; reflexivity.
    - cbn. split; [|intros; now left]. right. eexists. split; reflexivity.
    - cbn. split; [now left|]. intros; now left.
    - cbn. split; [now left|]. intros; now left.
    - destruct (cf_threads c t); cbn; (split; [|intros u]); try (now left).
      + right. eexists. split; reflexivity.
      + unfold set_thread. destruct (Nat.eqb u t) eqn:E1; [|now left]. apply Nat.eqb_eq in E1. subst. now right.
  Qed.

  Lemma freed_none : forall tr y, settled tr y -> holders tr <> [] -> ~ In LifeFreed tr.
  Proof. intros tr y (_ & F & _) H C. apply H. now apply F. Qed.
  Lemma in_nonempty : forall A (x : A) l, In x l -> l <> [].
  Proof. intros A x l H ->. destruct H. Qed.

  Lemma use_settled : forall tr y t a, settled tr y ->
    settled (tr ++ fst (lstep (LifeUse t a) y)) (snd (lstep (LifeUse t a) y)).
  Proof.
    intros tr y t a HS. cbn [life_step]. destruct (owns y t) eqn:EO; cbn [andb]; [|cbn; now rewrite app_nil_r].
    destruct (usable y t a) eqn:EU; [|cbn; now rewrite app_nil_r].
    destruct HS as [I HF]. pose proof (proj2 (i_users _ _ _ I t) EO) as HU.
    pose proof (freed_none _ _ (conj I HF) (in_nonempty _ _ _ HU)) as NF.
    cbn [sys_step]. destruct (step_events a (sy_config (lf_sys y))) as [HE HT].
    destruct (step cn bd chunk a (sy_config (lf_sys y))) as [ev c]. cbn [fst snd] in *.
    assert (HA : actor a = Some t \/ actor a = None).
    { destruct a; cbn in *; try (apply Nat.eqb_eq in EU; subst); auto. }
    set (y' := set_sys y _).
    assert (I' : inv 0 tr y').
    { apply (fields_eq 0 tr y y' I); try reflexivity; subst y'; cbn [set_sys lf_sys sy_watch sy_listen];
        [|apply (i_wrun _ _ _ I)|apply (i_lrun _ _ _ I)].
      intros u HB. change (owns y u = true). unfold borrowed in HB. cbn [lf_sys set_sys sy_config] in HB.
      destruct (HT u) as [HT'|HT']; [|destruct HA; congruence].
      apply (i_busy _ _ _ I). unfold borrowed. now rewrite <- HT'. }
    destruct HE as [->|(e & -> & HB)].
    - cbn. rewrite app_nil_r. apply settle_none; [assumption|eapply in_nonempty; exact HU|assumption].
    - cbn [map]. assert (NE : neutral (LifeSys (SysEv e))) by (split; [discriminate|reflexivity]).
      apply settle_none.
      + apply inv_neutral; try assumption. cbn [entitled]. rewrite HB. destruct HA as [->| ->]; [exact HU|exists t; exact HU].
      + rewrite holders_snoc. eapply in_nonempty. exact HU.
      + intros C. apply in_app_or in C. destruct C as [C|[C|[]]]; [now apply NF|discriminate C].
  Qed.

  Lemma owns_cons : forall t u l, existsb (Nat.eqb t) (u :: l) = true <-> t = u \/ existsb (Nat.eqb t) l = true.
  Proof. intros. cbn [existsb]. rewrite orb_true_iff, Nat.eqb_eq. tauto. Qed.
  Lemma owns_filter : forall t u l, existsb (Nat.eqb t) (filter (fun v => negb (Nat.eqb u v)) l) = true <->
    t <> u /\ existsb (Nat.eqb t) l = true.
  Proof.
    intros. rewrite !existsb_exists. split.
    - intros (v & HI & HE). apply filter_In in HI. destruct HI as [HI HV]. apply Nat.eqb_eq in HE. subst v.
      apply negb_true_iff, Nat.eqb_neq in HV. split; [congruence|]. exists t. split; [exact HI|apply Nat.eqb_refl].
    - intros (HN & v & HI & HE). apply Nat.eqb_eq in HE. subst v. exists t. split; [|apply Nat.eqb_refl].
      apply filter_In. split; [exact HI|]. apply negb_true_iff, Nat.eqb_neq. congruence.
  Qed.

  Lemma in_tail : forall (tr : trace) x e, In x tr -> In x (tr ++ [e]).
  Proof. intros. apply in_or_app. now left. Qed.
  Lemma in_last : forall (tr : trace) e, In e (tr ++ [e]).
  Proof. intros. apply in_or_app. right. now left. Qed.
  Lemma not_freed_snoc : forall (tr : trace) e, ~ In LifeFreed tr -> e <> LifeFreed -> ~ In LifeFreed (tr ++ [e]).
  Proof. intros tr e H HE C. apply in_app_or in C. destruct C as [C|[C|[]]]; [now apply H|now apply HE]. Qed.

  Lemma clone_settled : forall tr y t u, settled tr y ->
    settled (tr ++ fst (lstep (LifeClone t u) y)) (snd (lstep (LifeClone t u) y)).
  Proof.
    intros tr y t u HS. cbn [life_step]. destruct (owns y t) eqn:EO; cbn [andb]; [|cbn; now rewrite app_nil_r].
    destruct (owns y u) eqn:EU; cbn [negb]; [cbn; now rewrite app_nil_r|].
    destruct HS as [I HF]. pose proof (proj2 (i_users _ _ _ I t) EO) as HU.
    pose proof (freed_none _ _ (conj I HF) (in_nonempty _ _ _ HU)) as NF.
    assert (HN : ~ In (User u) (holders tr)) by (intros C; apply (i_users _ _ _ I) in C; congruence).
    cbn [fst snd]. apply settle_none.
    - destruct I. constructor; rewrite ?holders_snoc; unfold borrowed, owns in *;
        cbn [holders_step retain set_owners lf_sys lf_owners lf_strong lf_watch lf_listen] in *.
      + constructor; assumption.
      + intros v. rewrite owns_cons. cbn [In]. rewrite i_users0. intuition congruence.
      + rewrite <- i_watch0. cbn [In]. intuition congruence.
      + rewrite <- i_listen0. cbn [In]. intuition congruence.
      + rewrite i_strong0. cbn [length]. lia.
      + intros v HB. apply owns_cons. right. now apply i_busy0.
      + apply rightful_snoc; [assumption|]. cbn. tauto.
      + assumption.
      + assumption.
      + intros H. destruct (i_wend0 H); [left|right]; now apply in_tail.
      + intros H. destruct (i_lend0 H); [left|right]; now apply in_tail.
    - rewrite holders_snoc. discriminate.
    - apply not_freed_snoc; [assumption|discriminate].
  Qed.

  Lemma drop_settled : forall tr y t, settled tr y ->
    settled (tr ++ fst (lstep (LifeDrop t) y)) (snd (lstep (LifeDrop t) y)).
  Proof.
    intros tr y t HS. cbn [life_step]. destruct (owns y t) eqn:EO; cbn [andb]; [|cbn; now rewrite app_nil_r].
    destruct (borrowed y t) eqn:EB; cbn [negb]; [cbn; now rewrite app_nil_r|].
    destruct HS as [I HF]. pose proof (proj2 (i_users _ _ _ I t) EO) as HU.
    pose proof (freed_none _ _ (conj I HF) (in_nonempty _ _ _ HU)) as NF.
    set (y1 := set_owners y _).
    assert (I1 : inv 1 (tr ++ [LifeDropped t]) y1).
    { destruct I. constructor; rewrite ?holders_snoc; subst y1; unfold borrowed, owns in *;
        cbn [holders_step set_owners lf_sys lf_owners lf_strong lf_watch lf_listen] in *.
      + now apply without_nodup.
      + intros v. rewrite owns_filter, in_without, i_users0. intuition congruence.
      + rewrite <- i_watch0, in_without. intuition congruence.
      + rewrite <- i_listen0, in_without. intuition congruence.
      + rewrite i_strong0, (without_length (User t)) by assumption. lia.
      + intros v HB. apply owns_filter. split; [|now apply i_busy0]. intros ->. congruence.
      + apply rightful_snoc; assumption.
      + assumption.
      + assumption.
      + intros H. destruct (i_wend0 H); [left|right]; now apply in_tail.
      + intros H. destruct (i_lend0 H); [left|right]; now apply in_tail. }
    pose proof (inv_release _ _ I1 (not_freed_snoc tr (LifeDropped t) NF ltac:(discriminate))) as R.
    destruct (release y1) as [ev y']. cbn [fst snd] in *. rewrite <- app_assoc in R. exact R.
  Qed.

  Lemma elapse_settled : forall tr y d, settled tr y ->
    settled (tr ++ fst (lstep (LifeElapse d) y)) (snd (lstep (LifeElapse d) y)).
  Proof.
    intros tr y d [I HF]. cbn [life_step sys_step map fst snd]. rewrite app_nil_r. split; [|exact HF].
    apply (fields_eq 0 tr y _ I); try reflexivity; cbn [set_sys lf_sys sy_watch sy_listen];
      [apply (i_busy _ _ _ I)|apply (i_wrun _ _ _ I)|apply (i_lrun _ _ _ I)].
  Qed.

  (** The end of a task. *)
  Lemma watch_gone : forall tr y e s, inv 0 tr y -> lf_watch y = true ->
    (e = LifeSys SysWatchClose \/ e = LifeWatchCancelled) ->
    cf_threads (sy_config s) = cf_threads (sy_config (lf_sys y)) -> sy_listen s = sy_listen (lf_sys y) ->
    inv 1 (tr ++ [e]) (Life s (lf_owners y) (lf_strong y) false (lf_listen y)).
  Proof.
    intros tr y e s I HW HE HT HL. pose proof (proj2 (i_watch _ _ _ I) HW) as HI.
    assert (HH : holders (tr ++ [e]) = without Watchdog (holders tr)) by (rewrite holders_snoc; destruct HE; subst; reflexivity).
    destruct I. constructor; rewrite ?HH; unfold borrowed, owns in *;
      cbn [lf_sys lf_owners lf_strong lf_watch lf_listen] in *; rewrite ?HT, ?HL.
    - now apply without_nodup.
    - intros v. rewrite in_without, i_users0. intuition congruence.
    - rewrite in_without. split; [tauto|discriminate].
    - rewrite <- i_listen0, in_without. intuition congruence.
    - rewrite i_strong0, (without_length Watchdog) by assumption. lia.
    - assumption.
    - apply rightful_snoc; [assumption|]. destruct HE; subst; exact HI.
    - discriminate.
    - assumption.
    - intros _. destruct HE; subst; [left|right]; apply in_last.
    - intros H. destruct (i_lend0 H); [left|right]; now apply in_tail.
  Qed.
  Lemma listen_gone : forall tr y e s, inv 0 tr y -> lf_listen y = true ->
    (e = LifeSys (SysStatus None) \/ e = LifeListenCancelled) ->
    cf_threads (sy_config s) = cf_threads (sy_config (lf_sys y)) -> sy_watch s = sy_watch (lf_sys y) ->
    inv 1 (tr ++ [e]) (Life s (lf_owners y) (lf_strong y) (lf_watch y) false).
  Proof.
    intros tr y e s I HL HE HT HW. pose proof (proj2 (i_listen _ _ _ I) HL) as HI.
    assert (HH : holders (tr ++ [e]) = without Listener (holders tr)) by (rewrite holders_snoc; destruct HE; subst; reflexivity).
    destruct I. constructor; rewrite ?HH; unfold borrowed, owns in *;
      cbn [lf_sys lf_owners lf_strong lf_watch lf_listen] in *; rewrite ?HT, ?HW.
    - now apply without_nodup.
    - intros v. rewrite in_without, i_users0. intuition congruence.
    - rewrite <- i_watch0, in_without. intuition congruence.
    - rewrite in_without. split; [tauto|discriminate].
    - rewrite i_strong0, (without_length Listener) by assumption. lia.
    - assumption.
    - apply rightful_snoc; [assumption|]. destruct HE; subst; exact HI.
    - assumption.
    - discriminate.
    - intros H. destruct (i_wend0 H); [left|right]; now apply in_tail.
    - intros _. destruct HE; subst; [left|right]; apply in_last.
  Qed.

  (** A step of a task that does not end it. *)
  Lemma task_goes_on : forall tr y s ev, settled tr y -> holders tr <> [] ->
    cf_threads (sy_config s) = cf_threads (sy_config (lf_sys y)) ->
    (lf_watch y = true -> sy_watch s <> WDone) -> (lf_listen y = true -> sy_listen s <> LDone) ->
    (ev = [] \/ exists e, ev = [e] /\ neutral e /\ entitled (holders tr) e) ->
    settled (tr ++ ev) (set_sys y s).
  Proof.
    intros tr y s ev HS HN HT HW HL HE. pose proof (freed_none _ _ HS HN) as NF. destruct HS as [I HF].
    assert (I' : inv 0 tr (set_sys y s)).
    { apply (fields_eq 0 tr y _ I); try reflexivity; try assumption. intros t HB.
      apply (i_busy _ _ _ I). unfold borrowed in *. cbn [set_sys lf_sys] in HB. now rewrite HT in HB. }
    destruct HE as [->|(e & -> & NE & HE)].
    - rewrite app_nil_r. now apply settle_none.
    - apply settle_none; [now apply inv_neutral| |apply not_freed_snoc; [assumption|apply NE]].
      rewrite holders_snoc, (proj2 NE). exact HN.
  Qed.

  Lemma watch_settled : forall tr y, settled tr y ->
    settled (tr ++ fst (lstep LifeWatch y)) (snd (lstep LifeWatch y)).
  Proof.
    intros tr y HS. cbn [life_step]. destruct (lf_watch y) eqn:EW; [|cbn; now rewrite app_nil_r].
    pose proof (proj2 (i_watch _ _ _ (proj1 HS)) EW) as HI.
    pose proof (in_nonempty _ _ _ HI) as HN. pose proof (freed_none _ _ HS HN) as NF.
    pose proof (i_wrun _ _ _ (proj1 HS) EW) as HR. pose proof (i_lrun _ _ _ (proj1 HS)) as HL.
    cbn [sys_step]. unfold watch_step. destruct (sy_watch (lf_sys y)) as [|w| |] eqn:ES.
    - cbn [map]. unfold watch_ended. cbn [set_watch set_sys lf_sys sy_watch fst snd app].
      apply task_goes_on; try assumption; try reflexivity; [intros _; cbn [set_watch sy_watch]; discriminate|now left].
    - assert (WE : forall ev s, cf_threads (sy_config s) = cf_threads (sy_config (lf_sys y)) ->
        sy_listen s = sy_listen (lf_sys y) -> sy_watch s <> WDone ->
        (ev = [] \/ exists x, ev = [SysWatchLog x]) ->
        settled (tr ++ fst (let (ev', y') := @watch_ended S E (set_sys y s) in (map LifeSys ev ++ ev', y')))
          (snd (let (ev', y') := @watch_ended S E (set_sys y s) in (map LifeSys ev ++ ev', y')))).
      { intros ev s HT HLs HWs HEv. unfold watch_ended. cbn [set_sys lf_sys].
        assert (G : settled (tr ++ map LifeSys ev) (set_sys y s)).
        { apply task_goes_on; try assumption; try (intros _; assumption).
          - now rewrite HLs.
          - destruct HEv as [->|[x ->]]; [now left|right]. exists (LifeSys (SysWatchLog x)). repeat split; [discriminate|exact HI]. }
        destruct (sy_watch s); try (cbn [fst snd]; rewrite app_nil_r; exact G). now destruct HWs. }
      destruct (sy_now (lf_sys y) <? w); [|destruct (timeout <? sy_now (lf_sys y) - sy_last (lf_sys y))].
      + apply WE; try reflexivity; [now rewrite ES|now left].
      + apply WE; try reflexivity; [cbn [set_watch sy_watch]; discriminate|]. right. eexists. reflexivity.
      + apply WE; try reflexivity; [cbn [set_watch sy_watch]; discriminate|now left].
    - cbn [map]. unfold watch_ended. cbn [set_sys lf_sys sy_watch lf_owners lf_strong lf_listen].
      match goal with |- context [release ?z] => set (y1 := z) end.
      assert (I1 : inv 1 (tr ++ [LifeSys SysWatchClose]) y1).
      { apply watch_gone; try assumption; try reflexivity; [exact (proj1 HS)|now left]. }
      pose proof (inv_release _ _ I1 (not_freed_snoc tr (LifeSys SysWatchClose) NF ltac:(discriminate))) as R.
      destruct (release y1) as [ev y']. cbn [fst snd app] in *. rewrite <- app_assoc in R. exact R.
    - now destruct HR.
  Qed.

  Lemma listen_settled : forall tr y, settled tr y ->
    settled (tr ++ fst (lstep LifeListen y)) (snd (lstep LifeListen y)).
  Proof.
    intros tr y HS. cbn [life_step]. destruct (lf_listen y) eqn:EL; [|cbn; now rewrite app_nil_r].
    pose proof (proj2 (i_listen _ _ _ (proj1 HS)) EL) as HI.
    pose proof (in_nonempty _ _ _ HI) as HN. pose proof (freed_none _ _ HS HN) as NF.
    pose proof (i_lrun _ _ _ (proj1 HS) EL) as HR. pose proof (i_wrun _ _ _ (proj1 HS)) as HW.
    cbn [sys_step]. unfold listen_step. destruct (sy_listen (lf_sys y)) as [|x|] eqn:ES.
    - destruct (status (cf_conn (sy_config (lf_sys y)))) as [x|] eqn:EX.
      + cbn [map]. unfold listen_ended. cbn [set_listen set_sys lf_sys sy_listen fst snd app].
        apply task_goes_on; try assumption; try reflexivity; [intros _; cbn [set_listen sy_listen]; discriminate|].
        right. eexists. repeat split; [discriminate|exact HI].
      + cbn [map]. unfold listen_ended. cbn [set_listen set_sys lf_sys sy_listen lf_owners lf_strong lf_watch].
        match goal with |- context [release ?z] => set (y1 := z) end.
        assert (I1 : inv 1 (tr ++ [LifeSys (SysStatus None)]) y1).
        { apply listen_gone; try assumption; try reflexivity; [exact (proj1 HS)|now left]. }
        pose proof (inv_release _ _ I1 (not_freed_snoc tr (LifeSys (SysStatus None)) NF ltac:(discriminate))) as R.
        destruct (release y1) as [ev y']. cbn [fst snd app] in *. rewrite <- app_assoc in R. exact R.
    - unfold listen_ended. cbn [set_listen set_sys lf_sys sy_listen fst snd]. rewrite app_nil_r.
      apply task_goes_on; try assumption; try reflexivity; [intros _; cbn [set_listen sy_listen]; discriminate|].
      destruct x; cbn; try (now left); right; eexists; repeat split; try discriminate; exact HI.
    - now destruct HR.
  Qed.

  Lemma cancel_watch_settled : forall tr y, settled tr y ->
    settled (tr ++ fst (lstep LifeCancelWatch y)) (snd (lstep LifeCancelWatch y)).
  Proof.
    intros tr y HS. cbn [life_step]. destruct (lf_watch y) eqn:EW; [|cbn; now rewrite app_nil_r].
    pose proof (proj2 (i_watch _ _ _ (proj1 HS)) EW) as HI.
    pose proof (in_nonempty _ _ _ HI) as HN. pose proof (freed_none _ _ HS HN) as NF.
    assert (I1 : inv 1 (tr ++ [LifeWatchCancelled]) (Life (lf_sys y) (lf_owners y) (lf_strong y) false (lf_listen y))).
    { apply watch_gone; try assumption; try reflexivity; [exact (proj1 HS)|now right]. }
    pose proof (inv_release _ _ I1 (not_freed_snoc tr LifeWatchCancelled NF ltac:(discriminate))) as R.
    destruct (release _) as [ev y']. cbn [fst snd] in R. rewrite <- app_assoc in R.
    destruct (sy_watch (lf_sys y)); try exact R; cbn; now rewrite app_nil_r.
  Qed.
  Lemma cancel_listen_settled : forall tr y, settled tr y ->
    settled (tr ++ fst (lstep LifeCancelListen y)) (snd (lstep LifeCancelListen y)).
  Proof.
    intros tr y HS. cbn [life_step]. destruct (lf_listen y) eqn:EL; [|cbn; now rewrite app_nil_r].
    pose proof (proj2 (i_listen _ _ _ (proj1 HS)) EL) as HI.
    pose proof (in_nonempty _ _ _ HI) as HN. pose proof (freed_none _ _ HS HN) as NF.
    assert (I1 : inv 1 (tr ++ [LifeListenCancelled]) (Life (lf_sys y) (lf_owners y) (lf_strong y) (lf_watch y) false)).
    { apply listen_gone; try assumption; try reflexivity; [exact (proj1 HS)|now right]. }
    pose proof (inv_release _ _ I1 (not_freed_snoc tr LifeListenCancelled NF ltac:(discriminate))) as R.
    destruct (release _) as [ev y']. cbn [fst snd] in R. rewrite <- app_assoc in R.
    destruct (sy_listen (lf_sys y)); try exact R; cbn; now rewrite app_nil_r.
  Qed.

  Lemma start_settled : settled [] start.
  Proof.
    apply settle_none; [|discriminate|intros []].
    constructor; unfold borrowed, owns; cbn; try reflexivity; try discriminate.
    - repeat constructor; cbn; intuition discriminate.
    - intros t. rewrite orb_false_r, Nat.eqb_eq. split; [intros [H|[H|[H|[]]]]; congruence|intros ->; auto].
    - split; [reflexivity|auto].
    - split; [reflexivity|auto].
    - apply rightful_nil.
  Qed.
  Lemma all_settled : forall acts, settled (fst (run acts)) (snd (run acts)).
  Proof.
    intros acts. induction acts as [|a acts IH] using rev_ind; [exact start_settled|].
    rewrite lexec_snoc. cbn [fst snd]. destruct a.
    - now apply use_settled.
    - now apply clone_settled.
    - now apply drop_settled.
    - now apply elapse_settled.
    - now apply watch_settled.
    - now apply listen_settled.
    - now apply cancel_watch_settled.
    - now apply cancel_listen_settled.
  Qed.

  (** ** The theorems *)

  Lemma life_entitled : forall acts pre e post, fst (run acts) = pre ++ e :: post -> entitled (holders pre) e.
  Proof. intros acts. exact (i_rightful _ _ _ (proj1 (all_settled acts))). Qed.
  Lemma life_freed : forall acts, In LifeFreed (fst (run acts)) <-> holders (fst (run acts)) = [].
  Proof. intros acts. exact (proj1 (proj2 (all_settled acts))). Qed.
  Lemma life_last : forall acts pre post, fst (run acts) = pre ++ LifeFreed :: post -> post = [].
  Proof. intros acts. exact (proj2 (proj2 (all_settled acts))). Qed.
  Lemma life_at_once : forall acts pre e post, fst (run acts) = pre ++ e :: post -> holders pre = [] -> e = LifeFreed.
  Proof.
    intros acts pre e post H HH. pose proof (life_entitled acts _ _ _ H) as HE. rewrite HH in HE.
    destruct e as [[e| | | |]| | | | |]; cbn in HE; try tauto.
    destruct (by_thread e); [destruct HE|]. destruct HE as [t []].
  Qed.

  (** The machine behaves as without the count. *)
  Lemma of_system_app : forall a b : trace, of_system (a ++ b) = of_system a ++ of_system b.
  Proof. intros. apply flat_map_app. Qed.
  Lemma of_system_map : forall ev : list (sys_event E), of_system (map LifeSys ev) = ev.
  Proof. induction ev as [|e ev IH]; [reflexivity|]. cbn. now f_equal. Qed.
  Lemma of_system_release : forall y, of_system (fst (@release S E y)) = [].
  Proof. intros y. unfold release. cbn [fst]. now destruct (lf_strong y =? 1). Qed.
  Lemma lstep_system : forall a y, exists acts', some_of acts' (system_action a) /\ elapsed acts' = elapsed (system_action a) /\
    sexec acts' (lf_sys y) = (of_system (fst (lstep a y)), lf_sys (snd (lstep a y))).
  Proof.
    intros a y.
    assert (ONE : forall x, sexec [x] (lf_sys y) = (fst (sstep x (lf_sys y)), snd (sstep x (lf_sys y)))).
    { intros x. cbn [sys_exec]. destruct (sstep x (lf_sys y)). cbn. now rewrite app_nil_r. }
    assert (WE : forall s, of_system (fst (@watch_ended S E (set_sys y s))) = [] /\ lf_sys (snd (@watch_ended S E (set_sys y s))) = s).
    { intros s. unfold watch_ended. cbn [set_sys lf_sys]. destruct (sy_watch s); try (split; reflexivity). split; [apply of_system_release|reflexivity]. }
    assert (LE : forall s, of_system (fst (@listen_ended S E (set_sys y s))) = [] /\ lf_sys (snd (@listen_ended S E (set_sys y s))) = s).
    { intros s. unfold listen_ended. cbn [set_sys lf_sys]. destruct (sy_listen s); try (split; reflexivity). split; [apply of_system_release|reflexivity]. }
    destruct a as [t a|t u|t|d| | | |]; cbn [life_step system_action].
    - destruct (owns y t && usable y t a).
      + exists [SysAct a]. repeat split; [apply some_refl|]. rewrite ONE.
        destruct (sstep (SysAct a) (lf_sys y)) as [ev s]. cbn [fst snd]. now rewrite of_system_map.
      + exists []. repeat split. apply So_nil.
    - exists []. repeat split; [apply So_nil|]. destruct (owns y t && negb (owns y u)); reflexivity.
    - exists []. repeat split; [apply So_nil|]. destruct (owns y t && negb (borrowed y t)); [|reflexivity].
      match goal with |- context [release ?z] => pose proof (of_system_release z) as R; assert (Q : lf_sys (snd (@release S E z)) = lf_sys y) by reflexivity; destruct (release z) as [ev y'] end.
      cbn [fst snd] in *. cbn [sys_exec]. rewrite Q. cbn. change (flat_map _ ev) with (of_system ev). now rewrite R.
    - exists [SysElapse d]. repeat split. apply some_refl.
    - destruct (lf_watch y); [|exists []; repeat split; apply So_nil].
      exists [SysWatch]. repeat split; [apply some_refl|]. rewrite ONE.
      destruct (sstep SysWatch (lf_sys y)) as [ev s]. cbn [fst snd]. destruct (WE s) as [W1 W2].
      destruct (watch_ended (set_sys y s)) as [ev' y']. cbn [fst snd] in *. now rewrite of_system_app, of_system_map, W1, W2, app_nil_r.
    - destruct (lf_listen y); [|exists []; repeat split; apply So_nil].
      exists [SysListen]. repeat split; [apply some_refl|]. rewrite ONE.
      destruct (sstep SysListen (lf_sys y)) as [ev s]. cbn [fst snd]. destruct (LE s) as [W1 W2].
      destruct (listen_ended (set_sys y s)) as [ev' y']. cbn [fst snd] in *. now rewrite of_system_app, of_system_map, W1, W2, app_nil_r.
    - exists []. repeat split; [apply So_nil|]. destruct (lf_watch y); [|reflexivity].
      match goal with |- context [release ?z] => pose proof (of_system_release z) as R; assert (Q : lf_sys (snd (@release S E z)) = lf_sys y) by reflexivity; destruct (release z) as [ev y'] end.
      cbn [fst snd] in *. destruct (sy_watch (lf_sys y)); try reflexivity;
        cbn [sys_exec fst snd]; rewrite Q; cbn; change (flat_map _ ev) with (of_system ev); now rewrite R.
    - exists []. repeat split; [apply So_nil|]. destruct (lf_listen y); [|reflexivity].
      match goal with |- context [release ?z] => pose proof (of_system_release z) as R; assert (Q : lf_sys (snd (@release S E z)) = lf_sys y) by reflexivity; destruct (release z) as [ev y'] end.
      cbn [fst snd] in *. destruct (sy_listen (lf_sys y)); try reflexivity;
        cbn [sys_exec fst snd]; rewrite Q; cbn; change (flat_map _ ev) with (of_system ev); now rewrite R.
  Qed.
  Lemma life_system : forall acts, exists acts',
    some_of acts' (flat_map system_action acts) /\ elapsed acts' = life_elapsed acts /\
    sexec acts' (system_init init st0 conn0 now0) = (of_system (fst (run acts)), lf_sys (snd (run acts))).
  Proof.
    intros acts. induction acts as [|a acts (acts' & H1 & H2 & H3)] using rev_ind.
    - exists []. repeat split. apply So_nil.
    - destruct (lstep_system a (snd (run acts))) as (b & B1 & B2 & B3). exists (acts' ++ b).
      rewrite flat_map_app. unfold life_elapsed in *. rewrite flat_map_app, !elapsed_app. cbn [flat_map]. rewrite app_nil_r.
      repeat split; [now apply some_app|lia|].
      rewrite sexec_app, H3. cbn [fst snd]. rewrite B3, lexec_snoc. cbn [fst snd]. now rewrite of_system_app.
  Qed.

  Lemma in_of_system : forall (tr : trace) e, In (LifeSys e) tr -> In e (of_system tr).
  Proof. intros tr e H. apply in_flat_map. exists (LifeSys e). split; [exact H|now left]. Qed.

  (** While status streams begin with a status, only a runtime that drops the listener lets the connection go. *)
  Lemma asked : forall acts y x, In (SysStatus x) (fst (sexec acts y)) -> exists s, x = status s.
  Proof.
    induction acts as [|a acts IH]; intros y x H; [destruct H|]. cbn [sys_exec] in H.
    destruct (sstep a y) as [ev y'] eqn:E1. destruct (sexec acts y') as [evs y''] eqn:E2. cbn [fst] in H.
    apply in_app_or in H. destruct H as [H|H]; [|apply (IH y'); now rewrite E2].
    destruct a; cbn [sys_step] in E1.
    - destruct (step cn bd chunk a (sy_config y)) as [e c]. injection E1 as <- _. apply in_map_iff in H.
      destruct H as (z & Hz & _). discriminate Hz.
    - injection E1 as <- _. destruct H.
    - unfold watch_step in E1. destruct (sy_watch y); [| destruct (sy_now y <? until); [|destruct (timeout <? sy_now y - sy_last y)] | |];
        injection E1 as <- _; cbn in H; intuition discriminate.
    - unfold listen_step in E1. destruct (sy_listen y) as [|z|].
      + injection E1 as <- _. destruct H as [H|[]]. injection H as <-. eexists. reflexivity.
      + injection E1 as <- _. apply in_map_iff in H. destruct H as (w & Hw & _). discriminate Hw.
      + injection E1 as <- _. destruct H.
  Qed.
  Lemma life_kept : (forall s, status s <> None) -> forall acts,
    In LifeFreed (fst (run acts)) -> In LifeListenCancelled (fst (run acts)).
  Proof.
    intros HS acts H. apply life_freed in H. destruct (all_settled acts) as [I _].
    assert (HL : lf_listen (snd (run acts)) = false).
    { destruct (lf_listen (snd (run acts))) eqn:EL; [|reflexivity]. apply (i_listen _ _ _ I) in EL. rewrite H in EL. destruct EL. }
    destruct (i_lend _ _ _ I HL) as [HI|HI]; [|exact HI]. exfalso. apply in_of_system in HI.
    destruct (life_system acts) as (acts' & _ & _ & HX). apply (f_equal fst) in HX. cbn [fst] in HX. rewrite <- HX in HI.
    apply asked in HI. destruct HI as [s Hs]. now apply (HS s).
  Qed.
  Lemma life_closed_first : forall acts, In LifeFreed (fst (run acts)) ->
    In LifeWatchCancelled (fst (run acts)) \/ (timeout < life_elapsed acts /\ In (LifeSys SysWatchClose) (fst (run acts))).
  Proof.
    intros acts H. apply life_freed in H. destruct (all_settled acts) as [I _].
    assert (HW : lf_watch (snd (run acts)) = false).
    { destruct (lf_watch (snd (run acts))) eqn:EL; [|reflexivity]. apply (i_watch _ _ _ I) in EL. rewrite H in EL. destruct EL. }
    destruct (i_wend _ _ _ I HW) as [HI|HI]; [|now left]. right. split; [|exact HI]. apply in_of_system in HI.
    destruct (life_system acts) as (acts' & _ & HE & HX). apply (f_equal fst) in HX. cbn [fst] in HX. rewrite <- HX in HI. rewrite <- HE.
    destruct (watch_safe cn status bd chunk timeout init st0 conn0 now0 acts') as [W|[W _]]; [|exact W].
    exfalso. assert (C : In ConnClose (watched (fst (sexec acts' (system_init init st0 conn0 now0))))).
    { apply in_flat_map. exists SysWatchClose. split; [exact HI|now left]. }
    rewrite W in C. destruct C.
  Qed.

  (** A listener that is alone and finds its stream ended lets the connection go. *)
  Lemma life_frees : forall acts, holders (fst (run acts)) = [Listener] ->
    status (cf_conn (sy_config (lf_sys (snd (run acts))))) = None ->
    In LifeFreed (fst (run (acts ++ [LifeListen; LifeListen]))).
  Proof.
    intros acts HH HS. destruct (all_settled acts) as [I _].
    assert (HL : lf_listen (snd (run acts)) = true) by (apply (i_listen _ _ _ I); rewrite HH; now left).
    pose proof (i_lrun _ _ _ I HL) as HR. pose proof (i_strong _ _ _ I) as HN. rewrite HH in HN. cbn in HN.
    rewrite lexec_app. cbn [fst]. apply in_or_app. right.
    destruct (snd (run acts)) as [s ow n w l]. cbn [lf_listen lf_sys lf_strong] in *. subst n l.
    destruct s as [c la no wa li]. cbn [sy_listen sy_config] in *.
    destruct li as [|x|].
    - cbn. unfold listen_step. cbn. rewrite HS. cbn. auto.
    - cbn. unfold listen_step. cbn. rewrite HS. cbn. apply in_or_app. right. cbn. auto.
    - now destruct HR.
  Qed.
  (** A thread that is alone and drops its machine lets the connection go. *)
  Lemma life_drop_frees : forall acts t, holders (fst (run acts)) = [User t] ->
    cf_threads (sy_config (lf_sys (snd (run acts)))) t = Idle ->
    fst (run (acts ++ [LifeDrop t])) = fst (run acts) ++ [LifeDropped t; LifeFreed].
  Proof.
    intros acts t HH HI. destruct (all_settled acts) as [I _].
    assert (HO : owns (snd (run acts)) t = true) by (apply (i_users _ _ _ I); rewrite HH; now left).
    pose proof (i_strong _ _ _ I) as HN. rewrite HH in HN. cbn in HN.
    rewrite lexec_snoc. cbn [fst life_step]. rewrite HO. unfold borrowed. rewrite HI. cbn [andb negb].
    unfold release. cbn [set_owners lf_strong fst]. now rewrite HN.
  Qed.

  (** A thread in the middle of a call holds a machine. *)
  Lemma life_in_call : forall acts t, cf_threads (sy_config (lf_sys (snd (run acts)))) t <> Idle ->
    cf_threads (sy_config (lf_sys (snd (run acts)))) t <> Panicked -> In (User t) (holders (fst (run acts))).
  Proof.
    intros acts t HI HP. destruct (all_settled acts) as [I _]. apply (i_users _ _ _ I), (i_busy _ _ _ I). unfold borrowed.
    destruct (cf_threads (sy_config (lf_sys (snd (run acts)))) t); try reflexivity; congruence.
  Qed.

  (** Tasks that have been cancelled stay where they awaited. *)
  Definition resting (tr : trace) (y : @life S) : Prop :=
    (In LifeWatchCancelled tr -> lf_watch y = false /\ (sy_watch (lf_sys y) = WStart \/ exists u, sy_watch (lf_sys y) = WSleep u)) /\
    (In LifeListenCancelled tr -> lf_listen y = false /\ sy_listen (lf_sys y) = LAsk).
  Lemma release_silent : forall y, ~ In LifeWatchCancelled (fst (@release S E y)) /\ ~ In LifeListenCancelled (fst (@release S E y)).
  Proof. intros y. unfold release. cbn [fst]. destruct (lf_strong y =? 1); cbn; intuition discriminate. Qed.
  Lemma resting_quiet : forall tr y ev y', resting tr y -> lf_watch y' = lf_watch y -> lf_listen y' = lf_listen y ->
    (lf_watch y = false -> sy_watch (lf_sys y') = sy_watch (lf_sys y)) ->
    (lf_listen y = false -> sy_listen (lf_sys y') = sy_listen (lf_sys y)) ->
    ~ In LifeWatchCancelled ev -> ~ In LifeListenCancelled ev -> resting (tr ++ ev) y'.
  Proof.
    intros tr y ev y' [RW RL] HW HL SW SL NW NL. split; intros H; apply in_app_or in H; (destruct H as [H|H]; [|contradiction]).
    - destruct (RW H) as [A B]. rewrite HW, (SW A). now split.
    - destruct (RL H) as [A B]. rewrite HL, (SL A). now split.
  Qed.
  Lemma no_cancel_map : forall ev : list (sys_event E), ~ In LifeWatchCancelled (map LifeSys ev) /\ ~ In LifeListenCancelled (map LifeSys ev).
  Proof. intros ev. split; intros H; apply in_map_iff in H; destruct H as (x & Hx & _); discriminate Hx. Qed.
  Lemma all_resting : forall acts, resting (fst (run acts)) (snd (run acts)).
  Proof.
    intros acts. induction acts as [|a acts IH] using rev_ind; [split; intros []|].
    rewrite lexec_snoc. cbn [fst snd]. set (y := snd (run acts)) in *. set (tr := fst (run acts)) in *.
    assert (SAME : resting (tr ++ []) y) by now rewrite app_nil_r.
    destruct a as [t a|t u|t|d| | | |]; cbn [life_step].
    - destruct (owns y t && usable y t a); [|exact SAME]. cbn [sys_step].
      destruct (step cn bd chunk a (sy_config (lf_sys y))) as [ev c]. cbn [fst snd].
      apply (resting_quiet tr y); try assumption; try reflexivity; apply no_cancel_map.
    - destruct (owns y t && negb (owns y u)); [|exact SAME].
      apply (resting_quiet tr y); try assumption; try reflexivity; cbn; intuition discriminate.
    - destruct (owns y t && negb (borrowed y t)); [|exact SAME].
      match goal with |- context [release ?z] => destruct (release_silent z) as [R1 R2]; assert (Q : lf_sys (snd (@release S E z)) = lf_sys y /\ lf_watch (snd (@release S E z)) = lf_watch y /\ lf_listen (snd (@release S E z)) = lf_listen y) by (repeat split); destruct (release z) as [ev y'] end.
      cbn [fst snd] in *. destruct Q as (Q1 & Q2 & Q3).
      apply (resting_quiet tr y); try assumption; try (intros _; now rewrite Q1); cbn; intuition discriminate.
    - cbn [sys_step map fst snd]. apply (resting_quiet tr y); try assumption; try reflexivity; intros [].
    - destruct (lf_watch y) eqn:EW; [|exact SAME].
      destruct (sstep SysWatch (lf_sys y)) as [ev s] eqn:ES.
      assert (SL : sy_listen s = sy_listen (lf_sys y)).
      { cbn [sys_step] in ES. unfold watch_step in ES. destruct (sy_watch (lf_sys y)) as [|w| |]; [|destruct (sy_now (lf_sys y) <? w); [|destruct (timeout <? sy_now (lf_sys y) - sy_last (lf_sys y))]| |];
          injection ES as _ <-; reflexivity. }
      assert (NW : ~ In LifeWatchCancelled tr) by (intros C; destruct IH as [RW _]; destruct (RW C); congruence).
      destruct IH as [_ RL].
      assert (G : forall ev' y', sy_listen (lf_sys y') = sy_listen s -> lf_listen y' = lf_listen y ->
        ~ In LifeWatchCancelled ev' /\ ~ In LifeListenCancelled ev' -> resting (tr ++ map LifeSys ev ++ ev') y').
      { intros ev' y' H1 H2 [H3 H4]. destruct (no_cancel_map ev) as [M1 M2].
        split; intros H; repeat (apply in_app_or in H; destruct H as [H|H]; try contradiction).
        destruct (RL H) as [A B]. rewrite H2, H1, SL. now split. }
      unfold watch_ended. cbn [set_sys lf_sys]. destruct (sy_watch s); try (apply G; [reflexivity|reflexivity|split; intros []]).
      match goal with |- context [release ?z] => pose proof (release_silent z) as R; assert (Q : lf_sys (snd (@release S E z)) = s /\ lf_listen (snd (@release S E z)) = lf_listen y) by (split; reflexivity); destruct (release z) as [ev' y'] end.
      cbn [fst snd] in *. destruct Q as [Q1 Q2]. apply G; [now rewrite Q1|assumption|assumption].
    - destruct (lf_listen y) eqn:EL; [|exact SAME].
      destruct (sstep SysListen (lf_sys y)) as [ev s] eqn:ES.
      assert (SW : sy_watch s = sy_watch (lf_sys y)).
      { cbn [sys_step] in ES. unfold listen_step in ES. destruct (sy_listen (lf_sys y)); injection ES as _ <-; reflexivity. }
      assert (NL : ~ In LifeListenCancelled tr) by (intros C; destruct IH as [_ RL]; destruct (RL C); congruence).
      destruct IH as [RW _].
      assert (G : forall ev' y', sy_watch (lf_sys y') = sy_watch s -> lf_watch y' = lf_watch y ->
        ~ In LifeWatchCancelled ev' /\ ~ In LifeListenCancelled ev' -> resting (tr ++ map LifeSys ev ++ ev') y').
      { intros ev' y' H1 H2 [H3 H4]. destruct (no_cancel_map ev) as [M1 M2].
        split; intros H; repeat (apply in_app_or in H; destruct H as [H|H]; try contradiction).
        destruct (RW H) as [A B]. rewrite H2, H1, SW. now split. }
      unfold listen_ended. cbn [set_sys lf_sys]. destruct (sy_listen s); try (apply G; [reflexivity|reflexivity|split; intros []]).
      match goal with |- context [release ?z] => pose proof (release_silent z) as R; assert (Q : lf_sys (snd (@release S E z)) = s /\ lf_watch (snd (@release S E z)) = lf_watch y) by (split; reflexivity); destruct (release z) as [ev' y'] end.
      cbn [fst snd] in *. destruct Q as [Q1 Q2]. apply G; [now rewrite Q1|assumption|assumption].
    - destruct (lf_watch y) eqn:EW; [|exact SAME].
      match goal with |- context [release ?z] => destruct (release_silent z) as [R1 R2]; assert (Q : lf_sys (snd (@release S E z)) = lf_sys y /\ lf_watch (snd (@release S E z)) = false /\ lf_listen (snd (@release S E z)) = lf_listen y) by (repeat split); destruct (release z) as [ev y'] end.
      cbn [fst snd] in *. destruct Q as (Q1 & Q2 & Q3). destruct IH as [_ RL].
      assert (L : In LifeListenCancelled (tr ++ LifeWatchCancelled :: ev) -> lf_listen y' = false /\ sy_listen (lf_sys y') = LAsk).
      { intros H. apply in_app_or in H. rewrite Q1, Q3. destruct H as [H|[H|H]]; [now apply RL|discriminate H|contradiction]. }
      destruct (sy_watch (lf_sys y)) as [|w| |] eqn:ES; try exact SAME; (split; [intros _; cbn [snd]; rewrite Q1, Q2, ES; eauto|exact L]).
    - destruct (lf_listen y) eqn:EL; [|exact SAME].
      match goal with |- context [release ?z] => destruct (release_silent z) as [R1 R2]; assert (Q : lf_sys (snd (@release S E z)) = lf_sys y /\ lf_watch (snd (@release S E z)) = lf_watch y /\ lf_listen (snd (@release S E z)) = false) by (repeat split); destruct (release z) as [ev y'] end.
      cbn [fst snd] in *. destruct Q as (Q1 & Q2 & Q3). destruct IH as [RW _].
      assert (L : In LifeWatchCancelled (tr ++ LifeListenCancelled :: ev) -> lf_watch y' = false /\ (sy_watch (lf_sys y') = WStart \/ exists u, sy_watch (lf_sys y') = WSleep u)).
      { intros H. apply in_app_or in H. rewrite Q1, Q2. destruct H as [H|[H|H]]; [now apply RW|discriminate H|contradiction]. }
      destruct (sy_listen (lf_sys y)) eqn:ES; try exact SAME. split; [exact L|intros _]. cbn [snd]. rewrite Q1, Q3, ES. now split.
  Qed.
  (** A watchdog that is cancelled has done nothing; a listener that is cancelled has reported all it was told. *)
  Lemma life_watch_cancelled : forall acts, In LifeWatchCancelled (fst (run acts)) -> watched (of_system (fst (run acts))) = [].
  Proof.
    intros acts H. destruct (all_resting acts) as [RW _]. destruct (RW H) as [_ R].
    destruct (life_system acts) as (acts' & _ & _ & HX).
    destruct (thread_sims cn status bd chunk timeout init st0 conn0 now0 acts') as (pre & post & _ & T).
    rewrite HX in T. cbn [fst snd] in T. destruct R as [R|[u R]]; rewrite R in T; apply T.
  Qed.
  Lemma life_listen_cancelled : forall acts, In LifeListenCancelled (fst (run acts)) ->
    exists h, statuses (of_system (fst (run acts))) = map Some h /\ listened (of_system (fst (run acts))) = lines h.
  Proof.
    intros acts H. destruct (all_resting acts) as [_ RL]. destruct (RL H) as [_ R].
    destruct (life_system acts) as (acts' & _ & _ & HX).
    pose proof (listen_invariant cn status bd chunk timeout init st0 conn0 now0 acts') as T. unfold listen_inv in T.
    rewrite HX in T. cbn [fst snd] in T. rewrite R in T. destruct T as (h & T1 & T2 & _). now exists h.
  Qed.
End Life.
