(** * Executions without a global order are interleavings *)

From Coq Require Import Lia.
From Verif Require Import Model.WeakM Spec.Weak Proofs.TraceP.

Lemma minimal (r : nat -> nat -> bool) :
  (forall i, r i i = false) -> (forall i j k, r i j = true -> r j k = true -> r i k = true) ->
  forall s, s <> [] -> exists m, In m s /\ forall j, In j s -> r j m = false.
Proof.
  intros Hi Ht s. induction s as [|x s IH]; [congruence|intros _].
  destruct s as [|y s].
  - exists x. split; [now left|]. intros j [<-|[]]. apply Hi.
  - destruct IH as (m & Hm & Hmin); [discriminate|].
    destruct (r x m) eqn:Hx.
    + exists x. split; [now left|]. intros j [<-|Hj]; [apply Hi|].
      destruct (r j x) eqn:Hjx; [|reflexivity].
      now rewrite <- (Hmin j Hj), (Ht _ _ _ Hjx Hx).
    + exists m. split; [now right|]. intros j [<-|Hj]; [exact Hx|now apply Hmin].
Qed.

Section Weak.
  Context {S E : Type} (cn : connection S E) (bd : build) (chunk : option N).

  Lemma agree_refl (c : config (S := S)) l : agree c c l.
  Proof. destruct l; reflexivity. Qed.

  (** Changing the locals of thread [t] only. *)
  Lemma agree_thread (c d : config (S := S)) k1 s1 (n1 : S) k2 s2 (n2 : S) t x :
    forall l, l = PThread t ->
    agree (Config k1 s1 n1 (set_thread (cf_threads c) t x)) (Config k2 s2 n2 (set_thread (cf_threads d) t x)) l.
  Proof. intros l ->. cbn. unfold set_thread. now rewrite Nat.eqb_refl. Qed.
  Lemma agree_other (c : config (S := S)) t x : forall l, l <> PThread t ->
    agree (Config (cf_counter c) (cf_store c) (cf_conn c) (set_thread (cf_threads c) t x)) c l.
  Proof.
    intros l H. destruct l as [| |  |u]; cbn; try reflexivity. unfold set_thread.
    destruct (Nat.eqb_spec u t) as [->|]; [congruence|reflexivity].
  Qed.

  (** A step depends on the places it touches only, and changes those it writes only. *)
  Lemma step_local a (v c : config (S := S)) :
    (forall l, touches bd a v l -> agree c v l) ->
    fst (step cn bd chunk a c) = fst (step cn bd chunk a v) /\
    (forall l, alters bd a v l -> agree (snd (step cn bd chunk a c)) (snd (step cn bd chunk a v)) l) /\
    (forall l, ~ alters bd a v l -> agree (snd (step cn bd chunk a c)) c l).
  Proof.
    intros H. destruct a as [t p|t|t md| |k|k|t]; unfold alters in *; cbn [touches] in *.
    - assert (Ht := H (PThread t) eq_refl); cbn in Ht. cbn [step]; rewrite Ht.
      destruct (cf_threads v t) eqn:Hv; cbn [fst snd]; (split; [reflexivity|split]); intros l Hl;
        try (apply agree_refl); try (now apply H); try (apply agree_thread; now apply Hl);
        try (apply agree_other; intros ->; apply Hl; now split).
    - assert (Ht := H (PThread t) (or_introl eq_refl)); cbn in Ht. cbn [step]; rewrite Ht.
      destruct (cf_threads v t) as [|p|p sid|p sid st|] eqn:Hv; cbn [fst snd].
      + repeat split; intros l Hl; [now apply H|apply agree_refl].
      + assert (Hc := H PCounter (or_intror eq_refl)); cbn in Hc. rewrite Hc.
        destruct (sid_draw (cf_counter v)) as [sid k]; cbn [fst snd].
        split; [reflexivity|split]; intros l Hl.
        * destruct Hl as [[->| ->] _]; [now apply agree_thread|reflexivity].
        * destruct l as [| | |u]; cbn; try reflexivity; [exfalso; apply Hl; split; [now right|exact I]|].
          unfold set_thread. destruct (Nat.eqb_spec u t) as [->|]; [|reflexivity].
          exfalso; apply Hl; split; [now left|exact I].
      + assert (Hc := H (PKey sid) (or_intror eq_refl)); cbn in Hc. rewrite Hc.
        destruct (cf_store v sid); [|destruct (fnf_start chunk sid p)]; cbn [fst snd];
          (split; [reflexivity|split]); intros l Hl;
          try (destruct Hl as [[->| ->] []]; now apply agree_thread);
          (apply agree_other; intros ->; apply Hl; split; [now left|exact I]).
      + destruct (fnf_next bd st) as [[[f st']|]| |] eqn:Hf.
        * assert (Hc := H PConn (or_intror eq_refl)); cbn in Hc. rewrite Hc.
          destruct (cn_send_and_forget cn (cf_conn v) f) as [conn' r]; cbn [fst snd].
          split; [reflexivity|split]; intros l Hl.
          -- destruct Hl as [[->| ->] _]; [now apply agree_thread|reflexivity].
          -- destruct l as [| | |u]; cbn; try reflexivity; [exfalso; apply Hl; split; [now right|exact I]|].
             unfold set_thread. destruct (Nat.eqb_spec u t) as [->|]; [|reflexivity].
             exfalso; apply Hl; split; [now left|exact I].
        * cbn [fst snd]. split; [reflexivity|split]; intros l Hl.
          -- destruct Hl as [[->|[]] _]; now apply agree_thread.
          -- apply agree_other; intros ->; apply Hl; split; [now left|exact I].
        * cbn [fst snd]. split; [reflexivity|split]; intros l Hl.
          -- destruct Hl as [[->|[]] _]; now apply agree_thread.
          -- apply agree_other; intros ->; apply Hl; split; [now left|exact I].
        * cbn [fst snd]. split; [reflexivity|split]; intros l Hl.
          -- destruct Hl as [[->|[]] _]; now apply agree_thread.
          -- apply agree_other; intros ->; apply Hl; split; [now left|exact I].
      + repeat split; intros l Hl; [now apply H|apply agree_refl].
    - assert (Ht := H (PThread t) (or_introl eq_refl)); cbn in Ht. cbn [step]; rewrite Ht.
      destruct (cf_threads v t) eqn:Hv; cbn [fst snd];
        try (split; [reflexivity|split]; intros l Hl; [now apply H|apply agree_refl]).
      assert (Hc := H PConn (or_intror (conj eq_refl eq_refl))); cbn in Hc. rewrite Hc.
      destruct (metadata_push (cn_send cn) md (cf_conn v)) as [fs [conn' r]]; cbn [fst snd].
      split; [reflexivity|split]; intros l Hl.
      + destruct Hl as [[->|[_ ->]] _]; [cbn; congruence|reflexivity].
      + destruct l as [| | |u]; cbn; try reflexivity. exfalso; apply Hl; split; [right; now split|exact I].
    - cbn [step fst snd]. split; [reflexivity|split]; intros l Hl.
      + destruct Hl as [-> _]. cbn. f_equal. exact (H PConn eq_refl).
      + destruct l; cbn; try reflexivity. exfalso; apply Hl; now split.
    - cbn [step fst snd]. split; [reflexivity|split]; intros l Hl.
      + destruct Hl as [-> _]. cbn. unfold set_store. now rewrite N.eqb_refl.
      + destruct l as [|j| |]; cbn; try reflexivity. unfold set_store.
        destruct (N.eqb_spec j k) as [->|]; [|reflexivity]. exfalso; apply Hl; now split.
    - cbn [step fst snd]. split; [reflexivity|split]; intros l Hl.
      + destruct Hl as [-> _]. cbn. unfold set_store. now rewrite N.eqb_refl.
      + destruct l as [|j| |]; cbn; try reflexivity. unfold set_store.
        destruct (N.eqb_spec j k) as [->|]; [|reflexivity]. exfalso; apply Hl; now split.
    - assert (Ht := H (PThread t) eq_refl); cbn in Ht. cbn [step]; rewrite Ht.
      destruct (cf_threads v t) eqn:Hv; cbn [fst snd]; (split; [reflexivity|split]); intros l Hl;
        try (apply agree_refl); try (now apply H); try (apply agree_thread; now apply Hl);
        try (apply agree_other; intros ->; apply Hl; now split).
  Qed.

  Lemma place_dec (l m : place) : {l = m} + {l <> m}.
  Proof. decide equality; [apply N.eq_dec|apply Nat.eq_dec]. Qed.
  Lemma touches_dec a (v : config (S := S)) l : {touches bd a v l} + {~ touches bd a v l}.
  Proof.
    destruct a as [t p|t|t md| |k|k|t]; cbn [touches]; try apply place_dec.
    - destruct (place_dec l (PThread t)) as [?|Hn]; [left; now left|].
      destruct (cf_threads v t) as [|p|p sid|p sid st|].
      + right; tauto.
      + destruct (place_dec l PCounter); [left; now right|right; tauto].
      + destruct (place_dec l (PKey sid)); [left; now right|right; tauto].
      + destruct (fnf_next bd st) as [[?|]| |]; try (right; tauto).
        destruct (place_dec l PConn); [left; now right|right; tauto].
      + right; tauto.
    - destruct (place_dec l (PThread t)) as [?|Hn]; [left; now left|].
      destruct (place_dec l PConn) as [?|]; [|right; tauto].
      destruct (cf_threads v t); try (right; intros [|[]]; congruence). left; right; now split.
  Qed.
  Lemma alters_dec a (v : config (S := S)) l : {alters bd a v l} + {~ alters bd a v l}.
  Proof.
    unfold alters. destruct (touches_dec a v l) as [H|H]; [|right; tauto].
    destruct a, l; ((left; split; [exact H|exact I]) || (right; tauto)).
  Qed.

  Section Execution.
    Context (x : weak (S := S)) (c0 : config (S := S)) 
      (Ok : race_free cn bd chunk x c0) (Hco : mo_coherent bd x).

    Definition draws (i : nat) : bool := if touches_dec (wk_act x i) (wk_view x i) PCounter then true else false.
    (** [i] may come before [j]. *)
    Definition fine (i j : nat) : Prop :=
      wk_hb x j i = false /\ (draws i = true -> draws j = true -> wk_mo x j i = false).

    Lemma first_event s : s <> [] -> (forall i, In i s -> (i < wk_size x)%nat) ->
      exists m, In m s /\ forall j, In j s -> fine m j.
    Proof.
      intros Hs Hlt. destruct Ok as [Hhi Hht Hmi Hmt _ _].
      destruct (filter draws s) as [|y d] eqn:Hd.
      - destruct (minimal _ Hhi Hht s Hs) as (m & Hm & Hmin). exists m. split; [exact Hm|].
        intros j Hj. split; [now apply Hmin|]. intros Hdm.
        assert (In m (filter draws s)) by (apply filter_In; now split). rewrite Hd in *. contradiction.
      - destruct (minimal _ Hmi Hmt (filter draws s)) as (m0 & Hm0 & Hmin0); [rewrite Hd; discriminate|].
        apply filter_In in Hm0. destruct Hm0 as [Hm0 Hd0].
        destruct (filter (fun j => wk_hb x j m0) s) as [|z q] eqn:Hq.
        + exists m0. split; [exact Hm0|]. intros j Hj. split.
          * destruct (wk_hb x j m0) eqn:Hj0; [|reflexivity].
            assert (In j (filter (fun j => wk_hb x j m0) s)) by (apply filter_In; now split).
            rewrite Hq in *. contradiction.
          * intros _ Hdj. apply Hmin0, filter_In. now split.
        + destruct (minimal _ Hhi Hht (filter (fun j => wk_hb x j m0) s)) as (m & Hm & Hmin);
            [rewrite Hq; discriminate|].
          apply filter_In in Hm. destruct Hm as [Hm Hm1]. exists m. split; [exact Hm|].
          intros j Hj. split.
          * destruct (wk_hb x j m) eqn:Hjm; [|reflexivity].
            rewrite <- (Hmin j); [symmetry; exact Hjm|apply filter_In]. split; [exact Hj|].
            exact (Hht _ _ _ Hjm Hm1).
          * intros Hdm _. exfalso.
            assert (wk_mo x m m0 = true).
            { apply Hco; [| |exact Hm1]; (split; [now apply Hlt|]);
                [unfold draws in Hdm|unfold draws in Hd0]; destruct touches_dec; congruence. }
            rewrite Hmin0 in *; [discriminate|apply filter_In; now split].
    Qed.

    Lemma sorted n : forall s, List.length s = n -> (forall i, In i s -> (i < wk_size x)%nat) ->
      exists l, Permutation l s /\ ForallOrdPairs fine l.
    Proof.
      induction n as [|n IH]; intros s Hn Hlt.
      - exists []. destruct s; [|discriminate]. repeat constructor.
      - destruct (first_event s) as (m & Hm & Hmin); [intros ->; discriminate|exact Hlt|].
        destruct (in_split _ _ Hm) as (a & b & ->).
        destruct (IH (a ++ b)) as (l & Hl & Hf).
        + rewrite app_length in *. cbn in Hn. lia.
        + intros i Hi. apply Hlt. apply in_app_iff in Hi. apply in_app_iff. cbn. tauto.
        + exists (m :: l). split.
          * etransitivity; [apply perm_skip, Hl|apply Permutation_middle].
          * constructor; [|exact Hf]. apply Forall_forall. intros j Hj. apply Hmin.
            apply (Permutation_in _ Hl) in Hj. apply in_app_iff in Hj. apply in_app_iff. cbn. tauto.
    Qed.

    Lemma pairs_app {A} (r : A -> A -> Prop) a b : ForallOrdPairs r (a ++ b) ->
      forall i j, In i a -> In j b -> r i j.
    Proof.
      induction a as [|y a IH]; cbn; intros H i j Hi Hj; [contradiction|].
      inversion H as [|? ? Hy Hr]; subst. destruct Hi as [->|Hi]; [|now apply IH].
      rewrite Forall_forall in Hy. apply Hy, in_app_iff. now right.
    Qed.

    (** The state after the events of [p]. *)
    Definition state_after (p : list nat) (c : config (S := S)) : Prop :=
      forall l,
        (exists j, In j p /\ wk_alters bd x j l /\
           (forall k, In k p -> wk_alters bd x k l -> k = j \/ wk_before x l k j) /\
           agree c (wk_after cn bd chunk x j) l) \/
        ((forall k, In k p -> ~ wk_alters bd x k l) /\ agree c c0 l).

    Lemma agree_trans (c d e : config (S := S)) l : agree c d l -> agree d e l -> agree c e l.
    Proof. destruct l; cbn; congruence. Qed.
    Lemma agree_sym (c d : config (S := S)) l : agree c d l -> agree d c l.
    Proof. destruct l; cbn; congruence. Qed.

    Lemma alters_touches i l : wk_alters bd x i l -> wk_touches bd x i l.
    Proof. intros [H [H1 _]]. now split. Qed.

    Lemma not_both l i j : wk_before x l i j -> wk_before x l j i -> False.
    Proof.
      destruct Ok as [Hhi Hht Hmi Hmt _ _]. intros H1 H2.
      destruct l; cbn in *; [pose proof (Hmt _ _ _ H1 H2) as H|pose proof (Hht _ _ _ H1 H2) as H..];
        rewrite ?Hmi, ?Hhi in H; discriminate.
    Qed.
    Lemma fine_before l i j : fine i j -> wk_touches bd x i l -> wk_touches bd x j l -> ~ wk_before x l j i.
    Proof.
      intros [Hh Hm] [_ Hi] [_ Hj] H. destruct l; cbn in H; try congruence.
      rewrite Hm in H; [discriminate| |]; unfold draws; destruct touches_dec; congruence.
    Qed.

    Lemma run_events q : forall p c, NoDup (p ++ q) -> ForallOrdPairs fine (p ++ q) ->
      (forall i, (i < wk_size x)%nat <-> In i (p ++ q)) -> state_after p c ->
      fst (exec cn bd chunk (map (wk_act x) q) c) = flat_map (wk_out cn bd chunk x) q.
    Proof.
      induction q as [|i q IH]; intros p c Hnd Hf Hin Hs; [reflexivity|].
      assert (Hni : forall k, In k p -> k <> i).
      { intros k Hk ->. apply (NoDup_remove_2 _ _ _ Hnd), in_app_iff. now left. }
      assert (Hi : (i < wk_size x)%nat) by (apply Hin, in_app_iff; right; now left).
      assert (Hpi : forall k l, In k p -> wk_alters bd x k l -> wk_touches bd x i l -> wk_before x l k i).
      { intros k l Hk Hw Ht. destruct (al_ordered _ _ _ _ _ Ok l i k Ht Hw) as [H|H]; [|exfalso|exact H].
        - intros ->. now apply (Hni k).
        - refine (fine_before l k i _ (alters_touches _ _ Hw) Ht H).
          apply (pairs_app _ p (i :: q) Hf); [exact Hk|now left]. }
      assert (Hpre : forall j l, wk_alters bd x j l -> wk_touches bd x i l -> wk_before x l j i -> In j p).
      { intros j l Hw Ht Hb. pose proof (alters_touches _ _ Hw) as Hwt.
        assert (Hj : In j (p ++ i :: q)) by (apply Hin, Hw).
        apply in_app_iff in Hj. destruct Hj as [Hj|[->|Hj]]; [exact Hj|exfalso..].
        - exact (not_both _ _ _ Hb Hb).
        - refine (fine_before l i j _ Ht Hwt Hb).
          replace (p ++ i :: q) with ((p ++ [i]) ++ q) in Hf by (rewrite <- app_assoc; reflexivity).
          apply (pairs_app _ _ _ Hf); [apply in_app_iff; right; now left|exact Hj]. }
      assert (Hag : forall l, touches bd (wk_act x i) (wk_view x i) l -> agree c (wk_view x i) l).
      { intros l Hl. assert (Ht : wk_touches bd x i l) by now split.
        destruct (al_reads _ _ _ _ _ Ok i l Ht) as [(j & Hw & Hb & Hmax & Ha)|[Hno Ha]];
          destruct (Hs l) as [(j1 & Hj1 & Hw1 & Hmax1 & Ha1)|[Hno1 Ha1]].
        - assert (Hjp : In j p) by now apply (Hpre j l).
          destruct (Hmax j1 Hw1 (Hpi j1 l Hj1 Hw1 Ht)) as [->|H1].
          + exact (agree_trans _ _ _ _ Ha1 (agree_sym _ _ _ Ha)).
          + destruct (Hmax1 j Hjp Hw) as [->|H2]; [|exfalso; exact (not_both _ _ _ H1 H2)].
            exact (agree_trans _ _ _ _ Ha1 (agree_sym _ _ _ Ha)).
        - exfalso. exact (Hno1 j (Hpre j l Hw Ht Hb) Hw).
        - exfalso. exact (Hno j1 Hw1 (Hpi j1 l Hj1 Hw1 Ht)).
        - exact (agree_trans _ _ _ _ Ha1 (agree_sym _ _ _ Ha)). }
      destruct (step_local _ _ _ Hag) as (He & Hwr & Hun).
      cbn [map exec flat_map]. unfold wk_out at 1.
      destruct (step cn bd chunk (wk_act x i) c) as [ev c1] eqn:Hst. cbn [fst snd] in *.
      specialize (IH (p ++ [i]) c1). rewrite <- app_assoc in IH. cbn [app] in IH.
      specialize (IH Hnd Hf Hin).
      destruct (exec cn bd chunk (map (wk_act x) q) c1) as [evs c2]. cbn [fst] in *.
      rewrite He, IH; [reflexivity|]. intros l.
      destruct (alters_dec (wk_act x i) (wk_view x i) l) as [Hw|Hw].
      - left. exists i. assert (Hwi : wk_alters bd x i l) by now split.
        split; [apply in_app_iff; right; now left|]. split; [exact Hwi|]. split; [|exact (Hwr l Hw)].
        intros k Hk Hkw. apply in_app_iff in Hk. destruct Hk as [Hk|[->|[]]]; [right|now left].
        exact (Hpi k l Hk Hkw (alters_touches _ _ Hwi)).
      - destruct (Hs l) as [(j1 & Hj1 & Hw1 & Hmax1 & Ha1)|[Hno1 Ha1]].
        + left. exists j1. split; [apply in_app_iff; now left|]. split; [exact Hw1|]. split.
          * intros k Hk Hkw. apply in_app_iff in Hk. destruct Hk as [Hk|[->|[]]]; [now apply Hmax1|].
            exfalso. now apply Hw, Hkw.
          * exact (agree_trans _ _ _ _ (Hun l Hw) Ha1).
        + right. split; [|exact (agree_trans _ _ _ _ (Hun l Hw) Ha1)].
          intros k Hk Hkw. apply in_app_iff in Hk. destruct Hk as [Hk|[->|[]]]; [now apply (Hno1 k)|].
          now apply Hw, Hkw.
    Qed.

    Lemma pairs_precede l i j : ForallOrdPairs fine l -> In i l -> In j l -> i <> j -> ~ fine j i -> precedes i j l.
    Proof.
      intros Hf Hi Hj Hne Hn. destruct (in_split _ _ Hi) as (a & b & ->).
      apply in_app_iff in Hj. destruct Hj as [Hj|[Hj|Hj]].
      - exfalso. apply Hn. apply (pairs_app _ _ _ Hf); [exact Hj|now left].
      - contradiction.
      - destruct (in_split _ _ Hj) as (b1 & b2 & ->). now exists a, b1, b2.
    Qed.

    Lemma interleaving : exists l,
      linearises (wk_size x) (fun i j => wk_hb x i j = true \/
        (wk_touches bd x i PCounter /\ wk_touches bd x j PCounter /\ wk_mo x i j = true)) l /\
      fst (exec cn bd chunk (map (wk_act x) l) c0) = flat_map (wk_out cn bd chunk x) l.
    Proof.
      destruct (sorted (wk_size x) (seq 0 (wk_size x))) as (l & Hp & Hf).
      - apply seq_length.
      - intros i Hi. apply in_seq in Hi. lia.
      - exists l. split; [split; [exact Hp|]|].
        + intros i j Hi Hj Hr.
          assert (In i l /\ In j l) as [Hil Hjl]
            by (split; apply (Permutation_in _ (Permutation_sym Hp)), in_seq; lia).
          apply pairs_precede; try assumption.
          * intros ->. destruct Hr as [Hr|(_ & _ & Hr)];
              [rewrite (al_hb_irrefl _ _ _ _ _ Ok) in Hr|rewrite (al_mo_irrefl _ _ _ _ _ Ok) in Hr]; discriminate.
          * intros [Hh Hm]. destruct Hr as [Hr|(Hti & Htj & Hr)]; [congruence|].
            rewrite Hm in Hr; [discriminate| |]; unfold draws; destruct touches_dec as [|Hn]; try reflexivity;
              exfalso; apply Hn; [apply Htj|apply Hti].
        + apply (run_events l [] c0); cbn [app].
          * apply (Permutation_NoDup (Permutation_sym Hp)), seq_NoDup.
          * exact Hf.
          * intros i. split; intros Hi.
            -- apply (Permutation_in _ (Permutation_sym Hp)), in_seq. lia.
            -- apply (Permutation_in _ Hp), in_seq in Hi. lia.
          * intros m. right. split; [intros k []|apply agree_refl].
    Qed.
  End Execution.
End Weak.

(** ** Consequences *)

Section Ids.
  Context {S E : Type} (cn : connection S E) (bd : build) (chunk : option N).

  Lemma drawn_all {A} (f : A -> list (event E)) l : drawn (flat_map f l) = flat_map (fun i => drawn (f i)) l.
  Proof. induction l as [|i l IH]; [reflexivity|]. cbn [flat_map]. unfold drawn at 1. rewrite flat_map_app. now rewrite <- IH. Qed.
  Lemma alloc_all {A} (f : A -> list (event E)) l : alloc_ids (flat_map f l) = flat_map (fun i => alloc_ids (f i)) l.
  Proof.
    induction l as [|i l IH]; [reflexivity|]. cbn [flat_map]. unfold alloc_ids at 1, allocs at 1.
    rewrite flat_map_app, map_app. now rewrite <- IH.
  Qed.

  Lemma weak_ids (x : weak (S := S)) init st0 conn0 : allowed cn bd chunk x (config_init init st0 conn0) ->
    let out := wk_out cn bd chunk x in
    N.of_nat (List.length (flat_map (fun i => drawn (out i)) (seq 0 (wk_size x)))) <= 2 ^ 30 ->
    NoDup (flat_map (fun i => alloc_ids (out i)) (seq 0 (wk_size x))).
  Proof.
    intros [Ok Hco] out Hn. destruct (interleaving cn bd chunk x _ Ok Hco) as (l & [Hp _] & Ht).
    apply (Permutation_NoDup (l := alloc_ids (flat_map out l))).
    - rewrite alloc_all. now apply Permutation_flat_map.
    - fold out in Ht. rewrite <- Ht. apply alloc_distinct. rewrite Ht, drawn_all.
      now rewrite (Permutation_length (Permutation_flat_map _ Hp)).
  Qed.
End Ids.
