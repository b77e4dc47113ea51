(** * Threads that catch their panics *)

From Coq Require Import Lia Arith.Cantor.
From Verif Require Import Model.ReviveM Model.BufM Spec.Revive.
From Verif Require Import Proofs.SocketP Proofs.TraceP Proofs.DeliverP Proofs.SlowP.

Definition base (u : nat) : nat := fst (Cantor.of_nat u).
(** The name of the thread [t] after [g t] panics caught. *)
Definition name (g : nat -> nat) (t : nat) : nat := Cantor.to_nat (t, g t).
Lemma base_to : forall t n, base (Cantor.to_nat (t, n)) = t.
Proof. intros. unfold base. now rewrite Cantor.cancel_of_to. Qed.
Lemma base_name : forall g t, base (name g t) = t.
Proof. intros. apply base_to. Qed.
Lemma to_nat_inj : forall x y, Cantor.to_nat x = Cantor.to_nat y -> x = y.
Proof. intros x y H. rewrite <- (Cantor.cancel_of_to x), <- (Cantor.cancel_of_to y). now rewrite H. Qed.

Lemma plain_app : forall E (a b : list (revive_event E)), plain (a ++ b) = plain a ++ plain b.
Proof. intros. apply flat_map_app. Qed.
Lemma plain_sees : forall E (l : list (event E)), plain (map ReviveSees l) = l.
Proof. intros E l. unfold plain. induction l as [|e l IH]; [reflexivity|]. cbn. now rewrite IH. Qed.

Section P.
  Context {S E : Type} (cn : connection S E) (bd : build) (chunk : option N).
  Local Notation rx := (revive_exec cn bd chunk).
  Local Notation rs := (revive_step cn bd chunk).

  (** The thread of each name here, under its present name there; the names to come are idle. *)
  Definition twin (g : nat -> nat) (c c' : @config S) : Prop :=
    cf_counter c' = cf_counter c /\ cf_store c' = cf_store c /\ cf_conn c' = cf_conn c /\
    (forall t, cf_threads c' (name g t) = cf_threads c t) /\
    (forall t n, (g t < n)%nat -> cf_threads c' (Cantor.to_nat (t, n)) = Idle).

  Lemma twin_set : forall g th th' t x,
    (forall u, th' (name g u) = th u) -> (forall u n, (g u < n)%nat -> th' (Cantor.to_nat (u, n)) = Idle) ->
    (forall u, set_thread th' (name g t) x (name g u) = set_thread th t x u) /\
    (forall u n, (g u < n)%nat -> set_thread th' (name g t) x (Cantor.to_nat (u, n)) = Idle).
  Proof.
    intros g th th' t x A B. unfold set_thread. split; intros u.
    - destruct (Nat.eqb_spec u t) as [->|N]; [now rewrite Nat.eqb_refl|].
      destruct (Nat.eqb_spec (name g u) (name g t)) as [H|_]; [|apply A]. unfold name in H. apply to_nat_inj in H. congruence.
    - intros n L. destruct (Nat.eqb_spec (Cantor.to_nat (u, n)) (name g t)) as [H|_]; [|now apply B].
      unfold name in H. apply to_nat_inj in H. injection H as -> ->. lia.
  Qed.

  Lemma twin_step : forall g a c c', twin g c c' ->
    let r := step cn bd chunk a c in let r' := step cn bd chunk (renamed (name g) a) c' in
    map (event_renamed base) (fst r') = fst r /\ twin g (snd r) (snd r').
  Proof.
    intros g a [k st cs th] [k' st' cs' th'] (A & B & C & D & F).
    cbn [cf_counter cf_store cf_conn cf_threads] in *. subst k' st' cs'.
    assert (ST : forall t x, twin g (Config k st cs (set_thread th t x)) (Config k st cs (set_thread th' (name g t) x))).
    { intros t x. destruct (twin_set g th th' t x D F). unfold twin. cbn. auto. }
    assert (ST' : forall k2 s2 t x, twin g (Config k2 st s2 (set_thread th t x)) (Config k2 st s2 (set_thread th' (name g t) x))).
    { intros k2 s2 t x. destruct (twin_set g th th' t x D F). unfold twin. cbn. auto. }
    assert (SAME : twin g (Config k st cs th) (Config k st cs th')) by (unfold twin; cbn; auto).
    destruct a as [t p|t|t m| |n|n|t]; cbn [renamed step cf_counter cf_store cf_conn cf_threads].
    - rewrite D. destruct (th t); cbn [fst snd map]; auto.
    - rewrite D. destruct (th t) as [|p|p sid|p sid s|]; try (cbn [fst snd map]; auto; fail).
      + destruct (sid_draw k) as [sid k2]. cbn [fst snd map event_renamed]. rewrite base_name. auto.
      + destruct (st sid); [cbn [fst snd map event_renamed]; rewrite base_name; auto|].
        destruct (fnf_start chunk sid p); cbn [fst snd map event_renamed]; rewrite base_name; auto.
      + destruct (fnf_next bd s) as [[[f s']|]| |]; try (cbn [fst snd map event_renamed]; rewrite base_name; auto; fail).
        destruct (cn_send_and_forget cn cs f) as [cs2 r]. cbn [fst snd map event_renamed]. rewrite base_name. auto.
    - rewrite D. destruct (th t); try (cbn [fst snd map]; auto; fail). unfold metadata_push. cbn [fst snd map event_renamed]. rewrite base_name.
      split; [reflexivity|]. unfold twin. cbn. auto.
    - split; [reflexivity|]. unfold twin. cbn. auto.
    - split; [reflexivity|]. unfold twin. cbn. auto.
    - split; [reflexivity|]. unfold twin. cbn. auto.
    - rewrite D. destruct (th t); cbn [fst snd map event_renamed]; rewrite ?base_name; auto.
  Qed.

  Lemma renamed_back : forall g a, renamed base (renamed (name g) a) = a.
  Proof. intros g []; cbn [renamed]; rewrite ?base_name; reflexivity. Qed.

  Lemma twin_exec : forall acts g c c', twin g c c' -> exists acts',
    map (renamed base) acts' = plain_acts acts /\
    map (event_renamed base) (fst (exec cn bd chunk acts' c')) = plain (fst (rx acts c)) /\
    let d := snd (rx acts c) in let d' := snd (exec cn bd chunk acts' c') in
    cf_counter d' = cf_counter d /\ cf_store d' = cf_store d /\ cf_conn d' = cf_conn d.
  Proof.
    induction acts as [|a acts IH]; intros g c c' T.
    - exists []. cbn. destruct T as (A & B & C & _). auto.
    - cbn [revive_exec]. destruct a as [a|t]; cbn [revive_step].
      + pose proof (twin_step g a c c' T) as X. cbv zeta in X.
        destruct (step cn bd chunk a c) as [ev c1]. destruct (step cn bd chunk (renamed (name g) a) c') as [ev' c1'] eqn:Y.
        cbn [fst snd] in X. destruct X as [X1 X2]. destruct (IH g c1 c1' X2) as (acts' & A & B & C).
        exists (renamed (name g) a :: acts'). cbn [exec]. rewrite Y. destruct (rx acts c1) as [evs c2].
        destruct (exec cn bd chunk acts' c1') as [evs' c2']. cbn [fst snd] in *. split; [|split; [|exact C]].
        * cbn [map]. rewrite renamed_back, A. reflexivity.
        * now rewrite map_app, X1, B, plain_app, plain_sees.
      + change (plain_acts (Catch t :: acts)) with (plain_acts acts).
        destruct (cf_threads c t) eqn:Th; try (cbn [fst snd app]; specialize (IH g c c' T); destruct (rx acts c) as [evs c2]; exact IH).
        set (c1 := Config (cf_counter c) (cf_store c) (cf_conn c) (set_thread (cf_threads c) t Idle)).
        assert (T1 : twin (fun u => if Nat.eqb u t then Datatypes.S (g u) else g u) c1 c').
        { destruct T as (A & B & C & D & F). unfold twin, c1. cbn [cf_counter cf_store cf_conn cf_threads].
          repeat (split; [assumption|]). unfold name, set_thread. split; intros u.
          - destruct (Nat.eqb_spec u t) as [->|N]; [apply F; lia|apply D].
          - intros n L. apply F. destruct (Nat.eqb u t); lia. }
        specialize (IH _ _ _ T1). destruct (rx acts c1) as [evs c2]. exact IH.
  Qed.

  Context (init : Z) (st0 : store) (conn0 : S).
  Local Notation run acts := (rx acts (config_init init st0 conn0)).

  Lemma as_others : forall acts, exists r acts',
    map (renamed r) acts' = plain_acts acts /\
    map (event_renamed r) (fst (exec cn bd chunk acts' (config_init init st0 conn0))) = plain (fst (run acts)) /\
    cf_counter (snd (exec cn bd chunk acts' (config_init init st0 conn0))) = cf_counter (snd (run acts)) /\
    cf_store (snd (exec cn bd chunk acts' (config_init init st0 conn0))) = cf_store (snd (run acts)) /\
    cf_conn (snd (exec cn bd chunk acts' (config_init init st0 conn0))) = cf_conn (snd (run acts)).
  Proof.
    intros acts. exists base. apply (twin_exec acts (fun _ => O)). unfold twin. cbn. auto.
  Qed.

  (** ** What does not depend on names *)
  Lemma drawn_renamed : forall r (tr : list (event E)), drawn (map (event_renamed r) tr) = drawn tr.
  Proof. intros r tr. unfold drawn. induction tr as [|e tr IH]; [reflexivity|]. cbn [map flat_map]. rewrite IH. now destruct e. Qed.
  Lemma accepted_renamed : forall r (tr : list (event E)), accepted_all (map (event_renamed r) tr) = accepted_all tr.
  Proof. intros r tr. unfold accepted_all. induction tr as [|e tr IH]; [reflexivity|]. cbn [map flat_map]. rewrite IH. now destruct e. Qed.
  Lemma ids_renamed : forall r (tr : list (event E)), alloc_ids (map (event_renamed r) tr) = alloc_ids tr.
  Proof.
    intros r tr. unfold alloc_ids, allocs. induction tr as [|e tr IH]; [reflexivity|]. cbn [map flat_map]. rewrite !map_app, IH. now destruct e.
  Qed.
  Lemma in_alloc : forall r tr t sid p, In (EvAlloc t sid p) (map (@event_renamed E r) tr) ->
    exists u, r u = t /\ In (EvAlloc u sid p) tr.
  Proof. intros r tr t sid p I. apply in_map_iff in I as (e & H & I). destruct e; try discriminate. injection H as <- <- <-. eauto. Qed.
  Lemma in_return : forall r tr t sid, In (EvReturn t sid) (map (@event_renamed E r) tr) ->
    exists u, r u = t /\ In (EvReturn u sid) tr.
  Proof. intros r tr t sid I. apply in_map_iff in I as (e & H & I). destruct e; try discriminate. injection H as <- <-. eauto. Qed.
  Lemma in_send : forall r tr t f a, In (EvSend t f a) (map (@event_renamed E r) tr) ->
    exists u, r u = t /\ In (EvSend u f a) tr.
  Proof. intros r tr t f a I. apply in_map_iff in I as (e & H & I). destruct e; try discriminate. injection H as <- <- <-. eauto. Qed.

  Lemma revive_distinct : forall acts, N.of_nat (length (drawn (plain (fst (run acts))))) <= 2 ^ 30 ->
    NoDup (alloc_ids (plain (fst (run acts)))).
  Proof.
    intros acts L. destruct (as_others acts) as (r & acts' & _ & H & _). rewrite <- H in *. rewrite drawn_renamed in L. rewrite ids_renamed.
    now apply alloc_distinct.
  Qed.

  Lemma revive_delivered : chunk <> Some 0 -> (forall n, chunk = Some n -> n <= usize_max) -> forall acts l,
    let tr := plain (fst (run acts)) in
    N.of_nat (length (drawn tr)) <= 2 ^ 30 ->
    (forall t sid p, In (EvAlloc t sid p) tr -> deliverable p) ->
    Forall2 (fun f v => frame_encode f [] = EOk v) (accepted_all tr) l ->
    let ds := deliveries (fun _ => []) l in
    NoDup (map fst ds) /\
    (forall sid g, In (sid, g) ds -> exists t p, In (EvAlloc t sid p) tr /\ bl_try_into flat 0 g = DOk p) /\
    (forall t sid p, In (EvAlloc t sid p) tr -> In (EvReturn t sid) tr ->
       exists g, In (sid, g) ds /\ bl_try_into flat 0 g = DOk p) /\
    (forall t sid p f e g, In (EvAlloc t sid p) tr -> In (EvSend t f (Some e)) tr -> carries_id sid f = true ->
       ~ In (sid, g) ds).
  Proof.
    intros Hc Hn acts l tr L P F. cbv zeta. destruct (as_others acts) as (r & acts' & _ & H & _). unfold tr in *. clear tr. rewrite <- H in *. clear H.
    rewrite drawn_renamed in L. rewrite accepted_renamed in F.
    set (tr := fst (exec cn bd chunk acts' (config_init init st0 conn0))) in *.
    assert (P' : forall t sid p, In (EvAlloc t sid p) tr -> deliverable p).
    { intros t sid p I. apply (P (r t) sid p). apply (in_map (event_renamed r)) in I. exact I. }
    destruct (delivered cn bd chunk init st0 conn0 Hc Hn acts' l L P' F) as (A & B & C & D).
    pose proof (alloc_distinct cn bd chunk init st0 conn0 acts' L) as ND.
    split; [exact A|]. split; [|split].
    - intros sid g I. destruct (B sid g I) as (t & p & I1 & I2). exists (r t), p. split; [|exact I2].
      apply (in_map (event_renamed r)) in I1. exact I1.
    - intros t sid p I1 I2. apply in_alloc in I1 as (u & <- & I1). apply in_return in I2 as (v & _ & I2).
      destruct (call_invariant cn bd chunk init st0 conn0 Hc acts' L) as (_ & _ & _ & _ & _ & _ & I7).
      destruct (I7 v sid I2) as (q & J). apply TraceP.in_allocs in J.
      rewrite (one_owner _ _ _ _ _ _ _ ND I1 J) in I1. exact (C v sid p I1 I2).
    - intros t sid p f e g I1 I2 K. apply in_alloc in I1 as (u & <- & I1). apply in_send in I2 as (v & _ & I2).
      destruct (only_calls cn bd chunk init st0 conn0 Hc acts' L v f _ I2) as (q & p2 & -> & J).
      assert (fnf_stream_id q = sid) as <- by (cbn in K; now apply N.eqb_eq in K).
      rewrite (one_owner _ _ _ _ _ _ _ ND I1 J) in I1. exact (D v _ p _ e g I1 I2 K).
  Qed.

  (** ** A thread that has panicked is silent until it catches the panic *)
  Lemma silent_plain : forall a t c, cf_threads c t = Panicked ->
    (forall e, In e (fst (step cn bd chunk a c)) -> by_thread t e = false) /\ cf_threads (snd (step cn bd chunk a c)) t = Panicked.
  Proof.
    intros a t [k st cs th] P. cbn [cf_threads] in P.
    assert (ST : forall u x, u <> t -> set_thread th u x t = Panicked).
    { intros u x N. unfold set_thread. destruct (Nat.eqb_spec t u); congruence. }
    assert (EB : forall u, u <> t -> Nat.eqb u t = false) by (intros; now apply Nat.eqb_neq).
    destruct a as [u p|u|u m| |n|n|u]; cbn [step cf_counter cf_store cf_conn cf_threads].
    - destruct (th u) eqn:U; try (split; [now intros e []|exact P]). split; [intros e []|]. apply ST. congruence.
    - destruct (Nat.eq_dec u t) as [->|N]; [rewrite P; split; [now intros e []|exact P]|].
      destruct (th u) as [|p|p sid|p sid s|]; try (split; [now intros e []|exact P]).
      + destruct (sid_draw k) as [sid k2]. split; [|now apply ST]. intros e [<-|[]]. now apply EB.
      + destruct (st sid); [split; [|now apply ST]; intros e [<-|[]]; now apply EB|].
        destruct (fnf_start chunk sid p); (split; [|now apply ST]); intros e [<-|[]]; now apply EB.
      + destruct (fnf_next bd s) as [[[f s']|]| |]; try (split; [|now apply ST]; intros e [<-|[]]; now apply EB).
        destruct (cn_send_and_forget cn cs f) as [cs2 r]. split; [|now apply ST]. intros e [<-|[]]. now apply EB.
    - destruct (th u) eqn:U; try (split; [now intros e []|exact P]). unfold metadata_push. split; [|exact P].
      intros e [<-|[]]. apply EB. congruence.
    - split; [|exact P]. now intros e [<-|[]].
    - split; [now intros e []|exact P].
    - split; [now intros e []|exact P].
    - destruct (th u) eqn:U; try (split; [now intros e []|exact P]). assert (u <> t) by congruence. split; [|now apply ST].
      intros e [<-|[]]. now apply EB.
  Qed.
  Lemma silent_exec : forall acts t c, cf_threads c t = Panicked -> forall mid e post,
    fst (rx acts c) = mid ++ ReviveSees e :: post -> by_thread t e = true -> In (Caught t) mid.
  Proof.
    induction acts as [|a acts IH]; intros t c P mid e post H B; [now destruct mid|].
    cbn [revive_exec] in H. destruct a as [a|u]; cbn [revive_step] in H.
    - destruct (silent_plain a t c P) as [Q R]. destruct (step cn bd chunk a c) as [ev c']. cbn [fst snd] in Q, R.
      specialize (IH t c' R). destruct (rx acts c') as [evs c2]. cbn [fst] in *. clear R P.
      revert mid H. induction ev as [|x ev IHe]; intros mid H; [exact (IH mid e post H B)|].
      cbn [map app] in H. destruct mid as [|y mid]; cbn [app] in H; injection H as Hx H.
      + subst x. rewrite (Q e (or_introl eq_refl)) in B. discriminate.
      + right. apply IHe; [intros; apply Q; now right|exact H].
    - destruct (cf_threads c u) eqn:U; try (specialize (IH t c P); destruct (rx acts c) as [evs c2]; exact (IH mid e post H B)).
      destruct (Nat.eq_dec u t) as [->|N].
      + destruct (rx acts _) as [evs c2]. cbn [fst app] in H. destruct mid as [|y mid]; [discriminate|]. injection H as <- H. now left.
      + set (c1 := Config _ _ _ _) in H. assert (P1 : cf_threads c1 t = Panicked).
        { cbn. unfold set_thread. destruct (Nat.eqb_spec t u); congruence. }
        specialize (IH t c1 P1). destruct (rx acts c1) as [evs c2]. cbn [fst app] in H. destruct mid as [|y mid]; [discriminate|].
        injection H as <- H. right. exact (IH mid e post H B).
  Qed.
  Lemma panic_step : forall a t c, In (EvPanic t) (fst (step cn bd chunk a c)) \/ In (EvMissing t) (fst (step cn bd chunk a c)) ->
    length (fst (step cn bd chunk a c)) = 1%nat /\ cf_threads (snd (step cn bd chunk a c)) t = Panicked.
  Proof.
    intros a t [k st cs th]. assert (ST : forall x, set_thread th t x t = x) by (intros; unfold set_thread; now rewrite Nat.eqb_refl).
    destruct a as [u p|u|u m| |n|n|u]; cbn [step cf_counter cf_store cf_conn cf_threads].
    - destruct (th u); intros [[]|[]].
    - destruct (th u) as [|p|p sid|p sid s|]; try (intros [[]|[]]; fail).
      + destruct (sid_draw k) as [sid k2]. intros [[H|[]]|[H|[]]]; discriminate.
      + destruct (st sid); [intros [[H|[]]|[H|[]]]; discriminate|].
        destruct (fnf_start chunk sid p); intros [[H|[]]|[H|[]]]; try discriminate; injection H as ->; split; [reflexivity|apply ST|reflexivity|apply ST].
      + destruct (fnf_next bd s) as [[[f s']|]| |]; try (intros [[H|[]]|[H|[]]]; try discriminate; injection H as ->; split; [reflexivity|apply ST]; fail);
          try (intros [[H|[]]|[H|[]]]; discriminate).
        * destruct (cn_send_and_forget cn cs f) as [cs2 r]. intros [[H|[]]|[H|[]]]; discriminate.
    - destruct (th u); try (intros [[]|[]]; fail). intros [[H|[]]|[H|[]]]; discriminate.
    - intros [[H|[]]|[H|[]]]; discriminate.
    - intros [[]|[]].
    - intros [[]|[]].
    - destruct (th u); try (intros [[]|[]]; fail). intros [[H|[]]|[H|[]]]; [discriminate|]. injection H as ->. split; [reflexivity|apply ST].
  Qed.
  Lemma silent : forall acts c t pre p mid e post,
    fst (rx acts c) = pre ++ ReviveSees p :: mid ++ ReviveSees e :: post ->
    p = EvPanic t \/ p = EvMissing t -> by_thread t e = true -> In (Caught t) mid.
  Proof.
    induction acts as [|a acts IH]; intros c t pre p mid e post H Pp B; [now destruct pre|].
    cbn [revive_exec] in H. destruct a as [a|u]; cbn [revive_step] in H.
    - pose proof (panic_step a t c) as Q. destruct (step cn bd chunk a c) as [ev c'] eqn:Y. cbn [fst snd] in Q.
      pose proof (silent_exec acts t c') as SE. specialize (IH c' t). destruct (rx acts c') as [evs c2]. cbn [fst] in *.
      assert (X : (exists pre2, pre = map ReviveSees ev ++ pre2) \/ In p ev).
      { clear - H. revert pre H. induction ev as [|x ev IHe]; intros pre H; [left; now exists pre|]. cbn [map app] in H.
        destruct pre as [|y pre]; cbn [app] in H; injection H as Hx H; [right; left; congruence|]. subst y.
        destruct (IHe pre H) as [(pre2 & ->)|I]; [left; now exists pre2|right; now right]. }
      destruct X as [(pre2 & ->)|I].
      + rewrite <- app_assoc in H. apply app_inv_head in H. exact (IH pre2 p mid e post H Pp B).
      + destruct Q as [Q1 Q2]; [destruct Pp; subst; auto|]. destruct ev as [|x [|]]; try discriminate. destruct I as [->|[]].
        destruct pre as [|y pre]; cbn [map app] in H; [injection H as H|injection H as _ H].
        * exact (SE Q2 mid e post H B).
        * exact (IH pre p mid e post H Pp B).
    - assert (Z : forall (evs : list (revive_event E)), [Caught u] ++ evs = pre ++ ReviveSees p :: mid ++ ReviveSees e :: post ->
        exists pre2, evs = pre2 ++ ReviveSees p :: mid ++ ReviveSees e :: post).
      { intros evs K. destruct pre as [|y pre]; [discriminate|]. injection K as _ K. now exists pre. }
      destruct (cf_threads c u).
      1-4: specialize (IH c t pre p mid e post); destruct (rx acts c) as [evs c2]; exact (IH H Pp B).
      set (c1 := Config _ _ _ _) in H. specialize (IH c1 t). destruct (rx acts c1) as [evs c2]. cbn [fst] in *.
      destruct (Z evs H) as (pre2 & K). exact (IH pre2 p mid e post K Pp B).
  Qed.

  (** ** Who can catch *)
  Lemma rx_app : forall a b c, rx (a ++ b) c = (fst (rx a c) ++ fst (rx b (snd (rx a c))), snd (rx b (snd (rx a c)))).
  Proof.
    induction a as [|x a IH]; intros b c; cbn [app revive_exec].
    - cbn. now destruct (rx b c).
    - destruct (rs x c) as [e c']. rewrite IH. destruct (rx a c'). cbn [fst snd]. now rewrite app_assoc.
  Qed.
  Definition panicked (x : thread) : bool := match x with Panicked => true | _ => false end.
  Definition mark (t : nat) (b : bool) (e : revive_event E) : bool :=
    match e with
    | ReviveSees (EvPanic u) | ReviveSees (EvMissing u) => if Nat.eqb u t then true else b
    | Caught u => if Nat.eqb u t then false else b
    | _ => b
    end.
  Lemma uncaught_app : forall t a b, uncaught t (a ++ b) = fold_left (mark t) b (uncaught t a).
  Proof. intros. unfold uncaught. now rewrite fold_left_app. Qed.
  Lemma panicked_step : forall a t c, panicked (cf_threads (snd (rs a c)) t) = fold_left (mark t) (fst (rs a c)) (panicked (cf_threads c t)).
  Proof.
    intros a t [k st cs th].
    assert (ST : forall u x, panicked (set_thread th u x t) = if Nat.eqb u t then panicked x else panicked (th t)).
    { intros u x. unfold set_thread. rewrite (Nat.eqb_sym u t). now destruct (Nat.eqb t u). }
    assert (SA : forall u x, panicked (th u) = false -> panicked x = false -> panicked (set_thread th u x t) = panicked (th t)).
    { intros u x A B. rewrite ST, B. destruct (Nat.eqb_spec u t); congruence. }
    destruct a as [a|u]; cbn [revive_step].
    - destruct a as [u p|u|u m| |n|n|u]; cbn [step cf_counter cf_store cf_conn cf_threads]; try reflexivity.
      + destruct (th u) eqn:U; try reflexivity. apply SA; [now rewrite U|reflexivity].
      + destruct (th u) as [|p|p sid|p sid s|] eqn:U; try reflexivity.
        * destruct (sid_draw k) as [sid k2]. cbn. apply SA; [now rewrite U|reflexivity].
        * destruct (st sid); [cbn; apply SA; [now rewrite U|reflexivity]|].
          destruct (fnf_start chunk sid p); cbn; [apply SA; [now rewrite U|reflexivity]|apply ST|apply ST].
        * destruct (fnf_next bd s) as [[[f s']|]| |]; try (cbn; apply ST).
          -- destruct (cn_send_and_forget cn cs f) as [cs2 r]. cbn. apply SA; [now rewrite U|now destruct r].
          -- cbn. apply SA; [now rewrite U|reflexivity].
      + destruct (th u); reflexivity.
      + destruct (th u) eqn:U; try reflexivity. cbn. apply ST.
    - cbn [cf_threads]. destruct (th u) eqn:U; try reflexivity. cbn. apply ST.
  Qed.
  Lemma panicked_exec : forall acts t, panicked (cf_threads (snd (run acts)) t) = uncaught t (fst (run acts)).
  Proof.
    intros acts t. induction acts as [|a acts IH] using rev_ind; [reflexivity|]. rewrite rx_app. cbn [fst snd revive_exec].
    pose proof (panicked_step a t (snd (run acts))) as X. destruct (rs a (snd (run acts))) as [ev c']. cbn [fst snd] in *.
    now rewrite app_nil_r, uncaught_app, <- IH.
  Qed.
  Lemma who_catches : forall acts t acts',
    (uncaught t (fst (run acts)) = true -> fst (run (acts ++ [Catch t])) = fst (run acts) ++ [Caught t]) /\
    (uncaught t (fst (run acts)) = false -> run (acts ++ Catch t :: acts') = run (acts ++ acts')).
  Proof.
    intros acts t acts'. rewrite <- panicked_exec. split; intros H.
    - rewrite rx_app. cbn. destruct (cf_threads (snd (run acts)) t); try discriminate. reflexivity.
    - rewrite !rx_app. cbn [revive_exec revive_step]. destruct (cf_threads (snd (run acts)) t); try discriminate;
        destruct (rx acts' (snd (run acts))); reflexivity.
  Qed.
End P.
