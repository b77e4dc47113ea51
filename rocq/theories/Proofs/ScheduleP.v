(** * The ids obtained do not depend on the schedule *)

From Coq Require Import Permutation.
From Verif Require Import Model.SocketM Spec.Socket.
From Verif Require Import Proofs.SidP Proofs.SocketP Proofs.TraceP Proofs.ProgressP Proofs.ReplayP.

Lemma filter_all : forall (A : Type) (f : A -> bool) l, Forall (fun x => f x = true) l -> filter f l = l.
Proof. intros A f l H. induction H as [|x l Hx H IH]; [reflexivity|]. cbn [filter]. now rewrite Hx, IH. Qed.
Lemma filter_none : forall (A : Type) (f : A -> bool) l, Forall (fun x => f x = false) l -> filter f l = [].
Proof. intros A f l H. induction H as [|x l Hx H IH]; [reflexivity|]. cbn [filter]. now rewrite Hx. Qed.
Lemma perm_filter : forall (A : Type) (f : A -> bool) a b, Permutation a b -> Permutation (filter f a) (filter f b).
Proof.
  intros A f a b H. induction H as [|x a b H IH|x y l|a b c H1 IH1 H2 IH2]; cbn [filter].
  - constructor.
  - destruct (f x); [now constructor|exact IH].
  - destruct (f x), (f y); try reflexivity. apply perm_swap.
  - etransitivity; eassumption.
Qed.
Lemma fixed_prefix : forall a b, store_fixed (a ++ b) -> store_fixed a.
Proof. intros a b H k. destruct (H k) as [X Y]. split; intros I; [apply X|apply Y]; apply in_or_app; now left. Qed.
Lemma first_ids_app : forall init a b, exists l, first_ids init (a + b) = first_ids init a ++ l /\
  (b <> O -> exists l', l = l' ++ [id_after init (N.of_nat (a + b - 1))]).
Proof.
  intros init a b. unfold first_ids. rewrite seq_app, map_app. eexists. split; [reflexivity|].
  intros Nb. destruct b as [|b]; [contradiction|]. rewrite seq_S, map_app. eexists. cbn [map].
  do 2 f_equal. f_equal. f_equal. lia.
Qed.

Section Connection.
  Context {S E : Type} (cn : connection S E).
  Variables (bd : build) (chunk : option N) (init : Z) (st0 : store) (conn0 : S).

  Notation run acts := (exec cn bd chunk acts (config_init init st0 conn0)).
  Notation trace := (list (event E)).

  Lemma searching_app : forall t (a b : trace), searching t (a ++ b) =
    fold_left (fun x e => match e with
                          | EvDraw u _ => if Nat.eqb u t then true else x
                          | EvAlloc u _ _ | EvPanic u => if Nat.eqb u t then false else x
                          | _ => x end) b (searching t a).
  Proof. intros. unfold searching. apply fold_left_app. Qed.

  Definition turn (c : Z) : Z := wrap_i32 (c + 2).
  Lemma counter_at : forall acts, cf_counter (snd (run acts)) = Nat.iter (length (drawn (fst (run acts)))) turn init.
  Proof.
    apply (run_ind cn bd chunk init st0 conn0 (fun _ tr c => cf_counter c = Nat.iter (length (drawn tr)) turn init)); [reflexivity|].
    intros acts tr c a ev c' _ IH Sh. rewrite drawn_app, app_length.
    destruct Sh; cbn [cf_counter drawn flat_map app length]; rewrite ?Nat.add_0_r; try exact IH.
    rewrite Nat.add_1_r. change (snd (sid_draw (cf_counter c)) = turn (Nat.iter (length (drawn tr)) turn init)). now rewrite <- IH.
  Qed.

  Definition answered (tr : trace) (c : @config S) : Prop :=
    exists bs pd, Permutation (drawn tr) (alloc_ids tr ++ bs ++ map snd pd) /\
      Forall (fun sid => st0 sid = true) bs /\ Forall (fun sid => st0 sid = false) (alloc_ids tr) /\
      Forall (fun x => exists p, cf_threads c (fst x) = Checking p (snd x)) pd /\ NoDup (map fst pd) /\
      (forall t p sid, cf_threads c t = Checking p sid -> In (t, sid) pd /\ searching t tr = true) /\
      (forall l sid, drawn tr = l ++ [sid] -> st0 sid = true ->
         exists t p, searching t tr = true /\ (cf_threads c t = Checking p sid \/ cf_threads c t = Drawing p)) /\
      (forall k, cf_store c k = st0 k).

  Lemma pending_other : forall (c : @config S) pd cnt st (conn : S) t x, (forall p sid, cf_threads c t <> Checking p sid) ->
    Forall (fun y => exists p, cf_threads c (fst y) = Checking p (snd y)) pd ->
    Forall (fun y => exists p, cf_threads (Config cnt st conn (set_thread (cf_threads c) t x)) (fst y) = Checking p (snd y)) pd.
  Proof.
    intros c pd cnt st conn t x N H. eapply Forall_impl; [|exact H]. intros [u s] [p T]. cbn [fst snd cf_threads] in *.
    exists p. rewrite set_other; [exact T|]. intros ->. exact (N _ _ T).
  Qed.

  Lemma answered_invariant : chunk <> Some 0 -> forall acts, store_fixed acts -> answered (fst (run acts)) (snd (run acts)).
  Proof.
    intros Hc. apply (run_ind cn bd chunk init st0 conn0 (fun acts tr c => store_fixed acts -> answered tr c)).
    - intros _. exists [], []. split; [constructor|]. split; [constructor|]. split; [constructor|]. split; [constructor|]. split; [constructor|].
      split; [discriminate|]. split; [|reflexivity]. intros [|? ?] ? H; discriminate H.
    - intros acts tr c a ev c' R IH Sh Fx.
      destruct (IH (fixed_prefix _ _ Fx)) as (bs & pd & P & B & A & W & ND & C & La & St). clear IH.
      (* a step of a thread outside its search, with no draw *)
      assert (Q : forall t x cnt conn ev', drawn ev' = [] -> alloc_ids ev' = [] ->
        (forall u b, fold_left (fun x e => match e with
            | EvDraw w _ => if Nat.eqb w u then true else x
            | EvAlloc w _ _ | EvPanic w => if Nat.eqb w u then false else x | _ => x end) ev' b = b) ->
        (forall p sid, cf_threads c t <> Checking p sid) -> (forall p sid, x <> Checking p sid) ->
        (forall p, cf_threads c t = Drawing p -> x = Drawing p) ->
        answered (tr ++ ev') (Config cnt (cf_store c) conn (set_thread (cf_threads c) t x))).
      { intros t x cnt conn ev' D0 A0 S0 Nt Nx Dx. exists bs, pd. rewrite drawn_app, ids_app, D0, A0, !app_nil_r.
        split; [exact P|]. split; [exact B|]. split; [exact A|]. split; [now apply pending_other|]. split; [exact ND|].
        split; [|split; [|exact St]].
        - intros u p s T. cbn [cf_threads] in T. rewrite searching_app, S0. apply threads_after in T as [[_ T]|[_ T]]; [destruct (Nx _ _ T)|].
          now apply (C u p s).
        - intros l s El Sl. destruct (La l s El Sl) as (u & p & X & T). exists u, p. rewrite searching_app, S0. split; [exact X|].
          cbn [cf_threads]. destruct (Nat.eq_dec u t) as [->|N]; [|rewrite set_other by exact N; exact T].
          rewrite set_same. destruct T as [T|T]; [destruct (Nt _ _ T)|right; now apply Dx]. }
      assert (Q0 : forall cnt conn ev', drawn ev' = [] -> alloc_ids ev' = [] ->
        (forall u b, fold_left (fun x e => match e with
            | EvDraw w _ => if Nat.eqb w u then true else x
            | EvAlloc w _ _ | EvPanic w => if Nat.eqb w u then false else x | _ => x end) ev' b = b) ->
        answered (tr ++ ev') (Config cnt (cf_store c) conn (cf_threads c))).
      { intros cnt conn ev' D0 A0 S0. exists bs, pd. rewrite drawn_app, ids_app, D0, A0, !app_nil_r.
        split; [exact P|]. split; [exact B|]. split; [exact A|]. split; [exact W|]. split; [exact ND|].
        split; [|split; [|exact St]].
        - intros u p s T. rewrite searching_app, S0. now apply (C u p s).
        - intros l s El Sl. destruct (La l s El Sl) as (u & p & X & T). exists u, p. rewrite searching_app, S0. split; [exact X|exact T]. }
      destruct Sh as [a H1 H2|t p T|k|k|t md T| |t p T|t p sid T Sd|t p sid st T Sd F|t p sid T Sd F|t p sid st T F|t p sid st f st' T F|t p sid st T F|t T].
      + rewrite app_nil_r. exists bs, pd. auto 10.
      + apply Q; try reflexivity; congruence.
      + destruct (Fx k) as [X _]. destruct X. apply in_or_app. right. now left.
      + destruct (Fx k) as [_ X]. destruct X. apply in_or_app. right. now left.
      + apply Q0; reflexivity.
      + apply Q0; reflexivity.
      + exists bs, ((t, fst (sid_draw (cf_counter c))) :: pd). rewrite drawn_app, ids_app.
        cbn [drawn alloc_ids allocs flat_map app map snd fst]. rewrite app_nil_r.
        split; [|split; [exact B|split; [exact A|split; [|split; [|split; [|split; [|exact St]]]]]]].
        * etransitivity; [apply Permutation_app_comm|]. cbn [app]. rewrite app_assoc.
          apply Permutation_cons_app. rewrite <- app_assoc. exact P.
        * constructor; [exists p; cbn [fst snd cf_threads]; now rewrite set_same|]. apply pending_other; [congruence|exact W].
        * constructor; [|exact ND]. intros I. apply in_map_iff in I as ([u s] & Eu & I). cbn [fst] in Eu. subst u.
          rewrite Forall_forall in W. destruct (W _ I) as [q T']. cbn [fst] in T'. congruence.
        * intros u q s T'. cbn [cf_threads] in T'. rewrite searching_app. cbn [fold_left].
          apply threads_after in T' as [[-> T']|[N T']].
          -- injection T' as <- <-. rewrite Nat.eqb_refl. split; [now left|reflexivity].
          -- destruct (C _ _ _ T') as [X Y]. split; [now right|]. rewrite Y. now destruct (Nat.eqb t u).
        * intros l s El Sl. apply app_inj_tail in El as [_ <-]. exists t, p. rewrite searching_app. cbn [fold_left cf_threads].
          rewrite Nat.eqb_refl, set_same. auto.
      + destruct (C _ _ _ T) as [I _]. apply in_split in I as (l1 & l2 & ->).
        exists (sid :: bs), (l1 ++ l2). rewrite drawn_app, ids_app. cbn [drawn alloc_ids allocs flat_map app map]. rewrite !app_nil_r.
        split; [|split; [|split; [exact A|split; [|split; [|split; [|split; [|exact St]]]]]]].
        * etransitivity; [exact P|]. apply Permutation_app_head. cbn [app]. rewrite !map_app. cbn [map snd].
          rewrite !app_assoc. apply Permutation_sym, Permutation_middle.
        * constructor; [|exact B]. now rewrite <- St.
        * apply Forall_app in W as [W1 W2]. inversion W2 as [|? ? _ W3]; subst.
          rewrite map_app in ND. cbn [map fst] in ND. apply NoDup_remove in ND as [_ NI]. rewrite <- map_app in NI.
          apply Forall_forall. intros [u s] I. cbn [fst snd cf_threads].
          assert (X : exists q, cf_threads c u = Checking q s).
          { apply in_app_iff in I as [I|I]; [rewrite Forall_forall in W1; apply (W1 _ I)|rewrite Forall_forall in W3; apply (W3 _ I)]. }
          destruct X as [q X]. exists q. rewrite set_other; [exact X|]. intros ->. apply NI, in_map_iff. exists (t, s). auto.
        * rewrite map_app in ND. cbn [map fst] in ND. apply NoDup_remove in ND as [ND _]. now rewrite map_app.
        * intros u q s T'. cbn [cf_threads] in T'. rewrite searching_app. cbn [fold_left].
          apply threads_after in T' as [[-> T']|[N T']]; [discriminate|]. destruct (C _ _ _ T') as [X Y]. split; [|exact Y].
          apply in_app_iff in X as [X|[X|X]]; [apply in_or_app; now left|congruence|apply in_or_app; now right].
        * intros l s El Sl. destruct (La l s El Sl) as (u & q & X & T'). exists u. rewrite searching_app. cbn [fold_left cf_threads].
          destruct (Nat.eq_dec u t) as [->|N].
          -- exists p. rewrite set_same. auto.
          -- exists q. rewrite set_other by exact N. auto.
      + destruct (C _ _ _ T) as [I _]. apply in_split in I as (l1 & l2 & ->).
        exists bs, (l1 ++ l2). rewrite drawn_app, ids_app. cbn [drawn alloc_ids allocs flat_map app map fst snd]. rewrite !app_nil_r.
        split; [|split; [exact B|split; [|split; [|split; [|split; [|split; [|exact St]]]]]]].
        * etransitivity; [exact P|]. rewrite <- app_assoc. apply Permutation_app_head. cbn [app].
          rewrite !map_app. cbn [map snd]. rewrite !app_assoc. apply Permutation_sym, Permutation_middle.
        * apply Forall_app. split; [exact A|]. constructor; [now rewrite <- St|constructor].
        * apply Forall_app in W as [W1 W2]. inversion W2 as [|? ? _ W3]; subst.
          rewrite map_app in ND. cbn [map fst] in ND. apply NoDup_remove in ND as [_ NI]. rewrite <- map_app in NI.
          apply Forall_forall. intros [u s] I. cbn [fst snd cf_threads].
          assert (X : exists q, cf_threads c u = Checking q s).
          { apply in_app_iff in I as [I|I]; [rewrite Forall_forall in W1; apply (W1 _ I)|rewrite Forall_forall in W3; apply (W3 _ I)]. }
          destruct X as [q X]. exists q. rewrite set_other; [exact X|]. intros ->. apply NI, in_map_iff. exists (t, s). auto.
        * rewrite map_app in ND. cbn [map fst] in ND. apply NoDup_remove in ND as [ND _]. now rewrite map_app.
        * intros u q s T'. cbn [cf_threads] in T'. rewrite searching_app. cbn [fold_left].
          apply threads_after in T' as [[-> T']|[N T']]; [discriminate|]. destruct (C _ _ _ T') as [X Y].
          destruct (Nat.eqb_spec t u); [congruence|]. split; [|exact Y].
          apply in_app_iff in X as [X|[X|X]]; [apply in_or_app; now left|congruence|apply in_or_app; now right].
        * intros l s El Sl. destruct (La l s El Sl) as (u & q & X & T'). exists u, q. rewrite searching_app. cbn [fold_left cf_threads].
          assert (N : u <> t).
          { intros ->. rewrite T in T'. destruct T' as [T'|T']; [|discriminate]. injection T' as <- <-. rewrite <- St in Sl. congruence. }
          rewrite set_other by exact N. destruct (Nat.eqb_spec t u); [congruence|]. auto.
      + exfalso.
        assert (Sb : sid < 2 ^ 31).
        { destruct (draw_invariant cn bd chunk init st0 conn0 acts) as (_ & _ & X & _).
          pose proof (drawn_class cn bd chunk init st0 conn0 acts sid) as Y. rewrite R in X, Y. cbn [fst snd] in X, Y.
          apply Y. eapply X; exact T. }
        destruct (start_yields bd chunk sid p Sb Hc) as (st & Y & _). exact (F st Y).
      + apply Q; try reflexivity; congruence.
      + apply Q; try reflexivity; try congruence. intros q s. destruct (snd (cn_send_and_forget cn (cf_conn c) f)); discriminate.
      + exfalso. eapply (no_panic cn bd chunk init st0 conn0 Hc (acts ++ [Run t]) t). rewrite exec_snoc, R. cbn [fst snd step].
        rewrite T. destruct (fnf_next bd st) as [[[f st']|]| |] eqn:Fn; [destruct (F _ eq_refl)|destruct (F _ eq_refl)| |];
          apply in_or_app; right; now left.
      + apply Q; try reflexivity; congruence.
  Qed.

  (** When nobody is searching, the ids obtained are the free ones among those drawn, and
      the last one drawn is free. *)
  Lemma settled : chunk <> Some 0 -> forall acts, store_fixed acts ->
    (forall t, searching t (fst (run acts)) = false) ->
    Permutation (alloc_ids (fst (run acts))) (free_ids st0 init (length (drawn (fst (run acts))))) /\
    (drawn (fst (run acts)) = [] \/ exists k, length (drawn (fst (run acts))) = Datatypes.S k /\ st0 (id_after init (N.of_nat k)) = false).
  Proof.
    intros Hc acts Fx Ns. destruct (answered_invariant Hc acts Fx) as (bs & pd & P & B & A & W & ND & C & La & St).
    destruct (draw_invariant cn bd chunk init st0 conn0 acts) as (D & _).
    assert (pd = []) as ->.
    { destruct pd as [|[t s] pd]; [reflexivity|]. inversion W as [|? ? [p T] _]; subst. cbn [fst snd] in T.
      destruct (C _ _ _ T) as [_ X]. rewrite Ns in X. discriminate. }
    cbn [map] in P. rewrite app_nil_r in P. split.
    - unfold free_ids. change (first_ids init) with (draws init). rewrite <- D. apply Permutation_sym.
      etransitivity; [apply perm_filter, P|]. rewrite filter_app.
      rewrite (filter_all _ _ (alloc_ids _)), (filter_none _ _ bs); [now rewrite app_nil_r| |].
      + eapply Forall_impl; [|exact B]. intros x ->. reflexivity.
      + eapply Forall_impl; [|exact A]. intros x ->. reflexivity.
    - destruct (drawn (fst (run acts))) as [|x l] eqn:Ed using rev_ind; [now left|]. clear IHl. right.
      exists (length l). rewrite app_length, Nat.add_1_r. split; [reflexivity|].
      rewrite app_length, Nat.add_1_r in D. unfold draws in D. rewrite seq_S, map_app in D. cbn [map] in D.
      apply app_inj_tail in D as [_ ->]. cbn [Nat.add] in *. destruct (st0 _) eqn:Sx; [|reflexivity].
      destruct (La l _ eq_refl Sx) as (t & p & X & _). rewrite Ns in X. discriminate.
  Qed.
End Connection.

(** Two executions with as many calls served have drawn the same ids. *)
Lemma same_draws : forall (st0 : store) init k1 k2, (k1 <= k2)%nat ->
  length (free_ids st0 init k1) = length (free_ids st0 init k2) ->
  (k2 = O \/ exists k, k2 = S k /\ st0 (id_after init (N.of_nat k)) = false) -> k1 = k2.
Proof.
  intros st0 init k1 k2 L El H. destruct (Nat.eq_dec k1 k2) as [|N]; [assumption|]. exfalso.
  destruct H as [->|(k & -> & Sk)]; [lia|].
  destruct (first_ids_app init k1 (S k - k1)) as (l & El' & Last). destruct Last as (l' & ->); [lia|].
  replace (k1 + (S k - k1))%nat with (S k) in * by lia. unfold free_ids in El. rewrite El', !filter_app, !app_length in El.
  cbn [filter length] in El. replace (S k - 1)%nat with k in El by lia. rewrite Sk in El. cbn [negb length] in El. lia.
Qed.

Lemma schedule_free : forall (S1 E1 S2 E2 : Type) (cn1 : connection S1 E1) (cn2 : connection S2 E2) bd1 bd2 chunk1 chunk2
    init st0 conn1 conn2 acts1 acts2,
  chunk1 <> Some 0 -> chunk2 <> Some 0 -> store_fixed acts1 -> store_fixed acts2 ->
  let r1 := exec cn1 bd1 chunk1 acts1 (config_init init st0 conn1) in
  let r2 := exec cn2 bd2 chunk2 acts2 (config_init init st0 conn2) in
  (forall t, searching t (fst r1) = false) -> (forall t, searching t (fst r2) = false) ->
  length (alloc_ids (fst r1)) = length (alloc_ids (fst r2)) ->
  drawn (fst r1) = drawn (fst r2) /\ Permutation (alloc_ids (fst r1)) (alloc_ids (fst r2)) /\
  cf_counter (snd r1) = cf_counter (snd r2).
Proof.
  intros S1 E1 S2 E2 cn1 cn2 bd1 bd2 chunk1 chunk2 init st0 conn1 conn2 acts1 acts2 H1 H2 F1 F2 r1 r2 N1 N2 L.
  destruct (settled cn1 bd1 chunk1 init st0 conn1 H1 acts1 F1 N1) as [P1 La1].
  destruct (settled cn2 bd2 chunk2 init st0 conn2 H2 acts2 F2 N2) as [P2 La2]. fold r1 in P1, La1. fold r2 in P2, La2.
  assert (K : length (drawn (fst r1)) = length (drawn (fst r2))).
  { pose proof (Permutation_length P1) as X1. pose proof (Permutation_length P2) as X2.
    assert (Z1 : length (drawn (fst r1)) = O \/ exists k, length (drawn (fst r1)) = Datatypes.S k /\ st0 (id_after init (N.of_nat k)) = false)
      by (destruct La1 as [->|La1]; [now left|now right]).
    assert (Z2 : length (drawn (fst r2)) = O \/ exists k, length (drawn (fst r2)) = Datatypes.S k /\ st0 (id_after init (N.of_nat k)) = false)
      by (destruct La2 as [->|La2]; [now left|now right]).
    destruct (Nat.le_ge_cases (length (drawn (fst r1))) (length (drawn (fst r2)))) as [Q|Q].
    - apply (same_draws st0 init); [exact Q|congruence|exact Z2].
    - symmetry. apply (same_draws st0 init); [exact Q|congruence|exact Z1]. }
  split; [|split].
  - destruct (draw_invariant cn1 bd1 chunk1 init st0 conn1 acts1) as (D1 & _).
    destruct (draw_invariant cn2 bd2 chunk2 init st0 conn2 acts2) as (D2 & _). fold r1 in D1. fold r2 in D2.
    rewrite D1, D2, K. reflexivity.
  - rewrite P1, P2, K. reflexivity.
  - unfold r1, r2. rewrite !counter_at. fold r1 r2. now rewrite K.
Qed.
