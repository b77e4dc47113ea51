(** * Several threads on one machine *)

From Verif Require Import Model.SocketM Spec.Socket.
From Verif Require Import Proofs.SidP Proofs.SocketP.

Lemma nodup_map_in : forall (A B : Type) (f : A -> B) l,
  (forall x y, In x l -> In y l -> f x = f y -> x = y) -> NoDup l -> NoDup (map f l).
Proof.
  intros A B f l. induction l as [|x l IH]; intros H ND; [constructor|]. cbn [map].
  inversion ND as [|? ? NI ND']; subst. constructor.
  - intros I. apply in_map_iff in I as (y & Ey & I). apply NI.
    replace x with y; [exact I|]. apply H; [now right|now left|exact Ey].
  - apply IH; [|exact ND']. intros a b Ia Ib. apply H; now right.
Qed.

Section Connection.
  Context {S E : Type} (cn : connection S E).
  Variables (bd : build) (chunk : option N) (init : Z) (st0 : store) (conn0 : S).

  Notation run acts := (exec cn bd chunk acts (config_init init st0 conn0)).
  Notation trace := (list (event E)).

  Lemma exec_snoc : forall acts a (c : @config S), exec cn bd chunk (acts ++ [a]) c =
    (fst (exec cn bd chunk acts c) ++ fst (step cn bd chunk a (snd (exec cn bd chunk acts c))),
     snd (step cn bd chunk a (snd (exec cn bd chunk acts c)))).
  Proof.
    induction acts as [|x acts IH]; intros a c; cbn [app exec].
    - cbn. destruct (step cn bd chunk a c) as [ev c']. cbn. now rewrite app_nil_r.
    - destruct (step cn bd chunk x c) as [ev c']. rewrite IH. destruct (exec cn bd chunk acts c') as [evs c''].
      cbn [fst snd]. destruct (step cn bd chunk a c'') as [ev3 c3]. cbn. now rewrite app_assoc.
  Qed.

  (** ** Trace projections *)

  Lemma drawn_app : forall a b : trace, drawn (a ++ b) = drawn a ++ drawn b.
  Proof. intros. unfold drawn. apply flat_map_app. Qed.
  Lemma allocs_app : forall a b : trace, allocs (a ++ b) = allocs a ++ allocs b.
  Proof. intros. unfold allocs. apply flat_map_app. Qed.
  Lemma ids_app : forall a b : trace, alloc_ids (a ++ b) = alloc_ids a ++ alloc_ids b.
  Proof. intros. unfold alloc_ids. rewrite allocs_app. apply map_app. Qed.
  Lemma received_app : forall sid (a b : trace), received sid (a ++ b) = received sid a ++ received sid b.
  Proof. intros. unfold received. apply flat_map_app. Qed.
  Lemma in_ids : forall (tr : trace) t sid p, In (t, sid, p) (allocs tr) -> In sid (alloc_ids tr).
  Proof. intros tr t sid p H. unfold alloc_ids. apply in_map_iff. now exists (t, sid, p). Qed.
  Lemma ids_in : forall (tr : trace) sid, In sid (alloc_ids tr) -> exists t p, In (t, sid, p) (allocs tr).
  Proof. intros tr sid H. unfold alloc_ids in H. apply in_map_iff in H as ([[t s] p] & <- & I). eauto. Qed.
  Lemma in_allocs : forall (tr : trace) t sid p, In (t, sid, p) (allocs tr) <-> In (EvAlloc t sid p) tr.
  Proof.
    intros tr t sid p. unfold allocs. rewrite in_flat_map. split.
    - intros (e & I & H). destruct e; cbn in H; try contradiction. destruct H as [[= -> -> ->]|[]]. exact I.
    - intros I. exists (EvAlloc t sid p). split; [exact I|now left].
  Qed.

  Lemma nodup_key : forall l : list (nat * N * payload), NoDup (map (fun x => snd (fst x)) l) ->
    forall t sid p u q, In (t, sid, p) l -> In (u, sid, q) l -> t = u /\ p = q.
  Proof.
    induction l as [|[[t0 s0] p0] l IH]; intros ND t sid p u q A B; [contradiction|]. cbn [map fst snd] in ND.
    inversion ND as [|? ? NI ND']; subst. destruct A as [A|A], B as [B|B].
    - split; congruence.
    - exfalso. apply NI. replace s0 with sid by congruence. apply in_map_iff. now exists (u, sid, q).
    - exfalso. apply NI. replace s0 with sid by congruence. apply in_map_iff. now exists (t, sid, p).
    - eapply IH; eauto.
  Qed.

  (** ** Draws, whatever their number *)

  Definition draws (k : nat) : list N := map (fun i => id_after init (N.of_nat i)) (seq 0 k).
  Definition draw_inv (tr : trace) (c : @config S) : Prop :=
    drawn tr = draws (length (drawn tr)) /\ at_draw init (cf_counter c) (N.of_nat (length (drawn tr))) /\
    (forall t p sid, cf_threads c t = Checking p sid -> In sid (drawn tr)) /\
    (forall sid, In sid (alloc_ids tr) -> In sid (drawn tr)).

  Lemma set_same : forall (th : nat -> thread) t x, set_thread th t x t = x.
  Proof. intros. unfold set_thread. now rewrite Nat.eqb_refl. Qed.
  Lemma set_other : forall (th : nat -> thread) t x u, u <> t -> set_thread th t x u = th u.
  Proof. intros th t x u H. unfold set_thread. now destruct (Nat.eqb_spec u t). Qed.

  (** The shape of a step: what it emits and which thread it changes. *)
  Inductive step_shape (c : @config S) : action -> trace -> @config S -> Prop :=
  | Sh_idle : forall a, (forall k, a <> Insert k) -> (forall k, a <> Remove k) -> step_shape c a [] c
  | Sh_call : forall t p, cf_threads c t = Idle -> step_shape c (Call t p) []
      (Config (cf_counter c) (cf_store c) (cf_conn c) (set_thread (cf_threads c) t (Drawing p)))
  | Sh_insert : forall k, step_shape c (Insert k) []
      (Config (cf_counter c) (set_store (cf_store c) k true) (cf_conn c) (cf_threads c))
  | Sh_remove : forall k, step_shape c (Remove k) []
      (Config (cf_counter c) (set_store (cf_store c) k false) (cf_conn c) (cf_threads c))
  | Sh_push : forall t md, cf_threads c t = Idle -> step_shape c (Push t md)
      [EvPush t (FMetadataPush (MetadataPushFrame md)) (snd (cn_send cn (cf_conn c) (FMetadataPush (MetadataPushFrame md))))]
      (Config (cf_counter c) (cf_store c) (fst (cn_send cn (cf_conn c) (FMetadataPush (MetadataPushFrame md)))) (cf_threads c))
  | Sh_close : step_shape c Close [EvClose]
      (Config (cf_counter c) (cf_store c) (cn_close cn (cf_conn c)) (cf_threads c))
  | Sh_draw : forall t p, cf_threads c t = Drawing p -> step_shape c (Run t) [EvDraw t (fst (sid_draw (cf_counter c)))]
      (Config (snd (sid_draw (cf_counter c))) (cf_store c) (cf_conn c)
         (set_thread (cf_threads c) t (Checking p (fst (sid_draw (cf_counter c))))))
  | Sh_busy : forall t p sid, cf_threads c t = Checking p sid -> cf_store c sid = true ->
      step_shape c (Run t) [EvBusy t sid]
      (Config (cf_counter c) (cf_store c) (cf_conn c) (set_thread (cf_threads c) t (Drawing p)))
  | Sh_alloc : forall t p sid st, cf_threads c t = Checking p sid -> cf_store c sid = false ->
      fnf_start chunk sid p = Ret st -> step_shape c (Run t) [EvAlloc t sid p]
      (Config (cf_counter c) (cf_store c) (cf_conn c) (set_thread (cf_threads c) t (Sending p sid st)))
  | Sh_refuse : forall t p sid, cf_threads c t = Checking p sid -> cf_store c sid = false ->
      (forall st, fnf_start chunk sid p <> Ret st) -> step_shape c (Run t) [EvPanic t]
      (Config (cf_counter c) (cf_store c) (cf_conn c) (set_thread (cf_threads c) t Panicked))
  | Sh_return : forall t p sid st, cf_threads c t = Sending p sid st -> fnf_next bd st = Ret None ->
      step_shape c (Run t) [EvReturn t sid]
      (Config (cf_counter c) (cf_store c) (cf_conn c) (set_thread (cf_threads c) t Idle))
  | Sh_send : forall t p sid st f st', cf_threads c t = Sending p sid st -> fnf_next bd st = Ret (Some (f, st')) ->
      step_shape c (Run t) [EvSend t f (snd (cn_send_and_forget cn (cf_conn c) f))]
      (Config (cf_counter c) (cf_store c) (fst (cn_send_and_forget cn (cf_conn c) f))
         (set_thread (cf_threads c) t
            (match snd (cn_send_and_forget cn (cf_conn c) f) with None => Sending p sid st' | Some _ => Idle end)))
  | Sh_abort : forall t p sid st, cf_threads c t = Sending p sid st ->
      (forall r, fnf_next bd st <> Ret r) -> step_shape c (Run t) [EvPanic t]
      (Config (cf_counter c) (cf_store c) (cf_conn c) (set_thread (cf_threads c) t Panicked))
  | Sh_missing : forall t, cf_threads c t = Idle -> step_shape c (Request t) [EvMissing t]
      (Config (cf_counter c) (cf_store c) (cf_conn c) (set_thread (cf_threads c) t Panicked)).

  Lemma step_shaped : forall a c, step_shape c a (fst (step cn bd chunk a c)) (snd (step cn bd chunk a c)).
  Proof.
    intros [t p|t|t md| |k|k|t] c; cbn [step].
    - destruct (cf_threads c t) eqn:T; try (apply Sh_idle; discriminate). now apply Sh_call.
    - destruct (cf_threads c t) as [|p|p sid|p sid st|] eqn:T; try (apply Sh_idle; discriminate).
      + pose proof (Sh_draw c t p T) as X. destruct (sid_draw (cf_counter c)) as [sid k]. exact X.
      + destruct (cf_store c sid) eqn:St; [eapply Sh_busy; eauto|].
        destruct (fnf_start chunk sid p) as [st| |] eqn:F.
        * eapply Sh_alloc; eauto.
        * eapply Sh_refuse; eauto. intros st. congruence.
        * eapply Sh_refuse; eauto. intros st. congruence.
      + destruct (fnf_next bd st) as [[[f st']|]| |] eqn:F.
        * pose proof (Sh_send c t p sid st f st' T F) as X. destruct (cn_send_and_forget cn (cf_conn c) f) as [conn' r]. exact X.
        * eapply Sh_return; eauto.
        * eapply Sh_abort; eauto. intros r. congruence.
        * eapply Sh_abort; eauto. intros r. congruence.
    - destruct (cf_threads c t) eqn:T; try (apply Sh_idle; discriminate). now apply (Sh_push c t md).
    - apply Sh_close.
    - apply Sh_insert.
    - apply Sh_remove.
    - destruct (cf_threads c t) eqn:T; try (apply Sh_idle; discriminate). now apply Sh_missing.
  Qed.

  (** Induction over executions. *)
  Lemma run_ind : forall (P : list action -> trace -> @config S -> Prop),
    P [] [] (config_init init st0 conn0) ->
    (forall acts tr c a ev c', run acts = (tr, c) -> P acts tr c -> step_shape c a ev c' -> P (acts ++ [a]) (tr ++ ev) c') ->
    forall acts, P acts (fst (run acts)) (snd (run acts)).
  Proof.
    intros P H0 HS acts. induction acts as [|a acts IH] using rev_ind; [exact H0|].
    rewrite exec_snoc. cbn [fst snd]. eapply HS; [apply surjective_pairing|exact IH|apply step_shaped].
  Qed.

  Lemma threads_after : forall (th : nat -> @thread) t x u y,
    set_thread th t x u = y -> (u = t /\ x = y) \/ (u <> t /\ th u = y).
  Proof.
    intros th t x u y H. destruct (Nat.eq_dec u t) as [->|N].
    - rewrite set_same in H. auto.
    - rewrite set_other in H by exact N. auto.
  Qed.

  Lemma draw_invariant : forall acts, draw_inv (fst (run acts)) (snd (run acts)).
  Proof.
    apply (run_ind (fun _ tr c => draw_inv tr c)).
    - repeat split.
      + apply at_draw_0.
      + cbn. discriminate.
      + cbn. contradiction.
    - intros acts tr c a ev c' _ (D & A & C & L) Sh. unfold draw_inv. rewrite drawn_app, ids_app.
      destruct Sh as [a H1 H2|t p T|k|k|t md T| |t p T|t p sid T St|t p sid st T St F|t p sid T St F|t p sid st T F|t p sid st f st' T F|t p sid st T F|t T];
        cbn [cf_counter cf_threads drawn alloc_ids allocs flat_map app map snd fst]; rewrite ?app_nil_r.
      all: try (split; [exact D|split; [exact A|split; [|intros s I; apply L; exact I]]];
                intros u q s H; apply threads_after in H as [[-> H]|[_ H]]; [discriminate H|eapply C; exact H]).
      + split; [exact D|]. split; [exact A|]. split; [exact C|exact L].
      + split; [exact D|]. split; [exact A|]. split; [exact C|exact L].
      + split; [exact D|]. split; [exact A|]. split; [exact C|exact L].
      + split; [exact D|]. split; [exact A|]. split; [exact C|exact L].
      + split; [exact D|]. split; [exact A|]. split; [exact C|exact L].
      + destruct (draw_at init (cf_counter c) _ A) as [E1 A'].
        rewrite app_length. cbn [length]. replace (length (drawn tr) + 1)%nat with (Datatypes.S (length (drawn tr))) by lia.
        split; [|split; [|split]].
        * unfold draws. rewrite seq_S, map_app. cbn [map]. rewrite Nat.add_0_l, <- E1. f_equal. exact D.
        * replace (N.of_nat (Datatypes.S (length (drawn tr)))) with (N.of_nat (length (drawn tr)) + 1) by lia. exact A'.
        * intros u q s H. apply in_or_app. apply threads_after in H as [[_ H]|[_ H]].
          -- injection H as _ <-. right. now left.
          -- left. eapply C; exact H.
        * intros s I. apply in_or_app. left. apply L, I.
      + split; [exact D|]. split; [exact A|]. split.
        * intros u q s H. apply threads_after in H as [[_ H]|[_ H]]; [discriminate H|eapply C; exact H].
        * intros s I. apply in_app_or in I as [I|[<-|[]]]; [apply L, I|eapply C; exact T].
      + split; [exact D|]. split; [exact A|]. split; [|exact L].
        intros u q s H. apply threads_after in H as [[_ H]|[_ H]]; [|eapply C; exact H].
        destruct (snd (cn_send_and_forget cn (cf_conn c) f)); discriminate H.
  Qed.

  Lemma draws_nodup : forall k, N.of_nat k <= 2 ^ 30 -> NoDup (draws k).
  Proof.
    intros k Hk. unfold draws. apply nodup_map_in.
    2: apply seq_NoDup.
    intros i j Hi Hj Eq. apply in_seq in Hi, Hj.
    apply Nat2N.inj. apply (id_distinct init (2 ^ 30)); [lia|lia|lia|exact Eq].
  Qed.

  Lemma nth_draw : forall acts k sid, nth_error (drawn (fst (run acts))) k = Some sid ->
    sid = id_after init (N.of_nat k).
  Proof.
    intros acts k sid H. destruct (draw_invariant acts) as (D & _). rewrite D in H.
    assert (L : (k < length (draws (length (drawn (fst (run acts))))))%nat) by (apply nth_error_Some; congruence).
    unfold draws in *. rewrite map_length, seq_length in L. rewrite nth_error_map in H.
    destruct (nth_error (seq 0 (length (drawn (fst (run acts))))) k) eqn:N0; [|discriminate].
    apply nth_error_nth with (d := 0%nat) in N0. rewrite seq_nth in N0 by exact L. cbn in H. injection H as <-. now subst.
  Qed.
  Lemma drawn_class : forall acts sid, In sid (drawn (fst (run acts))) -> in_class init sid.
  Proof.
    intros acts sid H. apply In_nth_error in H as (k & H). apply nth_draw in H as ->. apply id_in_class.
  Qed.

  (** ** Availability *)

  Lemma store_snoc : forall acts st a, store_after st (acts ++ [a]) =
    match a with
    | Insert k => set_store (store_after st acts) k true
    | Remove k => set_store (store_after st acts) k false
    | _ => store_after st acts
    end.
  Proof.
    induction acts as [|x acts IH]; intros st a; cbn [app store_after].
    - now destruct a.
    - destruct x; apply IH.
  Qed.
  Lemma store_at : forall acts, cf_store (snd (run acts)) = store_after st0 acts.
  Proof.
    apply (run_ind (fun acts _ c => cf_store c = store_after st0 acts)); [reflexivity|].
    intros acts tr c a ev c' _ H Sh. rewrite store_snoc.
    destruct Sh as [a H1 H2| | | | | | | | | | | | |]; cbn [cf_store]; try exact H; try (now rewrite H).
    destruct a; try exact H; [destruct (H1 k eq_refl)|destruct (H2 k eq_refl)].
  Qed.

  Lemma event_origin : forall acts tr1 e tr2, fst (run acts) = tr1 ++ e :: tr2 ->
    exists a1 a a2, acts = a1 ++ a :: a2 /\ fst (run a1) = tr1 /\ fst (step cn bd chunk a (snd (run a1))) = [e].
  Proof.
    induction acts as [|a acts IH] using rev_ind; intros tr1 e tr2 H.
    - cbn in H. destruct tr1; discriminate.
    - rewrite exec_snoc in H. cbn [fst] in H.
      assert (Ln : fst (step cn bd chunk a (snd (run acts))) = [] \/ exists e', fst (step cn bd chunk a (snd (run acts))) = [e']).
      { pose proof (step_shaped a (snd (run acts))) as Sh. destruct Sh; eauto. }
      destruct tr2 as [|e2 tr2] using rev_ind.
      + destruct Ln as [L|(e' & L)]; rewrite L in H.
        * rewrite app_nil_r in H. destruct (IH _ _ _ H) as (a1 & x & a2 & -> & B & C).
          exists a1, x, (a2 ++ [a]). now rewrite <- app_assoc.
        * apply app_inj_tail in H as [H <-]. exists acts, a, []. auto.
      + clear IHtr2. destruct Ln as [L|(e' & L)]; rewrite L in H.
        * rewrite app_nil_r in H. destruct (IH _ _ _ H) as (a1 & x & a2 & -> & B & C).
          exists a1, x, (a2 ++ [a]). now rewrite <- app_assoc.
        * change (e :: tr2 ++ [e2]) with ((e :: tr2) ++ [e2]) in H. rewrite app_assoc in H.
          apply app_inj_tail in H as [H _]. destruct (IH _ _ _ H) as (a1 & x & a2 & -> & B & C).
          exists a1, x, (a2 ++ [a]). now rewrite <- app_assoc.
  Qed.

  Lemma alloc_origin : forall acts tr1 t sid p tr2, fst (run acts) = tr1 ++ EvAlloc t sid p :: tr2 ->
    in_class init sid /\
    exists a1 a2, acts = a1 ++ Run t :: a2 /\ fst (run a1) = tr1 /\ store_after st0 a1 sid = false.
  Proof.
    intros acts tr1 t sid p tr2 H. split.
    - apply (drawn_class acts). apply (draw_invariant acts). eapply in_ids, in_allocs. rewrite H. apply in_elt.
    - destruct (event_origin _ _ _ _ H) as (a1 & a & a2 & -> & B & C).
      pose proof (step_shaped a (snd (run a1))) as Sh. rewrite C in Sh.
      inversion Sh; subst. exists a1, a2. split; [reflexivity|]. split; [reflexivity|]. now rewrite <- store_at.
  Qed.

  (** ** Up to [2 ^ 30] draws *)

  Definition call_inv (tr : trace) (c : @config S) : Prop :=
    (forall t p sid, cf_threads c t = Checking p sid -> ~ In sid (alloc_ids tr)) /\
    (forall t p u q sid, cf_threads c t = Checking p sid -> cf_threads c u = Checking q sid -> t = u) /\
    NoDup (alloc_ids tr) /\
    (forall t p sid st, cf_threads c t = Sending p sid st ->
       In (t, sid, p) (allocs tr) /\ (forall u, ~ In (EvReturn u sid) tr) /\
       exists rest, call_frames chunk sid p = received sid tr ++ rest /\ yields bd st rest) /\
    (forall t p sid, In (t, sid, p) (allocs tr) -> exists rest,
       call_frames chunk sid p = received sid tr ++ rest /\ (In (EvReturn t sid) tr -> rest = [])) /\
    (forall t f r, In (EvSend t f r) tr -> exists q p, f = FRequestFnf q /\ In (t, fnf_stream_id q, p) (allocs tr)) /\
    (forall t sid, In (EvReturn t sid) tr -> exists p, In (t, sid, p) (allocs tr)).

  Lemma yields_id : forall chunk sid p f pre rest, call_frames chunk sid p = pre ++ f :: rest ->
    exists q, f = FRequestFnf q /\ fnf_stream_id q = sid.
  Proof.
    intros ch sid p f pre rest H. pose proof (call_carries ch sid p) as C. rewrite H in C.
    apply Forall2_app_inv_r in C as (l1 & l2 & _ & C & _). inversion C as [|q ? ? ? (b & ->) _]; subst.
    eexists. split; reflexivity.
  Qed.

  Lemma push_events : forall acts t f r, In (EvPush t f r) (fst (run acts)) ->
    exists md, f = FMetadataPush (MetadataPushFrame md) /\ In (Push t md) acts.
  Proof.
    intros acts. apply (run_ind (fun acts tr _ => forall t f r, In (EvPush t f r) tr ->
      exists md, f = FMetadataPush (MetadataPushFrame md) /\ In (Push t md) acts)); clear acts; [contradiction|].
    intros acts tr c a ev c' _ IH Sh t f r I. apply in_app_or in I as [I|I].
    - destruct (IH _ _ _ I) as (md & A & B). exists md. split; [exact A|]. apply in_or_app. now left.
    - destruct Sh; try destruct I as [I|[]]; try discriminate I; try contradiction.
      injection I as <- <- _. exists md. split; [reflexivity|]. apply in_or_app. right. now left.
  Qed.

  Lemma received_none : forall sid (tr : trace),
    (forall t f r, In (EvPush t f r) tr -> carries_id sid f = false) ->
    (forall t f r, In (EvSend t f r) tr -> exists q p, f = FRequestFnf q /\ In (t, fnf_stream_id q, p) (allocs tr)) ->
    ~ In sid (alloc_ids tr) -> received sid tr = [].
  Proof.
    intros sid tr HP H N0.
    assert (X : forall tr', (forall e, In e tr' -> In e tr) -> received sid tr' = []).
    { induction tr' as [|e tr' IH]; intros Sub; [reflexivity|]. cbn [received flat_map].
      fold (received sid tr'). rewrite IH by (intros; apply Sub; now right).
      destruct e as [| | |t f r| | |t f r| |]; try reflexivity.
      2: now rewrite (HP t f r (Sub _ (or_introl eq_refl))).
      destruct (H t f r (Sub _ (or_introl eq_refl))) as (q & p & -> & I). cbn [carries_id].
      destruct (N.eqb_spec (fnf_stream_id q) sid) as [Eq|]; [|reflexivity]. exfalso. apply N0. rewrite <- Eq. eapply in_ids, I. }
    apply X. auto.
  Qed.

  Lemma call_invariant : chunk <> Some 0 -> forall acts, N.of_nat (length (drawn (fst (run acts)))) <= 2 ^ 30 ->
    call_inv (fst (run acts)) (snd (run acts)).
  Proof.
    intros Hc acts. apply (run_ind (fun _ tr c => N.of_nat (length (drawn tr)) <= 2 ^ 30 -> call_inv tr c)); clear acts.
    - intros _. split; [cbn; discriminate|]. split; [cbn; discriminate|]. split; [constructor|]. split; [cbn; discriminate|].
      split; [cbn; contradiction|]. split; cbn; contradiction.
    - intros acts tr c a ev c' R IH Sh Ln. rewrite drawn_app, app_length in Ln.
      pose proof (draw_invariant acts) as DI. rewrite R in DI. cbn [fst snd] in DI. destruct DI as (D & A & CK & L).
      destruct (IH ltac:(lia)) as (I1 & I2 & I3 & I4 & I5 & I6 & I7). clear IH. unfold call_inv.
      assert (noev : forall (x : event E) tr, In x (tr ++ ev) <-> In x tr \/ In x ev) by (intros; apply in_app_iff).
      rewrite ids_app, allocs_app.
      destruct Sh as [a H1 H2|t p T|k|k|t md T| |t p T|t p sid T St|t p sid st T St F|t p sid T St F|t p sid st T F|t p sid st f st' T F|t p sid st T F|t T];
        cbn [cf_threads alloc_ids allocs flat_map map app snd fst]; rewrite ?app_nil_r.
      + (* nothing happens *)
        exact (conj I1 (conj I2 (conj I3 (conj I4 (conj I5 (conj I6 I7)))))).
      + (* a call starts *)
        assert (Hk : forall u x, set_thread (cf_threads c) t (Drawing p) u = x -> (forall q, x <> Drawing q) -> cf_threads c u = x).
        { intros u x H N0. apply threads_after in H as [[_ H]|[_ H]]; [destruct (N0 p (eq_sym H))|exact H]. }
        split; [|split; [|split; [|split]]]; [| |exact I3| |auto].
        * intros u q s H. apply Hk in H; [eapply I1; eauto|discriminate].
        * intros u q v q' s Hu Hv. apply Hk in Hu; [|discriminate]. apply Hk in Hv; [|discriminate]. eapply I2; eauto.
        * intros u q s st H. apply Hk in H; [eapply I4; eauto|discriminate].
      + exact (conj I1 (conj I2 (conj I3 (conj I4 (conj I5 (conj I6 I7)))))).
      + exact (conj I1 (conj I2 (conj I3 (conj I4 (conj I5 (conj I6 I7)))))).
      + (* a metadata push *)
        split; [exact I1|]. split; [exact I2|]. split; [exact I3|]. split; [|split; [|split]].
        * intros u q s st H. rewrite received_app. cbn [received flat_map carries_id app]. rewrite app_nil_r.
          destruct (I4 _ _ _ _ H) as (B1 & B2 & B3). split; [exact B1|]. split; [|exact B3].
          intros v Hv. apply noev in Hv as [Hv|[Hv|[]]]; [exact (B2 v Hv)|discriminate].
        * intros u q s H. rewrite received_app. cbn [received flat_map carries_id app]. rewrite app_nil_r.
          destruct (I5 _ _ _ H) as (rest & B1 & B2). exists rest. split; [exact B1|].
          intros X. apply noev in X as [X|[X|[]]]; [auto|discriminate].
        * intros u g r H. apply noev in H as [H|[H|[]]]; [eapply I6; eauto|discriminate].
        * intros u s H. apply noev in H as [H|[H|[]]]; [apply I7, H|discriminate].
      + (* a close *)
        split; [exact I1|]. split; [exact I2|]. split; [exact I3|]. split; [|split; [|split]].
        * intros u q s st H. rewrite received_app. cbn [received flat_map carries_id app]. rewrite app_nil_r.
          destruct (I4 _ _ _ _ H) as (B1 & B2 & B3). split; [exact B1|]. split; [|exact B3].
          intros v Hv. apply noev in Hv as [Hv|[Hv|[]]]; [exact (B2 v Hv)|discriminate].
        * intros u q s H. rewrite received_app. cbn [received flat_map carries_id app]. rewrite app_nil_r.
          destruct (I5 _ _ _ H) as (rest & B1 & B2). exists rest. split; [exact B1|].
          intros X. apply noev in X as [X|[X|[]]]; [auto|discriminate].
        * intros u g r H. apply noev in H as [H|[H|[]]]; [eapply I6; eauto|discriminate].
        * intros u s H. apply noev in H as [H|[H|[]]]; [apply I7, H|discriminate].
      + (* a draw *)
        set (sid := fst (sid_draw (cf_counter c))) in *.
        cbn [drawn flat_map app length] in Ln. fold (@drawn E) in Ln.
        assert (Es : sid = id_after init (N.of_nat (length (drawn tr)))) by apply (draw_at _ _ _ A).
        assert (Fresh : ~ In sid (drawn tr)).
        { pose proof (draws_nodup (Datatypes.S (length (drawn tr))) ltac:(lia)) as ND.
          unfold draws in ND. rewrite seq_S, map_app in ND. cbn [map] in ND. rewrite Nat.add_0_l, <- Es in ND.
          fold (draws (length (drawn tr))) in ND. rewrite <- D in ND. apply NoDup_remove_2 in ND. now rewrite app_nil_r in ND. }
        assert (Hk : forall u x, set_thread (cf_threads c) t (Checking p sid) u = x ->
          (u = t /\ x = Checking p sid) \/ (u <> t /\ cf_threads c u = x)).
        { intros u x H. apply threads_after in H as [[-> H]|H]; auto. }
        assert (IR : forall u s, In (EvReturn u s) (tr ++ [EvDraw t sid]) -> In (EvReturn u s) tr).
        { intros u s H. apply noev in H as [H|[H|[]]]; [exact H|discriminate]. }
        assert (RC : forall s, received s (tr ++ [EvDraw t sid]) = received s tr).
        { intros s. rewrite received_app. cbn. apply app_nil_r. }
        split; [|split; [|split; [|split; [|split; [|split]]]]]; [| |exact I3| | | |].
        * intros u q s H. apply Hk in H as [[-> H]|[_ H]]; [|eapply I1; eauto].
          injection H as <- <-. intros I. apply Fresh, L, I.
        * intros u q v q' s Hu Hv. apply Hk in Hu as [[-> Hu]|[_ Hu]]; apply Hk in Hv as [[-> Hv]|[_ Hv]].
          -- reflexivity.
          -- exfalso. injection Hu as -> ->. apply Fresh. eapply CK; eauto.
          -- exfalso. injection Hv as -> ->. apply Fresh. eapply CK; eauto.
          -- eapply I2; eauto.
        * intros u q s st H. apply Hk in H as [[_ H]|[_ H]]; [discriminate|].
          destruct (I4 _ _ _ _ H) as (B1 & B2 & B3). rewrite RC. split; [exact B1|]. split; [|exact B3].
          intros v Hv. apply (B2 v), IR, Hv.
        * intros u q s H. rewrite RC. destruct (I5 _ _ _ H) as (rest & B1 & B2). exists rest. split; [exact B1|]. auto.
        * intros u g r H. apply noev in H as [H|[H|[]]]; [eapply I6; eauto|discriminate].
        * intros u s H. apply IR in H. apply I7, H.
      + (* the id is taken *)
        assert (Hk : forall u x, set_thread (cf_threads c) t (Drawing p) u = x -> (forall q, x <> Drawing q) -> cf_threads c u = x).
        { intros u x H N0. apply threads_after in H as [[_ H]|[_ H]]; [destruct (N0 p (eq_sym H))|exact H]. }
        assert (IR : forall u s, In (EvReturn u s) (tr ++ [EvBusy t sid]) -> In (EvReturn u s) tr).
        { intros u s H. apply noev in H as [H|[H|[]]]; [exact H|discriminate]. }
        assert (RC : forall s, received s (tr ++ [EvBusy t sid]) = received s tr).
        { intros s. rewrite received_app. cbn. apply app_nil_r. }
        split; [|split; [|split; [|split; [|split; [|split]]]]]; [| |exact I3| | | |].
        * intros u q s H. apply Hk in H; [eapply I1; eauto|discriminate].
        * intros u q v q' s Hu Hv. apply Hk in Hu; [|discriminate]. apply Hk in Hv; [|discriminate]. eapply I2; eauto.
        * intros u q s st H. apply Hk in H; [|discriminate].
          destruct (I4 _ _ _ _ H) as (B1 & B2 & B3). rewrite RC. split; [exact B1|]. split; [|exact B3].
          intros v Hv. apply (B2 v), IR, Hv.
        * intros u q s H. rewrite RC. destruct (I5 _ _ _ H) as (rest & B1 & B2). exists rest. split; [exact B1|]. auto.
        * intros u g r H. apply noev in H as [H|[H|[]]]; [eapply I6; eauto|discriminate].
        * intros u s H. apply IR in H. apply I7, H.
      + (* the id is obtained *)
        assert (Sb : sid < 2 ^ 31).
        { pose proof (drawn_class acts sid) as X. rewrite R in X. apply X. eapply CK; eauto. }
        destruct (start_yields bd chunk sid p Sb Hc) as (st' & F' & Y). rewrite F in F'. injection F' as <-.
        assert (NA : ~ In sid (alloc_ids tr)) by (eapply I1; eauto).
        assert (RN : received sid tr = []).
        { apply received_none; auto. intros u g r I. pose proof (push_events acts u g r) as X. rewrite R in X.
          destruct (X I) as (md & -> & _). reflexivity. }
        assert (IR : forall u s, In (EvReturn u s) (tr ++ [EvAlloc t sid p]) -> In (EvReturn u s) tr).
        { intros u s H. apply noev in H as [H|[H|[]]]; [exact H|discriminate]. }
        assert (RC : forall s, received s (tr ++ [EvAlloc t sid p]) = received s tr).
        { intros s. rewrite received_app. cbn. apply app_nil_r. }
        split; [|split; [|split; [|split; [|split; [|split]]]]].
        * intros u q s H. apply threads_after in H as [[_ H]|[Nu H]]; [discriminate|]. intros I.
          apply in_app_or in I as [I|[<-|[]]]; [revert I; eapply I1; eauto|]. apply Nu. eapply I2; eauto.
        * intros u q v q' s Hu Hv. apply threads_after in Hu as [[_ Hu]|[_ Hu]]; [discriminate|].
          apply threads_after in Hv as [[_ Hv]|[_ Hv]]; [discriminate|]. eapply I2; eauto.
        * apply NoDup_rev in I3. rewrite <- (rev_involutive (alloc_ids tr ++ [sid])). apply NoDup_rev.
          rewrite rev_app_distr. cbn. constructor; [|exact I3]. now rewrite <- in_rev.
        * intros u q s x H. apply threads_after in H as [[-> H]|[_ H]].
          -- injection H as <- <- <-. split; [apply in_or_app; right; now left|]. split.
             ++ intros v Hv. apply IR, I7 in Hv as (p' & Hv). apply NA. eapply in_ids, Hv.
             ++ exists (call_frames chunk sid p). rewrite RC, RN. split; [reflexivity|exact Y].
          -- destruct (I4 _ _ _ _ H) as (B1 & B2 & B3). rewrite RC. split; [apply in_or_app; now left|]. split; [|exact B3].
             intros v Hv. apply (B2 v), IR, Hv.
        * intros u q s H. rewrite RC. apply in_app_or in H as [H|[[= <- <- <-]|[]]].
          -- destruct (I5 _ _ _ H) as (rest & B1 & B2). exists rest. split; [exact B1|]. auto.
          -- exists (call_frames chunk sid p). rewrite RN. split; [reflexivity|]. intros X. exfalso.
             apply IR, I7 in X as (p' & X). apply NA. eapply in_ids, X.
        * intros u g r H. apply noev in H as [H|[H|[]]]; [|discriminate]. destruct (I6 _ _ _ H) as (q & p' & B1 & B2).
          exists q, p'. split; [exact B1|]. apply in_or_app. now left.
        * intros u s H. apply IR, I7 in H as (p' & H). exists p'. apply in_or_app. now left.
      + (* cannot happen *)
        exfalso. assert (Sb : sid < 2 ^ 31).
        { pose proof (drawn_class acts sid) as X. rewrite R in X. apply X. eapply CK; eauto. }
        destruct (start_yields bd chunk sid p Sb Hc) as (st' & F' & _). eapply F, F'.
      + (* a call returns *)
        destruct (I4 _ _ _ _ T) as (B1 & B2 & rest & B3 & Y). inversion Y as [? Y0|? ? ? ? Y0]; subst; [|congruence].
        assert (RC : forall s, received s (tr ++ [EvReturn t sid]) = received s tr).
        { intros s. rewrite received_app. cbn. apply app_nil_r. }
        split; [|split; [|split; [|split; [|split; [|split]]]]]; [| |exact I3| | | |].
        * intros u q s H. apply threads_after in H as [[_ H]|[_ H]]; [discriminate|]. eapply I1; eauto.
        * intros u q v q' s Hu Hv. apply threads_after in Hu as [[_ Hu]|[_ Hu]]; [discriminate|].
          apply threads_after in Hv as [[_ Hv]|[_ Hv]]; [discriminate|]. eapply I2; eauto.
        * intros u q s x H. apply threads_after in H as [[_ H]|[Nu H]]; [discriminate|].
          destruct (I4 _ _ _ _ H) as (C1 & C2 & C3). rewrite RC. split; [exact C1|]. split; [|exact C3].
          intros v Hv. apply noev in Hv as [Hv|[[= <- <-]|[]]]; [exact (C2 v Hv)|].
          apply Nu. eapply nodup_key; [exact I3|exact C1|exact B1].
        * intros u q s H. rewrite RC. destruct (I5 _ _ _ H) as (rs & C1 & C2). exists rs. split; [exact C1|].
          intros X. apply noev in X as [X|[[= <- <-]|[]]]; [auto|].
          destruct (nodup_key _ I3 _ _ _ _ _ H B1) as [_ ->].
          rewrite C1 in B3. apply app_inv_head in B3. exact B3.
        * intros u g r H. apply noev in H as [H|[H|[]]]; [eapply I6; eauto|discriminate].
        * intros u s H. apply noev in H as [H|[[= <- <-]|[]]]; [apply I7, H|]. eauto.
      + (* a frame goes out *)
        destruct (I4 _ _ _ _ T) as (B1 & B2 & rest & B3 & Y). inversion Y as [? Y0|? g st2 fs Y0 Y1]; subst; [congruence|].
        rewrite F in Y0. injection Y0 as <- <-.
        destruct (yields_id _ _ _ _ _ _ B3) as (w & -> & Ew).
        set (r := snd (cn_send_and_forget cn (cf_conn c) (FRequestFnf w))) in *.
        assert (RC : forall s, received s (tr ++ [EvSend t (FRequestFnf w) r]) =
          received s tr ++ (if sid =? s then [FRequestFnf w] else [])).
        { intros s. rewrite received_app. cbn. rewrite Ew. now rewrite app_nil_r. }
        assert (IR : forall u s, In (EvReturn u s) (tr ++ [EvSend t (FRequestFnf w) r]) -> In (EvReturn u s) tr).
        { intros u s H. apply noev in H as [H|[H|[]]]; [exact H|discriminate]. }
        split; [|split; [|split; [|split; [|split; [|split]]]]]; [| |exact I3| | | |].
        * intros u q s H. apply threads_after in H as [[_ H]|[_ H]]; [destruct r; discriminate|]. eapply I1; eauto.
        * intros u q v q' s Hu Hv. apply threads_after in Hu as [[_ Hu]|[_ Hu]]; [destruct r; discriminate|].
          apply threads_after in Hv as [[_ Hv]|[_ Hv]]; [destruct r; discriminate|]. eapply I2; eauto.
        * intros u q s x H. rewrite RC. apply threads_after in H as [[-> H]|[Nu H]].
          -- destruct r as [e|]; [discriminate|]. injection H as <- <- <-. split; [exact B1|]. split.
             ++ intros v Hv. exact (B2 v (IR _ _ Hv)).
             ++ exists fs. rewrite N.eqb_refl, <- app_assoc. split; [exact B3|exact Y1].
          -- destruct (I4 _ _ _ _ H) as (C1 & C2 & C3). split; [exact C1|]. split; [intros v Hv; exact (C2 v (IR _ _ Hv))|].
             destruct (N.eqb_spec sid s) as [<-|]; [|now rewrite app_nil_r].
             exfalso. apply Nu. eapply nodup_key; [exact I3|exact C1|exact B1].
        * intros u q s H. rewrite RC. destruct (I5 _ _ _ H) as (rs & C1 & C2).
          destruct (N.eqb_spec sid s) as [<-|]; [|rewrite app_nil_r; exists rs; split; [exact C1|auto]].
          destruct (nodup_key _ I3 _ _ _ _ _ H B1) as [-> ->].
          exists fs. rewrite <- app_assoc. split; [exact B3|]. intros X. exfalso. exact (B2 _ (IR _ _ X)).
        * intros u g r0 H. apply noev in H as [H|[[= <- <- <-]|[]]]; [eapply I6; eauto|].
          exists w, p. split; [reflexivity|]. now rewrite Ew.
        * intros u s H. apply IR in H. apply I7, H.
      + (* cannot happen *)
        exfalso. destruct (I4 _ _ _ _ T) as (_ & _ & rest & _ & Y). inversion Y as [? Y0|? ? ? ? Y0]; subst; eapply F, Y0.
      + (* a method that is not implemented *)
        assert (Hk : forall u x, set_thread (cf_threads c) t Panicked u = x -> x <> Panicked -> cf_threads c u = x).
        { intros u x H N0. apply threads_after in H as [[_ H]|[_ H]]; [destruct (N0 (eq_sym H))|exact H]. }
        split; [|split; [|split; [|split; [|split; [|split]]]]]; [| |exact I3| | | |].
        * intros u q s H. apply Hk in H; [eapply I1; eauto|discriminate].
        * intros u q v q' s Hu Hv. apply Hk in Hu; [|discriminate]. apply Hk in Hv; [|discriminate]. eapply I2; eauto.
        * intros u q s st H. apply Hk in H; [|discriminate]. rewrite received_app. cbn [received flat_map app]. rewrite app_nil_r.
          destruct (I4 _ _ _ _ H) as (B1 & B2 & B3). split; [exact B1|]. split; [|exact B3].
          intros v Hv. apply noev in Hv as [Hv|[Hv|[]]]; [exact (B2 v Hv)|discriminate].
        * intros u q s H. rewrite received_app. cbn [received flat_map app]. rewrite app_nil_r.
          destruct (I5 _ _ _ H) as (rest & B1 & B2). exists rest. split; [exact B1|].
          intros X. apply noev in X as [X|[X|[]]]; [auto|discriminate].
        * intros u g r H. apply noev in H as [H|[H|[]]]; [eapply I6; eauto|discriminate].
        * intros u s H. apply noev in H as [H|[H|[]]]; [apply I7, H|discriminate].
  Qed.

  Lemma start_zero : forall sid p st, chunk = Some 0 -> fnf_start chunk sid p <> Ret st.
  Proof. intros sid p st ->. discriminate. Qed.

  Lemma alloc_distinct : forall acts, N.of_nat (length (drawn (fst (run acts)))) <= 2 ^ 30 ->
    NoDup (alloc_ids (fst (run acts))).
  Proof.
    intros acts L. assert (D : chunk = Some 0 \/ chunk <> Some 0).
    { destruct chunk as [n|]; [|right; discriminate]. destruct (N.eq_dec n 0) as [->|]; [now left|right; congruence]. }
    destruct D as [Z|Hc]; [|apply (call_invariant Hc acts L)].
    assert (X : alloc_ids (fst (run acts)) = []); [|rewrite X; constructor].
    clear L. revert acts. apply (run_ind (fun _ tr _ => alloc_ids tr = [])); [reflexivity|].
    intros acts tr c a ev c' _ H Sh. rewrite ids_app, H.
    destruct Sh; try reflexivity. exfalso. eapply start_zero; eauto.
  Qed.
  Lemma no_mixing : chunk <> Some 0 -> forall acts, N.of_nat (length (drawn (fst (run acts)))) <= 2 ^ 30 ->
    forall t sid p, In (EvAlloc t sid p) (fst (run acts)) ->
    exists all rest, carries sid (fragments chunk p) all /\
      all = received sid (fst (run acts)) ++ rest /\ (In (EvReturn t sid) (fst (run acts)) -> rest = []).
  Proof.
    intros Hc acts L t sid p I. destruct (call_invariant Hc acts L) as (_ & _ & _ & _ & I5 & _).
    apply in_allocs in I. destruct (I5 _ _ _ I) as (rest & A & B).
    exists (call_frames chunk sid p), rest. split; [apply call_carries|]. auto.
  Qed.
  Lemma only_calls : chunk <> Some 0 -> forall acts, N.of_nat (length (drawn (fst (run acts)))) <= 2 ^ 30 ->
    forall t f r, In (EvSend t f r) (fst (run acts)) ->
    exists q p, f = FRequestFnf q /\ In (EvAlloc t (fnf_stream_id q) p) (fst (run acts)).
  Proof.
    intros Hc acts L t f r I. destruct (call_invariant Hc acts L) as (_ & _ & _ & _ & _ & I6 & _).
    destruct (I6 _ _ _ I) as (q & p & A & B). exists q, p. split; [exact A|]. now apply in_allocs.
  Qed.
End Connection.

(** ** A server reaches id 0 *)

Section Zero.
  Context {S E : Type} (cn : connection S E).
  Variables (bd : build) (chunk : option N) (init : Z) (st0 : store) (conn0 : S) (p : payload).
  Notation run acts := (exec cn bd chunk acts (config_init init st0 conn0)).

  Definition draw_all (k : nat) : list action := flat_map (fun t => [Call t p; Run t]) (seq 0 k).

  Lemma draw_all_state : forall k,
    cf_store (snd (run (draw_all k))) = st0 /\
    at_draw init (cf_counter (snd (run (draw_all k)))) (N.of_nat k) /\
    length (drawn (fst (run (draw_all k)))) = k /\
    (forall u, (u < k)%nat -> cf_threads (snd (run (draw_all k))) u = Checking p (id_after init (N.of_nat u))) /\
    (forall u, (k <= u)%nat -> cf_threads (snd (run (draw_all k))) u = Idle).
  Proof.
    induction k as [|k (H1 & H2 & H3 & H4 & H5)].
    - repeat split; try (intros; lia). apply at_draw_0.
    - assert (Ed : draw_all (Datatypes.S k) = (draw_all k ++ [Call k p]) ++ [Run k]).
      { unfold draw_all. rewrite seq_S, flat_map_app. cbn [flat_map app Nat.add]. now rewrite <- app_assoc. }
      rewrite Ed. clear Ed. rewrite exec_snoc. rewrite exec_snoc. cbn [fst snd].
      destruct (run (draw_all k)) as [tr c]. cbn [fst snd] in *.
      cbn [step]. rewrite (H5 k (le_n k)). cbn [fst snd cf_threads cf_counter cf_store cf_conn].
      rewrite set_same. destruct (draw_at init (cf_counter c) (N.of_nat k) H2) as [D1 D2].
      destruct (sid_draw (cf_counter c)) as [sid k'] eqn:Ed. cbn [fst snd cf_threads cf_counter cf_store] in *.
      split; [exact H1|]. split; [|split; [|split]].
      + replace (N.of_nat (Datatypes.S k)) with (N.of_nat k + 1) by lia. exact D2.
      + rewrite app_nil_r, drawn_app, app_length, H3. cbn [drawn flat_map app length]. lia.
      + intros u Hu. destruct (Nat.eq_dec u k) as [->|Nu].
        * rewrite set_same. now rewrite D1.
        * rewrite !set_other by exact Nu. apply H4. lia.
      + intros u Hu. rewrite !set_other by lia. apply H5. lia.
  Qed.

  Lemma nth_call_allocates : forall k, chunk <> Some 0 -> st0 (id_after init (N.of_nat k)) = false ->
    exists acts tr, fst (run acts) = tr ++ [EvAlloc k (id_after init (N.of_nat k)) p] /\
      length (drawn tr) = Datatypes.S k.
  Proof.
    intros k Hc Hst. exists (draw_all (Datatypes.S k) ++ [Run k]), (fst (run (draw_all (Datatypes.S k)))).
    destruct (draw_all_state (Datatypes.S k)) as (H1 & _ & H3 & H4 & _). split; [|exact H3].
    rewrite exec_snoc. cbn [fst]. f_equal. cbn [step]. rewrite (H4 k) by lia. rewrite H1, Hst.
    destruct (start_yields bd chunk (id_after init (N.of_nat k)) p (id_bound _ _) Hc) as (st & -> & _). reflexivity.
  Qed.

  (** One draw more than there are ids: two calls hold the same one. *)
  Lemma repeated : forall k, chunk <> Some 0 -> N.of_nat k = 2 ^ 30 -> st0 (id_after init 0) = false ->
    exists acts, length (drawn (fst (run acts))) = Datatypes.S k /\ ~ NoDup (alloc_ids (fst (run acts))).
  Proof.
    intros k Hc Hk Hst. exists ((draw_all (Datatypes.S k) ++ [Run k]) ++ [Run 0]).
    destruct (draw_all_state (Datatypes.S k)) as (H1 & _ & H3 & H4 & _).
    assert (Ek : id_after init (N.of_nat k) = id_after init 0).
    { rewrite Hk. change (2 ^ 30) with (0 + 2 ^ 30). apply id_period. }
    destruct (start_yields bd chunk (id_after init 0) p (id_bound _ _) Hc) as (st & Es & _).
    set (c := snd (run (draw_all (Datatypes.S k)))) in *.
    assert (S1 : step cn bd chunk (Run k) c = ([EvAlloc k (id_after init 0) p],
        Config (cf_counter c) (cf_store c) (cf_conn c) (set_thread (cf_threads c) k (Sending p (id_after init 0) st)))).
    { cbn [step]. rewrite (H4 k) by lia. now rewrite Ek, H1, Hst, Es. }
    rewrite exec_snoc. rewrite exec_snoc. cbn [fst snd]. fold c. rewrite S1. cbn [fst snd].
    set (c2 := Config _ _ _ _).
    assert (T2 : cf_threads c2 0%nat = Checking p (id_after init 0)).
    { unfold c2. cbn [cf_threads]. rewrite set_other by (intros <-; discriminate Hk). exact (H4 0%nat ltac:(lia)). }
    assert (S2 : fst (step cn bd chunk (Run 0) c2) = [EvAlloc 0%nat (id_after init 0) p]).
    { cbn [step]. rewrite T2. change (cf_store c2) with (cf_store c). now rewrite H1, Hst, Es. }
    rewrite S2. split.
    - rewrite !drawn_app. cbn [drawn flat_map app]. now rewrite !app_nil_r.
    - rewrite !ids_app. change (alloc_ids [EvAlloc k (id_after init 0) p]) with [id_after init 0].
      change (alloc_ids [EvAlloc 0%nat (id_after init 0) p]) with [id_after init 0].
      rewrite <- app_assoc. cbn [app]. intros ND. apply NoDup_remove_2 in ND. apply ND, in_or_app. right. now left.
  Qed.
End Zero.

Lemma id_zero_iff : forall init k, id_after init k = 0 <-> ((init + 2 * Z.of_N k) mod 2 ^ 31 = 0)%Z.
Proof.
  intros init k. unfold id_after. pose proof (Z.mod_pos_bound (init + 2 * Z.of_N k) (2 ^ 31) ltac:(lia)). lia.
Qed.
Lemma server_zero_iff : forall k, id_after 2 k = 0 <-> (k + 1) mod 2 ^ 30 = 0.
Proof.
  intros k. rewrite id_zero_iff. replace (2 + 2 * Z.of_N k)%Z with (2 * Z.of_N (k + 1))%Z by lia.
  replace (2 ^ 31)%Z with (2 * 2 ^ 30)%Z by reflexivity. rewrite Z.mul_mod_distr_l by lia.
  change (2 ^ 30)%Z with (Z.of_N (2 ^ 30)). rewrite <- N2Z.inj_mod. generalize ((k + 1) mod 2 ^ 30). intros m. lia.
Qed.
Lemma client_non_zero : forall k, id_after 1 k <> 0.
Proof.
  intros k H. pose proof (id_parity 1 k) as P. rewrite H in P. discriminate P.
Qed.

Section Roles.
  Context {S E : Type} (cn : connection S E).
  Variables (bd : build) (chunk : option N) (st0 : store) (conn0 : S) (acts : list action).
  Notation trace_of r := (fst (exec cn bd chunk acts (config_init (rm_stream_id (machine_new r)) st0 conn0))).
  Lemma client_draws : ~ In 0 (drawn (trace_of Client)).
  Proof. intros H. apply In_nth_error in H as (k & H). apply nth_draw in H. symmetry in H. now apply client_non_zero in H. Qed.
  Lemma server_draws : forall k sid, nth_error (drawn (trace_of Server)) k = Some sid ->
    (sid = 0 <-> (N.of_nat k + 1) mod 2 ^ 30 = 0).
  Proof. intros k sid H. apply nth_draw in H as ->. apply server_zero_iff. Qed.
End Roles.

(** ** Background tasks *)

Lemma watchdog_spec : forall timeout last delays now t, watchdog timeout last now delays =
    ([Logged "connection keepalive timed out"; ConnClose], Some t) <->
  exists k, (k < length delays)%nat /\ t = wakeup now delays (Datatypes.S k) /\ timeout < t - last /\
    forall j, (j < k)%nat -> wakeup now delays (Datatypes.S j) - last <= timeout.
Proof.
  intros timeout last delays. induction delays as [|d delays IH]; intros now t.
  - split; [discriminate|]. intros (k & H & _). cbn in H. lia.
  - assert (W : forall k, wakeup now (d :: delays) (Datatypes.S k) = wakeup (now + d) delays k).
    { intros k. unfold wakeup. cbn [firstn fold_right]. lia. }
    assert (W0 : wakeup (now + d) delays 0 = now + d) by (unfold wakeup; cbn; lia).
    cbn [watchdog]. destruct (N.ltb_spec timeout (now + d - last)) as [L|L].
    + split.
      * intros [= <-]. exists 0%nat. rewrite W, W0. cbn [length]. repeat split; [lia|exact L|]. intros; lia.
      * intros (k & H & -> & T & B). destruct k as [|k]; [now rewrite W, W0|].
        specialize (B 0%nat ltac:(lia)). rewrite W, W0 in B. lia.
    + rewrite IH. split.
      * intros (k & H & E1 & T & B). exists (Datatypes.S k). rewrite W. cbn [length]. repeat split; [lia|exact E1|exact T|].
        intros j Hj. rewrite W. destruct j as [|j]; [now rewrite W0|]. apply B. lia.
      * intros (k & H & E1 & T & B). rewrite W in E1. destruct k as [|k]; [rewrite W0 in E1; lia|].
        exists k. cbn [length] in H. repeat split; [lia|exact E1|exact T|].
        intros j Hj. specialize (B (Datatypes.S j) ltac:(lia)). now rewrite W in B.
Qed.

Lemma watchdog_runs : forall timeout last delays now, (forall t, snd (watchdog timeout last now delays) <> Some t) ->
  watchdog timeout last now delays = ([], None).
Proof.
  intros timeout last delays. induction delays as [|d delays IH]; intros now H; [reflexivity|].
  cbn [watchdog] in *. destruct (timeout <? now + d - last); [|apply IH, H]. exfalso. eapply H. reflexivity.
Qed.

Lemma watchdog_two : forall timeout last now d1 d2 delays, last <= now -> 0 < timeout ->
  timeout <= d1 -> timeout <= d2 -> exists t,
  watchdog timeout last now (d1 :: d2 :: delays) = ([Logged "connection keepalive timed out"; ConnClose], Some t) /\
  last + timeout < t /\ (t = now + d1 \/ t = now + d1 + d2).
Proof.
  intros timeout last now d1 d2 delays H0 H1 H2 H3. cbn [watchdog].
  destruct (N.ltb_spec timeout (now + d1 - last)) as [L|L].
  - eexists. split; [reflexivity|]. split; [lia|now left].
  - destruct (N.ltb_spec timeout (now + d1 + d2 - last)) as [L'|L']; [|lia].
    eexists. split; [reflexivity|]. split; [lia|now right].
Qed.

Lemma listener_spec : forall h, status_listener (map Some h) = (lines h, false).
Proof.
  induction h as [|s h IH]; [reflexivity|]. cbn [map status_listener]. rewrite IH.
  destruct s; reflexivity.
Qed.
Lemma listener_ends : forall h rest, status_listener (map Some h ++ None :: rest) = (lines h, true).
Proof.
  intros h rest. induction h as [|s h IH]; [reflexivity|]. cbn [map app status_listener]. rewrite IH.
  destruct s; reflexivity.
Qed.
