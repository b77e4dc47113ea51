(** * What reaches the wire from connections whose operations take time *)

From Verif Require Import Model.SlowM Model.BufM Spec.Slow.
From Verif Require Import Proofs.CodecP Proofs.SidP Proofs.SocketP Proofs.TraceP Proofs.DeliverP Proofs.SlowP.

Section Reach.
  Context {S E : Type} (sc : slow_connection S E) (bd : build) (chunk : option N) (init : Z) (st0 : store) (conn : S).
  Local Notation start := (slow_init init st0 conn).
  Local Notation run acts := (slow_exec sc bd chunk acts start).
  Local Notation trace := (list (slow_event E)).

  (** ** The steps *)

  Inductive goes (t : nat) : slow_thread -> trace -> slow_thread -> Prop :=
  | Go_call : forall p, goes t SlIdle [] (SlDrawing p)
  | Go_push : forall md, goes t SlIdle [SlBegin t (OpSend (FMetadataPush (metadata_push_new md)))] (SlInside (OpSend (FMetadataPush (metadata_push_new md))) None)
  | Go_close : goes t SlIdle [SlBegin t OpClose] (SlInside OpClose None)
  | Go_missing : goes t SlIdle [SlMissing t] SlPanicked
  | Go_draw : forall p sid, goes t (SlDrawing p) [SlDraw t sid] (SlChecking p sid)
  | Go_busy : forall p sid, goes t (SlChecking p sid) [SlBusy t sid] (SlDrawing p)
  | Go_alloc : forall p sid st, goes t (SlChecking p sid) [SlAlloc t sid p] (SlSending p sid st)
  | Go_panic1 : forall p sid, goes t (SlChecking p sid) [SlPanic t] SlPanicked
  | Go_return : forall p sid st, goes t (SlSending p sid st) [SlReturn t sid] SlIdle
  | Go_begin : forall p sid st f st', fnf_next bd st = Ret (Some (f, st')) ->
      goes t (SlSending p sid st) [SlBegin t (OpForget f)] (SlInside (OpForget f) (Some (p, sid, st')))
  | Go_panic2 : forall p sid st, goes t (SlSending p sid st) [SlPanic t] SlPanicked
  | Go_end : forall op back a, goes t (SlInside op back) [SlEnd t op a] (sl_after a back).

  Lemma step_goes : forall a (c : @slow_config S),
    (fst (slow_step sc bd chunk a c) = [] /\ forall u, sl_threads (snd (slow_step sc bd chunk a c)) u = sl_threads c u) \/
    exists t y, goes t (sl_threads c t) (fst (slow_step sc bd chunk a c)) y /\
      forall u, sl_threads (snd (slow_step sc bd chunk a c)) u = if Nat.eqb u t then y else sl_threads c u.
  Proof.
    intros a c. destruct a as [t p|t md|t|t|t|k|k|n]; cbn [slow_step]; try (left; cbn; auto; fail).
    1-4: (destruct (sl_threads c t) eqn:T; try (left; cbn; auto; fail); right; exists t; eexists; rewrite T; (split; [|reflexivity]); constructor).
    unfold sl_run. destruct (sl_threads c t) as [|p|p sid|p sid st|op back|] eqn:T; try (left; cbn; auto; fail).
    - destruct (sid_draw (sl_counter c)) as [sid k]. right. exists t. eexists. rewrite T. split; [|reflexivity]. constructor.
    - right. exists t. destruct (sl_store c sid); [eexists; rewrite T; split; [|reflexivity]; constructor|].
      destruct (fnf_start chunk sid p); eexists; rewrite T; (split; [|reflexivity]); constructor.
    - right. exists t. destruct (fnf_next bd st) as [[[f st']|]| |] eqn:F; eexists; rewrite T; (split; [|reflexivity]); now constructor.
    - destruct (sc_go sc (sl_conn c) t) as [conn' [a|]]; [|left; cbn; auto]. right. exists t. eexists. rewrite T. split; [|reflexivity]. constructor.
  Qed.

  (** ** What is known of the traces *)

  Definition few (tr : trace) : Prop := N.of_nat (List.length (drawn (at_ends tr))) <= 2 ^ 30.

  Lemma next_id : chunk <> Some 0 -> forall acts, few (fst (run acts)) -> forall t p sid st f st',
    sl_threads (snd (run acts)) t = SlSending p sid st -> fnf_next bd st = Ret (Some (f, st')) -> carries_id sid f = true.
  Proof.
    intros Hc acts D t p sid st f st' T F. set (as_ := answers (fst (run acts))).
    destruct (exec_sim sc bd chunk (fun n => nth n as_ None) acts start (config_init init st0 0%nat)) as (ls & FF & W).
    { constructor; reflexivity. }
    { intros i r I. cbn. fold as_ in I. now apply nth_error_nth. }
    specialize (W (length acts)). assert (L : length ls = length acts) by (clear - FF; induction FF; cbn; congruence).
    rewrite firstn_all, <- L, firstn_all in W. destruct W as [W1 [_ _ AT]]. specialize (AT t). rewrite T in AT. cbn in AT.
    destruct (call_invariant (answering (fun n => nth n as_ None)) bd chunk init st0 0%nat Hc (concat ls)) as (_ & _ & _ & I4 & _).
    { rewrite W1. exact D. }
    destruct (I4 _ _ _ _ AT) as (_ & _ & rest & C & Y). inversion Y as [? Q|? g ? rest' Q Y']; subst; rewrite F in Q; [discriminate|].
    injection Q as <- <-. destruct (yields_id _ _ _ _ _ _ C) as (q & -> & <-). cbn. apply N.eqb_refl.
  Qed.

  Lemma ends_begin : forall t op a o (tr : trace) o', in_turn t o tr o' -> In (SlEnd t op a) tr -> o = Some op \/ In (SlBegin t op) tr.
  Proof.
    intros t op a o tr o' H. induction H as [o|e o tr o' N H IH|e tr o' W B H IH|op' tr o' H IH|op' r tr o' H IH|op' tr F]; intros I.
    - contradiction.
    - destruct I as [->|I]; [exfalso; now apply N|]. destruct (IH I); [now left|right; now right].
    - destruct I as [->|I]; [discriminate|]. destruct (IH I) as [?|?]; [discriminate|right; now right].
    - destruct I as [I|I]; [discriminate|]. right. destruct (IH I) as [Q|Q]; [injection Q as ->; now left|now right].
    - destruct I as [I|I]; [injection I as <- _; now left|]. right. destruct (IH I) as [Q|Q]; [discriminate|now right].
    - destruct I as [I|I]; [injection I as <- _; now left|]. exfalso. rewrite Forall_forall in F. apply (F _ I). reflexivity.
  Qed.

  Record known (tr : trace) : Prop := Known {
    kn_ids : NoDup (alloc_ids (at_ends tr));
    kn_begun : forall t f, In (SlBegin t (OpForget f)) tr -> exists q p, f = FRequestFnf q /\ In (SlAlloc t (fnf_stream_id q) p) tr;
    kn_end : forall t op a, In (SlEnd t op a) tr -> In (SlBegin t op) tr;
    kn_return : forall t sid, In (SlReturn t sid) tr -> exists p, In (SlAlloc t sid p) tr }.

  Lemma known_run : chunk <> Some 0 -> forall acts, few (fst (run acts)) -> known (fst (run acts)).
  Proof.
    intros Hc acts D. destruct (begun_by_calls sc bd chunk init st0 conn Hc acts D) as [A B]. constructor; [exact A|exact B| |].
    - intros t op a I. destruct (turn_each sc bd chunk init st0 conn acts t) as (o & T).
      destruct (ends_begin _ _ _ _ _ _ T I) as [?|?]; [discriminate|assumption].
    - intros t sid I. destruct (whole sc bd chunk init st0 conn acts) as (ans & acts' & W & _). cbn zeta in W.
      destruct (call_invariant (answering ans) bd chunk init st0 0%nat Hc acts') as (_ & _ & _ & _ & _ & _ & I7); [rewrite W; exact D|].
      rewrite W in I7. destruct (at_ends_in (fst (run acts))) as [IA IR]. apply IR in I. destruct (I7 _ _ I) as (p & J).
      exists p. apply IA. unfold allocs in J. apply in_flat_map in J as (e & J1 & J2). destruct e; cbn in J2; try contradiction.
      destruct J2 as [[= -> -> ->]|[]]. exact J1.
  Qed.

  Lemma one_alloc : forall tr, known tr -> forall t u sid p q, In (SlAlloc t sid p) tr -> In (SlAlloc u sid q) tr -> t = u.
  Proof.
    intros tr K t u sid p q A B. destruct (at_ends_in tr) as [IA _]. apply IA in A. apply IA in B.
    eapply one_owner; [apply (kn_ids _ K)|exact A|exact B].
  Qed.

  Lemma fresh : forall tr t sid p, known (tr ++ [SlAlloc t sid p]) -> forall u q, ~ In (SlAlloc u sid q) tr.
  Proof.
    intros tr t sid p K u q I. pose proof (kn_ids _ K) as N. unfold at_ends, alloc_ids, allocs in N. rewrite !flat_map_app, map_app in N.
    cbn in N. apply NoDup_remove_2 in N. apply N. rewrite app_nil_r.
    apply in_map_iff. exists (u, sid, q). split; [reflexivity|]. apply in_flat_map. exists (EvAlloc u sid q). split; [|now left].
    apply in_flat_map. eexists. split; [exact I|]. now left.
  Qed.

  (** ** Where the threads are *)

  Definition on (x : slow_thread) : option N :=
    match x with SlSending _ sid _ => Some sid | SlInside (OpForget _) (Some (_, sid, _)) => Some sid | _ => None end.
  Definition failed (t : nat) (sid : N) (f : frame) (tr : trace) : Prop :=
    carries_id sid f = true /\ exists a, In (SlEnd t (OpForget f) a) tr /\ a <> Returned None.

  Record placed (tr : trace) (th : nat -> slow_thread) : Prop := Placed {
    pl_on : forall t sid, on (th t) = Some sid -> exists p, In (SlAlloc t sid p) tr;
    pl_off : forall t sid, In (SlReturn t sid) tr \/ (exists f, failed t sid f tr) -> on (th t) <> Some sid;
    pl_in : forall t op back, th t = SlInside op back -> In (SlBegin t op) tr /\
      match op, back with
      | OpForget f, Some (_, sid, _) => carries_id sid f = true /\ exists l, begun t sid tr = l ++ [f]
      | OpSend _, None | OpClose, None => True
      | _, _ => False
      end;
    pl_last : forall t sid f, failed t sid f tr -> exists l, begun t sid tr = l ++ [f];
    pl_push : forall t f, In (SlBegin t (OpSend f)) tr -> exists md, f = FMetadataPush (MetadataPushFrame md) }.

  Lemma begun_step : forall t sid (tr : trace) e, (forall f, e = SlBegin t (OpForget f) -> carries_id sid f = false) ->
    begun t sid (tr ++ [e]) = begun t sid tr.
  Proof.
    intros t sid tr e H. rewrite begun_app. cbn. destruct e as [u x|u x p|u x|u [f|f|]|u op a|u x|u|u]; cbn; rewrite ?app_nil_r; try reflexivity.
    destruct (Nat.eqb_spec u t) as [->|N]; cbn; [|now rewrite app_nil_r]. rewrite (H f eq_refl). cbn. now rewrite app_nil_r.
  Qed.
  Lemma begun_more : forall t sid (tr : trace) f, carries_id sid f = true -> begun t sid (tr ++ [SlBegin t (OpForget f)]) = begun t sid tr ++ [f].
  Proof. intros t sid tr f C. rewrite begun_app. cbn. rewrite Nat.eqb_refl, C. reflexivity. Qed.

  Lemma same_id : forall sid sid' f, carries_id sid f = true -> carries_id sid' f = true -> sid = sid'.
  Proof. intros sid sid' [] A B; try discriminate. cbn in *. apply N.eqb_eq in A, B. congruence. Qed.

  Lemma in_snoc : forall X (l : list X) x y, In x (l ++ [y]) <-> In x l \/ x = y.
  Proof. intros. rewrite in_app_iff. cbn. intuition. Qed.

  Lemma few_prefix : forall a b : trace, few (a ++ b) -> few a.
  Proof. intros a b H. unfold few, at_ends, drawn in *. rewrite !flat_map_app, app_length in H. lia. Qed.

  Lemma failed_old : forall t sid f (tr : trace) e, failed t sid f (tr ++ [e]) ->
    (forall a, e = SlEnd t (OpForget f) a -> a <> Returned None -> False) -> failed t sid f tr.
  Proof.
    intros t sid f tr e (C & a & I & B) H. apply in_snoc in I as [I|I]; [|exfalso; eauto]. split; [exact C|]. eauto.
  Qed.

  Lemma placed_run : chunk <> Some 0 -> forall acts, few (fst (run acts)) -> placed (fst (run acts)) (sl_threads (snd (run acts))).
  Proof.
    intros Hc acts. induction acts as [|a acts IH] using rev_ind.
    { intros _. constructor; cbn; try discriminate; try contradiction.
      - intros t sid f (_ & a & [] & _). }
    intros D. pose proof (known_run Hc _ D) as K. rewrite sx_app in D, K |- *. cbn [fst snd slow_exec] in *.
    pose proof (few_prefix _ _ D) as D0. specialize (IH D0). pose proof (known_run Hc _ D0) as K0. pose proof (next_id Hc acts D0) as NI.
    set (tr := fst (run acts)) in *. set (c := snd (run acts)) in *. clearbody tr c.
    pose proof (step_goes a c) as G. destruct (slow_step sc bd chunk a c) as [ev c']. cbn [fst snd] in *. rewrite app_nil_r in *.
    destruct G as [[-> SAME]|(t & y & G & SET)].
    { rewrite app_nil_r. destruct IH as [P1 P2 P3 P4 P5]. constructor; intros; rewrite ?SAME in *; eauto. }
    destruct IH as [P1 P2 P3 P4 P5].
    (* events that are not about operations, returns or ids *)
    assert (Q : forall e, ev = [e] ->
      (forall f, e <> SlBegin t (OpForget f)) -> whose e = t ->
      (forall u f a, e = SlEnd u (OpForget f) a -> a = Returned None) ->
      (forall u f, e = SlBegin u (OpSend f) -> exists md, f = FMetadataPush (MetadataPushFrame md)) ->
      (forall sid, on y = Some sid -> exists p, In (SlAlloc t sid p) (tr ++ [e])) ->
      (forall sid, on y = Some sid -> In (SlReturn t sid) (tr ++ [e]) \/ (exists f, failed t sid f tr) -> False) ->
      (forall op back, y = SlInside op back -> In (SlBegin t op) (tr ++ [e]) /\
        match op, back with OpSend _, None | OpClose, None => True | _, _ => False end) ->
      placed (tr ++ ev) (sl_threads c')).
    { intros e -> NB WH NF PU ON OFF INS.
      assert (BE : forall u sid, begun u sid (tr ++ [e]) = begun u sid tr).
      { intros u sid. apply begun_step. intros f ->. cbn in WH. subst u. now destruct (NB f). }
      assert (FA : forall u sid f, failed u sid f (tr ++ [e]) -> failed u sid f tr).
      { intros u sid f H. eapply failed_old; [exact H|]. intros a0 -> Bad. apply Bad. eapply NF. reflexivity. }
      constructor.
      - intros u sid O. rewrite SET in O. destruct (Nat.eqb_spec u t) as [->|N]; [auto|].
        destruct (P1 u sid O) as (p & I). exists p. apply in_snoc. now left.
      - intros u sid H O. rewrite SET in O. destruct (Nat.eqb_spec u t) as [->|N].
        + apply (OFF sid O). destruct H as [H|(f & H)]; [now left|right; exists f; auto].
        + apply (P2 u sid); [|exact O]. destruct H as [H|(f & H)]; [left|right; exists f; auto].
          apply in_snoc in H as [H|H]; [exact H|]. subst e. cbn in WH. congruence.
      - intros u op back H. rewrite SET in H. destruct (Nat.eqb_spec u t) as [->|N].
        + destruct (INS op back H) as [I M]. split; [exact I|]. destruct op, back as [[[p0 s0] st1]|]; auto; contradiction.
        + destruct (P3 u op back H) as [I M]. split; [apply in_snoc; now left|].
          destruct op, back as [[[p0 s0] st1]|]; auto. now rewrite BE.
      - intros u sid f H. rewrite BE. apply P4. auto.
      - intros u f I. apply in_snoc in I as [I|I]; [eauto|]. eapply PU. symmetry. exact I. }
    remember (sl_threads c t) as x eqn:X.
    destruct G as [p|md| | |p sid|p sid|p sid st|p sid|p sid st|p sid st f st' F|p sid st|op back a0].
    - rewrite app_nil_r. constructor; auto.
      + intros u sid O. rewrite SET in O. destruct (Nat.eqb u t); [discriminate|auto].
      + intros u sid H O. rewrite SET in O. destruct (Nat.eqb u t); [discriminate|]. exact (P2 u sid H O).
      + intros u op back H. rewrite SET in H. destruct (Nat.eqb u t); [discriminate|auto].
    - eapply Q; try reflexivity; try discriminate.
      + intros u f [= -> <-]. now exists md.
      + intros op back [= <- <-]. split; [apply in_snoc; now right|exact I].
    - eapply Q; try reflexivity; try discriminate. intros op back [= <- <-]. split; [apply in_snoc; now right|exact I].
    - eapply Q; try reflexivity; discriminate.
    - eapply Q; try reflexivity; discriminate.
    - eapply Q; try reflexivity; discriminate.
    - eapply Q; try reflexivity; try discriminate.
      + intros s [= <-]. exists p. apply in_snoc. now right.
      + intros s [= <-] H.
        assert (Z : exists q, In (SlAlloc t sid q) tr).
        { destruct H as [H|(f & C & a0 & I & _)].
          - apply in_snoc in H as [H|H]; [|discriminate]. exact (kn_return _ K0 _ _ H).
          - apply (kn_end _ K0) in I. destruct (kn_begun _ K0 _ _ I) as (q & p' & -> & J). cbn in C. apply N.eqb_eq in C. subst sid. eauto. }
        destruct Z as (q & Z). exact (fresh _ _ _ _ K _ _ Z).
    - eapply Q; try reflexivity; discriminate.
    - eapply Q; try reflexivity; discriminate.
    - assert (C : carries_id sid f = true) by (eapply NI; [symmetry; exact X|exact F]).
      assert (FA : forall u s g, failed u s g (tr ++ [SlBegin t (OpForget f)]) -> failed u s g tr)
        by (intros u s g H; eapply failed_old; [exact H|discriminate]).
      assert (BE : forall u s, u <> t \/ s <> sid -> begun u s (tr ++ [SlBegin t (OpForget f)]) = begun u s tr).
      { intros u s N. apply begun_step. intros g [= -> <-]. destruct N as [N|N]; [congruence|].
        destruct (carries_id s f) eqn:C2; [|reflexivity]. exfalso. apply N. eapply same_id; eauto. }
      assert (OX : on (sl_threads c t) = Some sid) by now rewrite <- X.
      constructor.
      + intros u s O. rewrite SET in O. destruct (Nat.eqb_spec u t) as [->|N].
        * cbn in O. injection O as <-. destruct (P1 t sid OX) as (q & J). exists q. apply in_snoc. now left.
        * destruct (P1 u s O) as (q & J). exists q. apply in_snoc. now left.
      + intros u s H O. rewrite SET in O.
        assert (H' : In (SlReturn u s) tr \/ exists g, failed u s g tr).
        { destruct H as [H|(g & H)]; [left|right; eauto]. apply in_snoc in H as [H|H]; [exact H|discriminate]. }
        destruct (Nat.eqb_spec u t) as [->|N]; [|exact (P2 _ _ H' O)]. cbn in O. injection O as <-. exact (P2 _ _ H' OX).
      + intros u op back H. rewrite SET in H. destruct (Nat.eqb_spec u t) as [->|N].
        * injection H as <- <-. split; [apply in_snoc; now right|]. split; [exact C|]. eexists. now rewrite begun_more.
        * destruct (P3 u op back H) as [I0 M]. split; [apply in_snoc; now left|].
          destruct op, back as [[[p0 s0] st1]|]; auto. rewrite BE by now left. exact M.
      + intros u s g H. apply FA in H. destruct (Nat.eq_dec u t) as [->|N]; [destruct (N.eq_dec s sid) as [->|N]|].
        * exfalso. apply (P2 t sid); [right; eauto|exact OX].
        * rewrite BE by now right. auto.
        * rewrite BE by now left. auto.
      + intros u g H. apply in_snoc in H as [H|H]; [eauto|discriminate].
    - eapply Q; try reflexivity; discriminate.
    - assert (BE : forall u s, begun u s (tr ++ [SlEnd t op a0]) = begun u s tr) by (intros; apply begun_step; discriminate).
      destruct (P3 t op back (eq_sym X)) as [IB M].
      assert (OY : forall s, on (sl_after a0 back) = Some s -> a0 = Returned None /\ on (sl_threads c t) = Some s).
      { intros s. rewrite <- X. destruct a0 as [[r|]|], op as [g|g|], back as [[[p0 s0] st1]|]; cbn; try discriminate; try contradiction; auto. }
      constructor.
      + intros u s O. rewrite SET in O. destruct (Nat.eqb_spec u t) as [->|N].
        * apply OY in O as [_ O]. destruct (P1 t s O) as (q & J). exists q. apply in_snoc. now left.
        * destruct (P1 u s O) as (q & J). exists q. apply in_snoc. now left.
      + intros u s H O. rewrite SET in O.
        assert (H' : (u = t -> a0 = Returned None) -> In (SlReturn u s) tr \/ exists g, failed u s g tr).
        { intros Good. destruct H as [H|(g & H)]; [left|right; exists g].
          - apply in_snoc in H as [H|H]; [exact H|discriminate].
          - eapply failed_old; [exact H|]. intros a1 [= <- _ <-] B. now apply B, Good. }
        destruct (Nat.eqb_spec u t) as [->|N].
        * apply OY in O as [Good O]. exact (P2 _ _ (H' (fun _ => Good)) O).
        * refine (P2 _ _ (H' _) O). congruence.
      + intros u o b H. rewrite SET in H. destruct (Nat.eqb_spec u t) as [->|N].
        * exfalso. destruct a0 as [[r|]|], back as [[[p0 s0] st1]|]; discriminate.
        * destruct (P3 u o b H) as [I0 M0]. split; [apply in_snoc; now left|].
          destruct o, b as [[[p0 s0] st1]|]; auto. now rewrite BE.
      + intros u s g (C & a1 & H & Bad). rewrite BE. apply in_snoc in H as [H|H].
        * apply P4. split; [exact C|]. eauto.
        * injection H as -> <- <-. destruct back as [[[p0 s0] st1]|]; [|contradiction]. destruct M as [C2 M].
          now rewrite (same_id _ _ _ C C2).
      + intros u g H. apply in_snoc in H as [H|H]; [eauto|discriminate].
  Qed.

  (** ** On the wire *)

  Definition of_id (sid : N) (fs : list frame) : list frame := filter (carries_id sid) fs.
  Lemma of_id_put : forall sid fs f, of_id sid (fs ++ [f]) = of_id sid fs ++ (if carries_id sid f then [f] else []).
  Proof. intros. unfold of_id. rewrite filter_app. cbn. now destruct (carries_id sid f). Qed.

  Record wired (tr : trace) (th : nat -> slow_thread) (w : flight) (fs : list frame) : Prop := Wired {
    wi_in : forall t f, w t = Some f -> exists op back, th t = SlInside op back /\ op_frame op = Some f;
    wi_sending : forall t p sid st, th t = SlSending p sid st -> begun t sid tr = of_id sid fs;
    wi_inside : forall t f p sid st, th t = SlInside (OpForget f) (Some (p, sid, st)) ->
      begun t sid tr = of_id sid fs ++ match w t with Some g => [g] | None => [] end;
    wi_any : forall t sid p, In (SlAlloc t sid p) tr -> exists miss, begun t sid tr = of_id sid fs ++ miss /\
      (In (SlReturn t sid) tr -> miss = []);
    wi_begun : forall f, In f fs -> exists u op, In (SlBegin u op) tr /\ op_frame op = Some f }.

  Lemma wired_put : forall tr th w fs t f, known tr -> placed tr th -> wired tr th w fs -> w t = Some f ->
    wired tr th (fl_set w t None) (fs ++ [f]).
  Proof.
    intros tr th w fs t f K [P1 P2 P3 P4 P5] [W1 W2 W3 W4 W5] WT.
    destruct (W1 t f WT) as (op & back & T & OF). destruct (P3 t op back T) as [IB M].
    (* whose frame it is *)
    assert (OWN : forall sid, carries_id sid f = true -> op = OpForget f /\ (exists p st, back = Some (p, sid, st)) /\
      (exists p, In (SlAlloc t sid p) tr) /\ begun t sid tr = of_id sid fs ++ [f]).
    { intros sid C. destruct op as [g|g|]; cbn in OF; [| |discriminate]; injection OF as ->.
      - destruct back as [[[p s] st]|]; [|contradiction]. destruct M as [C2 _]. pose proof (same_id _ _ _ C C2) as ->.
        split; [reflexivity|]. split; [eauto|]. split; [apply P1; now rewrite T|]. pose proof (W3 _ _ _ _ _ T) as Q. now rewrite WT in Q.
      - exfalso. destruct (P5 _ _ IB) as (md & ->). discriminate. }
    constructor.
    - intros u g H. unfold fl_set in H. destruct (Nat.eqb u t); [discriminate|eauto].
    - intros u p sid st H. rewrite of_id_put. destruct (carries_id sid f) eqn:C; [|rewrite app_nil_r; eauto].
      exfalso. destruct (OWN sid C) as (_ & _ & (q & A) & _). destruct (P1 u sid) as (q' & A'); [now rewrite H|].
      pose proof (one_alloc _ K _ _ _ _ _ A A') as <-. rewrite T in H. discriminate.
    - intros u g p sid st H. rewrite of_id_put. unfold fl_set. destruct (carries_id sid f) eqn:C.
      + destruct (OWN sid C) as (-> & (q1 & s1 & ->) & (q & A) & BG). destruct (P1 u sid) as (q' & A'); [now rewrite H|].
        pose proof (one_alloc _ K _ _ _ _ _ A A') as <-. now rewrite Nat.eqb_refl, app_nil_r.
      + rewrite app_nil_r. destruct (Nat.eqb_spec u t) as [->|N]; [|eauto]. exfalso.
        rewrite T in H. injection H as -> ->. cbn in OF. injection OF as ->. destruct M as [C2 _]. congruence.
    - intros u sid p A. rewrite of_id_put. destruct (carries_id sid f) eqn:C; [|rewrite app_nil_r; eauto].
      destruct (OWN sid C) as (_ & _ & (q & A') & BG). pose proof (one_alloc _ K _ _ _ _ _ A A') as ->.
      exists []. rewrite app_nil_r. auto.
    - intros g I. apply in_snoc in I as [I|I]; [eauto|]. subst g. exists t, op. auto.
  Qed.

  Lemma reaches_snoc : forall (tr : trace) e (Q : flight -> list frame -> Prop),
    (forall w fs t op, e = SlBegin t op -> reaches tr w fs -> Q (fl_set w t (op_frame op)) fs) ->
    (forall w fs t op a, e = SlEnd t op a -> (forall f, op = OpForget f -> a = Returned None -> w t = None) -> reaches tr w fs ->
       Q (fl_set w t None) fs) ->
    (forall w fs, borders e = false -> reaches tr w fs -> Q w fs) ->
    (forall w fs t f, Q w fs -> w t = Some f -> Q (fl_set w t None) (fs ++ [f])) ->
    forall w fs, reaches (tr ++ [e]) w fs -> Q w fs.
  Proof.
    intros tr e Q B N O P w fs H. remember (tr ++ [e]) as tr' eqn:Etr.
    induction H as [|tr' w fs t f H IH WT|tr' w fs t op H IH|tr' w fs t op a H IH G|tr' w fs e' H IH G].
    - now destruct tr.
    - apply P; auto.
    - apply app_inj_tail in Etr as [-> <-]. eauto.
    - apply app_inj_tail in Etr as [-> <-]. eauto.
    - apply app_inj_tail in Etr as [-> <-]. eauto.
  Qed.

  Lemma reaches_nil : forall w fs, reaches (@nil (slow_event E)) w fs -> (forall t, w t = None) /\ fs = [].
  Proof.
    intros w fs H. remember (@nil (slow_event E)) as tr eqn:Etr.
    induction H as [|tr w fs t f H IH WT|tr w fs t op H IH|tr w fs t op a H IH G|tr w fs e' H IH G]; try (now destruct tr).
    - auto.
    - destruct (IH Etr) as [A _]. rewrite A in WT. discriminate.
  Qed.

  Lemma wired_run : chunk <> Some 0 -> forall acts, few (fst (run acts)) -> forall w fs, reaches (fst (run acts)) w fs ->
    wired (fst (run acts)) (sl_threads (snd (run acts))) w fs.
  Proof.
    intros Hc acts. induction acts as [|a acts IH] using rev_ind.
    { intros _ w fs R. apply reaches_nil in R as [R ->]. constructor; cbn; try discriminate; try contradiction.
      intros t f. rewrite R. discriminate. }
    intros D. pose proof (known_run Hc _ D) as K. pose proof (placed_run Hc _ D) as PL. rewrite sx_app in D, K, PL |- *. cbn [fst snd slow_exec] in *.
    pose proof (few_prefix _ _ D) as D0. specialize (IH D0). pose proof (known_run Hc _ D0) as K0. pose proof (next_id Hc acts D0) as NI.
    pose proof (placed_run Hc _ D0) as PL0.
    set (tr := fst (run acts)) in *. set (c := snd (run acts)) in *. clearbody tr c.
    pose proof (step_goes a c) as G. destruct (slow_step sc bd chunk a c) as [ev c']. cbn [fst snd] in *. rewrite app_nil_r in *.
    destruct G as [[-> SAME]|(t & y & G & SET)].
    { rewrite app_nil_r. intros w fs R. destruct (IH w fs R) as [W1 W2 W3 W4 W5].
      constructor; intros; rewrite ?SAME in *; eauto. }
    destruct PL0 as [P1 P2 P3 P4 P5].
    remember (sl_threads c t) as x eqn:X.
    assert (OUT : forall w fs, wired tr (sl_threads c) w fs -> inside x = None -> w t = None).
    { intros w fs [W1 _ _ _ _] O. destruct (w t) as [f|] eqn:WT; [|reflexivity]. destruct (W1 t f WT) as (op & back & T & _).
      rewrite <- X in T. rewrite T in O. discriminate. }
    (* events that are not about operations *)
    assert (Q : forall e, ev = [e] -> borders e = false -> inside x = None -> inside y = None ->
      (forall w fs, wired tr (sl_threads c) w fs -> forall p sid st, y = SlSending p sid st -> begun t sid tr = of_id sid fs) ->
      (forall w fs, wired tr (sl_threads c) w fs -> forall u sid p, e = SlAlloc u sid p -> begun u sid tr = of_id sid fs) ->
      (forall w fs, wired tr (sl_threads c) w fs -> forall u sid, e = SlReturn u sid -> begun u sid tr = of_id sid fs) ->
      forall w fs, reaches (tr ++ ev) w fs -> wired (tr ++ ev) (sl_threads c') w fs).
    { intros e -> NB OX OY SE AL RE w fs. apply reaches_snoc; try (intros; subst e; discriminate).
      2: { intros. eapply wired_put; eauto. }
      clear w fs. intros w fs _ R. pose proof (IH w fs R) as W. pose proof W as [W1 W2 W3 W4 W5].
      assert (BE : forall u sid, begun u sid (tr ++ [e]) = begun u sid tr) by (intros; apply begun_step; intros f ->; discriminate).
      constructor.
      - intros u f WU. rewrite SET. destruct (Nat.eqb_spec u t) as [->|N]; [|eauto]. exfalso. rewrite (OUT w fs W OX) in WU. discriminate.
      - intros u p sid st H. rewrite SET in H. rewrite BE. destruct (Nat.eqb_spec u t) as [->|N]; eauto.
      - intros u f p sid st H. rewrite SET in H. rewrite BE. destruct (Nat.eqb_spec u t) as [->|N]; [subst y; discriminate|eauto].
      - intros u sid p A. rewrite BE. apply in_snoc in A as [A|A].
        + destruct (W4 _ _ _ A) as (miss & B1 & B2). exists miss. split; [exact B1|]. intros H. apply in_snoc in H as [H|H]; [auto|].
          pose proof (RE w fs W u sid (eq_sym H)) as B3. rewrite B3 in B1. rewrite <- (app_nil_r (of_id sid fs)) in B1 at 1.
          apply app_inv_head in B1. auto.
        + exists []. rewrite app_nil_r. split; [|auto]. eapply AL; [exact W|]. symmetry. exact A.
      - intros f I. destruct (W5 f I) as (u & op & J & O). exists u, op. split; [apply in_snoc; now left|exact O]. }
    destruct G as [p|md| | |p sid|p sid|p sid st|p sid|p sid st|p sid st f st' F|p sid st|op back a0].
    - rewrite app_nil_r. intros w fs R. destruct (IH w fs R) as [W1 W2 W3 W4 W5]. constructor; auto.
      + intros u f WU. rewrite SET. destruct (Nat.eqb_spec u t) as [->|N]; [|eauto]. exfalso.
        destruct (W1 t f WU) as (o & b & T & _). congruence.
      + intros u q sid st H. rewrite SET in H. destruct (Nat.eqb u t); [discriminate|eauto].
      + intros u f q sid st H. rewrite SET in H. destruct (Nat.eqb u t); [discriminate|eauto].
    - intros w fs. apply reaches_snoc; try (intros; discriminate).
      2: { intros. eapply wired_put; eauto. }
      clear w fs. intros w fs t0 op [= <- <-] R. destruct (IH w fs R) as [W1 W2 W3 W4 W5].
      assert (BE : forall u s, begun u s (tr ++ [SlBegin t (OpSend (FMetadataPush (metadata_push_new md)))]) = begun u s tr)
        by (intros; apply begun_step; discriminate).
      constructor.
      + intros u f WU. rewrite SET. unfold fl_set in WU. destruct (Nat.eqb_spec u t) as [->|N]; [|eauto].
        injection WU as <-. eexists. eexists. split; [reflexivity|]. reflexivity.
      + intros u p sid st H. rewrite SET in H. rewrite BE. destruct (Nat.eqb_spec u t) as [->|N]; [discriminate|eauto].
      + intros u f p sid st H. rewrite SET in H. rewrite BE. unfold fl_set. destruct (Nat.eqb_spec u t) as [->|N]; [discriminate|eauto].
      + intros u sid p A. rewrite BE. apply in_snoc in A as [A|A]; [|discriminate].
        destruct (W4 _ _ _ A) as (miss & B1 & B2). exists miss. split; [exact B1|]. intros H. apply in_snoc in H as [H|H]; [auto|discriminate].
      + intros f I. destruct (W5 f I) as (u & op & J & O). exists u, op. split; [apply in_snoc; now left|exact O].
    - intros w fs. apply reaches_snoc; try (intros; discriminate).
      2: { intros. eapply wired_put; eauto. }
      clear w fs. intros w fs t0 op [= <- <-] R. destruct (IH w fs R) as [W1 W2 W3 W4 W5].
      assert (BE : forall u s, begun u s (tr ++ [SlBegin t OpClose]) = begun u s tr) by (intros; apply begun_step; discriminate).
      constructor.
      + intros u f WU. rewrite SET. unfold fl_set in WU. destruct (Nat.eqb_spec u t) as [->|N]; [discriminate|eauto].
      + intros u p sid st H. rewrite SET in H. rewrite BE. destruct (Nat.eqb_spec u t) as [->|N]; [discriminate|eauto].
      + intros u f p sid st H. rewrite SET in H. rewrite BE. unfold fl_set. destruct (Nat.eqb_spec u t) as [->|N]; [discriminate|eauto].
      + intros u sid p A. rewrite BE. apply in_snoc in A as [A|A]; [|discriminate].
        destruct (W4 _ _ _ A) as (miss & B1 & B2). exists miss. split; [exact B1|]. intros H. apply in_snoc in H as [H|H]; [auto|discriminate].
      + intros f I. destruct (W5 f I) as (u & op & J & O). exists u, op. split; [apply in_snoc; now left|exact O].
    - eapply Q; try reflexivity; intros; discriminate.
    - eapply Q; try reflexivity; intros; discriminate.
    - eapply Q; try reflexivity; intros; discriminate.
    - assert (Z : forall w fs, wired tr (sl_threads c) w fs -> begun t sid tr = [] /\ of_id sid fs = []).
      { intros w fs W.
        assert (Z : forall u f, In (SlBegin u (OpForget f)) tr -> carries_id sid f = false).
        { intros u f I. destruct (kn_begun _ K0 _ _ I) as (q & p' & -> & J). cbn. apply N.eqb_neq. intros <-. exact (fresh _ _ _ _ K _ _ J). }
        split.
        - unfold begun. clear - Z. induction tr as [|e tr IH]; [reflexivity|]. cbn [flat_map]. rewrite IH by (intros u f I; apply (Z u f); now right).
          rewrite app_nil_r. destruct e as [u s|u s q|u s|u [f|f|]|u o b|u s|u|u]; try reflexivity.
          rewrite (Z u f (or_introl eq_refl)), andb_false_r. reflexivity.
        - unfold of_id. destruct (filter (carries_id sid) fs) as [|f l] eqn:FI; [reflexivity|]. exfalso.
          assert (I : In f (filter (carries_id sid) fs)) by (rewrite FI; now left). apply filter_In in I as [I C].
          destruct (wi_begun _ _ _ _ W f I) as (u & op & J & O). destruct op as [g|g|]; cbn in O; [| |discriminate]; injection O as ->.
          + rewrite (Z _ _ J) in C. discriminate.
          + destruct (P5 _ _ J) as (md & ->). discriminate. }
      eapply Q; try reflexivity; try (intros; discriminate).
      + intros w fs W p0 s0 st1 [= <- <- <-]. destruct (Z w fs W) as [-> ->]. reflexivity.
      + intros w fs W u s0 p0 [= <- <- <-]. destruct (Z w fs W) as [-> ->]. reflexivity.
    - eapply Q; try reflexivity; intros; discriminate.
    - eapply Q; try reflexivity; try (intros; discriminate). intros w fs [W1 W2 W3 W4 W5] u s [= <- <-]. eapply W2. symmetry. exact X.
    - assert (C : carries_id sid f = true) by (eapply NI; [symmetry; exact X|exact F]).
      assert (OX : on (sl_threads c t) = Some sid) by now rewrite <- X.
      intros w fs. apply reaches_snoc; try (intros; discriminate).
      2: { intros. eapply wired_put; eauto. }
      clear w fs. intros w fs t0 op [= <- <-] R. destruct (IH w fs R) as [W1 W2 W3 W4 W5].
      assert (BE : forall u s, u <> t \/ s <> sid -> begun u s (tr ++ [SlBegin t (OpForget f)]) = begun u s tr).
      { intros u s N. apply begun_step. intros g [= -> <-]. destruct N as [N|N]; [congruence|].
        destruct (carries_id s f) eqn:C2; [|reflexivity]. exfalso. apply N. eapply same_id; eauto. }
      constructor.
      + intros u g WU. rewrite SET. unfold fl_set in WU. destruct (Nat.eqb_spec u t) as [->|N]; [|eauto].
        injection WU as <-. eexists. eexists. split; [reflexivity|]. reflexivity.
      + intros u p0 s0 st1 H. rewrite SET in H. destruct (Nat.eqb_spec u t) as [->|N]; [discriminate|]. rewrite BE by now left. eauto.
      + intros u g p0 s0 st1 H. rewrite SET in H. unfold fl_set. destruct (Nat.eqb_spec u t) as [->|N]; [|rewrite BE by (now left); eauto].
        injection H as <- <- <- <-. rewrite begun_more by exact C. cbn. f_equal. eapply W2. symmetry. exact X.
      + intros u s p0 A. apply in_snoc in A as [A|A]; [|discriminate].
        destruct (W4 _ _ _ A) as (miss & B1 & B2).
        assert (RT : In (SlReturn u s) (tr ++ [SlBegin t (OpForget f)]) -> In (SlReturn u s) tr)
          by (intros H; apply in_snoc in H as [H|H]; [exact H|discriminate]).
        destruct (Nat.eq_dec u t) as [->|N]; [destruct (N.eq_dec s sid) as [->|N]|].
        * rewrite begun_more by exact C. exists (miss ++ [f]). rewrite B1, <- app_assoc. split; [reflexivity|].
          intros H. exfalso. apply (P2 t sid); [left; auto|exact OX].
        * rewrite BE by now right. exists miss. auto.
        * rewrite BE by now left. exists miss. auto.
      + intros g I. destruct (W5 g I) as (u & op & J & O). exists u, op. split; [apply in_snoc; now left|exact O].
    - eapply Q; try reflexivity; intros; discriminate.
    - intros w fs. apply reaches_snoc; try (intros; discriminate).
      2: { intros. eapply wired_put; eauto. }
      clear w fs. intros w fs t0 op0 a1 [= <- <- <-] GOOD R. destruct (IH w fs R) as [W1 W2 W3 W4 W5].
      assert (BE : forall u s, begun u s (tr ++ [SlEnd t op a0]) = begun u s tr) by (intros; apply begun_step; discriminate).
      destruct (P3 t op back (eq_sym X)) as [IB M].
      constructor.
      + intros u g WU. rewrite SET. unfold fl_set in WU. destruct (Nat.eqb_spec u t) as [->|N]; [discriminate|eauto].
      + intros u p0 s0 st1 H. rewrite SET in H. rewrite BE. destruct (Nat.eqb_spec u t) as [->|N]; [|eauto].
        destruct a0 as [[r|]|], back as [[[p1 s1] st2]|]; cbn in H; try discriminate. injection H as -> -> ->.
        destruct op as [g|g|]; try contradiction. rewrite (W3 _ _ _ _ _ (eq_sym X)), (GOOD g eq_refl eq_refl). apply app_nil_r.
      + intros u g p0 s0 st1 H. rewrite SET in H. rewrite BE. unfold fl_set. destruct (Nat.eqb_spec u t) as [->|N]; [|eauto].
        exfalso. destruct a0 as [[r|]|], back as [[[p1 s1] st2]|]; discriminate.
      + intros u s p0 A. rewrite BE. apply in_snoc in A as [A|A]; [|discriminate].
        destruct (W4 _ _ _ A) as (miss & B1 & B2). exists miss. split; [exact B1|]. intros H. apply in_snoc in H as [H|H]; [auto|discriminate].
      + intros g I. destruct (W5 g I) as (u & op1 & J & O). exists u, op1. split; [apply in_snoc; now left|exact O].
  Qed.

  (** ** All of them *)

  Lemma begun_call : chunk <> Some 0 -> forall acts, few (fst (run acts)) ->
    forall t sid p, In (SlAlloc t sid p) (fst (run acts)) -> exists rest,
    call_frames chunk sid p = begun t sid (fst (run acts)) ++ rest /\ (In (SlReturn t sid) (fst (run acts)) -> rest = []).
  Proof.
    intros C acts D t sid p A. pose proof (whole sc bd chunk init st0 conn acts) as (ans & acts' & W1 & W2). cbn zeta in W1, W2.
    destruct (turn_each sc bd chunk init st0 conn acts t) as (o & T). set (tr := fst (run acts)) in *.
    pose proof (begun_ended t sid None tr o T) as B. cbn zeta in B. cbn [app] in B.
    destruct (at_ends_in tr) as [IA IR].
    assert (GEN : forall acts'' tr'', fst (exec (answering ans) bd chunk acts'' (config_init init st0 0%nat)) = tr'' ->
      drawn tr'' = drawn (at_ends tr) -> (forall e, In e (at_ends tr) -> In e tr'') ->
      begun t sid tr = mine t sid tr'' ->
      exists rest, call_frames chunk sid p = begun t sid tr ++ rest /\ (In (SlReturn t sid) tr -> rest = [])).
    { intros acts'' tr'' E1 E2 E3 E4.
      destruct (call_invariant (answering ans) bd chunk init st0 0%nat C acts'') as (_ & _ & ND & _ & I5 & OC & _); [rewrite E1, E2; exact D|].
      rewrite E1 in ND, I5, OC.
      assert (A2 : In (EvAlloc t sid p) tr'') by (apply E3, IA; exact A).
      destruct (I5 t p sid (SlowP.in_allocs _ _ _ _ _ A2)) as (rest & R2 & R3). exists rest. split.
      - rewrite R2, E4. f_equal. apply mine_received.
        + intros u f r I K. destruct (OC u f r I) as (q & p' & -> & J). cbn in K. apply N.eqb_eq in K. rewrite K in J.
          unfold allocs in J. apply in_flat_map in J as (e & J1 & J2). destruct e; cbn in J2; try contradiction.
          destruct J2 as [[= -> -> ->]|[]]. symmetry. eapply one_owner; eauto.
        + intros u f r I. pose proof (push_events (answering ans) bd chunk init st0 0%nat acts'' u f r) as PE. rewrite E1 in PE.
          destruct (PE I) as (md & -> & _). reflexivity.
      - intros I. apply R3, E3, IR, I. }
    destruct o as [[f|f|]|].
    - destruct (W2 t f T) as (r & W3). apply (GEN _ _ W3).
      + apply drawn_app1. discriminate.
      + intros e I. apply in_or_app. now left.
      + rewrite B. unfold mine. rewrite flat_map_app. cbn. rewrite Nat.eqb_refl. cbn. now rewrite app_nil_r.
    - apply (GEN _ _ W1); auto. now rewrite B, app_nil_r.
    - apply (GEN _ _ W1); auto. now rewrite B, app_nil_r.
    - apply (GEN _ _ W1); auto. now rewrite B, app_nil_r.
  Qed.

  Lemma reach_order : chunk <> Some 0 -> forall acts w fs, few (fst (run acts)) -> reaches (fst (run acts)) w fs ->
    forall t sid p, In (SlAlloc t sid p) (fst (run acts)) -> exists all rest,
    carries sid (fragments chunk p) all /\ all = filter (carries_id sid) fs ++ rest /\
    (In (SlReturn t sid) (fst (run acts)) -> rest = []).
  Proof.
    intros C acts w fs D R t sid p A. destruct (begun_call C acts D t sid p A) as (r1 & B1 & B2).
    destruct (wi_any _ _ _ _ (wired_run C acts D w fs R) t sid p A) as (r2 & B3 & B4).
    exists (call_frames chunk sid p), (r2 ++ r1). split; [apply call_carries|]. split.
    - rewrite B1, B3, <- app_assoc. reflexivity.
    - intros I. rewrite (B2 I), (B4 I). reflexivity.
  Qed.

  Lemma reach_ids : chunk <> Some 0 -> forall acts w fs, few (fst (run acts)) -> reaches (fst (run acts)) w fs ->
    forall f, In f fs -> (exists md, f = FMetadataPush (MetadataPushFrame md)) \/
      (exists t q p, f = FRequestFnf q /\ In (SlAlloc t (fnf_stream_id q) p) (fst (run acts))).
  Proof.
    intros C acts w fs D R f I. destruct (wi_begun _ _ _ _ (wired_run C acts D w fs R) f I) as (u & op & J & O).
    destruct op as [g|g|]; cbn in O; [| |discriminate]; injection O as ->.
    - right. destruct (kn_begun _ (known_run C acts D) _ _ J) as (q & p & -> & A). eauto.
    - left. exact (pl_push _ _ (placed_run C acts D) _ _ J).
  Qed.

  Lemma marked_last : forall sid ps l f q, marked sid ps = l ++ [f] -> f <> fnf_frame sid true q.
  Proof.
    induction ps as [|p ps IH]; intros l f q M; [now destruct l|]. destruct ps as [|p' ps].
    - destruct l as [|g l]; cbn in M; [|injection M as _ M; now destruct l]. injection M as <-. intros Q. injection Q as Q _.
      destruct (present (p_metadata p)), (present (p_metadata q)); discriminate.
    - destruct l as [|g l].
      + cbn in M. destruct ps; discriminate.
      + apply (IH l f q). change (fnf_frame sid true p :: marked sid (p' :: ps) = g :: (l ++ [f])) in M. injection M as _ M. exact M.
  Qed.

  Lemma reach_delivered : chunk <> Some 0 -> (forall n, chunk = Some n -> n <= usize_max) -> forall acts w fs l,
    let tr := fst (run acts) in few tr ->
    (forall t sid p, In (SlAlloc t sid p) tr -> deliverable p) -> reaches tr w fs ->
    Forall2 (fun f v => frame_encode f [] = EOk v) fs l ->
    let ds := deliveries (fun _ => []) l in
    NoDup (map fst ds) /\
    (forall sid g, In (sid, g) ds -> exists t p, In (SlAlloc t sid p) tr /\ bl_try_into flat 0 g = DOk p) /\
    (forall t sid p, In (SlAlloc t sid p) tr -> In (SlReturn t sid) tr -> exists g, In (sid, g) ds /\ bl_try_into flat 0 g = DOk p) /\
    (forall t sid p q a g, In (SlAlloc t sid p) tr -> In (SlEnd t (OpForget (fnf_frame sid true q)) a) tr -> a <> Returned None ->
       ~ In (sid, g) ds).
  Proof.
    intros Hc Hn acts w fs l tr D P R H. cbn zeta.
    pose proof (known_run Hc acts D) as K. pose proof (placed_run Hc acts D) as PL. pose proof (wired_run Hc acts D w fs R) as W.
    pose proof (begun_call Hc acts D) as BC. destruct (at_ends_in tr) as [IA IR].
    assert (IDS : forall t sid p, In (SlAlloc t sid p) tr -> sid < 2 ^ 31).
    { intros t sid p A. destruct (whole sc bd chunk init st0 conn acts) as (ans & acts' & W1 & _). cbn zeta in W1. fold tr in W1.
      apply (drawn_class (answering ans) bd chunk init st0 0%nat acts').
      apply (draw_invariant (answering ans) bd chunk init st0 0%nat acts'). rewrite W1. apply IA in A.
      eapply in_ids, TraceP.in_allocs, A. }
    fold tr in K, PL, W, BC.
    assert (FE : forall sid, Forall2 (fun f v => frame_encode f [] = EOk v) (of_id sid fs) (filter (on_stream sid) l)).
    { intros sid. apply filter_encoded; [|exact H]. intros f I.
      destruct (reach_ids Hc acts w fs D R f I) as [X|(t & q & p & -> & A)]; [now left|right].
      destruct (wi_begun _ _ _ _ W _ I) as (u & op & J & O). destruct op as [g|g|]; cbn in O; [| |discriminate]; injection O as ->.
      2: { destruct (pl_push _ _ PL _ _ J) as (md & Q). discriminate. }
      destruct (kn_begun _ K _ _ J) as (q' & p' & [= <-] & A'). destruct (BC _ _ _ A') as (rest & B & _).
      assert (X : In (FRequestFnf q) (call_frames chunk (fnf_stream_id q) p')).
      { rewrite B. apply in_or_app. left. unfold begun. apply in_flat_map. eexists. split; [exact J|]. cbn. rewrite Nat.eqb_refl, N.eqb_refl. now left. }
      destruct (P _ _ _ A') as (P1 & P2 & P3 & P4 & P5). rewrite (call_marked chunk _ p' Hc Hn P1 P2 P3 P4) in X.
      assert (Y : forall ps, In (FRequestFnf q) (marked (fnf_stream_id q) ps) -> exists b x, FRequestFnf q = fnf_frame (fnf_stream_id q) b x).
      { induction ps as [|y ps IH]; [contradiction|]. destruct ps; intros [Z|Z]; try contradiction; eauto. }
      destruct (Y _ X) as (b & x & Z). exists (fnf_stream_id q), b, x. split; [exact (IDS _ _ _ A')|exact Z]. }
    assert (DS : forall sid, filter (fun x => fst x =? sid) (deliveries (fun _ => []) l) = map (pair sid) (cut [] (filter (on_stream sid) l)))
      by (intros; apply deliveries_stream).
    assert (Hin : forall sid g, In (sid, g) (deliveries (fun _ => []) l) <-> In g (cut [] (filter (on_stream sid) l))).
    { intros sid g. split; intros I.
      - assert (X : In (sid, g) (filter (fun x => fst x =? sid) (deliveries (fun _ => []) l)))
          by (apply filter_In; split; [exact I|apply N.eqb_refl]).
        rewrite DS in X. apply in_map_iff in X as (g' & [= <-] & X). exact X.
      - apply (in_map (pair sid)) in I. rewrite <- DS in I. apply filter_In in I. apply I. }
    (* a stream that belongs to a call *)
    assert (One : forall t sid p, In (SlAlloc t sid p) tr -> exists rest miss,
      call_frames chunk sid p = begun t sid tr ++ rest /\ begun t sid tr = of_id sid fs ++ miss /\
      (In (SlReturn t sid) tr -> miss ++ rest = []) /\
      ((miss ++ rest = [] /\ cut [] (filter (on_stream sid) l) = [filter (on_stream sid) l] /\
        bl_try_into flat 0 (filter (on_stream sid) l) = DOk p) \/
       (miss ++ rest <> [] /\ cut [] (filter (on_stream sid) l) = []))).
    { intros t sid p I. destruct (BC t sid p I) as (rest & A & B). destruct (wi_any _ _ _ _ W t sid p I) as (miss & A' & B').
      exists rest, miss. split; [exact A|]. split; [exact A'|]. split; [intros Q; now rewrite (B Q), (B' Q)|].
      destruct (P _ _ _ I) as (P1 & P2 & P3 & P4 & P5). pose proof (IDS _ _ _ I) as Hs.
      pose proof (call_marked chunk sid p Hc Hn P1 P2 P3 P4) as M. rewrite A, A', <- app_assoc in M. symmetry in M.
      destruct (cut_marked sid Hs _ _ _ _ [] M (FE sid)) as [(X0 & _ & X)|([X|X] & Y)].
      - left. split; [exact X0|]. split; [exact X|]. apply app_eq_nil in X0 as [-> ->]. rewrite app_nil_r in A, A'. rewrite A' in A.
        assert (C0 : carries sid (fragments chunk p) (of_id sid fs)) by (rewrite <- A; apply call_carries).
        rewrite (end_to_end chunk sid p _ _ Hc Hs C0 (FE sid)), drop_full by assumption. reflexivity.
      - right. auto.
      - exfalso. apply fragments_empty in X as [_ X]; [|exact Hc]. contradiction. }
    assert (Nothing : forall sid, (forall t p, ~ In (SlAlloc t sid p) tr) -> cut [] (filter (on_stream sid) l) = []).
    { intros sid N0. specialize (FE sid). destruct (of_id sid fs) as [|f fs'] eqn:OI; [inversion FE; reflexivity|]. exfalso.
      assert (I : In f (of_id sid fs)) by (rewrite OI; now left). apply filter_In in I as [I C].
      destruct (reach_ids Hc acts w fs D R f I) as [(md & ->)|(t & q & p & -> & A)]; [discriminate|].
      cbn in C. apply N.eqb_eq in C. subst sid. exact (N0 _ _ A). }
    assert (Dec : forall sid, (exists t p, In (SlAlloc t sid p) tr) \/ forall t p, ~ In (SlAlloc t sid p) tr).
    { intros sid. destruct (in_dec N.eq_dec sid (alloc_ids (at_ends tr))) as [I|I].
      - left. apply ids_in in I as (t & p & I). apply TraceP.in_allocs in I. exists t, p. now apply IA.
      - right. intros t p J. apply I. eapply in_ids, TraceP.in_allocs, IA, J. }
    split; [|split; [|split]].
    - apply nodup_by_filter. intros sid. rewrite DS, map_length.
      destruct (Dec sid) as [(t & p & I)|I]; [|rewrite (Nothing _ I); cbn; lia].
      destruct (One _ _ _ I) as (rest & miss & _ & _ & _ & [(_ & -> & _)|(_ & ->)]); cbn; lia.
    - intros sid g I. apply Hin in I.
      destruct (Dec sid) as [(t & p & Ia)|Ia]; [|rewrite (Nothing _ Ia) in I; contradiction]. exists t, p. split; [exact Ia|].
      destruct (One _ _ _ Ia) as (rest & miss & _ & _ & _ & [(_ & X & Y)|(_ & X)]); rewrite X in I; [|contradiction].
      destruct I as [<-|[]]. exact Y.
    - intros t sid p Ia Ir. destruct (One _ _ _ Ia) as (rest & miss & _ & _ & B & [(_ & X & Y)|(X & _)]); [|destruct X; auto].
      eexists. split; [|exact Y]. apply Hin. rewrite X. now left.
    - intros t sid p q a g Ia Ie Bad I. apply Hin in I.
      destruct (One _ _ _ Ia) as (rest & miss & A & B & _ & [(X & _)|(_ & X)]); [|rewrite X in I; contradiction].
      apply app_eq_nil in X as [-> ->]. rewrite app_nil_r in A.
      destruct (pl_last _ _ PL t sid (fnf_frame sid true q)) as (l0 & L0).
      { split; [cbn; apply N.eqb_refl|]. exists a. auto. }
      rewrite L0 in A. destruct (P _ _ _ Ia) as (P1 & P2 & P3 & P4 & P5). rewrite (call_marked chunk _ p Hc Hn P1 P2 P3 P4) in A.
      exact (marked_last _ _ _ _ q A eq_refl).
  Qed.
End Reach.
