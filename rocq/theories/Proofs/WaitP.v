(** * A call ends after a bounded number of its own steps *)

From Verif Require Import Model.SocketM Spec.Socket.
From Verif Require Import Proofs.SidP Proofs.SocketP Proofs.TraceP Proofs.ProgressP Proofs.AloneP.

Section Connection.
  Context {S E : Type} (cn : connection S E).
  Variables (bd : build) (chunk : option N) (init : Z) (st0 : store) (conn0 : S).
  Notation run acts := (exec cn bd chunk acts (config_init init st0 conn0)).
  Notation trace := (list (event E)).

  Lemma runs_app : forall t a b, runs_of t (a ++ b) = (runs_of t a + runs_of t b)%nat.
  Proof. intros. unfold runs_of. now rewrite filter_app, app_length. Qed.

  Section Window.
    Variables (before : list action) (t : nat) (p : payload).
    Notation start := (snd (run before)).
    Notation window w := (exec cn bd chunk w start).

    Definition quiet (tr : trace) : Prop := forall sid q, ~ In (EvAlloc t sid q) tr.
    Definition stage (w : list action) (tr : trace) (c : @config S) : Prop :=
      match cf_threads c t with
      | Drawing q => q = p /\ quiet tr /\ runs_of t w = (2 * length (drawn_by t tr))%nat
      | Checking q _ => q = p /\ quiet tr /\ (runs_of t w + 1 = 2 * length (drawn_by t tr))%nat
      | Sending q sid st => exists w1 w2 rest, w = w1 ++ w2 /\ quiet (fst (window w1)) /\
          (runs_of t w1 + 1 = 2 * length (drawn_by t (fst (window w1))))%nat /\ yields bd st rest /\
          (runs_of t w2 + length rest = 1 + length (fragments chunk p))%nat
      | Idle | Panicked => False
      end.

    Lemma stage_same : forall w a tr ev c c', stage w tr c -> cf_threads c' t = cf_threads c t ->
      runs_of t [a] = 0%nat -> drawn_by t ev = [] -> (forall sid q, ~ In (EvAlloc t sid q) ev) ->
      stage (w ++ [a]) (tr ++ ev) c'.
    Proof.
      intros w a tr ev c c' H T R D N. unfold stage in *. rewrite T.
      destruct (cf_threads c t) as [|q|q sid|q sid st|]; auto.
      - destruct H as (A & B & C). split; [exact A|]. split.
        + intros s x I. apply in_app_or in I as [I|I]; [exact (B _ _ I)|exact (N _ _ I)].
        + rewrite runs_app, drawn_by_app, D, app_nil_r, R. lia.
      - destruct H as (A & B & C). split; [exact A|]. split.
        + intros s x I. apply in_app_or in I as [I|I]; [exact (B _ _ I)|exact (N _ _ I)].
        + rewrite runs_app, drawn_by_app, D, app_nil_r, R. lia.
      - destruct H as (w1 & w2 & rest & -> & Q & L & Y & C). exists w1, (w2 ++ [a]), rest.
        rewrite app_assoc. split; [reflexivity|]. split; [exact Q|]. split; [exact L|]. split; [exact Y|].
        rewrite runs_app. lia.
    Qed.

    Lemma staged : chunk <> Some 0 -> cf_threads start t = Drawing p -> forall w,
      (forall e, In e (fst (window w)) -> ends_call t e = false) -> stage w (fst (window w)) (snd (window w)).
    Proof.
      intros Hc T0 w. induction w as [|a w IH] using rev_ind; intros NE.
      - unfold stage. cbn [exec fst snd]. rewrite T0. split; [reflexivity|]. split; [intros s q []|reflexivity].
      - rewrite exec_snoc in *. cbn [fst snd] in *.
        destruct (window w) as [tr c] eqn:W. cbn [fst snd] in *.
        assert (H : stage w tr c) by (apply IH; intros e I; apply NE, in_or_app; now left). clear IH.
        assert (NEv : forall e, In e (fst (step cn bd chunk a c)) -> ends_call t e = false) by (intros e I; apply NE, in_or_app; now right). clear NE.
        destruct (Nat.eq_dec (runs_of t [a]) 0) as [R0|R1].
        + pose proof (step_shaped cn bd chunk a c) as Sh.
          set (ev := fst (step cn bd chunk a c)) in *. set (c' := snd (step cn bd chunk a c)) in *. clearbody ev c'.
          assert (RN : forall u, a = Run u -> u <> t).
          { intros u -> ->. revert R0. unfold runs_of. cbn [filter]. rewrite Nat.eqb_refl. discriminate. }
          assert (LT : forall u, cf_threads c u = Idle -> u <> t).
          { intros u Tu ->. unfold stage in H. now rewrite Tu in H. }
          assert (OT : forall (th : nat -> thread) u x, u <> t -> set_thread th u x t = th t).
          { intros th u x Nu. apply set_other. congruence. }
          assert (AN : forall u, u <> t -> Nat.eqb u t = false) by (intros u; apply Nat.eqb_neq).
          eapply stage_same; [exact H| |exact R0| |]; destruct Sh; cbn [cf_threads drawn_by flat_map]; auto;
            try (rewrite AN by auto; reflexivity); try (intros ? ? [X|[]]; try discriminate X; injection X as X; exfalso; eapply RN; eauto; fail).
        + destruct a as [u q|u|u md| |k|k|u]; try (exfalso; apply R1; reflexivity).
          destruct (Nat.eq_dec u t) as [->|Nu].
          2:{ exfalso. apply R1. unfold runs_of. cbn [filter]. now destruct (Nat.eqb_spec u t). }
          clear R1. assert (R1 : runs_of t [Run t] = 1%nat) by (unfold runs_of; cbn [filter]; now rewrite Nat.eqb_refl).
          cbn [step] in *. unfold stage in H. destruct (cf_threads c t) as [|q|q sid|q sid st|] eqn:T; try contradiction.
          * destruct H as (-> & Q & L). destruct (sid_draw (cf_counter c)) as [sid k]. cbn [fst snd] in *.
            unfold stage. cbn [cf_threads]. rewrite set_same. split; [reflexivity|]. split.
            -- intros s x I. apply in_app_or in I as [I|[I|[]]]; [exact (Q _ _ I)|discriminate].
            -- rewrite runs_app, drawn_by_app, app_length, R1. cbn [drawn_by flat_map]. rewrite Nat.eqb_refl. cbn [app length]. lia.
          * destruct H as (-> & Q & L).
            destruct (cf_store c sid) eqn:St; cbn [fst snd] in *.
            -- unfold stage. cbn [cf_threads]. rewrite set_same. split; [reflexivity|]. split.
               ++ intros s x I. apply in_app_or in I as [I|[I|[]]]; [exact (Q _ _ I)|discriminate].
               ++ rewrite runs_app, drawn_by_app, app_length, R1.
                  change (drawn_by t [EvBusy (E := E) t sid]) with (@nil N). cbn [length]. lia.
            -- assert (Sb : sid < 2 ^ 31).
               { pose proof (draw_invariant cn bd chunk init st0 conn0 (before ++ w)) as (_ & _ & C & _).
                 pose proof (drawn_class cn bd chunk init st0 conn0 (before ++ w) sid) as X.
                 rewrite window_run in C, X. rewrite W in C, X. cbn [fst snd] in C, X.
                 apply X. eapply C; exact T. }
               destruct (start_yields bd chunk sid p Sb Hc) as (st & Fs & Y). rewrite Fs in *. cbn [fst snd] in *.
               unfold stage. cbn [cf_threads]. rewrite set_same.
               exists w, [Run t], (call_frames chunk sid p). split; [reflexivity|]. rewrite W. cbn [fst].
               split; [exact Q|]. split; [exact L|]. split; [exact Y|]. rewrite R1.
               now rewrite <- (carries_length _ _ _ (call_carries chunk sid p)).
          * destruct H as (w1 & w2 & rest & -> & Q & L & Y & C).
            inversion Y as [? Fn|? f st' fs Fn Y']; subst; rewrite Fn in *.
            -- cbn [fst snd] in NEv. specialize (NEv _ (or_introl eq_refl)). cbn in NEv. rewrite Nat.eqb_refl in NEv. discriminate.
            -- destruct (cn_send_and_forget cn (cf_conn c) f) as [conn' [e|]]; cbn [fst snd] in *.
               ++ specialize (NEv _ (or_introl eq_refl)). cbn in NEv. rewrite Nat.eqb_refl in NEv. discriminate.
               ++ unfold stage. cbn [cf_threads]. rewrite set_same. exists w1, (w2 ++ [Run t]), fs.
                  rewrite app_assoc. split; [reflexivity|]. split; [exact Q|]. split; [exact L|]. split; [exact Y'|].
                  rewrite runs_app, R1. cbn [length] in C. lia.
    Qed.

    Lemma staged_bound : chunk <> Some 0 -> cf_threads start t = Drawing p -> forall w keys,
      N.of_nat (length (drawn (fst (window w)))) <= 2 ^ 30 -> kept_within st0 before w keys ->
      (forall e, In e (fst (window w)) -> ends_call t e = false) ->
      (runs_of t w <= 2 * (length keys + 1) + length (fragments chunk p))%nat.
    Proof.
      intros Hc T0 w keys D K NE. pose proof (staged Hc T0 w NE) as H. unfold stage in H.
      destruct (cf_threads (snd (window w)) t) as [|q|q sid|q sid st|]; try contradiction.
      - destruct H as (_ & Q & L). pose proof (call_progress cn bd chunk init st0 conn0 before t w keys D K Q). lia.
      - destruct H as (_ & Q & L). pose proof (call_progress cn bd chunk init st0 conn0 before t w keys D K Q). lia.
      - destruct H as (w1 & w2 & rest & -> & Q & L & Y & C). rewrite runs_app.
        assert (D1 : N.of_nat (length (drawn (fst (window w1)))) <= 2 ^ 30).
        { rewrite exec_app in D. cbn [fst] in D. rewrite drawn_app, app_length in D. lia. }
        pose proof (call_progress cn bd chunk init st0 conn0 before t w1 keys D1 (kept_prefix st0 before w1 keys w2 K) Q). lia.
    Qed.
  End Window.

  Lemma wait_free : chunk <> Some 0 -> forall before t p during keys,
    let c := snd (run before) in let tr := fst (exec cn bd chunk (Call t p :: during) c) in
    cf_threads c t = Idle -> N.of_nat (length (drawn tr)) <= 2 ^ 30 -> kept_within st0 before (Call t p :: during) keys ->
    (2 * (length keys + 1) + length (fragments chunk p) < runs_of t during)%nat ->
    exists e, In e tr /\ ends_call t e = true.
  Proof.
    intros Hc before t p during keys c tr T D K L.
    destruct (existsb (ends_call t) tr) eqn:X.
    { apply existsb_exists in X. exact X. }
    exfalso. assert (NE : forall e, In e tr -> ends_call t e = false).
    { intros e I. destruct (ends_call t e) eqn:Z; [|reflexivity].
      assert (existsb (ends_call t) tr = true) by (apply existsb_exists; eauto). congruence. }
    pose (before' := before ++ [Call t p]).
    assert (S1 : step cn bd chunk (Call t p) c = ([], Config (cf_counter c) (cf_store c) (cf_conn c) (set_thread (cf_threads c) t (Drawing p)))).
    { cbn [step]. now rewrite T. }
    assert (St : snd (run before') = snd (step cn bd chunk (Call t p) c)).
    { unfold before'. rewrite exec_app. cbn [snd]. fold c. cbn [exec]. now rewrite S1. }
    assert (Tr : tr = fst (exec cn bd chunk during (snd (run before')))).
    { unfold tr. rewrite exec_cons, St, S1. reflexivity. }
    apply (Nat.lt_irrefl (runs_of t during)). eapply Nat.le_lt_trans; [|exact L].
    apply (staged_bound before' t p Hc); try (rewrite <- Tr; assumption).
    - rewrite St, S1. cbn [snd cf_threads]. apply set_same.
    - intros v1 v2 k -> H. apply (K (Call t p :: v1) v2 k); [reflexivity|]. unfold before' in H. now rewrite <- app_assoc in H.
  Qed.
End Connection.
