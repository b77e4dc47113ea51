(** * How late the watchdog closes *)

From Coq Require Import Lia.
From Verif Require Import Model.SystemM Spec.Prompt.
From Verif Require Import Proofs.SystemP.

Section P.
  Context {S E : Type} (cn : connection S E) (status : S -> option connection_status).
  Context (bd : build) (chunk : option N) (timeout : N) (init : Z) (st0 : store) (conn : S) (now : N) (delay : N).
  Local Notation sx := (sys_exec cn status bd chunk timeout).
  Local Notation ss := (sys_step cn status bd chunk timeout).
  Definition after (a : list sys_action) : @system S := snd (sx a (system_init init st0 conn now)).

  Lemma after_snoc : forall a x, after (a ++ [x]) = snd (ss x (after a)).
  Proof.
    intros a x. unfold after. rewrite sexec_app. destruct (sx a _) as [e y]. cbn [fst snd sys_exec].
    destruct (ss x y) as [e1 y1]. reflexivity.
  Qed.
  Lemma after_time : forall a, sy_last (after a) = now /\ sy_now (after a) = now + elapsed a.
  Proof.
    apply rev_ind.
    - cbn. split; [reflexivity|lia].
    - intros x a [L N]. rewrite after_snoc, elapsed_app.
      assert (X : sy_last (snd (ss x (after a))) = sy_last (after a) /\ sy_now (snd (ss x (after a))) = sy_now (after a) + elapsed [x]).
      { destruct x as [x|d| |]; cbn [sys_step elapsed fold_right].
        - destruct (step cn bd chunk x (sy_config (after a))). cbn. split; [reflexivity|lia].
        - cbn. split; [reflexivity|lia].
        - unfold watch_step. destruct (sy_watch (after a)); try (destruct (_ <? _)); try (destruct (_ <? _)); cbn; (split; [reflexivity|lia]).
        - unfold listen_step. destruct (sy_listen (after a)); cbn; (split; [reflexivity|lia]). }
      destruct X as [X1 X2]. rewrite X1, X2, L, N. split; [reflexivity|lia].
  Qed.
  Lemma after_other : forall a x, x <> SysWatch -> sy_watch (after (a ++ [x])) = sy_watch (after a).
  Proof.
    intros a x H. rewrite after_snoc. destruct x as [x|d| |]; cbn [sys_step]; [|reflexivity|congruence|].
    - now destruct (step cn bd chunk x (sy_config (after a))).
    - unfold listen_step. now destruct (sy_listen (after a)).
  Qed.

  (** Since when it has been as it is, without being run. *)
  Definition since (p : list sys_action) : Prop :=
    match sy_watch (after p) with
    | WStart => ~ In SysWatch p
    | WSleep u => u <= now + N.max (delay + timeout) (2 * timeout) /\
        exists a b, p = a ++ b /\ ~ In SysWatch b /\ sy_watch (after a) = WSleep u /\ sy_now (after a) <= u
    | WClose => exists a b, p = a ++ b /\ ~ In SysWatch b /\ sy_watch (after a) = WClose /\
        elapsed a <= N.max (delay + timeout) (2 * timeout) + delay
    | WDone => True
    end.

  Lemma prompt_prefix : forall a b, prompt after delay (a ++ b) -> prompt after delay a.
  Proof. intros a b H x y z E0 N. apply (H x y (z ++ b)); [|exact N]. rewrite E0. now rewrite !app_assoc. Qed.

  Lemma action_dec : forall x, x = SysWatch \/ x <> SysWatch.
  Proof. intros [x|d| |]; (now left) || (right; discriminate). Qed.

  Lemma since_holds : forall p, prompt after delay p -> since p.
  Proof.
    apply (rev_ind (fun p => prompt after delay p -> since p)); [cbn; auto|].
    intros x p IH P. specialize (IH (prompt_prefix _ _ P)). destruct (after_time p) as [LAST NOW].
    destruct (action_dec x) as [->|NX].
    - unfold since in *. pose proof (after_snoc p SysWatch) as X. cbn [sys_step] in X. unfold watch_step in X.
      destruct (sy_watch (after p)) as [|u| |] eqn:W.
      + cbn [snd] in X. rewrite X. cbn [set_watch sy_watch].
        assert (T : elapsed p <= delay).
        { pose proof (P [] p [SysWatch] eq_refl IH) as Q. cbn in Q. exact Q. }
        split; [rewrite NOW; lia|]. exists (p ++ [SysWatch]), []. rewrite app_nil_r. split; [reflexivity|]. split; [auto|].
        rewrite X. cbn [set_watch sy_watch sy_now]. split; [reflexivity|lia].
      + destruct IH as [U (a & b & -> & NB & WA & NA)].
        pose proof (P a b [SysWatch] (eq_sym (app_assoc _ _ _)) NB) as Q. rewrite WA in Q.
        destruct (after_time a) as [_ TA]. rewrite elapsed_app in NOW.
        rewrite (N.max_l _ _ NA) in Q.
        destruct (N.ltb_spec (sy_now (after (a ++ b))) u) as [L|L].
        * cbn [snd] in X. rewrite X, W. split; [exact U|]. exists ((a ++ b) ++ [SysWatch]), []. rewrite app_nil_r.
          split; [reflexivity|]. split; [auto|]. rewrite X, W. split; [reflexivity|]. lia.
        * destruct (N.ltb_spec timeout (sy_now (after (a ++ b)) - sy_last (after (a ++ b)))) as [C|C]; cbn [snd] in X; rewrite X; cbn [set_watch sy_watch].
          -- exists ((a ++ b) ++ [SysWatch]), []. rewrite app_nil_r. split; [reflexivity|]. split; [auto|]. rewrite X. cbn [set_watch sy_watch].
             split; [reflexivity|]. rewrite !elapsed_app. cbn [elapsed fold_right]. lia.
          -- rewrite LAST in C. split; [lia|]. exists ((a ++ b) ++ [SysWatch]), []. rewrite app_nil_r. split; [reflexivity|]. split; [auto|].
             rewrite X. cbn [set_watch sy_watch sy_now]. split; [reflexivity|lia].
      + cbn [snd] in X. rewrite X. exact I.
      + cbn [snd] in X. rewrite X, W. exact I.
    - unfold since in *. rewrite (after_other p x NX).
      assert (NI : forall b, ~ In SysWatch b -> ~ In SysWatch (b ++ [x])).
      { intros b NB I0. apply in_app_or in I0 as [I0|[I0|[]]]; [auto|congruence]. }
      destruct (sy_watch (after p)) as [|u| |].
      + now apply NI.
      + destruct IH as [U (a & b & -> & NB & WA & NA)]. split; [exact U|]. exists a, (b ++ [x]).
        rewrite app_assoc. split; [reflexivity|]. split; [now apply NI|]. auto.
      + destruct IH as (a & b & -> & NB & WA & EA). exists a, (b ++ [x]).
        rewrite app_assoc. split; [reflexivity|]. split; [now apply NI|]. auto.
      + exact I.
  Qed.

  Lemma prompt_done : forall p, prompt after delay p -> longest_wait timeout delay < elapsed p -> sy_watch (after p) = WDone.
  Proof.
    intros p P L. pose proof (since_holds p P) as X. unfold longest_wait in L. unfold since in X.
    destruct (sy_watch (after p)) as [|u| |] eqn:W; [exfalso..|reflexivity].
    - pose proof (P [] p [] (eq_sym (app_nil_r p)) X) as Q. cbn in Q. lia.
    - destruct X as [U (a & b & -> & NB & WA & NA)].
      pose proof (P a b []) as Q. rewrite app_nil_r in Q. specialize (Q eq_refl NB). rewrite WA in Q.
      rewrite (N.max_l _ _ NA) in Q. destruct (after_time a) as [_ TA]. rewrite elapsed_app in L. lia.
    - destruct X as (a & b & -> & NB & WA & EA).
      pose proof (P a b []) as Q. rewrite app_nil_r in Q. specialize (Q eq_refl NB). rewrite WA in Q.
      rewrite elapsed_app in L. lia.
  Qed.

  Lemma watched_done : forall p, sy_watch (after p) = WDone ->
    watched (fst (sx p (system_init init st0 conn now))) = [Logged "connection keepalive timed out"; ConnClose].
  Proof.
    intros p W. destruct (thread_sims cn status bd chunk timeout init st0 conn now p) as (pre & post & _ & Y).
    unfold after in W. rewrite W in Y. apply Y.
  Qed.

  Lemma prompt_closes : forall p, prompt after delay p -> longest_wait timeout delay < elapsed p ->
    watched (fst (sx p (system_init init st0 conn now))) = [Logged "connection keepalive timed out"; ConnClose].
  Proof. intros p P L. apply watched_done. now apply prompt_done. Qed.
End P.

(** Promptness of one run, by trying all ways to cut it. *)
Section Check.
  Context {S : Type} (af : list sys_action -> @system S) (delay : N).
  Definition no_watch (b : list sys_action) : bool := forallb (fun x => match x with SysWatch => false | _ => true end) b.
  Definition prompt_at (a b : list sys_action) : bool :=
    negb (no_watch b) ||
    match sy_watch (af a) with
    | WStart | WClose => elapsed b <=? delay
    | WSleep until => sy_now (af a) + elapsed b <=? N.max until (sy_now (af a)) + delay
    | WDone => true
    end.
  Definition prompt_all (acts : list sys_action) : bool :=
    forallb (fun i => forallb (fun j => prompt_at (firstn i acts) (firstn j (skipn i acts))) (seq 0 (Datatypes.S (length acts))))
      (seq 0 (Datatypes.S (length acts))).
  Lemma no_watch_in : forall b, ~ In SysWatch b -> no_watch b = true.
  Proof.
    intros b H. apply forallb_forall. intros x I. destruct x; try reflexivity. contradiction.
  Qed.
  Lemma prompt_all_sound : forall acts, prompt_all acts = true -> prompt af delay acts.
  Proof.
    intros acts H a b c E0 NB. unfold prompt_all in H. rewrite forallb_forall in H.
    assert (I1 : In (length a) (seq 0 (Datatypes.S (length acts)))).
    { apply in_seq. rewrite E0, app_length. lia. }
    specialize (H _ I1). cbn beta in H. rewrite forallb_forall in H.
    assert (I2 : In (length b) (seq 0 (Datatypes.S (length acts)))).
    { apply in_seq. rewrite E0, !app_length. lia. }
    specialize (H _ I2). cbn beta in H. rewrite E0 in H.
    rewrite firstn_app, firstn_all, Nat.sub_diag, firstn_O, app_nil_r in H.
    rewrite skipn_app, skipn_all, Nat.sub_diag, skipn_O in H. cbn [app] in H.
    rewrite firstn_app, firstn_all, Nat.sub_diag, firstn_O, app_nil_r in H.
    unfold prompt_at in H. rewrite (no_watch_in b NB) in H. cbn [negb orb] in H.
    destruct (sy_watch (af a)); try exact I; now apply N.leb_le.
  Qed.
End Check.

(** ** Runs that take that long *)
Section Tight.
  Context {S E : Type} (cn : connection S E) (status : S -> option connection_status).
  Context (bd : build) (chunk : option N) (timeout : N) (init : Z) (st0 : store) (conn : S) (now : N) (delay : N).
  Local Notation aft := (after cn status bd chunk timeout init st0 conn now).
  Local Notation sx := (sys_exec cn status bd chunk timeout).

  Lemma prompt_nil : prompt aft delay [].
  Proof. intros [|x a] [|y b] c E0 NB; try discriminate. cbn. lia. Qed.
  Lemma prompt_snoc : forall p x, prompt aft delay p ->
    (forall a b, p ++ [x] = a ++ b -> b <> [] -> ~ In SysWatch b ->
      match sy_watch (aft a) with
      | WStart | WClose => elapsed b <= delay
      | WSleep until => sy_now (aft a) + elapsed b <= N.max until (sy_now (aft a)) + delay
      | WDone => True
      end) -> prompt aft delay (p ++ [x]).
  Proof.
    intros p x P H a b c E0 NB. destruct b as [|y b].
    { cbn [elapsed fold_right]. destruct (sy_watch (aft a)); lia. }
    destruct c as [|z c] using rev_ind.
    - rewrite app_nil_r in E0. apply H; [exact E0|discriminate|exact NB].
    - clear IHc. rewrite !app_assoc in E0. apply app_inj_tail in E0 as [E0 _]. rewrite <- app_assoc in E0. exact (P a (y :: b) c E0 NB).
  Qed.
  Lemma prompt_watch : forall p, prompt aft delay p -> prompt aft delay (p ++ [SysWatch]).
  Proof.
    intros p P. apply prompt_snoc; [exact P|]. intros a b E0 NE NB. exfalso. apply NB.
    destruct b as [|z b] using rev_ind; [congruence|]. rewrite app_assoc in E0. apply app_inj_tail in E0 as [_ <-].
    apply in_or_app. right. now left.
  Qed.
  (** Time passes when it has just been run. *)
  Lemma prompt_elapse : forall p d, prompt aft delay p -> (p = [] \/ exists q, p = q ++ [SysWatch]) ->
    match sy_watch (aft p) with
    | WStart | WClose => d <= delay
    | WSleep until => sy_now (aft p) + d <= N.max until (sy_now (aft p)) + delay
    | WDone => True
    end -> prompt aft delay (p ++ [SysElapse d]).
  Proof.
    intros p d P R H. apply prompt_snoc; [exact P|]. intros a b E0 NE NB.
    assert (X : a = p /\ b = [SysElapse d]).
    { destruct b as [|z b] using rev_ind; [congruence|]. clear IHb NE. rewrite app_assoc in E0. apply app_inj_tail in E0 as [E0 <-].
      destruct b as [|y b] using rev_ind; [now rewrite app_nil_r in E0|]. exfalso. clear IHb. rewrite app_assoc in E0.
      destruct R as [->|(q & ->)]; [now destruct (a ++ b)|]. apply app_inj_tail in E0 as [_ <-].
      apply NB. rewrite <- app_assoc. apply in_or_app. right. now left. }
    destruct X as [-> ->]. cbn [elapsed fold_right]. rewrite N.add_0_r. exact H.
  Qed.

  Definition slow_run : list sys_action :=
    if delay <=? timeout
    then [] ++ [SysWatch] ++ [SysElapse timeout] ++ [SysWatch] ++ [SysElapse (timeout + delay)] ++ [SysWatch] ++ [SysElapse delay]
    else [] ++ [SysElapse delay] ++ [SysWatch] ++ [SysElapse (timeout + delay)] ++ [SysWatch] ++ [SysElapse delay].

  Lemma watch_then : forall p, sy_watch (aft (p ++ [SysWatch])) =
    match sy_watch (aft p) with
    | WStart => WSleep (now + elapsed p + timeout)
    | WSleep u => if now + elapsed p <? u then WSleep u else if timeout <? elapsed p then WClose else WSleep (now + elapsed p + timeout)
    | WClose | WDone => WDone
    end.
  Proof.
    intros p. rewrite after_snoc. cbn [sys_step]. unfold watch_step.
    destruct (after_time cn status bd chunk timeout init st0 conn now p) as [L N].
    destruct (sy_watch (aft p)) as [|u| |] eqn:W; cbn [snd set_watch sy_watch].
    - now rewrite N.
    - rewrite N, L. replace (now + elapsed p - now) with (elapsed p) by lia.
      destruct (now + elapsed p <? u); [exact W|]. destruct (timeout <? elapsed p); reflexivity.
    - reflexivity.
    - exact W.
  Qed.

  Lemma slow_prompt : 0 < timeout + delay -> prompt aft delay slow_run /\ elapsed slow_run = longest_wait timeout delay /\
    sy_watch (aft slow_run) = WClose.
  Proof.
    intros POS. unfold slow_run, longest_wait. pose proof prompt_nil as P0.
    assert (W0 : sy_watch (aft []) = WStart) by reflexivity.
    destruct (N.leb_spec delay timeout) as [L|L]; rewrite !app_assoc.
    - pose proof (prompt_watch _ P0) as P1. pose proof (watch_then []) as W1. rewrite W0 in W1.
      assert (P2 : prompt aft delay (([] ++ [SysWatch]) ++ [SysElapse timeout])).
      { apply prompt_elapse; [exact P1|right; now exists []|]. rewrite W1. rewrite (proj2 (after_time cn status bd chunk timeout init st0 conn now _)).
        try unfold p3; try unfold p2; rewrite ?elapsed_app; cbn [elapsed fold_right app]. lia. }
      pose proof (after_other cn status bd chunk timeout init st0 conn now ([] ++ [SysWatch]) (SysElapse timeout) ltac:(discriminate)) as W2.
      pose proof (prompt_watch _ P2) as P3. pose proof (watch_then (([] ++ [SysWatch]) ++ [SysElapse timeout])) as W3. rewrite W2, W1 in W3.
      rewrite (proj2 (N.ltb_ge _ _)) in W3 by (try unfold p3; try unfold p2; rewrite ?elapsed_app; cbn [elapsed fold_right app]; lia). rewrite (proj2 (N.ltb_ge _ _)) in W3 by (try unfold p3; try unfold p2; rewrite ?elapsed_app; cbn [elapsed fold_right app]; lia).
      match type of P3 with prompt _ _ ?q => set (p3 := q) in * end.
      assert (P4 : prompt aft delay (p3 ++ [SysElapse (timeout + delay)])).
      { apply prompt_elapse; [exact P3|right; unfold p3; eauto|]. rewrite W3. rewrite (proj2 (after_time cn status bd chunk timeout init st0 conn now _)).
        try unfold p3; try unfold p2; rewrite ?elapsed_app; cbn [elapsed fold_right app]. lia. }
      pose proof (after_other cn status bd chunk timeout init st0 conn now p3 (SysElapse (timeout + delay)) ltac:(discriminate)) as W4.
      pose proof (prompt_watch _ P4) as P5. pose proof (watch_then (p3 ++ [SysElapse (timeout + delay)])) as W5. rewrite W4, W3 in W5.
      rewrite (proj2 (N.ltb_ge _ _)) in W5 by (try unfold p3; try unfold p2; rewrite ?elapsed_app; cbn [elapsed fold_right app]; lia). rewrite (proj2 (N.ltb_lt _ _)) in W5 by (try unfold p3; try unfold p2; rewrite ?elapsed_app; cbn [elapsed fold_right app]; lia).
      split; [|split].
      + apply prompt_elapse; [exact P5|right; eauto|]. rewrite W5. lia.
      + rewrite !elapsed_app. unfold p3. rewrite !elapsed_app. cbn [elapsed fold_right]. lia.
      + rewrite after_other by discriminate. exact W5.
    - assert (P1 : prompt aft delay ([] ++ [SysElapse delay])).
      { apply prompt_elapse; [exact P0|now left|]. rewrite W0. lia. }
      pose proof (after_other cn status bd chunk timeout init st0 conn now [] (SysElapse delay) ltac:(discriminate)) as W1. rewrite W0 in W1.
      pose proof (prompt_watch _ P1) as P2. pose proof (watch_then ([] ++ [SysElapse delay])) as W2. rewrite W1 in W2.
      match type of P2 with prompt _ _ ?q => set (p2 := q) in * end.
      assert (P3 : prompt aft delay (p2 ++ [SysElapse (timeout + delay)])).
      { apply prompt_elapse; [exact P2|right; unfold p2; eauto|]. rewrite W2. rewrite (proj2 (after_time cn status bd chunk timeout init st0 conn now _)).
        try unfold p3; try unfold p2; rewrite ?elapsed_app; cbn [elapsed fold_right app]. lia. }
      pose proof (after_other cn status bd chunk timeout init st0 conn now p2 (SysElapse (timeout + delay)) ltac:(discriminate)) as W3.
      pose proof (prompt_watch _ P3) as P4. pose proof (watch_then (p2 ++ [SysElapse (timeout + delay)])) as W4. rewrite W3, W2 in W4.
      rewrite (proj2 (N.ltb_ge _ _)) in W4 by (try unfold p3; try unfold p2; rewrite ?elapsed_app; cbn [elapsed fold_right app]; lia). rewrite (proj2 (N.ltb_lt _ _)) in W4 by (try unfold p3; try unfold p2; rewrite ?elapsed_app; cbn [elapsed fold_right app]; lia).
      split; [|split].
      + apply prompt_elapse; [exact P4|right; eauto|]. rewrite W4. lia.
      + rewrite !elapsed_app. unfold p2. rewrite !elapsed_app. cbn [elapsed fold_right]. lia.
      + rewrite after_other by discriminate. exact W4.
  Qed.

  Lemma watched_close : forall p, sy_watch (aft p) = WClose ->
    watched (fst (sx p (system_init init st0 conn now))) = [Logged "connection keepalive timed out"].
  Proof.
    intros p W. destruct (thread_sims cn status bd chunk timeout init st0 conn now p) as (pre & post & _ & Y).
    unfold after in W. rewrite W in Y. apply Y.
  Qed.

  Lemma tight : exists acts, prompt aft delay acts /\ elapsed acts = longest_wait timeout delay /\
    ~ In ConnClose (watched (fst (sx acts (system_init init st0 conn now)))).
  Proof.
    destruct (N.eq_dec (timeout + delay) 0) as [Z|Z].
    - exists []. split; [apply prompt_nil|]. split; [unfold longest_wait; cbn [elapsed fold_right]; lia|]. cbn. auto.
    - destruct (slow_prompt ltac:(lia)) as (A & B & C). exists slow_run. split; [exact A|]. split; [exact B|].
      rewrite (watched_close _ C). intros [X|[]]. discriminate.
  Qed.

  Lemma not_before : forall acts, In ConnClose (watched (fst (sx acts (system_init init st0 conn now)))) -> timeout < elapsed acts.
  Proof.
    intros acts H. destruct (@watch_safe S E cn status bd chunk timeout init st0 conn now acts) as [X|[X _]]; [|exact X].
    cbv zeta in X. rewrite X in H. destruct H.
  Qed.
End Tight.
