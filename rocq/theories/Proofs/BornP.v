(** * How a machine is made *)

From Coq Require Import Lia.
From Verif Require Import Model.BornM Spec.Born Spec.Prompt.
From Verif Require Import Proofs.SystemP Proofs.LifeP Proofs.PromptP.

Lemma some_in : forall A (a b : list A) x, some_of a b -> In x a -> In x b.
Proof. intros A a b x H. induction H; cbn; intuition. Qed.
Lemma some_trans_map : forall acts c, some_of c (flat_map system_action (map stops_watch acts)) ->
  some_of c (flat_map system_action acts) /\ ~ In SysWatch c.
Proof.
  intros acts c H. split.
  - revert c H. induction acts as [|a acts IH]; intros c H; [exact H|]. cbn [map flat_map] in H. destruct a; cbn [stops_watch system_action app flat_map] in *;
      try (inversion H; subst; constructor; now apply IH); try now apply IH.
  - intros I. pose proof (some_in _ _ _ _ H I) as J. apply in_flat_map in J as (a & J & K). apply in_map_iff in J as (a' & <- & _).
    destruct a'; cbn in K; intuition discriminate.
Qed.

Section B.
  Context {S E : Type} (cn : connection S E) (status : S -> option connection_status).
  Context (bd : build) (chunk : option N) (timeout : N) (init : Z) (st : store).
  Local Notation bx := (born_exec cn status bd chunk timeout init st).
  Local Notation bs := (born_step cn status bd chunk timeout init st).
  Local Notation lx := (life_exec cn status bd chunk timeout).
  Local Notation ls := (life_step cn status bd chunk timeout).
  Local Notation sx := (sys_exec cn status bd chunk timeout).

  Lemma bexec_app : forall a b y, bx (a ++ b) y = (fst (bx a y) ++ fst (bx b (snd (bx a y))), snd (bx b (snd (bx a y)))).
  Proof.
    induction a as [|x a IH]; intros b y; cbn [app born_exec].
    - cbn. now destruct (bx b y).
    - destruct (bs x y) as [e y1]. rewrite IH. destruct (bx a y1) as [e2 y2]. cbn [fst snd].
      destruct (bx b y2). cbn. now rewrite app_assoc.
  Qed.

  Lemma waiting : forall acts conn now, waits acts -> bx acts (Unborn conn now) = ([], Unborn conn (now + life_elapsed (lives acts))).
  Proof.
    induction acts as [|a acts IH]; intros conn now W.
    - cbn. now rewrite N.add_0_r.
    - destruct (W a (or_introl eq_refl)) as (a' & ->). assert (W' : waits acts) by (intros x I; apply W; now right).
      cbn [born_exec]. unfold life_elapsed, lives in *. cbn [flat_map app]. rewrite elapsed_app.
      destruct a'; cbn [born_step system_action elapsed fold_right]; rewrite IH by exact W'; cbn [app]; do 2 f_equal; lia.
  Qed.
  Lemma over : forall acts, bx acts NoMachine = ([], NoMachine).
  Proof. induction acts as [|a acts IH]; cbn [born_exec born_step]; [reflexivity|]. now rewrite IH. Qed.

  Lemma timed : forall acts y, bx acts (Alive true y) = (map BornSees (fst (lx (lives acts) y)), Alive true (snd (lx (lives acts) y))).
  Proof.
    induction acts as [|a acts IH]; intros y; [reflexivity|]. cbn [born_exec]. destruct a as [r| |a]; cbn [born_step lives flat_map app].
    - rewrite IH. reflexivity.
    - rewrite IH. reflexivity.
    - destruct (ls a y) as [e y1] eqn:L. cbn [life_exec]. rewrite L. rewrite IH. fold (lives acts). destruct (lx (lives acts) y1) as [e2 y2].
      cbn. now rewrite map_app.
  Qed.

  (** Only the watchdog changes its state; nothing revives it. *)
  Definition unrun (y : @life S) : Prop := lf_watch y = false \/ sy_watch (lf_sys y) = WStart.
  Lemma release_fields : forall y : @life S, lf_sys (snd (@release S E y)) = lf_sys y /\ lf_watch (snd (@release S E y)) = lf_watch y /\
    lf_listen (snd (@release S E y)) = lf_listen y.
  Proof. intros y. now cbn. Qed.
  Lemma stays : forall a y, a <> LifeWatch ->
    sy_watch (lf_sys (snd (ls a y))) = sy_watch (lf_sys y) /\ (lf_watch (snd (ls a y)) = lf_watch y \/ lf_watch (snd (ls a y)) = false).
  Proof.
    intros a y N. destruct a as [t x|t u|t|d| | | |]; cbn [life_step sys_step].
    - destruct (owns y t && usable y t x)%bool; [|cbn; auto]. destruct (step cn bd chunk x (sy_config (lf_sys y))). cbn. auto.
    - destruct (owns y t && negb (owns y u))%bool; cbn; auto.
    - destruct (owns y t && negb (borrowed y t))%bool; cbn; auto.
    - cbn. auto.
    - congruence.
    - destruct (lf_listen y); [|cbn; auto]. unfold listen_step, listen_ended. destruct (sy_listen (lf_sys y)) eqn:X; cbn.
      + destruct (status (cf_conn (sy_config (lf_sys y)))); cbn; auto.
      + auto.
      + rewrite X. cbn. auto.
    - destruct (lf_watch y) eqn:W; [|cbn; auto]. destruct (sy_watch (lf_sys y)) eqn:X; cbn; auto.
    - destruct (lf_listen y) eqn:W; [|cbn; auto]. destruct (sy_listen (lf_sys y)) eqn:X; cbn; auto.
  Qed.
  Lemma unrun_stays : forall a y, a <> LifeWatch -> unrun y -> unrun (snd (ls a y)).
  Proof.
    intros a y N [U|U]; destruct (stays a y N) as [A [B|B]]; unfold unrun; rewrite ?A, ?B; auto.
  Qed.
  Lemma erased_sees : forall l : list (life_event E), map erased (map BornSees l) = map BornSees l.
  Proof. intros l. rewrite map_map. apply map_ext. reflexivity. Qed.

  Lemma untimed_step : forall a y, unrun y ->
    exists ev y', bs (Born a) (Alive false y) = (ev, Alive false y') /\
      map erased ev = map BornSees (fst (ls (stops_watch a) y)) /\ y' = snd (ls (stops_watch a) y) /\ unrun y'.
  Proof.
    intros a y U. destruct (lf_watch y) eqn:W.
    - destruct U as [U|U]; [congruence|].
      assert (C : a = LifeWatch \/ a <> LifeWatch) by (destruct a; (now left) || (right; discriminate)).
      destruct C as [->|NA].
      + cbn [born_step]. rewrite U, W. unfold watch_panics. cbn [stops_watch life_step]. rewrite U, W.
        destruct (@release S E (Life (lf_sys y) (lf_owners y) (lf_strong y) false (lf_listen y))) as [ev y'] eqn:R.
        eexists _, _. split; [reflexivity|]. cbn [map fst snd]. rewrite erased_sees. split; [reflexivity|]. split; [reflexivity|].
        left. destruct (release_fields (Life (lf_sys y) (lf_owners y) (lf_strong y) false (lf_listen y))) as (_ & X & _). rewrite R in X. exact X.
      + assert (B : bs (Born a) (Alive false y) = (let (ev, y') := ls a y in (map BornSees ev, Alive false y'))).
        { cbn [born_step]. destruct a; try reflexivity. congruence. }
        rewrite B. replace (stops_watch a) with a by (destruct a; reflexivity || congruence).
        pose proof (unrun_stays a y NA (or_intror U)) as Z. destruct (ls a y) as [ev y'] eqn:L. exists (map BornSees ev), y'. cbn [fst snd] in *.
        split; [reflexivity|]. split; [apply erased_sees|]. auto.
    - assert (B : bs (Born a) (Alive false y) = (let (ev, y') := ls a y in (map BornSees ev, Alive false y'))).
      { cbn [born_step]. destruct a; try reflexivity. rewrite W. destruct (sy_watch (lf_sys y)); reflexivity. }
      rewrite B. assert (X : ls (stops_watch a) y = ls a y).
      { destruct a; try reflexivity. cbn [stops_watch life_step]. now rewrite W. }
      rewrite X. destruct (ls a y) as [ev y'] eqn:L. exists (map BornSees ev), y'. cbn [fst snd].
      split; [reflexivity|]. split; [apply erased_sees|]. split; [reflexivity|].
      assert (C : a = LifeWatch \/ a <> LifeWatch) by (destruct a; (now left) || (right; discriminate)).
      destruct C as [->|NA].
      + cbn [life_step] in L. rewrite W in L. injection L as <- <-. now left.
      + pose proof (unrun_stays a y NA U) as Z. now rewrite L in Z.
  Qed.
  Lemma untimed : forall acts y, unrun y ->
    map erased (fst (bx acts (Alive false y))) = map BornSees (fst (lx (map stops_watch (lives acts)) y)) /\
    snd (bx acts (Alive false y)) = Alive false (snd (lx (map stops_watch (lives acts)) y)).
  Proof.
    induction acts as [|a acts IH]; intros y U; [split; reflexivity|]. cbn [born_exec]. destruct a as [r| |a].
    - cbn [born_step lives flat_map app]. fold (lives acts). specialize (IH y U). destruct (bx acts (Alive false y)). exact IH.
    - cbn [born_step lives flat_map app]. fold (lives acts). specialize (IH y U). destruct (bx acts (Alive false y)). exact IH.
    - destruct (untimed_step a y U) as (ev & y' & B & EV & Y & U'). rewrite B. cbn [lives flat_map app map life_exec]. fold (lives acts).
      destruct (ls (stops_watch a) y) as [e y1] eqn:L. cbn [fst snd] in EV, Y. subst y'. specialize (IH y1 U').
      destruct (bx acts (Alive false y1)) as [e2 b2]. destruct (lx (map stops_watch (lives acts)) y1) as [e3 y3]. cbn [fst snd] in *.
      rewrite !map_app, EV. destruct IH as [I1 I2]. now rewrite I1, I2.
  Qed.

  (** ** From the poll *)
  Lemma made_outside : forall conn now, @machine_made S E NoRuntime init st conn now = ([BornPanicked; BornSees LifeFreed], NoMachine).
  Proof. intros. reflexivity. Qed.
  Lemma made_running : forall timer conn now, @machine_made S E (Running timer) init st conn now =
    ([BornMade], Alive timer (life_init init st conn now)).
  Proof. intros. reflexivity. Qed.
  Lemma made_shut : forall conn now, @machine_made S E ShutDown init st conn now =
    ([BornSees LifeListenCancelled; BornSees LifeWatchCancelled; BornMade],
     Alive false (snd (lx [LifeCancelListen; LifeCancelWatch] (life_init init st conn now)))).
  Proof. intros. reflexivity. Qed.

  Context (conn : S) (now : N).
  Local Notation run acts := (bx acts (Unborn conn now)).

  Lemma from_poll : forall a r b, waits a ->
    run (a ++ BornPoll r :: b) = (fst (@machine_made S E r init st conn (now + life_elapsed (lives a))) ++
        fst (bx b (snd (@machine_made S E r init st conn (now + life_elapsed (lives a))))),
      snd (bx b (snd (@machine_made S E r init st conn (now + life_elapsed (lives a)))))).
  Proof.
    intros a r b W. rewrite bexec_app, (waiting a conn now W). cbn [fst snd app born_exec born_step].
    destruct (machine_made r init st conn (now + life_elapsed (lives a))) as [e y]. cbn [fst snd]. now destruct (bx b y).
  Qed.

  Lemma lazy_ : forall acts, (forall r, ~ In (BornPoll r) acts) ->
    fst (run acts) = if existsb (fun a => match a with BornForget => true | _ => false end) acts then [BornSees LifeFreed] else [].
  Proof.
    intros acts. generalize now. induction acts as [|a acts IH]; intros n N; [reflexivity|].
    assert (N' : forall r, ~ In (BornPoll r) acts) by (intros r I; apply (N r); now right).
    cbn [born_exec existsb]. destruct a as [r| |a].
    - destruct (N r). now left.
    - cbn [born_step]. rewrite over. reflexivity.
    - cbn [orb]. destruct a; cbn [born_step];
        match goal with |- context [bx acts ?z] => match z with Unborn conn ?m => specialize (IH m N'); destruct (bx acts z) end end;
        exact IH.
  Qed.
  Lemma outside : forall a b, waits a -> run (a ++ BornPoll NoRuntime :: b) = ([BornPanicked; BornSees LifeFreed], NoMachine).
  Proof. intros a b W. rewrite from_poll by exact W. rewrite made_outside. cbn [fst snd]. now rewrite over. Qed.
  Lemma running : forall a b, waits a -> fst (run (a ++ BornPoll (Running true) :: b)) =
    BornMade :: map BornSees (fst (lx (lives b) (life_init init st conn (now + life_elapsed (lives a))))).
  Proof. intros a b W. rewrite from_poll by exact W. rewrite made_running. cbn [fst snd]. now rewrite timed. Qed.
  Lemma no_timer : forall a b, waits a -> map erased (fst (run (a ++ BornPoll (Running false) :: b))) =
    BornMade :: map BornSees (fst (lx (map stops_watch (lives b)) (life_init init st conn (now + life_elapsed (lives a))))).
  Proof.
    intros a b W. rewrite from_poll by exact W. rewrite made_running. cbn [fst snd app map].
    destruct (untimed b (life_init init st conn (now + life_elapsed (lives a)))) as [X _]; [now right|]. now rewrite X.
  Qed.
  (** Nobody is left to be run. *)
  Lemma quiet : forall b y, lf_watch y = false -> lf_listen y = false ->
    fst (bx b (Alive false y)) = map BornSees (fst (lx (lives b) y)) /\
    snd (bx b (Alive false y)) = Alive false (snd (lx (lives b) y)).
  Proof.
    induction b as [|a b IH]; intros y W L; [split; reflexivity|]. cbn [born_exec]. destruct a as [r| |a].
    - cbn [born_step lives flat_map app]. fold (lives b). specialize (IH y W L). destruct (bx b (Alive false y)). exact IH.
    - cbn [born_step lives flat_map app]. fold (lives b). specialize (IH y W L). destruct (bx b (Alive false y)). exact IH.
    - assert (B : bs (Born a) (Alive false y) = (let (ev, y') := ls a y in (map BornSees ev, Alive false y'))).
      { cbn [born_step]. destruct a; try reflexivity. rewrite W. destruct (sy_watch (lf_sys y)); reflexivity. }
      rewrite B. cbn [lives flat_map app life_exec]. fold (lives b).
      assert (F : lf_watch (snd (ls a y)) = false /\ lf_listen (snd (ls a y)) = false).
      { destruct a as [t x|t u|t|d| | | |]; cbn [life_step]; rewrite ?W, ?L; try (cbn; auto; fail).
        - destruct (owns y t && usable y t x)%bool; [|auto]. cbn [sys_step]. destruct (step cn bd chunk x (sy_config (lf_sys y))). cbn. auto.
        - destruct (owns y t && negb (owns y u))%bool; cbn; auto.
        - destruct (owns y t && negb (borrowed y t))%bool; cbn; auto. }
      destruct (ls a y) as [e y1]. cbn [fst snd] in F. destruct F as [F1 F2]. specialize (IH y1 F1 F2).
      destruct (bx b (Alive false y1)) as [e2 b2]. destruct (lx (lives b) y1) as [e3 y3]. cbn [fst snd] in *.
      rewrite map_app. destruct IH as [-> ->]. auto.
  Qed.
  Lemma shut : forall a b, waits a -> exists tr,
    fst (run (a ++ BornPoll ShutDown :: b)) = [BornSees LifeListenCancelled; BornSees LifeWatchCancelled; BornMade] ++ map BornSees tr /\
    fst (lx (LifeCancelListen :: LifeCancelWatch :: lives b) (life_init init st conn (now + life_elapsed (lives a)))) =
      LifeListenCancelled :: LifeWatchCancelled :: tr.
  Proof.
    intros a b W. set (y0 := life_init init st conn (now + life_elapsed (lives a))).
    exists (fst (lx (lives b) (snd (lx [LifeCancelListen; LifeCancelWatch] y0)))).
    rewrite from_poll by exact W. rewrite made_shut. fold y0. cbn [fst snd]. split.
    - destruct (quiet b (snd (lx [LifeCancelListen; LifeCancelWatch] y0)) eq_refl eq_refl) as [-> _]. reflexivity.
    - change (LifeCancelListen :: LifeCancelWatch :: lives b) with ([LifeCancelListen; LifeCancelWatch] ++ lives b).
      rewrite lexec_app. destruct (lx [LifeCancelListen; LifeCancelWatch] y0) as [e y] eqn:X.
      assert (EE : e = [LifeListenCancelled; LifeWatchCancelled]).
      { change e with (fst (e, y)). rewrite <- X. reflexivity. }
      cbn [fst snd]. rewrite EE. destruct (lx (lives b) y). reflexivity.
  Qed.

  (** ** The tasks in each runtime *)
  Lemma watched_none : forall acts y, ~ In SysWatch acts -> watched (fst (sx acts y)) = [].
  Proof.
    induction acts as [|a acts IH]; intros y N; [reflexivity|]. cbn [sys_exec].
    assert (N' : ~ In SysWatch acts) by (intros I0; apply N; now right).
    destruct (sys_step cn status bd chunk timeout a y) as [e y1] eqn:X. specialize (IH y1 N'). destruct (sx acts y1) as [e2 y2].
    cbn [fst]. rewrite watched_app. cbn [fst] in IH. rewrite IH, app_nil_r.
    destruct a as [a|d| |]; cbn [sys_step] in X.
    - destruct (step cn bd chunk a (sy_config y)) as [e3 c]. injection X as <- <-. clear. induction e3 as [|z l H]; [reflexivity|exact H].
    - now injection X as <- <-.
    - destruct N. now left.
    - unfold listen_step in X. destruct (sy_listen y); injection X as <- <-; [reflexivity| |reflexivity].
      destruct s; reflexivity.
  Qed.

  Definition tame (a : life_action) : bool := match a with LifeWatch | LifeListen => false | _ => true end.
  Lemma tamed : forall acts y, lf_watch y = false -> lf_listen y = false -> lx acts y = lx (filter tame acts) y.
  Proof.
    induction acts as [|a acts IH]; intros y W L; [reflexivity|].
    assert (F : tame a = true -> lf_watch (snd (ls a y)) = false /\ lf_listen (snd (ls a y)) = false).
    { intros T. destruct a as [t x|t u|t|d| | | |]; try discriminate T; cbn [life_step]; rewrite ?W, ?L; try (cbn; auto; fail).
      - destruct (owns y t && usable y t x)%bool; [|auto]. cbn [sys_step]. destruct (step cn bd chunk x (sy_config (lf_sys y))). cbn. auto.
      - destruct (owns y t && negb (owns y u))%bool; cbn; auto.
      - destruct (owns y t && negb (borrowed y t))%bool; cbn; auto. }
    cbn [filter]. destruct (tame a) eqn:T.
    - cbn [life_exec]. destruct (F eq_refl) as [F1 F2]. destruct (ls a y) as [e y1]. cbn [snd] in *. now rewrite IH.
    - assert (X : ls a y = ([], y)) by (destruct a; try discriminate T; cbn [life_step]; rewrite ?W, ?L; reflexivity).
      cbn [life_exec]. rewrite X, IH by assumption. now destruct (lx (filter tame acts) y).
  Qed.
  Lemma tame_elapsed : forall acts, life_elapsed (filter tame acts) = life_elapsed acts.
  Proof.
    unfold life_elapsed. induction acts as [|a acts IH]; [reflexivity|]. cbn [filter]. destruct a; cbn [tame flat_map system_action]; rewrite ?elapsed_app, ?IH; try reflexivity.
  Qed.
  Lemma stops_elapsed : forall acts, life_elapsed (map stops_watch acts) = life_elapsed acts.
  Proof.
    unfold life_elapsed. induction acts as [|a acts IH]; [reflexivity|]. cbn [map flat_map]. rewrite !elapsed_app, IH. now destruct a.
  Qed.
  Lemma some_tame : forall acts c, some_of c (flat_map system_action (filter tame acts)) ->
    some_of c (flat_map system_action acts) /\ ~ In SysWatch c /\ ~ In SysListen c.
  Proof.
    intros acts c H. split.
    - revert c H. induction acts as [|a acts IH]; intros c H; [exact H|]. cbn [filter] in H. destruct a; cbn [tame system_action app flat_map] in *;
        try (inversion H; subst; constructor; now apply IH); try now apply IH.
    - split; intros I; pose proof (some_in _ _ _ _ H I) as J; apply in_flat_map in J as (a & J & K); apply filter_In in J as [_ J];
        destruct a; cbn in K, J; intuition discriminate.
  Qed.

  Lemma of_machine_erased : forall tr : list (born_event E), of_machine (map erased tr) = of_machine tr.
  Proof.
    unfold of_machine. intros tr. induction tr as [|e tr IH]; [reflexivity|]. cbn [map flat_map]. rewrite !of_system_app, IH. f_equal. now destruct e.
  Qed.
  Lemma of_machine_sees : forall tr : list (life_event E), of_machine (map BornSees tr) = of_system tr.
  Proof.
    unfold of_machine. intros tr. f_equal. induction tr as [|e tr IH]; [reflexivity|]. cbn [map flat_map app]. now rewrite IH.
  Qed.
  Lemma of_machine_app : forall a b : list (born_event E), of_machine (a ++ b) = of_machine a ++ of_machine b.
  Proof. intros. unfold of_machine. now rewrite flat_map_app, of_system_app. Qed.

  Lemma machine_system : forall a r b, waits a -> r <> NoRuntime -> exists acts,
    some_of acts (flat_map system_action (lives b)) /\ elapsed acts = life_elapsed (lives b) /\
    (r <> Running true -> ~ In SysWatch acts) /\ (r = ShutDown -> ~ In SysListen acts) /\
    fst (sx acts (system_init init st conn (now + life_elapsed (lives a)))) = of_machine (fst (run (a ++ BornPoll r :: b))).
  Proof.
    intros a r b W NR. destruct r as [| |[|]]; [congruence|..].
    - destruct (shut a b W) as (tr & X & Y).
      assert (Z : fst (lx (LifeCancelListen :: LifeCancelWatch :: filter tame (lives b)) (life_init init st conn (now + life_elapsed (lives a)))) =
        LifeListenCancelled :: LifeWatchCancelled :: tr).
      { rewrite <- Y. change (LifeCancelListen :: LifeCancelWatch :: filter tame (lives b)) with ([LifeCancelListen; LifeCancelWatch] ++ filter tame (lives b)).
        change (LifeCancelListen :: LifeCancelWatch :: lives b) with ([LifeCancelListen; LifeCancelWatch] ++ lives b).
        rewrite !lexec_app.
        destruct (lx [LifeCancelListen; LifeCancelWatch] (life_init init st conn (now + life_elapsed (lives a)))) as [e y] eqn:Q.
        assert (YY : y = snd (lx [LifeCancelListen; LifeCancelWatch] (life_init init st conn (now + life_elapsed (lives a))))) by now rewrite Q.
        cbn [fst snd]. rewrite <- (tamed (lives b) y); [reflexivity|now rewrite YY..]. }
      destruct (life_system cn status bd chunk timeout init st conn (now + life_elapsed (lives a))
        (LifeCancelListen :: LifeCancelWatch :: filter tame (lives b))) as (acts & A & B & C).
      cbn [flat_map system_action app] in A. destruct (some_tame _ _ A) as (A1 & A2 & A3).
      exists acts. split; [exact A1|]. split; [rewrite B; apply tame_elapsed|]. split; [auto|]. split; [auto|].
      rewrite C, X, of_machine_app, of_machine_sees. cbn [fst]. rewrite Z. reflexivity.
    - destruct (life_system cn status bd chunk timeout init st conn (now + life_elapsed (lives a)) (lives b)) as (acts & A & B & C).
      exists acts. split; [exact A|]. split; [exact B|]. split; [congruence|]. split; [discriminate|].
      rewrite C, running by exact W. change (BornMade :: ?l) with ([BornMade] ++ l). rewrite of_machine_app, of_machine_sees. reflexivity.
    - destruct (life_system cn status bd chunk timeout init st conn (now + life_elapsed (lives a)) (map stops_watch (lives b))) as (acts & A & B & C).
      destruct (some_trans_map _ _ A) as [A1 A2].
      exists acts. split; [exact A1|]. split; [rewrite B; apply stops_elapsed|]. split; [auto|]. split; [discriminate|].
      rewrite C. rewrite <- of_machine_erased, no_timer by exact W.
      change (BornMade :: ?l) with ([BornMade] ++ l). rewrite of_machine_app, of_machine_sees. reflexivity.
  Qed.

  Lemma cut : forall acts, waits acts \/ exists a x b, acts = a ++ x :: b /\ waits a /\ (x = BornForget \/ exists r, x = BornPoll r).
  Proof.
    induction acts as [|x acts IH]; [left; intros ? []|]. destruct x as [r| |x].
    - right. exists [], (BornPoll r), acts. split; [reflexivity|]. split; [intros ? []|eauto].
    - right. exists [], BornForget, acts. split; [reflexivity|]. split; [intros ? []|eauto].
    - assert (C : forall l, waits l -> waits (Born x :: l)) by (intros l H y [<-|I]; eauto).
      destruct IH as [IH|(a & y & b & -> & W & H)]; [left; auto|]. right. exists (Born x :: a), y, b. split; [reflexivity|]. auto.
  Qed.
  Lemma closed_by : forall acts, watched (of_machine (fst (run acts))) <> [] ->
    exists a b, acts = a ++ BornPoll (Running true) :: b /\ waits a /\ timeout < life_elapsed (lives b).
  Proof.
    intros acts H. destruct (cut acts) as [W|(a & x & b & -> & W & [->|(r & ->)])].
    - rewrite (waiting acts conn now W) in H. now destruct H.
    - rewrite bexec_app, (waiting a conn now W) in H. cbn [fst snd app born_exec born_step] in H. rewrite over in H. now destruct H.
    - assert (R : r = NoRuntime \/ r <> NoRuntime) by (destruct r; (now left) || (right; discriminate)). destruct R as [->|R].
      { rewrite outside in H by exact W. now destruct H. }
      destruct (machine_system a r b W R) as (l & A & B & C & _ & D). rewrite <- D in H.
      assert (T : r = Running true).
      { destruct r as [| |[|]]; try reflexivity; exfalso; apply H; apply watched_none; apply C; discriminate. }
      subst r. exists a, b. split; [reflexivity|]. split; [exact W|]. rewrite <- B.
      destruct (@watch_safe S E cn status bd chunk timeout init st conn (now + life_elapsed (lives a)) l) as [X|[X _]]; [|exact X].
      cbv zeta in X. congruence.
  Qed.
  Lemma asked_by : forall acts, statuses (of_machine (fst (run acts))) <> [] ->
    exists a timer b, acts = a ++ BornPoll (Running timer) :: b /\ waits a.
  Proof.
    intros acts H. destruct (cut acts) as [W|(a & x & b & -> & W & [->|(r & ->)])].
    - rewrite (waiting acts conn now W) in H. now destruct H.
    - rewrite bexec_app, (waiting a conn now W) in H. cbn [fst snd app born_exec born_step] in H. rewrite over in H. now destruct H.
    - destruct r as [| |timer]; [rewrite outside in H by exact W; now destruct H| |eauto].
      exfalso. apply H. destruct (machine_system a ShutDown b W ltac:(discriminate)) as (l & A & B & C & D & F). rewrite <- F.
      specialize (D eq_refl). specialize (C ltac:(discriminate)). clear - D C.
      generalize (system_init init st conn (now + life_elapsed (lives a))). induction l as [|x l IH]; intros y; [reflexivity|]. cbn [sys_exec].
      assert (D' : ~ In SysListen l) by (intros I; apply D; now right). assert (C' : ~ In SysWatch l) by (intros I; apply C; now right).
      destruct (sys_step cn status bd chunk timeout x y) as [e y1] eqn:X. specialize (IH C' D' y1). destruct (sx l y1) as [e2 y2].
      cbn [fst] in *. rewrite statuses_app, IH, app_nil_r. destruct x as [x|d| |]; cbn [sys_step] in X.
      + destruct (step cn bd chunk x (sy_config y)) as [e3 c]. injection X as <- <-. clear. induction e3 as [|z l' H]; [reflexivity|exact H].
      + now injection X as <- <-.
      + destruct C. now left.
      + destruct D. now left.
  Qed.
End B.
