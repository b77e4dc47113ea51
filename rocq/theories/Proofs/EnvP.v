(** * A machine whose connection also changes by itself *)

From Coq Require Import Lia.
From Verif Require Import Model.EnvM Spec.Env.
From Verif Require Import Proofs.SystemP.

(** The answers in a trace. *)
Definition answers {E : Type} (tr : list (sys_event E)) : list (option E) :=
  flat_map (fun e => match e with SysEv (EvSend _ _ r) | SysEv (EvPush _ _ r) => [r] | _ => [] end) tr.
Lemma answers_app : forall E (a b : list (sys_event E)), answers (a ++ b) = answers a ++ answers b.
Proof. intros. apply flat_map_app. Qed.
Lemma but_listener_app : forall E (a b : list (sys_event E)), but_listener (a ++ b) = but_listener a ++ but_listener b.
Proof. intros. apply filter_app. Qed.
Lemma sights_app : forall M E (a b : list (env_event M E)), sights (a ++ b) = sights a ++ sights b.
Proof. intros. apply flat_map_app. Qed.
Lemma sights_sees : forall M E (l : list (sys_event E)), sights (map (@EnvSees M E) l) = l.
Proof. intros M E l. unfold sights. induction l as [|e l IH]; [reflexivity|]. cbn. now rewrite IH. Qed.
Lemma steps_app : forall M (a b : list (env_action M)), steps_of (a ++ b) = steps_of a ++ steps_of b.
Proof. intros. apply flat_map_app. Qed.

Section P.
  Context {S E M : Type} (cn : connection S E) (status : S -> option connection_status) (move : M -> S -> S).
  Context (bd : build) (chunk : option N) (timeout : N).
  Local Notation ex := (env_exec cn status move bd chunk timeout).
  Local Notation ss := (sys_step cn status bd chunk timeout).
  Local Notation ss' := (sys_step (@scripted E) (fun _ => None) bd chunk timeout).
  Local Notation sx' := (sys_exec (@scripted E) (fun _ => None) bd chunk timeout).

  (** The same but for the connection and what the listener knows. *)
  Definition like (y : @system S) (rest : list (option E)) (y' : @system (list (option E))) : Prop :=
    cf_counter (sy_config y') = cf_counter (sy_config y) /\ cf_store (sy_config y') = cf_store (sy_config y) /\
    cf_threads (sy_config y') = cf_threads (sy_config y) /\ cf_conn (sy_config y') = rest /\
    sy_last y' = sy_last y /\ sy_now y' = sy_now y /\ sy_watch y' = sy_watch y.

  Lemma like_step : forall a y rest y', like y (answers (fst (ss a y)) ++ rest) y' ->
    but_listener (fst (ss' a y')) = but_listener (fst (ss a y)) /\ like (snd (ss a y)) rest (snd (ss' a y')).
  Proof.
    intros a [c last now w li] rest [c' last' now' w' li'] L. unfold like in *.
    destruct c as [k st cs th]. destruct c' as [k' st' cs' th']. cbn [sy_config cf_counter cf_store cf_conn cf_threads sy_last sy_now sy_watch sy_listen] in *.
    destruct L as (-> & -> & -> & -> & -> & -> & ->). destruct a as [a|d| |]; cbn [sys_step sy_config].
    - destruct a as [t p|t|t m| |n|n|t]; cbn [step cf_counter cf_store cf_conn cf_threads].
      + destruct (th t); cbn; auto 10.
      + destruct (th t) as [|p|p sid|p sid s|]; try (cbn; auto 10; fail).
        * destruct (st sid); [cbn; auto 10|]. destruct (fnf_start chunk sid p); cbn; auto 10.
        * destruct (fnf_next bd s) as [[[f s']|]| |]; try (cbn; auto 10; fail).
          destruct (cn_send_and_forget cn cs f) as [cs2 r]. cbn. destruct r; cbn; auto 10.
      + destruct (th t); cbn; auto 10.
      + cbn. auto 10.
      + cbn. auto 10.
      + cbn. auto 10.
      + destruct (th t); cbn; auto 10.
    - cbn. auto 10.
    - unfold watch_step. cbn [sy_watch sy_now sy_last]. destruct w as [|u| |]; try (cbn; auto 10; fail).
      destruct (now <? u); [cbn; auto 10|]. destruct (timeout <? now - last); cbn; auto 10.
    - unfold listen_step. cbn [sy_listen]. destruct li as [|s|]; destruct li' as [|s'|]; cbn; auto 10;
        try (destruct s; cbn; auto 10); try (destruct s'; cbn; auto 10).
  Qed.

  Lemma like_exec : forall acts y rest y', like y (answers (sights (fst (ex acts y))) ++ rest) y' ->
    but_listener (fst (sx' (steps_of acts) y')) = but_listener (sights (fst (ex acts y))) /\
    like (snd (ex acts y)) rest (snd (sx' (steps_of acts) y')).
  Proof.
    induction acts as [|a acts IH]; intros y rest y' L; [split; [reflexivity|exact L]|].
    cbn [env_exec] in *. destruct a as [a|m].
    - cbn [env_step] in *. destruct (ss a y) as [ev y1] eqn:Y.
      destruct (ex acts y1) as [evs y2] eqn:Z. cbn [fst snd] in *. rewrite sights_app, sights_sees in L |- *.
      rewrite answers_app, <- app_assoc in L.
      pose proof (like_step a y (answers (sights evs) ++ rest) y') as X. rewrite Y in X. cbn [fst snd] in X. specialize (X L).
      change (steps_of (EnvSys a :: acts)) with (a :: steps_of acts). cbn [sys_exec].
      destruct (ss' a y') as [ev' y1'] eqn:Y'. cbn [fst snd] in X. destruct X as [X1 X2].
      specialize (IH y1 rest y1'). rewrite Z in IH. cbn [fst snd] in IH. specialize (IH X2).
      destruct (sx' (steps_of acts) y1') as [evs' y2']. cbn [fst snd] in *. rewrite !but_listener_app, X1.
      destruct IH as [-> IH]. auto.
    - cbn [env_step] in *. specialize (IH (moved move m y) rest y'). destruct (ex acts (moved move m y)) as [evs y2].
      cbn [fst snd app] in *. change (sights (EnvMoved m :: evs)) with (sights evs) in *.
      change (steps_of (EnvMove m :: acts)) with (steps_of acts). apply IH. exact L.
  Qed.

  Context (init : Z) (st : store) (conn : S) (now : N).
  Local Notation run acts := (ex acts (system_init init st conn now)).

  Lemma same_but_listener : forall acts, exists rs,
    but_listener (fst (sx' (steps_of acts) (system_init init st rs now))) = but_listener (sights (fst (run acts))).
  Proof.
    intros acts. exists (answers (sights (fst (run acts)))).
    apply (like_exec acts (system_init init st conn now) [] (system_init init st (answers (sights (fst (run acts)))) now)).
    rewrite app_nil_r. unfold like. cbn. auto 10.
  Qed.

  Lemma watched_but : forall tr : list (sys_event E), watched (but_listener tr) = watched tr.
  Proof. unfold watched, but_listener. induction tr as [|e tr IH]; [reflexivity|]. destruct e; cbn; rewrite ?IH; reflexivity. Qed.
  Lemma watch_env : forall acts, watched (sights (fst (run acts))) =
    match watch_runs 0 (steps_of acts) with [] => [] | t0 :: ts => asleep_since timeout t0 ts end.
  Proof.
    intros acts. destruct (same_but_listener acts) as (rs & H). rewrite <- watched_but, <- H, watched_but. apply watch_exact.
  Qed.

  (** ** Induction from the start *)
  Lemma eexec_snoc : forall acts a y, ex (acts ++ [a]) y =
    (fst (ex acts y) ++ fst (env_step cn status move bd chunk timeout a (snd (ex acts y))), snd (env_step cn status move bd chunk timeout a (snd (ex acts y)))).
  Proof.
    induction acts as [|x acts IH]; intros a y; cbn [app env_exec].
    - cbn. destruct (env_step cn status move bd chunk timeout a y) as [ev y']. cbn. now rewrite app_nil_r.
    - destruct (env_step cn status move bd chunk timeout x y) as [ev y']. rewrite IH. destruct (ex acts y') as [evs y''].
      cbn [fst snd]. destruct (env_step cn status move bd chunk timeout a y'') as [ev3 y3]. cbn. now rewrite app_assoc.
  Qed.
  Lemma env_replays_app : forall s (a b : list (env_event M E)) s1 s2,
    env_replays cn status move s a s1 -> env_replays cn status move s1 b s2 -> env_replays cn status move s (a ++ b) s2.
  Proof. intros s a b s1 s2 H K. induction H; [exact K|]. cbn [app]. econstructor; eauto. Qed.
  Lemma env_replays_sys : forall s tr s', sys_replays cn status s tr s' -> env_replays cn status move s (map EnvSees tr) s'.
  Proof. intros s tr s' H. induction H; [constructor|]. cbn [map]. econstructor; [exact H|exact IHsys_replays]. Qed.
  Lemma sstep_replays : forall a y, sys_replays cn status (cf_conn (sy_config y)) (fst (ss a y)) (cf_conn (sy_config (snd (ss a y)))).
  Proof.
    intros a y. destruct a as [a|d| |]; cbn [sys_step].
    - pose proof (step_replays cn bd chunk a (sy_config y)) as X. destruct (step cn bd chunk a (sy_config y)) as [ev c].
      cbn [fst snd sy_config] in *. now apply sys_replays_threads.
    - constructor.
    - unfold watch_step. destruct (sy_watch y) as [|u| |]; [constructor| | |constructor].
      + destruct (sy_now y <? u); [constructor|]. destruct (timeout <? sy_now y - sy_last y); [|constructor].
        apply sys_replays_logs. reflexivity.
      + apply sys_replays_one. reflexivity.
    - unfold listen_step. destruct (sy_listen y) as [|s|]; [|apply sys_replays_logs; reflexivity|constructor].
      apply sys_replays_one. now split.
  Qed.
  Lemma env_replayed : forall acts, env_replays cn status move conn (fst (run acts)) (cf_conn (sy_config (snd (run acts)))).
  Proof.
    induction acts as [|a acts IH] using rev_ind; [constructor|]. rewrite eexec_snoc. cbn [fst snd]. eapply env_replays_app; [exact IH|].
    destruct a as [a|m]; cbn [env_step].
    - pose proof (sstep_replays a (snd (run acts))) as X. destruct (ss a (snd (run acts))) as [ev y']. cbn [fst snd] in *. now apply env_replays_sys.
    - cbn [fst snd]. econstructor; [reflexivity|constructor].
  Qed.

  (** ** The listener *)
  Definition listens (acts : list (env_action M)) : Prop :=
    let tr := sights (fst (run acts)) in
    match sy_listen (snd (run acts)) with
    | LAsk => exists h, statuses tr = map Some h /\ listened tr = lines h /\ turns (steps_of acts) = (2 * length h)%nat
    | LReport s => exists h, statuses tr = map Some (h ++ [s]) /\ listened tr = lines h /\ turns (steps_of acts) = (2 * length h + 1)%nat
    | LDone => exists h, statuses tr = map Some h ++ [None] /\ listened tr = lines h
    end.
  Lemma listens_all : forall acts, listens acts.
  Proof.
    induction acts as [|a acts H] using rev_ind; [exists []; repeat split|]. unfold listens in *. rewrite eexec_snoc. cbn [fst snd].
    rewrite sights_app, statuses_app, listened_app, steps_app, turns_app. set (y := snd (run acts)) in *. set (tr := sights (fst (run acts))) in *.
    destruct a as [a|m]; cbn [env_step].
    2:{ cbn. now rewrite !app_nil_r, Nat.add_0_r. }
    change (steps_of [EnvSys a]) with [a]. destruct (ss a y) as [ev y'] eqn:Y. cbn [fst snd]. rewrite sights_sees.
    destruct a as [a|d| |]; cbn [sys_step] in Y.
    - destruct (step cn bd chunk a (sy_config y)) as [ev0 c]. injection Y as <- <-. cbn [sy_listen]. change (turns [SysAct a]) with 0%nat.
      destruct (threads_only ev0) as (_ & -> & ->). now rewrite !app_nil_r, Nat.add_0_r.
    - injection Y as <- <-. cbn. now rewrite !app_nil_r, Nat.add_0_r.
    - assert (X : sy_listen y' = sy_listen y /\ statuses ev = [] /\ listened ev = []).
      { unfold watch_step in Y. destruct (sy_watch y) as [|u| |]; [injection Y as <- <-; easy| |injection Y as <- <-; easy|injection Y as <- <-; easy].
        destruct (sy_now y <? u); [injection Y as <- <-; easy|]. destruct (timeout <? sy_now y - sy_last y); injection Y as <- <-; easy. }
      destruct X as (-> & -> & ->). change (turns [SysWatch]) with 0%nat. now rewrite !app_nil_r, Nat.add_0_r.
    - change (turns [SysListen]) with 1%nat. unfold listen_step in Y. destruct (sy_listen y) as [|s|] eqn:Ls.
      + destruct H as (h & Hs & Hl & Ht). destruct (status (cf_conn (sy_config y))) as [s|]; injection Y as <- <-; cbn.
        * exists h. rewrite Hs, Hl, Ht, map_app, app_nil_r. repeat split.
        * exists h. now rewrite Hs, Hl, app_nil_r.
      + destruct H as (h & Hs & Hl & Ht). injection Y as <- <-. cbn [set_listen sy_listen]. exists (h ++ [s]).
        rewrite lines_snoc, Hs, Hl, Ht, app_length. cbn [length].
        destruct s; cbn; rewrite ?app_nil_r; (split; [reflexivity|split; [reflexivity|lia]]).
      + injection Y as <- <-. cbn. rewrite Ls, !app_nil_r. exact H.
  Qed.
  Lemma listener_env : forall acts, exists h last, listened (sights (fst (run acts))) = lines h /\
    statuses (sights (fst (run acts))) = map Some h ++ last /\
    ((last = [] /\ turns (steps_of acts) = (2 * length h)%nat) \/
     ((exists s, last = [Some s]) /\ turns (steps_of acts) = (2 * length h + 1)%nat) \/ last = [None]).
  Proof.
    intros acts. pose proof (listens_all acts) as H. unfold listens in H. cbv zeta in H.
    destruct (sy_listen (snd (run acts))).
    - destruct H as (h & Hs & Hl & Ht). exists h, []. rewrite app_nil_r. split; [exact Hl|]. split; [exact Hs|left; now split].
    - destruct H as (h & Hs & Hl & Ht). exists h, [Some s]. rewrite map_app in Hs. split; [exact Hl|]. split; [exact Hs|].
      right. left. split; [now exists s|exact Ht].
    - destruct H as (h & Hs & Hl). exists h, [None]. split; [exact Hl|]. split; [exact Hs|right; now right].
  Qed.

  (** ** After a close, by whomever *)
  Lemma replays_cut : forall (a b : list (env_event M E)) s s2, env_replays cn status move s (a ++ b) s2 ->
    exists s1, env_replays cn status move s a s1 /\ env_replays cn status move s1 b s2.
  Proof.
    induction a as [|e a IH]; intros b s s2 H; [exists s; split; [constructor|exact H]|]. cbn [app] in H. inversion H as [|? ? s1 ? ? U K]; subst.
    destruct (IH _ _ _ K) as (s3 & A & B). exists s3. split; [econstructor; eauto|exact B].
  Qed.
  Lemma env_after_close : forall closed, closes_for_good cn closed -> (forall m s, closed s -> closed (move m s)) ->
    forall acts pre e post, fst (run acts) = pre ++ e :: post ->
    (e = EnvSees (SysEv EvClose) \/ e = EnvSees SysWatchClose \/ exists m, e = EnvMoved m /\ forall s, closed (move m s)) ->
    forall t f r, In (EnvSees (SysEv (EvSend t f r))) post -> r <> None.
  Proof.
    intros closed (C1 & C2 & C3) CM acts pre e post T CE. pose proof (env_replayed acts) as R. rewrite T in R.
    apply replays_cut in R as (s1 & _ & R). inversion R as [|? ? s2 ? s3 U K]; subst. clear R.
    assert (CL : closed s2).
    { destruct CE as [->|[->|(m & -> & H)]]; cbn in U; subst s2; auto. }
    clear T U CE. induction K as [s|s x s4 tr s5 U K IH]; intros t f r I; [destruct I|].
    assert (CL' : closed s4).
    { destruct x as [[x| | | |]|m]; cbn in U; try (subst s4; auto; fail).
      - destruct x; cbn in U; try (subst s4; auto; fail).
        + pose proof (proj1 (C3 s f0 CL)) as Z. rewrite U in Z. exact Z.
        + pose proof (C2 s f0 CL) as Z. rewrite U in Z. exact Z.
      - destruct U as [_ ->]. exact CL. }
    destruct I as [->|I]; [|exact (IH CL' t f r I)]. cbn in U. pose proof (proj2 (C3 s f CL)) as Z. rewrite U in Z. exact Z.
  Qed.
End P.
