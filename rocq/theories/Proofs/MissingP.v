(** * The methods that are not implemented *)

From Verif Require Import Model.SocketM Spec.Socket.
From Verif Require Import Proofs.SidP Proofs.SocketP Proofs.TraceP Proofs.ProgressP.

Section Connection.
  Context {S E : Type} (cn : connection S E).
  Variables (bd : build) (chunk : option N).

  (** Two configurations that differ only in what thread [t], not in a call, is: the first has panicked. *)
  Definition gone_only (t : nat) (c d : @config S) : Prop :=
    cf_counter c = cf_counter d /\ cf_store c = cf_store d /\ cf_conn c = cf_conn d /\
    cf_threads c t = Panicked /\ forall u, u <> t -> cf_threads c u = cf_threads d u.

  Lemma gone_set : forall t u x cnt st conn (c d : @config S), gone_only t c d -> u <> t ->
    gone_only t (Config cnt st conn (set_thread (cf_threads c) u x)) (Config cnt st conn (set_thread (cf_threads d) u x)).
  Proof.
    intros t u x cnt st conn c d (_ & _ & _ & G & O) Hn. repeat split; cbn [cf_threads].
    - rewrite set_other by congruence. exact G.
    - intros v Hv. destruct (Nat.eq_dec v u) as [->|N]; [now rewrite !set_same|rewrite !set_other by exact N; now apply O].
  Qed.
  Lemma gone_same : forall t cnt st conn (c d : @config S), gone_only t c d ->
    gone_only t (Config cnt st conn (cf_threads c)) (Config cnt st conn (cf_threads d)).
  Proof. intros t cnt st conn c d (_ & _ & _ & G & O). now repeat split. Qed.

  Definition about (t : nat) (a : action) : bool :=
    match a with Call u _ | Run u | Push u _ | Request u => Nat.eqb u t | _ => false end.

  Lemma gone_own : forall t a (c d : @config S), gone_only t c d -> about t a = true ->
    step cn bd chunk a c = ([], c).
  Proof.
    intros t a c d (_ & _ & _ & G & _) H.
    destruct a as [u p|u|u md| |k|k|u]; cbn in H; try discriminate; apply Nat.eqb_eq in H as ->; cbn [step]; now rewrite G.
  Qed.

  Lemma gone_step : forall t a (c d : @config S), gone_only t c d -> about t a = false ->
    exists ev c' d', step cn bd chunk a c = (ev, c') /\ step cn bd chunk a d = (ev, d') /\ gone_only t c' d' /\
      Forall (fun e => by_thread t e = false) ev.
  Proof.
    intros t a c d G H. pose proof G as (G1 & G2 & G3 & _ & O).
    assert (K : forall ev (r s : list (event E) * @config S), fst r = ev -> fst s = ev -> gone_only t (snd r) (snd s) ->
      Forall (fun e => by_thread t e = false) ev ->
      exists ev c' d', r = (ev, c') /\ s = (ev, d') /\ gone_only t c' d' /\ Forall (fun e => by_thread t e = false) ev).
    { intros ev [e1 c'] [e2 d'] <- X Y Z. cbn in X, Y, Z |- *. subst e2. now exists e1, c', d'. }
    assert (B : forall u, Nat.eqb u t = false -> u <> t) by (intros u Hu ->; now rewrite Nat.eqb_refl in Hu).
    destruct a as [u p|u|u md| |k|k|u]; cbn in H; cbn [step]; rewrite ?G1, ?G2, ?G3.
    - rewrite <- (O u (B u H)). destruct (cf_threads c u); (eapply K; [reflexivity|reflexivity| |constructor]); cbn [snd];
        try exact G. apply gone_set; [exact G|now apply B].
    - rewrite <- (O u (B u H)). destruct (cf_threads c u) as [|p|p sid|p sid st|]; try (eapply K; [reflexivity|reflexivity|exact G|constructor]).
      + destruct (sid_draw (cf_counter d)) as [sid cnt]. eapply K; [reflexivity|reflexivity| |now repeat constructor].
        apply gone_set; [exact G|now apply B].
      + destruct (cf_store d sid); [|destruct (fnf_start chunk sid p)];
          (eapply K; [reflexivity|reflexivity|apply gone_set; [exact G|now apply B]|now repeat constructor]).
      + destruct (fnf_next bd st) as [[[f st']|]| |]; try destruct (cn_send_and_forget cn (cf_conn d) f) as [conn' r];
          (eapply K; [reflexivity|reflexivity|apply gone_set; [exact G|now apply B]|now repeat constructor]).
    - rewrite <- (O u (B u H)). destruct (cf_threads c u); try (eapply K; [reflexivity|reflexivity|exact G|constructor]).
      cbn [metadata_push].
      eapply K; [reflexivity|reflexivity|apply gone_same, G|]. now repeat constructor.
    - eapply K; [reflexivity|reflexivity|apply gone_same, G|now repeat constructor].
    - eapply K; [reflexivity|reflexivity|apply gone_same, G|now repeat constructor].
    - eapply K; [reflexivity|reflexivity|apply gone_same, G|now repeat constructor].
    - rewrite <- (O u (B u H)). destruct (cf_threads c u); try (eapply K; [reflexivity|reflexivity|exact G|constructor]).
      eapply K; [reflexivity|reflexivity|apply gone_set; [exact G|now apply B]|now repeat constructor].
  Qed.

  Lemma gone_run : forall t acts (c d : @config S), gone_only t c d ->
    fst (exec cn bd chunk acts c) = fst (exec cn bd chunk (without t acts) d) /\
    gone_only t (snd (exec cn bd chunk acts c)) (snd (exec cn bd chunk (without t acts) d)) /\
    Forall (fun e => by_thread t e = false) (fst (exec cn bd chunk acts c)).
  Proof.
    intros t acts. induction acts as [|a acts IH]; intros c d G; [split; [reflexivity|split; [exact G|constructor]]|].
    assert (W : without t (a :: acts) = if about t a then without t acts else a :: without t acts).
    { unfold without. cbn [filter]. destruct a as [u p|u|u md| |k|k|u]; cbn [about]; try reflexivity; now destruct (Nat.eqb u t). }
    rewrite W. clear W. destruct (about t a) eqn:A.
    - cbn [exec]. rewrite (gone_own t a c d G A). destruct (IH c d G) as (X & Y & Z).
      destruct (exec cn bd chunk acts c) as [ev c']. cbn [fst snd app] in *. auto.
    - destruct (gone_step t a c d G A) as (ev & c' & d' & Ec & Ed & G' & F). cbn [exec]. rewrite Ec, Ed.
      destruct (IH c' d' G') as (X & Y & Z).
      destruct (exec cn bd chunk acts c') as [ev1 c1], (exec cn bd chunk (without t acts) d') as [ev2 d1]. cbn [fst snd] in *.
      split; [now rewrite X|]. split; [exact Y|]. apply Forall_app. auto.
  Qed.

  Lemma missing : forall t acts acts' (c : @config S),
    cf_threads (snd (exec cn bd chunk acts c)) t = Idle ->
    exists rest,
      fst (exec cn bd chunk (acts ++ Request t :: acts') c) = fst (exec cn bd chunk acts c) ++ EvMissing t :: rest /\
      fst (exec cn bd chunk (acts ++ without t acts') c) = fst (exec cn bd chunk acts c) ++ rest /\
      Forall (fun e => by_thread t e = false) rest /\
      gone_only t (snd (exec cn bd chunk (acts ++ Request t :: acts') c)) (snd (exec cn bd chunk (acts ++ without t acts') c)).
  Proof.
    intros t acts acts' c T. rewrite !exec_app. cbn [fst snd exec step].
    destruct (exec cn bd chunk acts c) as [tr d]. cbn [fst snd] in *. rewrite T.
    set (d' := Config (cf_counter d) (cf_store d) (cf_conn d) (set_thread (cf_threads d) t Panicked)).
    assert (G : gone_only t d' d).
    { repeat split; cbn [d' cf_threads]; [apply set_same|]. intros u Hu. now apply set_other. }
    destruct (gone_run t acts' d' d G) as (X & Y & Z).
    destruct (exec cn bd chunk acts' d') as [ev c1]. cbn [fst snd] in *. exists ev. rewrite X. cbn [app].
    split; [reflexivity|]. split; [reflexivity|]. split; [now rewrite <- X|exact Y].
  Qed.
End Connection.
