(** * The status listener after a close *)

From Coq Require Import Lia.
From Verif Require Import Model.SystemM Spec.System.
From Verif Require Import Proofs.SystemP.

Section Flood.
  Context {S E : Type} (cn : connection S E) (status : S -> option connection_status) (bd : build)
          (chunk : option N) (timeout : N) (closed : S -> Prop).
  Hypothesis Hc : stays_closed cn closed.
  Hypothesis Ht : tells status closed.

  Definition now_closed (y : @system S) : Prop := closed (cf_conn (sy_config y)).
  Definition alive (y : @system S) : Prop := sy_listen y <> LDone.

  Lemma step_closed : forall a c, closed (cf_conn c) -> closed (cf_conn (snd (step cn bd chunk a c))).
  Proof.
    destruct Hc as (C1 & C2 & C3). intros a c H. destruct a as [t p|t|t md| |k|k|t]; cbn [step].
    - now destruct (cf_threads c t).
    - destruct (cf_threads c t) as [|p|p sid|p sid st|]; try exact H.
      + now destruct (cf_store c sid), (fnf_start chunk sid p).
      + destruct (fnf_next bd st) as [[[f st']|]| |]; try exact H.
        specialize (C3 _ f H). destruct (cn_send_and_forget cn (cf_conn c) f) as [conn' r]. exact C3.
    - destruct (cf_threads c t); try exact H. cbn [metadata_push]. apply C2, H.
    - apply C1.
    - exact H.
    - exact H.
    - now destruct (cf_threads c t).
  Qed.

  (** One action: the connection stays closed, the listener goes on, and only a turn of the listener
      logs for it. *)
  Definition line : effect := Logged "connection was closed".
  Definition due (l : listen) : list effect :=
    match l with LReport s => match status_line s with Some t => [Logged t] | None => [] end | _ => [] end.
  Lemma sys_step_closed : forall a y, now_closed y -> alive y ->
    let r := sys_step cn status bd chunk timeout a y in
    now_closed (snd r) /\ alive (snd r) /\
    match a with
    | SysListen =>
      (sy_listen y = LAsk /\ listened (fst r) = [] /\ sy_listen (snd r) = LReport Closed) \/
      ((exists s, sy_listen y = LReport s) /\ listened (fst r) = due (sy_listen y) /\ sy_listen (snd r) = LAsk)
    | _ => listened (fst r) = [] /\ sy_listen (snd r) = sy_listen y
    end.
  Proof.
    intros a y Hy Ha. unfold now_closed, alive in *. destruct a as [a|d| |]; cbn [sys_step].
    - pose proof (step_closed a _ Hy) as X. destruct (step cn bd chunk a (sy_config y)) as [ev c].
      cbn [fst snd sy_listen sy_config] in *. split; [exact X|]. split; [exact Ha|].
      destruct (threads_only ev) as (_ & _ & E0). now split.
    - cbn. auto.
    - unfold watch_step. destruct (sy_watch y) as [|u| |]; cbn; auto.
      + destruct (sy_now y <? u); [cbn; auto|]. destruct (timeout <? sy_now y - sy_last y); cbn; auto.
      + split; [apply Hc|]. auto.
    - unfold listen_step. destruct (sy_listen y) as [|s|] eqn:L; [| |congruence].
      + rewrite (proj2 Ht _ Hy). cbn. split; [exact Hy|]. split; [discriminate|]. auto.
      + cbn [fst snd set_listen sy_config sy_listen]. split; [exact Hy|]. split; [discriminate|].
        right. split; [eauto|]. split; [|reflexivity]. now destruct s.
  Qed.

  Lemma sexec_cons : forall a acts y,
    sys_exec cn status bd chunk timeout (a :: acts) y =
    let r := sys_step cn status bd chunk timeout a y in
    let r' := sys_exec cn status bd chunk timeout acts (snd r) in
    (fst r ++ fst r', snd r').
  Proof.
    intros a acts y. cbn [sys_exec]. destruct (sys_step _ _ _ _ _ a y) as [ev y'].
    cbn [snd fst]. now destruct (sys_exec _ _ _ _ _ acts y').
  Qed.

  Lemma flood : forall acts y, now_closed y -> alive y ->
    let r := sys_exec cn status bd chunk timeout acts y in
    let k := turns acts in
    listened (fst r) =
      match sy_listen y with
      | LAsk => repeat line (Nat.div2 k)
      | LReport s => match k with O => [] | Datatypes.S k' => due (LReport s) ++ repeat line (Nat.div2 k') end
      | LDone => []
      end.
  Proof.
    induction acts as [|a acts IH]; intros y Hy Ha; [cbn; now destruct (sy_listen y)|].
    rewrite sexec_cons. cbv zeta. cbn [fst].
    destruct (sys_step_closed a y Hy Ha) as (Hy' & Ha' & X). specialize (IH _ Hy' Ha'). cbv zeta in IH.
    rewrite listened_app, IH.
    destruct a as [a|d| |]; try (destruct X as (-> & ->); reflexivity).
    change (turns (SysListen :: acts)) with (Datatypes.S (turns acts)).
    destruct X as [(L & -> & ->)|((s & L) & -> & ->)]; rewrite L.
    - destruct (turns acts) as [|k']; reflexivity.
    - reflexivity.
  Qed.

  Lemma sys_exec_closed : forall acts y, now_closed y -> now_closed (snd (sys_exec cn status bd chunk timeout acts y)).
  Proof.
    induction acts as [|a acts IH]; intros y Hy; [exact Hy|].
    rewrite sexec_cons. cbv zeta. cbn [snd]. apply IH. unfold now_closed in *. destruct a as [a|d| |]; cbn [sys_step].
    - pose proof (step_closed a _ Hy) as X. now destruct (step cn bd chunk a (sy_config y)).
    - exact Hy.
    - unfold watch_step. destruct (sy_watch y) as [|u| |]; try exact Hy; [|apply Hc].
      destruct (sy_now y <? u); [exact Hy|]. now destruct (timeout <? sy_now y - sy_last y).
    - unfold listen_step. destruct (sy_listen y) as [|s|]; exact Hy.
  Qed.

  Lemma step_closes : forall a c, In EvClose (fst (step cn bd chunk a c)) -> closed (cf_conn (snd (step cn bd chunk a c))).
  Proof.
    intros a c. destruct a as [t p|t|t md| |k|k|t]; cbn [step].
    - destruct (cf_threads c t); intros H; destruct H.
    - destruct (cf_threads c t) as [|p|p sid|p sid st|]; try (intros H; cbn in H; tauto).
      + intros [H|[]]; discriminate.
      + destruct (cf_store c sid), (fnf_start chunk sid p); cbn; intros H; intuition discriminate.
      + destruct (fnf_next bd st) as [[[f st']|]| |]; try (cbn; intros H; intuition discriminate).
        destruct (cn_send_and_forget cn (cf_conn c) f). cbn; intros H; intuition discriminate.
    - destruct (cf_threads c t); try (intros H; cbn in H; tauto).
      cbn; intros H; intuition discriminate.
    - intros _. apply Hc.
    - cbn; intros H; intuition discriminate.
    - cbn; intros H; intuition discriminate.
    - destruct (cf_threads c t); cbn; intros H; intuition discriminate.
  Qed.

  Lemma close_seen : forall acts y, In EvClose (seen (fst (sys_exec cn status bd chunk timeout acts y))) ->
    now_closed (snd (sys_exec cn status bd chunk timeout acts y)).
  Proof.
    induction acts as [|a acts IH]; intros y; [intros []|].
    rewrite sexec_cons. cbv zeta. cbn [fst snd]. unfold seen. rewrite flat_map_app, in_app_iff. intros [H|H]; [|now apply IH].
    apply sys_exec_closed. unfold now_closed. revert H. destruct a as [a|d| |]; cbn [sys_step].
    - pose proof (step_closes a (sy_config y)) as X. destruct (step cn bd chunk a (sy_config y)) as [ev c].
      cbn [fst snd] in *. intros H. apply X. fold (seen (map SysEv ev)) in H. now rewrite seen_threads in H.
    - intros [].
    - unfold watch_step. destruct (sy_watch y) as [|u| |]; try (intros []; fail).
      + destruct (sy_now y <? u); [intros []|]. destruct (timeout <? sy_now y - sy_last y); cbn; tauto.
      + intros _. apply Hc.
    - unfold listen_step. destruct (sy_listen y) as [|s|]; [|destruct s|]; cbn; tauto.
  Qed.
End Flood.

Lemma alive_run : forall (S E : Type) (cn : connection S E) status bd chunk timeout init st0 conn0 now acts,
  (forall s, status s <> None) ->
  sy_listen (snd (sys_exec cn status bd chunk timeout acts (system_init init st0 conn0 now))) <> LDone.
Proof.
  intros S E cn status bd chunk timeout init st0 conn0 now acts Hs.
  assert (X : forall acts y, sy_listen y <> LDone -> sy_listen (snd (sys_exec cn status bd chunk timeout acts y)) <> LDone).
  { clear acts. induction acts as [|a acts IH]; intros y Hy; [exact Hy|].
    rewrite sexec_cons. cbv zeta. cbn [snd]. apply IH. destruct a as [a|d| |]; cbn [sys_step].
    - destruct (step cn bd chunk a (sy_config y)). exact Hy.
    - exact Hy.
    - unfold watch_step. destruct (sy_watch y) as [|u| |]; try exact Hy.
      destruct (sy_now y <? u); [exact Hy|]. now destruct (timeout <? sy_now y - sy_last y).
    - unfold listen_step. destruct (sy_listen y) as [|s|]; [| |congruence]; cbn; [|discriminate].
      specialize (Hs (cf_conn (sy_config y))). destruct (status (cf_conn (sy_config y))); [discriminate|congruence]. }
  apply X. discriminate.
Qed.

Lemma repeats : forall (S E : Type) (cn : connection S E) status bd chunk timeout init st0 conn0 now closed,
  stays_closed cn closed -> tells status closed -> forall acts acts',
  let y := snd (sys_exec cn status bd chunk timeout acts (system_init init st0 conn0 now)) in
  closed (cf_conn (sy_config y)) ->
  exists first n,
    listened (fst (sys_exec cn status bd chunk timeout acts' y)) = first ++ repeat (Logged "connection was closed") n /\
    (length first <= 1)%nat /\ (2 * n <= turns acts' <= 2 * n + 2)%nat.
Proof.
  intros S E cn status bd chunk timeout init st0 conn0 now closed Hc Ht acts acts' y Hy.
  pose proof (alive_run _ _ cn status bd chunk timeout init st0 conn0 now acts (proj1 Ht)) as Ha. fold y in Ha.
  rewrite (flood cn status bd chunk timeout closed Hc Ht acts' y Hy Ha).
  assert (D : forall k, (2 * Nat.div2 k <= k <= 2 * Nat.div2 k + 1)%nat).
  { intros k. pose proof (Nat.div2_odd k) as X. destruct (Nat.odd k); cbn [Nat.b2n] in X; lia. }
  destruct (sy_listen y) as [|s|]; [| |congruence].
  - exists [], (Nat.div2 (turns acts')). split; [reflexivity|]. split; [cbn; lia|]. specialize (D (turns acts')). lia.
  - destruct (turns acts') as [|k].
    + exists [], 0%nat. split; [reflexivity|]. cbn; lia.
    + exists (due (LReport s)), (Nat.div2 k). split; [reflexivity|]. split; [cbn; destruct (status_line s); cbn; lia|].
      specialize (D k). lia.
Qed.

Lemma one_close : forall (S E : Type) (cn : connection S E) status bd chunk timeout init st0 conn0 now closed,
  stays_closed cn closed -> tells status closed -> forall n,
  listened (fst (sys_exec cn status bd chunk timeout (SysAct Close :: repeat SysListen (2 * n))
    (system_init init st0 conn0 now))) = repeat (Logged "connection was closed") n.
Proof.
  intros S E cn status bd chunk timeout init st0 conn0 now closed Hc Ht n.
  rewrite sexec_cons. cbv zeta. cbn [fst snd sys_step step]. rewrite listened_app. cbn [map].
  change (listened [SysEv EvClose]) with (@nil effect). cbn [app].
  rewrite (flood cn status bd chunk timeout closed Hc Ht); [|apply Hc|discriminate].
  cbn [sy_listen system_init]. f_equal.
  assert (T : forall k, turns (repeat SysListen k) = k).
  { induction k as [|k IH]; [reflexivity|]. cbn in *. f_equal. exact IH. }
  rewrite T. now rewrite Nat.div2_double.
Qed.

Lemma repeats_after_close : forall (S E : Type) (cn : connection S E) status bd chunk timeout init st0 conn0 now closed,
  stays_closed cn closed -> tells status closed -> forall acts acts',
  let run := sys_exec cn status bd chunk timeout acts (system_init init st0 conn0 now) in
  (In EvClose (seen (fst run)) \/ closed (cf_conn (sy_config (snd run)))) ->
  exists first n,
    listened (fst (sys_exec cn status bd chunk timeout acts' (snd run))) = first ++ repeat (Logged "connection was closed") n /\
    (length first <= 1)%nat /\ (2 * n <= turns acts' <= 2 * n + 2)%nat.
Proof.
  intros S E cn status bd chunk timeout init st0 conn0 now closed Hc Ht acts acts' run H.
  apply (repeats S E cn status bd chunk timeout init st0 conn0 now closed Hc Ht). destruct H as [H|H]; [|exact H].
  exact (close_seen cn status bd chunk timeout closed Hc acts _ H).
Qed.

Lemma one_close_only : forall (S E : Type) (cn : connection S E) status bd chunk timeout init st0 conn0 now closed,
  stays_closed cn closed -> tells status closed -> forall n, exists acts,
  let tr := fst (sys_exec cn status bd chunk timeout acts (system_init init st0 conn0 now)) in
  seen tr = [EvClose] /\ elapsed acts = 0 /\ listened tr = repeat (Logged "connection was closed") n.
Proof.
  intros S E cn status bd chunk timeout init st0 conn0 now closed Hc Ht n.
  exists (SysAct Close :: repeat SysListen (2 * n)). cbv zeta. split; [|split; [|now apply (one_close S E cn status bd chunk timeout init st0 conn0 now closed)]].
  - rewrite sexec_cons. cbv zeta. cbn [fst snd sys_step step map]. unfold seen at 1. rewrite flat_map_app.
    cbn [flat_map app]. f_equal. generalize (2 * n)%nat. intros k.
    match goal with |- flat_map _ (fst (sys_exec _ _ _ _ _ _ ?y)) = _ => generalize y end.
    induction k as [|k IH]; intros y; [reflexivity|]. cbn [repeat]. rewrite sexec_cons. cbv zeta. cbn [fst].
    rewrite flat_map_app, IH, app_nil_r. cbn [sys_step]. unfold listen_step.
    destruct (sy_listen y) as [|s|]; [|destruct s|]; reflexivity.
  - generalize (2 * n)%nat. intros k. induction k as [|k IH]; [reflexivity|]. exact IH.
Qed.
