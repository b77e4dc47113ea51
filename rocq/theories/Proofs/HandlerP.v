(** * The request handler *)

From Coq Require Import Lia.
From Verif Require Import Model.HandlerM Spec.Handler.

Lemma arrivals_app a b : arrivals (a ++ b) = arrivals a ++ arrivals b.
Proof. apply flat_map_app. Qed.
Lemma sets_app a b : sets (a ++ b) = sets a ++ sets b.
Proof. apply flat_map_app. Qed.
Lemma returns_app a b : returns (a ++ b) = returns a ++ returns b.
Proof. apply flat_map_app. Qed.
Lemma dropped_app a b : dropped (a ++ b) = dropped a ++ dropped b.
Proof. apply flat_map_app. Qed.
Lemma cancelled_app a b : cancelled (a ++ b) = cancelled a ++ cancelled b.
Proof. apply flat_map_app. Qed.

Lemma memb_In k l : memb k l = true <-> In k l.
Proof.
  unfold memb. rewrite existsb_exists. split.
  - intros (x & Hx & He). apply Nat.eqb_eq in He. now subst.
  - intros H. exists k. split; [exact H|apply Nat.eqb_refl].
Qed.
Lemma memb_not k l : memb k l = false <-> ~ In k l.
Proof. rewrite <- memb_In. destruct (memb k l); split; congruence. Qed.

Lemma handler_exec_app a b s :
  handler_exec (a ++ b) s =
  (fst (handler_exec a s) ++ fst (handler_exec b (snd (handler_exec a s))),
   snd (handler_exec b (snd (handler_exec a s)))).
Proof.
  revert s. induction a as [|x a IH]; intros s; cbn [app handler_exec fst snd].
  - now destruct (handler_exec b s).
  - destruct (handler_step x s) as [ev s1]. rewrite IH.
    destruct (handler_exec a s1) as [e1 s2]. cbn [fst snd]. now rewrite app_assoc.
Qed.

Definition active (c : call_state) : Prop :=
  match c with CQueued true | CHolding | CAssigned => True | _ => False end.
(** Who has the lock. *)
Definition owner (s : handler_state) (o : option nat) : Prop :=
  match o with
  | None => hs_free s = true /\ hs_queue s = [] /\ forall j, ~ active (hs_calls s j)
  | Some k => hs_free s = false /\ active (hs_calls s k) /\ forall j, active (hs_calls s j) -> j = k
  end.
Definition owner_waits (s : handler_state) (o : option nat) : list nat :=
  match o with Some k => match hs_calls s k with CAssigned => [] | _ => [k] end | None => [] end.
Definition owner_set (s : handler_state) (o : option nat) : list nat :=
  match o with Some k => match hs_calls s k with CAssigned => [k] | _ => [] end | None => [] end.

(** What the trace says about a call in each state. *)
Definition tagged (tr : list handler_event) (k : nat) (c : call_state) : Prop :=
  match c with
  | CAbsent | CFresh => ~ In k (arrivals tr) /\ ~ In k (sets tr) /\ ~ In k (cancelled tr)
  | CQueued g => In k (arrivals tr) /\ ~ In k (sets tr) /\ ~ In k (cancelled tr) /\ (g = true -> In (HvWake k) tr)
  | CHolding => In k (arrivals tr) /\ ~ In k (sets tr) /\ ~ In k (cancelled tr)
  | CAssigned => In k (arrivals tr) /\ In k (sets tr) /\ ~ In k (cancelled tr)
  | CGone => (In k (arrivals tr) /\ In k (sets tr) /\ ~ In k (cancelled tr)) \/ (~ In k (sets tr) /\ In k (cancelled tr))
  end.

Record inv (tr : list handler_event) (s : handler_state) (o : option nat) : Prop := {
  i_zero : hs_calls s 0 = CAbsent;
  i_owner : owner s o;
  i_queue : forall k, In k (hs_queue s) <-> hs_calls s k = CQueued false;
  i_nodup : NoDup (arrivals tr);
  i_tag : forall k, tagged tr k (hs_calls s k);
  i_line : in_line tr = sets tr ++ owner_waits s o ++ hs_queue s;
  i_sets : sets tr = returns tr ++ owner_set s o;
  i_cur : hs_current s = in_place tr;
  i_drop1 : NoDup (dropped tr);
  i_drop2 : forall h, In h (dropped tr) <->
    (h <> hs_current s /\ (h = 0%nat \/ In h (sets tr))) \/ In h (cancelled tr) }.

Lemma last_in (l : list nat) d : In (last l d) l \/ last l d = d.
Proof.
  induction l as [|x l IH]; [now right|]. left. destruct l as [|y l]; [now left|].
  destruct IH as [IH|IH]; [right; exact IH|].
  change (last (x :: y :: l) d) with (last (y :: l) d). clear IH.
  right. revert y. induction l as [|z l IHl]; intros y; [now left|].
  right. change (last (y :: z :: l) d) with (last (z :: l) d). apply IHl.
Qed.

Lemma inv_init : inv [] handler_init None.
Proof.
  split; try reflexivity; try (constructor; fail).
  - cbn. repeat split. intros j [].
  - intros k. split; [intros []|discriminate].
  - intros k. cbn. tauto.
  - intros h. split; [intros []|]. cbn. intros [[H [->|[]]]|[]]. congruence.
Qed.

Lemma tag_other tr ev k c : (forall e, In e ev -> match e with
    | HvArrive j | HvSet j | HvCancel j => j <> k | _ => True end) ->
  tagged tr k c -> tagged (tr ++ ev) k c.
Proof.
  intros H.
  assert (Ha : In k (arrivals (tr ++ ev)) <-> In k (arrivals tr)).
  { rewrite arrivals_app, in_app_iff. split; [|tauto]. intros [|Hk]; [assumption|exfalso].
    unfold arrivals in Hk. apply in_flat_map in Hk. destruct Hk as (e & He & Hk). specialize (H e He).
    destruct e; cbn in Hk; try contradiction. destruct Hk as [->|[]]. congruence. }
  assert (Hs : In k (sets (tr ++ ev)) <-> In k (sets tr)).
  { rewrite sets_app, in_app_iff. split; [|tauto]. intros [|Hk]; [assumption|exfalso].
    unfold sets in Hk. apply in_flat_map in Hk. destruct Hk as (e & He & Hk). specialize (H e He).
    destruct e; cbn in Hk; try contradiction. destruct Hk as [->|[]]. congruence. }
  assert (Hc : In k (cancelled (tr ++ ev)) <-> In k (cancelled tr)).
  { rewrite cancelled_app, in_app_iff. split; [|tauto]. intros [|Hk]; [assumption|exfalso].
    unfold cancelled in Hk. apply in_flat_map in Hk. destruct Hk as (e & He & Hk). specialize (H e He).
    destruct e; cbn in Hk; try contradiction. destruct Hk as [->|[]]. congruence. }
  destruct c; cbn [tagged]; rewrite ?Ha, ?Hs, ?Hc; try tauto.
  intros (H1 & H2 & H3 & H4). repeat split; auto. intros Hg. apply in_app_iff. left. now apply H4.
Qed.

Lemma set_call_same cs k c : set_call cs k c k = c.
Proof. unfold set_call. now rewrite Nat.eqb_refl. Qed.
Lemma set_call_other cs k c j : j <> k -> set_call cs k c j = cs j.
Proof. unfold set_call. intros H. destruct (Nat.eqb_spec j k); congruence. Qed.

Lemma NoDup_app_snoc {A} (l : list A) k : NoDup l -> ~ In k l -> NoDup (l ++ [k]).
Proof.
  intros H Hk. apply (NoDup_Add (a := k) (l := l)); [|now split]. rewrite <- (app_nil_r l) at 1. apply Add_app.
Qed.

(** How the line changes. *)
Lemma line_arrive tr k ev : ~ In k (cancelled tr) -> arrivals ev = [k] -> cancelled ev = [] ->
  in_line (tr ++ ev) = in_line tr ++ [k].
Proof.
  intros Hk Ha Hc. unfold in_line. rewrite arrivals_app, cancelled_app, Ha, Hc, app_nil_r, filter_app. f_equal.
  cbn. now rewrite (proj2 (memb_not _ _) Hk).
Qed.
Lemma line_same tr ev : arrivals ev = [] -> cancelled ev = [] -> in_line (tr ++ ev) = in_line tr.
Proof. intros Ha Hc. unfold in_line. now rewrite arrivals_app, cancelled_app, Ha, Hc, !app_nil_r. Qed.
Lemma filter_twice {A} (f g : A -> bool) l : filter f (filter g l) = filter (fun x => g x && f x) l.
Proof.
  induction l as [|x l IH]; [reflexivity|]. cbn. destruct (g x); cbn; [|exact IH].
  destruct (f x); now rewrite IH.
Qed.
Lemma line_cancel tr k ev : arrivals ev = [] -> cancelled ev = [k] -> in_line (tr ++ ev) = drop_from k (in_line tr).
Proof.
  intros Ha Hc. unfold in_line, drop_from. rewrite arrivals_app, cancelled_app, Ha, Hc, app_nil_r, filter_twice.
  apply filter_ext. intros x. unfold memb. rewrite existsb_app. cbn.
  destruct (existsb (Nat.eqb x) (cancelled tr)), (Nat.eqb x k); reflexivity.
Qed.
Lemma drop_from_none k l : ~ In k l -> drop_from k l = l.
Proof.
  intros H. induction l as [|x l IH]; [reflexivity|]. cbn. destruct (Nat.eqb_spec x k) as [->|].
  - exfalso. apply H. now left.
  - cbn. f_equal. apply IH. intros Hk. apply H. now right.
Qed.
Lemma drop_from_app k a b : drop_from k (a ++ b) = drop_from k a ++ drop_from k b.
Proof. apply filter_app. Qed.
Lemma drop_from_In k l j : In j (drop_from k l) <-> In j l /\ j <> k.
Proof.
  unfold drop_from. rewrite filter_In. destruct (Nat.eqb_spec j k); cbn; split; intros [? ?]; split; congruence.
Qed.

Lemma current_known tr s o : inv tr s o -> hs_current s = 0%nat \/ In (hs_current s) (sets tr).
Proof. intros I. rewrite (i_cur _ _ _ I). unfold in_place. destruct (last_in (sets tr) 0%nat); auto. Qed.

Lemma line_NoDup tr s o : inv tr s o -> NoDup (in_line tr).
Proof. intros I. apply NoDup_filter, (i_nodup _ _ _ I). Qed.

Lemma queue_NoDup tr s o : inv tr s o -> NoDup (hs_queue s).
Proof.
  intros I. assert (H := line_NoDup _ _ _ I). rewrite (i_line _ _ _ I) in H.
  induction (sets tr) as [|x l IH]; cbn in H; [|inversion H; auto].
  induction (owner_waits s o) as [|x l IH]; cbn in H; [exact H|inversion H; auto].
Qed.

Lemma step_ok a tr s o : inv tr s o -> exists o', inv (tr ++ fst (handler_step a s)) (snd (handler_step a s)) o'.
Proof.
  intros I. assert (Hstay : exists o', inv (tr ++ fst (@nil handler_event, s)) (snd (@nil handler_event, s)) o')
    by (exists o; cbn; now rewrite app_nil_r).
  destruct a as [k|k|k|k]; cbn [handler_step].
  - (* HStart *)
    destruct k as [|k]; [exact Hstay|]. destruct (hs_calls s (S k)) eqn:Hk; try exact Hstay.
    exists o. cbn [fst snd]. rewrite app_nil_r. destruct I as [Z O Q N T L R C D1 D2].
    assert (Hact : forall j, active (set_call (hs_calls s) (S k) CFresh j) <-> active (hs_calls s j)).
    { intros j. destruct (Nat.eq_dec j (S k)) as [->|Hj]; [rewrite set_call_same, Hk; tauto|now rewrite set_call_other]. }
    split; cbn [hs_calls hs_queue hs_current hs_free]; try assumption.
    + destruct o as [m|]; cbn in *.
      * destruct O as (O1 & O2 & O3). repeat split; [exact O1|now apply Hact|]. intros j Hj. now apply O3, Hact.
      * destruct O as (O1 & O2 & O3). repeat split; try assumption. intros j Hj. now apply (O3 j), Hact.
    + intros j. rewrite Q. destruct (Nat.eq_dec j (S k)) as [->|Hj]; [rewrite set_call_same, Hk; split; discriminate|].
      now rewrite set_call_other.
    + intros j. specialize (T j). destruct (Nat.eq_dec j (S k)) as [->|Hj]; [|now rewrite set_call_other].
      rewrite set_call_same. rewrite Hk in T. exact T.
    + rewrite L. destruct o as [m|]; cbn [owner_waits]; [|reflexivity].
      destruct (Nat.eq_dec m (S k)) as [->|Hm]; [|cbn [hs_calls]; now rewrite set_call_other].
      destruct O as (_ & O2 & _). rewrite Hk in O2. destruct O2.
    + rewrite R. destruct o as [m|]; cbn [owner_set]; [|reflexivity].
      destruct (Nat.eq_dec m (S k)) as [->|Hm]; [|cbn [hs_calls]; now rewrite set_call_other].
      destruct O as (_ & O2 & _). rewrite Hk in O2. destruct O2.
  - (* HPoll *)
    destruct (hs_calls s k) as [| |[|]| | |] eqn:Hk; try exact Hstay.
    + (* fresh *)
      assert (Tk := i_tag _ _ _ I k). rewrite Hk in Tk. destruct Tk as (Ta & Ts & Tc).
      assert (Hk0 : k <> 0%nat) by (intros ->; rewrite (i_zero _ _ _ I) in Hk; discriminate).
      destruct (hs_free s) eqn:Hf; cbn [fst snd].
      * exists (Some k). destruct o as [m|]; [destruct (i_owner _ _ _ I) as (O1 & _); congruence|].
        destruct I as [Z (_ & O2 & O3) Q N T L R C D1 D2].
        split; cbn [hs_calls hs_queue hs_current hs_free].
        -- now rewrite set_call_other by auto.
        -- cbn. rewrite set_call_same. repeat split. intros j Hj. destruct (Nat.eq_dec j k) as [->|Hj']; [reflexivity|].
           rewrite set_call_other in Hj by auto. now apply O3 in Hj.
        -- intros j. rewrite Q. destruct (Nat.eq_dec j k) as [->|Hj]; [rewrite set_call_same, Hk; split; discriminate|].
           now rewrite set_call_other.
        -- rewrite arrivals_app. apply NoDup_app_snoc; assumption.
        -- intros j. destruct (Nat.eq_dec j k) as [->|Hj].
           ++ rewrite set_call_same. cbn. rewrite arrivals_app, sets_app, cancelled_app, !in_app_iff. cbn. tauto.
           ++ rewrite set_call_other by auto. apply tag_other; [|apply T]. intros e [<-|[]]. auto.
        -- rewrite (line_arrive tr k) by auto. rewrite sets_app. cbn [owner_waits hs_calls]. rewrite set_call_same, L.
           cbn. now rewrite O2, !app_nil_r.
        -- rewrite sets_app, returns_app. cbn [owner_set hs_calls]. rewrite set_call_same. cbn in *. now rewrite !app_nil_r, R, app_nil_r.
        -- rewrite C. unfold in_place. rewrite sets_app. cbn. now rewrite app_nil_r.
        -- rewrite dropped_app. cbn. now rewrite app_nil_r.
        -- intros h. rewrite dropped_app, sets_app, cancelled_app. cbn. rewrite !app_nil_r. apply D2.
      * destruct o as [m|]; [|destruct (i_owner _ _ _ I) as (O1 & _); congruence].
        exists (Some m). destruct I as [Z (O1 & O2 & O3) Q N T L R C D1 D2].
        assert (Hm : m <> k) by (intros ->; rewrite Hk in O2; destruct O2).
        split; cbn [hs_calls hs_queue hs_current hs_free].
        -- now rewrite set_call_other by auto.
        -- cbn. rewrite set_call_other by auto. repeat split; [exact O2|]. intros j Hj. destruct (Nat.eq_dec j k) as [->|Hj'].
           ++ rewrite set_call_same in Hj. destruct Hj.
           ++ rewrite set_call_other in Hj by auto. now apply O3.
        -- intros j. rewrite in_app_iff, Q. cbn. destruct (Nat.eq_dec j k) as [->|Hj]; [rewrite set_call_same; tauto|].
           rewrite set_call_other by auto. split; [intros [|[|[]]]; congruence|tauto].
        -- rewrite arrivals_app. apply NoDup_app_snoc; assumption.
        -- intros j. destruct (Nat.eq_dec j k) as [->|Hj].
           ++ rewrite set_call_same. cbn. rewrite arrivals_app, sets_app, cancelled_app, !in_app_iff. cbn.
              repeat split; try tauto. discriminate.
           ++ rewrite set_call_other by auto. apply tag_other; [|apply T]. intros e [<-|[]]. auto.
        -- rewrite (line_arrive tr k) by auto. rewrite sets_app. cbn [owner_waits hs_calls]. rewrite set_call_other by auto.
           rewrite L. cbn. rewrite app_nil_r. now rewrite <- !app_assoc.
        -- rewrite sets_app, returns_app. cbn [owner_set hs_calls]. rewrite set_call_other by auto. cbn in *. now rewrite !app_nil_r, R.
        -- rewrite C. unfold in_place. rewrite sets_app. cbn. now rewrite app_nil_r.
        -- rewrite dropped_app. cbn. now rewrite app_nil_r.
        -- intros h. rewrite dropped_app, sets_app, cancelled_app. cbn. rewrite !app_nil_r. apply D2.
    + (* the lock has been given to it *)
      cbn [fst snd]. rewrite app_nil_r. destruct o as [m|]; [|exfalso; destruct (i_owner _ _ _ I) as (_ & _ & O3); apply (O3 k); rewrite Hk; exact Logic.I].
      exists (Some k). destruct I as [Z (O1 & O2 & O3) Q N T L R C D1 D2].
      assert (m = k) as -> by (symmetry; apply O3; rewrite Hk; exact Logic.I).
      split; cbn [hs_calls hs_queue hs_current hs_free]; try assumption.
      * rewrite set_call_other; [exact Z|]. intros <-. congruence.
      * cbn. rewrite set_call_same. repeat split; [exact O1|]. intros j Hj. destruct (Nat.eq_dec j k) as [->|Hj']; [reflexivity|].
        rewrite set_call_other in Hj by auto. now apply O3.
      * intros j. rewrite Q. destruct (Nat.eq_dec j k) as [->|Hj]; [rewrite set_call_same, Hk; split; discriminate|].
        now rewrite set_call_other.
      * intros j. specialize (T j). destruct (Nat.eq_dec j k) as [->|Hj]; [|now rewrite set_call_other].
        rewrite set_call_same. rewrite Hk in T. destruct T as (T1 & T2 & T3 & _). now repeat split.
      * rewrite L. cbn [owner_waits hs_calls]. now rewrite set_call_same, Hk.
      * rewrite R. cbn [owner_set hs_calls]. now rewrite set_call_same, Hk.
  - (* HRun *)
    destruct (hs_calls s k) as [| |[|]| | |] eqn:Hk; try exact Hstay.
    + (* the assignment *)
      cbn [fst snd]. assert (Hcur := current_known _ _ _ I).
      destruct o as [m|]; [|exfalso; destruct (i_owner _ _ _ I) as (_ & _ & O3); apply (O3 k); rewrite Hk; exact Logic.I].
      exists (Some k). destruct I as [Z (O1 & O2 & O3) Q N T L R C D1 D2].
      assert (m = k) as -> by (symmetry; apply O3; rewrite Hk; exact Logic.I).
      assert (Tk := T k). rewrite Hk in Tk. destruct Tk as (Ta & Ts & Tc).
      assert (Hk0 : k <> 0%nat) by (intros ->; congruence).
      assert (Hcc : ~ In (hs_current s) (cancelled tr)).
      { intros Hc. assert (Tz := T (hs_current s)). destruct Hcur as [E|Hcur]; [rewrite E, Z in *; cbn in Tz; tauto|].
        destruct (hs_calls s (hs_current s)); cbn in Tz; tauto. }
      split; cbn [hs_calls hs_queue hs_current hs_free].
      * now rewrite set_call_other by auto.
      * cbn. rewrite set_call_same. repeat split; [exact O1|]. intros j Hj. destruct (Nat.eq_dec j k) as [->|Hj']; [reflexivity|].
        rewrite set_call_other in Hj by auto. now apply O3.
      * intros j. rewrite Q. destruct (Nat.eq_dec j k) as [->|Hj]; [rewrite set_call_same, Hk; split; discriminate|].
        now rewrite set_call_other.
      * rewrite arrivals_app. cbn. now rewrite app_nil_r.
      * intros j. destruct (Nat.eq_dec j k) as [->|Hj].
        -- rewrite set_call_same. cbn. rewrite arrivals_app, sets_app, cancelled_app, !in_app_iff. cbn. tauto.
        -- rewrite set_call_other by auto. apply tag_other; [|apply T]. intros e [<-|[<-|[]]]; auto.
      * rewrite line_same by reflexivity. rewrite sets_app. cbn [owner_waits hs_calls]. rewrite set_call_same, L.
        cbn [owner_waits]. rewrite Hk. cbn. now rewrite <- app_assoc.
      * rewrite sets_app, returns_app. cbn [owner_set hs_calls] in *. rewrite set_call_same. rewrite Hk in R. cbn in *.
        now rewrite R, !app_nil_r.
      * unfold in_place. rewrite sets_app. cbn. now rewrite last_last.
      * rewrite dropped_app. cbn. apply NoDup_app_snoc; [exact D1|]. rewrite D2. tauto.
      * intros h. rewrite dropped_app, sets_app, cancelled_app, !in_app_iff, D2. cbn.
        assert (Hck : hs_current s <> k) by (intros E; destruct Hcur as [Hcur|Hcur]; congruence).
        destruct (Nat.eq_dec h (hs_current s)) as [E1|E1]; destruct (Nat.eq_dec h k) as [E2|E2]; subst;
          intuition congruence.
    + (* the guard is dropped *)
      destruct o as [m|]; [|exfalso; destruct (i_owner _ _ _ I) as (_ & _ & O3); apply (O3 k); rewrite Hk; exact Logic.I].
      assert (Hq := queue_NoDup _ _ _ I).
      destruct I as [Z (O1 & O2 & O3) Q N T L R C D1 D2].
      assert (m = k) as -> by (symmetry; apply O3; rewrite Hk; exact Logic.I).
      assert (Tk := T k). rewrite Hk in Tk. destruct Tk as (Ta & Ts & Tc).
      assert (Hk0 : k <> 0%nat) by (intros ->; congruence).
      cbn [owner_waits owner_set] in L, R. rewrite Hk in L, R. cbn [app] in L.
      unfold hand_over. destruct (hs_queue s) as [|j q] eqn:Hqs; cbn [fst snd app hs_free hs_queue hs_current hs_calls].
      * exists None. split; cbn [hs_calls hs_queue hs_current hs_free].
        -- now rewrite set_call_other by auto.
        -- cbn. repeat split. intros j Hj. destruct (Nat.eq_dec j k) as [->|Hj']; [rewrite set_call_same in Hj; exact Hj|].
           rewrite set_call_other in Hj by auto. now apply Hj', O3.
        -- intros j. rewrite Q. destruct (Nat.eq_dec j k) as [->|Hj]; [rewrite set_call_same, Hk; split; discriminate|].
           now rewrite set_call_other.
        -- rewrite arrivals_app. cbn. now rewrite app_nil_r.
        -- intros j. destruct (Nat.eq_dec j k) as [->|Hj].
           ++ rewrite set_call_same. cbn. left. rewrite arrivals_app, sets_app, cancelled_app, !in_app_iff. cbn. tauto.
           ++ rewrite set_call_other by auto. apply tag_other; [|apply T]. intros e [<-|[]]; auto.
        -- rewrite line_same by reflexivity. rewrite sets_app, L. cbn. now rewrite !app_nil_r.
        -- rewrite sets_app, returns_app. cbn. rewrite !app_nil_r. exact R.
        -- rewrite C. unfold in_place. rewrite sets_app. cbn. now rewrite app_nil_r.
        -- rewrite dropped_app. cbn. now rewrite app_nil_r.
        -- intros h. rewrite dropped_app, sets_app, cancelled_app. cbn. rewrite !app_nil_r. apply D2.
      * assert (Hj := proj1 (Q j) (or_introl eq_refl)).
        assert (Hjk : j <> k) by (intros ->; congruence).
        assert (Hj0 : j <> 0%nat) by (intros ->; congruence).
        inversion Hq as [|? ? Hjq Hq']; subst.
        exists (Some j). split; cbn [hs_calls hs_queue hs_current hs_free].
        -- now rewrite !set_call_other by auto.
        -- cbn. rewrite set_call_other, set_call_same by auto. repeat split. intros x Hx.
           destruct (Nat.eq_dec x k) as [->|Hx1]; [rewrite set_call_same in Hx; destruct Hx|].
           rewrite set_call_other in Hx by auto. destruct (Nat.eq_dec x j) as [->|Hx2]; [reflexivity|].
           rewrite set_call_other in Hx by auto. exfalso. now apply Hx1, O3.
        -- intros x. destruct (Nat.eq_dec x k) as [->|Hx1].
           { rewrite set_call_same. split; [|discriminate]. intros Hx. assert (E := proj1 (Q k) (or_intror Hx)). congruence. }
           rewrite set_call_other by auto. destruct (Nat.eq_dec x j) as [->|Hx2].
           { rewrite set_call_same. split; [tauto|discriminate]. }
           rewrite set_call_other by auto. rewrite <- Q. cbn. split; [tauto|]. intros [E|E]; [congruence|exact E].
        -- rewrite arrivals_app. cbn. now rewrite app_nil_r.
        -- intros x. destruct (Nat.eq_dec x k) as [->|Hx1].
           { rewrite set_call_same. cbn. left. rewrite arrivals_app, sets_app, cancelled_app, !in_app_iff. cbn. tauto. }
           rewrite set_call_other by auto. destruct (Nat.eq_dec x j) as [->|Hx2].
           { rewrite set_call_same. assert (Tj := T j). rewrite Hj in Tj. cbn in *.
             rewrite arrivals_app, sets_app, cancelled_app, !in_app_iff. cbn. tauto. }
           rewrite set_call_other by auto. apply tag_other; [|apply T]. intros e [<-|[<-|[]]]; auto.
        -- rewrite line_same by reflexivity. rewrite sets_app, L. cbn [owner_waits hs_calls].
           rewrite set_call_other, set_call_same by auto. cbn. now rewrite !app_nil_r.
        -- rewrite sets_app, returns_app. cbn [owner_set hs_calls]. rewrite set_call_other, set_call_same by auto.
           cbn. rewrite !app_nil_r. exact R.
        -- rewrite C. unfold in_place. rewrite sets_app. cbn. now rewrite app_nil_r.
        -- rewrite dropped_app. cbn. now rewrite app_nil_r.
        -- intros h. rewrite dropped_app, sets_app, cancelled_app. cbn. rewrite !app_nil_r. apply D2.
  - (* HCancel *)
    assert (Hdrop : forall ev k, dropped ev = [k] -> sets ev = [] -> cancelled ev = [k] -> k <> 0%nat ->
              ~ In k (sets tr) -> ~ In k (cancelled tr) -> k <> hs_current s ->
              NoDup (dropped (tr ++ ev)) /\
              forall h, In h (dropped (tr ++ ev)) <->
                (h <> hs_current s /\ (h = 0%nat \/ In h (sets (tr ++ ev)))) \/ In h (cancelled (tr ++ ev))).
    { intros ev k' Hd Hs Hc H0 Hks Hkc Hcur. rewrite dropped_app, sets_app, cancelled_app, Hd, Hs, Hc, app_nil_r.
      destruct I as [_ _ _ _ _ _ _ _ D1 D2]. split.
      - apply NoDup_app_snoc; [exact D1|]. rewrite D2. tauto.
      - intros h. rewrite !in_app_iff, D2. tauto. }
    assert (Hcurk : forall k', hs_calls s k' = CFresh \/ (exists g, hs_calls s k' = CQueued g) -> k' <> hs_current s).
    { intros k' Hk' E. subst k'. destruct (current_known _ _ _ I) as [E|Hin].
      - rewrite E, (i_zero _ _ _ I) in Hk'. destruct Hk' as [|[? ?]]; discriminate.
      - assert (Tz := i_tag _ _ _ I (hs_current s)). destruct Hk' as [Hk'|[g Hk']]; rewrite Hk' in Tz; cbn in Tz; tauto. }
    destruct (hs_calls s k) as [| |[|]| | |] eqn:Hk; try exact Hstay.
    + (* never polled *)
      cbn [fst snd]. exists o.
      destruct (Hdrop [HvDrop k; HvCancel k] k) as [E1 E2]; try reflexivity;
        try (assert (Tk := i_tag _ _ _ I k); rewrite Hk in Tk; cbn in Tk; tauto).
      { intros ->. rewrite (i_zero _ _ _ I) in Hk. discriminate. }
      { apply Hcurk. now left. }
      destruct I as [Z O Q N T L R C D1 D2].
      assert (Hk0 : k <> 0%nat) by (intros ->; congruence).
      assert (Tk := T k). rewrite Hk in Tk. destruct Tk as (Ta & Ts & Tc).
      assert (Hact : forall j, active (set_call (hs_calls s) k CGone j) <-> active (hs_calls s j)).
      { intros j. destruct (Nat.eq_dec j k) as [->|Hj]; [rewrite set_call_same, Hk; tauto|now rewrite set_call_other]. }
      assert (Hown : forall m, o = Some m -> m <> k).
      { intros m -> ->. destruct O as (_ & O2 & _). rewrite Hk in O2. exact O2. }
      split; cbn [hs_calls hs_queue hs_current hs_free]; try assumption.
      * now rewrite set_call_other by auto.
      * destruct o as [m|]; cbn in *.
        -- destruct O as (O1 & O2 & O3). repeat split; [exact O1|now apply Hact|]. intros j Hj. now apply O3, Hact.
        -- destruct O as (O1 & O2 & O3). repeat split; try assumption. intros j Hj. now apply (O3 j), Hact.
      * intros j. rewrite Q. destruct (Nat.eq_dec j k) as [->|Hj]; [rewrite set_call_same, Hk; split; discriminate|].
        now rewrite set_call_other.
      * rewrite arrivals_app. cbn. now rewrite app_nil_r.
      * intros j. destruct (Nat.eq_dec j k) as [->|Hj].
        -- rewrite set_call_same. cbn. right. rewrite sets_app, cancelled_app, !in_app_iff. cbn. tauto.
        -- rewrite set_call_other by auto. apply tag_other; [|apply T]. intros e [<-|[<-|[]]]; auto.
      * rewrite (line_cancel tr k) by reflexivity. rewrite drop_from_none.
        -- rewrite L, sets_app. cbn. rewrite app_nil_r. destruct o as [m|]; cbn [owner_waits hs_calls]; [|reflexivity].
           rewrite set_call_other by auto. reflexivity.
        -- intros Hin. apply filter_In in Hin. tauto.
      * rewrite sets_app, returns_app. cbn. rewrite !app_nil_r, R. destruct o as [m|]; cbn [owner_set hs_calls]; [|reflexivity].
        rewrite set_call_other by auto. reflexivity.
      * rewrite C. unfold in_place. rewrite sets_app. cbn. now rewrite app_nil_r.
    + (* waiting, with the lock given to it *)
      destruct o as [m|]; [|exfalso; destruct (i_owner _ _ _ I) as (_ & _ & O3); apply (O3 k); rewrite Hk; exact Logic.I].
      assert (Hq := queue_NoDup _ _ _ I).
      assert (Hck : k <> hs_current s) by (apply Hcurk; right; now exists true).
      assert (Tk := i_tag _ _ _ I k). rewrite Hk in Tk. destruct Tk as (Ta & Ts & Tc & Tw).
      assert (Hk0 : k <> 0%nat) by (intros ->; rewrite (i_zero _ _ _ I) in Hk; discriminate).
      destruct I as [Z (O1 & O2 & O3) Q N T L R C D1 D2].
      assert (m = k) as -> by (symmetry; apply O3; rewrite Hk; exact Logic.I).
      cbn [owner_waits owner_set] in L, R. rewrite Hk in L, R.
      assert (Hkq : ~ In k (hs_queue s)) by (rewrite Q, Hk; discriminate).
      unfold hand_over. destruct (hs_queue s) as [|j q] eqn:Hqs; cbn [fst snd app hs_free hs_queue hs_current hs_calls].
      * destruct (Hdrop [HvDrop k; HvCancel k] k) as [E1 E2]; try reflexivity; try assumption.
        exists None. split; cbn [hs_calls hs_queue hs_current hs_free]; try assumption.
        -- now rewrite set_call_other by auto.
        -- cbn. repeat split. intros j Hj. destruct (Nat.eq_dec j k) as [->|Hj']; [rewrite set_call_same in Hj; exact Hj|].
           rewrite set_call_other in Hj by auto. now apply Hj', O3.
        -- intros j. rewrite Q. destruct (Nat.eq_dec j k) as [->|Hj]; [rewrite set_call_same, Hk; split; discriminate|].
           now rewrite set_call_other.
        -- rewrite arrivals_app. cbn. now rewrite app_nil_r.
        -- intros j. destruct (Nat.eq_dec j k) as [->|Hj].
           ++ rewrite set_call_same. cbn. right. rewrite sets_app, cancelled_app, !in_app_iff. cbn. tauto.
           ++ rewrite set_call_other by auto. apply tag_other; [|apply T]. intros e [<-|[<-|[]]]; auto.
        -- rewrite (line_cancel tr k) by reflexivity. rewrite L, drop_from_app, drop_from_none by assumption.
           rewrite sets_app. cbn. rewrite Nat.eqb_refl. cbn. now rewrite !app_nil_r.
        -- rewrite sets_app, returns_app. cbn. rewrite !app_nil_r in *. exact R.
        -- rewrite C. unfold in_place. rewrite sets_app. cbn. now rewrite app_nil_r.
      * assert (Hj := proj1 (Q j) (or_introl eq_refl)).
        assert (Hjk : j <> k) by (intros ->; congruence).
        assert (Hj0 : j <> 0%nat) by (intros ->; congruence).
        inversion Hq as [|? ? Hjq Hq']; subst.
        destruct (Hdrop [HvWake j; HvDrop k; HvCancel k] k) as [E1 E2]; try reflexivity; try assumption.
        exists (Some j). split; cbn [hs_calls hs_queue hs_current hs_free]; try assumption.
        -- now rewrite !set_call_other by auto.
        -- cbn. rewrite set_call_other, set_call_same by auto. repeat split. intros x Hx.
           destruct (Nat.eq_dec x k) as [->|Hx1]; [rewrite set_call_same in Hx; destruct Hx|].
           rewrite set_call_other in Hx by auto. destruct (Nat.eq_dec x j) as [->|Hx2]; [reflexivity|].
           rewrite set_call_other in Hx by auto. exfalso. now apply Hx1, O3.
        -- intros x. destruct (Nat.eq_dec x k) as [->|Hx1].
           { rewrite set_call_same. split; [|discriminate]. intros Hx. assert (E := proj1 (Q k) (or_intror Hx)). congruence. }
           rewrite set_call_other by auto. destruct (Nat.eq_dec x j) as [->|Hx2].
           { rewrite set_call_same. split; [tauto|discriminate]. }
           rewrite set_call_other by auto. rewrite <- Q. cbn. split; [tauto|]. intros [E|E]; [congruence|exact E].
        -- rewrite arrivals_app. cbn. now rewrite app_nil_r.
        -- intros x. destruct (Nat.eq_dec x k) as [->|Hx1].
           { rewrite set_call_same. cbn. right. rewrite sets_app, cancelled_app, !in_app_iff. cbn. tauto. }
           rewrite set_call_other by auto. destruct (Nat.eq_dec x j) as [->|Hx2].
           { rewrite set_call_same. assert (Tj := T j). rewrite Hj in Tj. cbn in *.
             rewrite arrivals_app, sets_app, cancelled_app, !in_app_iff. cbn. intuition congruence. }
           rewrite set_call_other by auto. apply tag_other; [|apply T]. intros e [<-|[<-|[<-|[]]]]; auto.
        -- rewrite (line_cancel tr k) by reflexivity. rewrite L, !drop_from_app, (drop_from_none k (sets tr)) by assumption.
           rewrite (drop_from_none k (j :: q)) by assumption. rewrite sets_app. cbn [owner_waits hs_calls].
           rewrite set_call_other, set_call_same by auto. cbn. rewrite Nat.eqb_refl. cbn. now rewrite !app_nil_r.
        -- rewrite sets_app, returns_app. cbn [owner_set hs_calls]. rewrite set_call_other, set_call_same by auto.
           cbn. rewrite !app_nil_r in *. exact R.
        -- rewrite C. unfold in_place. rewrite sets_app. cbn. now rewrite app_nil_r.
    + (* waiting *)
      assert (Hck : k <> hs_current s) by (apply Hcurk; right; now exists false).
      assert (Tk := i_tag _ _ _ I k). rewrite Hk in Tk. destruct Tk as (Ta & Ts & Tc & Tw).
      assert (Hk0 : k <> 0%nat) by (intros ->; rewrite (i_zero _ _ _ I) in Hk; discriminate).
      destruct (Hdrop [HvDrop k; HvCancel k] k) as [E1 E2]; try reflexivity; try assumption.
      cbn [fst snd]. exists o. destruct I as [Z O Q N T L R C D1 D2].
      destruct o as [m|]; [|exfalso; destruct O as (_ & O2 & _); apply Q in Hk; rewrite O2 in Hk; exact Hk].
      destruct O as (O1 & O2 & O3).
      assert (Hm : m <> k) by (intros ->; rewrite Hk in O2; exact O2).
      split; cbn [hs_calls hs_queue hs_current hs_free]; try assumption.
      * now rewrite set_call_other by auto.
      * cbn. rewrite set_call_other by auto. repeat split; try assumption. intros j Hj. destruct (Nat.eq_dec j k) as [->|Hj'].
        -- rewrite set_call_same in Hj. destruct Hj.
        -- rewrite set_call_other in Hj by auto. now apply O3.
      * intros j. rewrite drop_from_In, Q. destruct (Nat.eq_dec j k) as [->|Hj].
        -- rewrite set_call_same. split; [tauto|discriminate].
        -- rewrite set_call_other by auto. tauto.
      * rewrite arrivals_app. cbn. now rewrite app_nil_r.
      * intros j. destruct (Nat.eq_dec j k) as [->|Hj].
        -- rewrite set_call_same. cbn. right. rewrite sets_app, cancelled_app, !in_app_iff. cbn. tauto.
        -- rewrite set_call_other by auto. apply tag_other; [|apply T]. intros e [<-|[<-|[]]]; auto.
      * rewrite (line_cancel tr k) by reflexivity. rewrite L, !drop_from_app, (drop_from_none k (sets tr)) by assumption.
        rewrite sets_app. cbn [owner_waits hs_calls]. rewrite set_call_other by auto. rewrite drop_from_none.
        -- cbn. now rewrite app_nil_r.
        -- cbn [owner_waits]. destruct (hs_calls s m); cbn; tauto || (intros [->|[]]; congruence).
      * rewrite sets_app, returns_app. cbn [owner_set hs_calls]. rewrite set_call_other by auto. cbn in *. now rewrite !app_nil_r, R.
      * rewrite C. unfold in_place. rewrite sets_app. cbn. now rewrite app_nil_r.
Qed.

Lemma exec_ok acts : forall tr s o, inv tr s o ->
  exists o', inv (tr ++ fst (handler_exec acts s)) (snd (handler_exec acts s)) o'.
Proof.
  induction acts as [|a acts IH]; intros tr s o I; cbn [handler_exec].
  - exists o. cbn. now rewrite app_nil_r.
  - destruct (step_ok a _ _ _ I) as [o1 I1]. destruct (handler_step a s) as [ev s1]. cbn [fst snd] in I1.
    destruct (IH _ _ _ I1) as [o2 I2]. destruct (handler_exec acts s1) as [evs s2]. cbn [fst snd] in *.
    exists o2. now rewrite app_assoc.
Qed.
Lemma reach acts : exists o, inv (fst (handler_exec acts handler_init)) (snd (handler_exec acts handler_init)) o.
Proof. exact (exec_ok acts [] handler_init None inv_init). Qed.

Lemma current_ok acts tr s : handler_exec acts handler_init = (tr, s) -> hs_current s = in_place tr.
Proof. intros H. destruct (reach acts) as [o I]. rewrite H in I. exact (i_cur _ _ _ I). Qed.

Lemma exclusive_ok acts tr s : handler_exec acts handler_init = (tr, s) ->
  NoDup (sets tr) /\ exists busy, sets tr = returns tr ++ busy /\ (length busy <= 1)%nat.
Proof.
  intros H. destruct (reach acts) as [o I]. rewrite H in I. cbn [fst snd] in I. split.
  - assert (N := line_NoDup _ _ _ I). rewrite (i_line _ _ _ I) in N.
    revert N. generalize (owner_waits s o ++ hs_queue s). intros l. induction (sets tr) as [|x m IH]; intros N; [constructor|].
    cbn in N. inversion N as [|? ? Hx Hm]; subst. constructor; [|auto]. intros Hin. apply Hx, in_app_iff. now left.
  - exists (owner_set s o). split; [exact (i_sets _ _ _ I)|]. destruct o as [m|]; cbn; [|auto].
    destruct (hs_calls s m); cbn; auto.
Qed.

Lemma fifo_ok acts tr s : handler_exec acts handler_init = (tr, s) ->
  exists waiting, in_line tr = sets tr ++ waiting.
Proof. intros H. destruct (reach acts) as [o I]. rewrite H in I. eexists. exact (i_line _ _ _ I). Qed.

Lemma drops_ok acts tr s : handler_exec acts handler_init = (tr, s) ->
  NoDup (dropped tr) /\
  forall h, In h (dropped tr) <->
    (h <> hs_current s /\ (h = 0%nat \/ In h (sets tr))) \/ In h (cancelled tr).
Proof. intros H. destruct (reach acts) as [o I]. rewrite H in I. split; [exact (i_drop1 _ _ _ I)|exact (i_drop2 _ _ _ I)]. Qed.

Lemma cancelled_ok acts tr s k : handler_exec acts handler_init = (tr, s) -> In k (cancelled tr) -> ~ In k (sets tr).
Proof.
  intros H Hc. destruct (reach acts) as [o I]. rewrite H in I. assert (T := i_tag _ _ _ I k). cbn [snd fst] in T.
  destruct (hs_calls s k); cbn in T; tauto.
Qed.

(** Who is first in line and has not returned. *)
Lemma first_ok tr s o k rest : inv tr s o -> in_line tr = returns tr ++ k :: rest ->
  o = Some k /\ rest = hs_queue s.
Proof.
  intros I E. destruct I as [Z O Q N T L R C D1 D2]. rewrite E, R, <- !app_assoc in L. apply app_inv_head in L.
  destruct o as [m|]; cbn in L.
  - destruct (hs_calls s m); cbn in L; injection L as -> ->; auto.
  - destruct O as (_ & O2 & _). rewrite O2 in L. discriminate.
Qed.

Lemma turn_step tr s k : inv tr s (Some k) ->
  returns (fst (handler_exec [HPoll k; HRun k; HRun k] s)) = [k] /\
  arrivals (fst (handler_exec [HPoll k; HRun k; HRun k] s)) = [] /\
  cancelled (fst (handler_exec [HPoll k; HRun k; HRun k] s)) = [].
Proof.
  intros I. destruct (i_owner _ _ _ I) as (_ & Hact & _).
  cbn [handler_exec handler_step]. destruct (hs_calls s k) as [| |[|]| | |] eqn:Hk; cbn in Hact; try contradiction;
    unfold hand_over;
    repeat (cbn [hs_calls hs_queue hs_current hs_free app fst snd]; rewrite ?set_call_same, ?Hk);
    destruct (hs_queue s); repeat (cbn [hs_calls hs_queue hs_current hs_free app fst snd]; rewrite ?set_call_same, ?Hk);
    repeat split; reflexivity.
Qed.

Lemma turn_ok acts tr s k rest : handler_exec acts handler_init = (tr, s) -> in_line tr = returns tr ++ k :: rest ->
  (hs_calls s k = CHolding \/ hs_calls s k = CAssigned \/ (hs_calls s k = CQueued true /\ In (HvWake k) tr)) /\
  exists ev s', handler_exec [HPoll k; HRun k; HRun k] s = (ev, s') /\
    returns ev = [k] /\ in_line (tr ++ ev) = in_line tr.
Proof.
  intros H E. destruct (reach acts) as [o I]. rewrite H in I. cbn [fst snd] in I.
  destruct (first_ok _ _ _ _ _ I E) as [-> ->]. split.
  - destruct (i_owner _ _ _ I) as (_ & Hact & _). assert (T := i_tag _ _ _ I k).
    destruct (hs_calls s k) as [| |[|]| | |]; cbn in Hact; try contradiction; auto.
    right. right. split; [reflexivity|]. cbn in T. tauto.
  - destruct (turn_step _ _ _ I) as (T1 & T2 & T3).
    destruct (handler_exec [HPoll k; HRun k; HRun k] s) as [ev s'] eqn:Ev. cbn [fst] in *.
    exists ev, s'. repeat split; [exact T1|]. now apply line_same.
Qed.

(** Letting those in line run, first come first, brings all of them to their end. *)
Lemma drain_ok rest : forall acts tr s, handler_exec acts handler_init = (tr, s) -> in_line tr = returns tr ++ rest ->
  exists ev s', handler_exec (flat_map (fun k => [HPoll k; HRun k; HRun k]) rest) s = (ev, s') /\
    returns (tr ++ ev) = in_line tr /\ in_line (tr ++ ev) = in_line tr.
Proof.
  induction rest as [|k rest IH]; intros acts tr s H E.
  - exists [], s. rewrite app_nil_r. rewrite app_nil_r in E. cbn. auto.
  - destruct (turn_ok _ _ _ _ _ H E) as (_ & ev & s1 & E1 & R1 & L1).
    assert (H1 : handler_exec (acts ++ [HPoll k; HRun k; HRun k]) handler_init = (tr ++ ev, s1)).
    { rewrite handler_exec_app, H. cbn [fst snd]. now rewrite E1. }
    destruct (IH _ _ _ H1) as (ev2 & s2 & E2 & R2 & L2).
    { rewrite L1, E, returns_app, R1. now rewrite <- app_assoc. }
    exists (ev ++ ev2), s2. split; [|].
    + change (flat_map (fun k => [HPoll k; HRun k; HRun k]) (k :: rest)) with
        ([HPoll k; HRun k; HRun k] ++ flat_map (fun k => [HPoll k; HRun k; HRun k]) rest).
      rewrite handler_exec_app, E1. cbn [fst snd]. now rewrite E2.
    + rewrite app_assoc. now rewrite R2, L2.
Qed.
Lemma line_returns acts tr s : handler_exec acts handler_init = (tr, s) -> exists rest, in_line tr = returns tr ++ rest.
Proof.
  intros H. destruct (reach acts) as [o I]. rewrite H in I. cbn [fst snd] in I.
  eexists. rewrite (i_line _ _ _ I), (i_sets _ _ _ I), <- app_assoc. reflexivity.
Qed.
