(** * Allocation makes progress whatever the schedule *)

From Coq Require Import Permutation.
From Verif Require Import Model.SocketM Spec.Socket.
From Verif Require Import Proofs.SidP Proofs.SocketP Proofs.TraceP.

Lemma app_split : forall (A : Type) (a b x y : list A), length a = length x -> a ++ b = x ++ y -> a = x /\ b = y.
Proof.
  intros A a. induction a as [|u a IH]; intros b [|v x] y L E0; cbn in *; try discriminate; [auto|].
  injection E0 as <- E0. destruct (IH b x y ltac:(lia) E0) as [-> ->]. auto.
Qed.

Lemma NoDup_app_remove_l : forall (A : Type) (a b : list A), NoDup (a ++ b) -> NoDup b.
Proof. intros A a b. induction a as [|x a IH]; intros H; [exact H|]. inversion H. auto. Qed.
Lemma NoDup_app_remove_r : forall (A : Type) (a b : list A), NoDup (a ++ b) -> NoDup a.
Proof.
  intros A a b. induction a as [|x a IH]; intros H; [constructor|]. inversion H as [|? ? NI ND]; subst.
  constructor; [|auto]. intros I. apply NI. apply in_or_app. now left.
Qed.

Section Connection.
  Context {S E : Type} (cn : connection S E).
  Variables (bd : build) (chunk : option N) (init : Z) (st0 : store) (conn0 : S).

  Notation run acts := (exec cn bd chunk acts (config_init init st0 conn0)).
  Notation trace := (list (event E)).
  Notation shape := (step_shape cn bd chunk).

  Lemma exec_app : forall a b (c : @config S), exec cn bd chunk (a ++ b) c =
    (fst (exec cn bd chunk a c) ++ fst (exec cn bd chunk b (snd (exec cn bd chunk a c))),
     snd (exec cn bd chunk b (snd (exec cn bd chunk a c)))).
  Proof.
    induction a as [|x a IH]; intros b c; cbn [app exec].
    - cbn [fst snd app]. now destruct (exec cn bd chunk b c).
    - destruct (step cn bd chunk x c) as [ev c']. rewrite IH. destruct (exec cn bd chunk a c') as [evs c''].
      cbn [fst snd]. now rewrite app_assoc.
  Qed.

  Section Window.
    Variables (before : list action).
    Notation start := (snd (run before)).
    Notation window w := (exec cn bd chunk w start).

    Lemma window_run : forall w, run (before ++ w) = (fst (run before) ++ fst (window w), snd (window w)).
    Proof. intros w. apply exec_app. Qed.
    Lemma window_ind : forall (P : list action -> trace -> @config S -> Prop),
      P [] [] start ->
      (forall w tr c a ev c', window w = (tr, c) -> P w tr c -> shape c a ev c' -> P (w ++ [a]) (tr ++ ev) c') ->
      forall w, P w (fst (window w)) (snd (window w)).
    Proof.
      intros P H0 HS w. induction w as [|a w IH] using rev_ind; [exact H0|].
      rewrite exec_snoc. cbn [fst snd]. eapply HS; [apply surjective_pairing|exact IH|apply step_shaped].
    Qed.

    Lemma window_draws : forall w, N.of_nat (length (drawn (fst (window w)))) <= 2 ^ 30 -> NoDup (drawn (fst (window w))).
    Proof.
      intros w L. destruct (draw_invariant cn bd chunk init st0 conn0 (before ++ w)) as (D & _).
      rewrite window_run in D. cbn [fst] in D. rewrite drawn_app, app_length in D. unfold draws in D.
      rewrite seq_app, map_app in D. apply app_split in D as [_ ->]; [|rewrite map_length, seq_length; reflexivity].
      apply nodup_map_in; [|apply seq_NoDup]. intros i j Hi Hj Eq. apply in_seq in Hi, Hj.
      apply Nat2N.inj. destruct (N.lt_trichotomy (N.of_nat i) (N.of_nat j)) as [X|[X|X]]; [|exact X|]; exfalso.
      - apply (id_unique init (N.of_nat i) (N.of_nat j)); [exact X|lia|exact Eq].
      - apply (id_unique init (N.of_nat j) (N.of_nat i)); [exact X|lia|now symmetry].
    Qed.

    Lemma kept_store : forall w keys w' k, kept_within st0 before (w ++ w') keys ->
      cf_store (snd (window w)) k = true -> In k keys.
    Proof.
      intros w keys w' k H St. apply (H w w' k eq_refl). rewrite <- (store_at cn bd chunk init st0 conn0).
      rewrite window_run. exact St.
    Qed.
    Lemma kept_prefix : forall w keys w', kept_within st0 before (w ++ w') keys -> kept_within st0 before w keys.
    Proof. intros w keys w' H w1 w2 k -> St. apply (H w1 (w2 ++ w') k); [now rewrite app_assoc|exact St]. Qed.

    Definition waiting (c : @config S) (threads : list nat) (pd : list (nat * N)) : Prop :=
      NoDup (map fst pd) /\
      forall t sid, In (t, sid) pd -> In t threads /\ exists p, cf_threads c t = Checking p sid.
    Definition counted_draws (keys : list N) (threads : list nat) (tr : trace) (c : @config S) : Prop :=
      exists al bs pd, Permutation (drawn tr) (al ++ bs ++ map snd pd) /\
        (length al <= length (alloc_ids tr))%nat /\ incl bs keys /\ waiting c threads pd.

    Lemma waiting_other : forall c th pd cnt st conn t x, waiting c th pd ->
      (forall p sid, cf_threads c t <> Checking p sid) ->
      waiting (Config cnt st conn (set_thread (cf_threads c) t x)) th pd.
    Proof.
      intros c th pd cnt st conn t x [ND W] Ht. split; [exact ND|]. intros u sid I. cbn [cf_threads].
      destruct (W u sid I) as (A & p & T). split; [exact A|]. exists p. rewrite set_other; [exact T|].
      intros ->. exact (Ht _ _ T).
    Qed.
    Lemma waiting_same : forall c th pd cnt st conn, waiting c th pd -> waiting (Config cnt st conn (cf_threads c)) th pd.
    Proof. intros c th pd cnt st conn H. exact H. Qed.
    (** The thread that has its answer waits no more. *)
    Lemma waiting_answer : forall c th pd cnt st conn t p sid x, waiting c th pd -> cf_threads c t = Checking p sid ->
      exists pd' l, waiting (Config cnt st conn (set_thread (cf_threads c) t x)) th pd' /\
        Permutation (map snd pd) (l ++ map snd pd') /\ (l = [] \/ l = [sid]).
    Proof.
      intros c th pd cnt st conn t p sid x [ND W] T.
      destruct (in_dec Nat.eq_dec t (map fst pd)) as [I|I].
      - apply in_map_iff in I as ([t' s] & E0 & I). cbn in E0. subst t'.
        assert (s = sid) as -> by (destruct (W _ _ I) as (_ & q & T'); congruence).
        apply in_split in I as (l1 & l2 & ->). exists (l1 ++ l2), [sid]. split; [|split; [|now right]].
        + rewrite map_app in ND. cbn [map fst] in ND. apply NoDup_remove in ND as [ND NI]. rewrite <- map_app in *.
          split; [exact ND|]. intros u s I. cbn [cf_threads].
          assert (u <> t) by (intros ->; apply NI; apply in_map_iff; exists (t, s); auto).
          rewrite set_other by assumption. apply W. apply in_or_app. apply in_app_or in I as [I|I]; [now left|right; now right].
        + rewrite !map_app. cbn [map snd app]. apply Permutation_sym, Permutation_middle.
      - exists pd, []. split; [|split; [reflexivity|now left]]. split; [exact ND|]. intros u s Iu. cbn [cf_threads].
        rewrite set_other; [apply W, Iu|]. intros ->. apply I. apply in_map_iff. exists (t, s). auto.
    Qed.

    Lemma answered_perm : forall (d al bs pd l pd' : list N), Permutation d (al ++ bs ++ pd) -> Permutation pd (l ++ pd') ->
      Permutation d ((l ++ al) ++ bs ++ pd') /\ Permutation d (al ++ (l ++ bs) ++ pd').
    Proof.
      intros d al bs pd l pd' H1 H2.
      assert (X : Permutation d (al ++ (l ++ bs) ++ pd')).
      { etransitivity; [exact H1|]. apply Permutation_app_head. rewrite <- app_assoc, H2. rewrite !app_assoc.
        apply Permutation_app_tail, Permutation_app_comm. }
      split; [|exact X]. etransitivity; [exact X|]. rewrite <- !app_assoc.
      rewrite (app_assoc al l), (app_assoc l al). apply Permutation_app_tail, Permutation_app_comm.
    Qed.

    Lemma count_invariant : chunk <> Some 0 -> forall keys threads w, kept_within st0 before w keys ->
      (forall t, In (Run t) w -> In t threads) -> counted_draws keys threads (fst (window w)) (snd (window w)).
    Proof.
      intros Hc keys threads w. apply (window_ind (fun w tr c => kept_within st0 before w keys ->
        (forall t, In (Run t) w -> In t threads) -> counted_draws keys threads tr c)); clear w.
      - intros _ _. exists [], [], []. split; [reflexivity|]. split; [cbn; lia|]. split; [easy|]. split; [constructor|]. cbn. contradiction.
      - intros w tr c a ev c' R IH Sh K Th.
        destruct IH as (al & bs & pd & P & L & B & W).
        { eapply kept_prefix; exact K. } { intros t I. apply Th. apply in_or_app. now left. }
        assert (Ta : forall t, a = Run t -> In t threads) by (intros t ->; apply Th; apply in_or_app; right; now left).
        unfold counted_draws. rewrite drawn_app, ids_app, app_length.
        destruct Sh as [a H1 H2|t p T|k|k|t md T| |t p T|t p sid T St|t p sid st T St F|t p sid T St F|t p sid st T F|t p sid st f st' T F|t p sid st T F|t T];
          cbn [drawn alloc_ids allocs flat_map app map snd fst length]; rewrite ?app_nil_r.
        + exists al, bs, pd. split; [exact P|]. split; [lia|]. split; [exact B|exact W].
        + exists al, bs, pd. split; [exact P|]. split; [lia|]. split; [exact B|]. apply waiting_other; [exact W|congruence].
        + exists al, bs, pd. split; [exact P|]. split; [lia|]. split; [exact B|exact W].
        + exists al, bs, pd. split; [exact P|]. split; [lia|]. split; [exact B|exact W].
        + exists al, bs, pd. split; [exact P|]. split; [lia|]. split; [exact B|exact W].
        + exists al, bs, pd. split; [exact P|]. split; [lia|]. split; [exact B|exact W].
        + exists al, bs, ((t, fst (sid_draw (cf_counter c))) :: pd). cbn [map snd].
          split; [|split; [lia|split; [exact B|]]].
          * etransitivity; [apply Permutation_app_comm|]. cbn [app]. rewrite app_assoc.
            apply Permutation_cons_app. rewrite <- app_assoc. exact P.
          * destruct W as [ND W]. split.
            -- cbn [map fst]. constructor; [|exact ND]. intros I. apply in_map_iff in I as ([u s] & E0 & I). cbn in E0. subst u.
               destruct (W _ _ I) as (_ & q & T'). congruence.
            -- intros u s [[= <- <-]|I]; cbn [cf_threads].
               ++ split; [now apply Ta|]. exists p. apply set_same.
               ++ destruct (W _ _ I) as (A & q & T'). split; [exact A|]. exists q. rewrite set_other; [exact T'|]. congruence.
        + destruct (waiting_answer c threads pd (cf_counter c) (cf_store c) (cf_conn c) t p sid (Drawing p) W T) as (pd' & l & W' & P' & El).
          exists al, (l ++ bs), pd'. split; [|split; [lia|split; [|exact W']]].
          * apply (answered_perm _ _ _ _ _ _ P P').
          * apply incl_app; [|exact B]. destruct El as [-> | ->]; [easy|]. intros x [<-|[]].
            apply (kept_store w keys _ sid K). now rewrite R.
        + destruct (waiting_answer c threads pd (cf_counter c) (cf_store c) (cf_conn c) t p sid (Sending p sid st) W T) as (pd' & l & W' & P' & El).
          exists (l ++ al), bs, pd'. split; [|split; [|split; [exact B|exact W']]].
          * apply (answered_perm _ _ _ _ _ _ P P').
          * rewrite app_length. destruct El as [-> | ->]; cbn [length]; lia.
        + exfalso.
          assert (Sb : sid < 2 ^ 31).
          { pose proof (drawn_class cn bd chunk init st0 conn0 (before ++ w) sid) as X.
            destruct (draw_invariant cn bd chunk init st0 conn0 (before ++ w)) as (_ & _ & C & _).
            rewrite window_run in C, X. cbn [snd fst] in C, X. rewrite R in C, X. cbn [snd fst] in C, X.
            apply X. eapply C; exact T. }
          destruct (start_yields bd chunk sid p Sb Hc) as (st & Y & _). exact (F st Y).
        + exists al, bs, pd. split; [exact P|]. split; [lia|]. split; [exact B|]. apply waiting_other; [exact W|congruence].
        + exists al, bs, pd. split; [exact P|]. split; [lia|]. split; [exact B|]. apply waiting_other; [exact W|congruence].
        + exists al, bs, pd. split; [exact P|]. split; [lia|]. split; [exact B|]. apply waiting_other; [exact W|congruence].
        + exists al, bs, pd. split; [exact P|]. split; [lia|]. split; [exact B|]. apply waiting_other; [exact W|congruence].
    Qed.

    Lemma progress : chunk <> Some 0 -> forall w keys threads,
      N.of_nat (length (drawn (fst (window w)))) <= 2 ^ 30 -> kept_within st0 before w keys ->
      (forall t, In (Run t) w -> In t threads) ->
      (length (drawn (fst (window w))) <= length (alloc_ids (fst (window w))) + length keys + length threads)%nat.
    Proof.
      intros Hc w keys threads L K Th. destruct (count_invariant Hc keys threads w K Th) as (al & bs & pd & P & La & B & ND & W).
      pose proof (window_draws w L) as Nd. apply (Permutation_NoDup P) in Nd.
      assert (Nb : NoDup bs) by (apply NoDup_app_remove_l, NoDup_app_remove_r in Nd; exact Nd).
      pose proof (NoDup_incl_length Nb B) as Lb.
      assert (Lp : (length pd <= length threads)%nat).
      { rewrite <- (map_length fst pd). apply NoDup_incl_length; [exact ND|]. intros t I.
        apply in_map_iff in I as ([u s] & <- & I). apply (W u s I). }
      apply Permutation_length in P. rewrite !app_length, map_length in P. lia.
    Qed.

    Lemma drawn_by_app : forall t (a b : trace), drawn_by t (a ++ b) = drawn_by t a ++ drawn_by t b.
    Proof. intros. unfold drawn_by. apply flat_map_app. Qed.
    Lemma drawn_by_sub : forall t (tr : trace), NoDup (drawn tr) ->
      NoDup (drawn_by t tr) /\ incl (drawn_by t tr) (drawn tr).
    Proof.
      intros t tr. induction tr as [|e tr IH]; intros ND; [split; [constructor|easy]|].
      destruct e as [u sid| | | | | | | |]; try (apply IH; exact ND). cbn [drawn drawn_by flat_map] in *.
      fold (drawn_by t tr) in *. fold (@drawn E) in *. cbn [app] in *. inversion ND as [|? ? NI ND']; subst.
      destruct (IH ND') as [A B]. destruct (Nat.eqb u t); cbn [app].
      - split; [constructor; [intros I; apply NI, B, I|exact A]|]. intros x [<-|I]; [now left|right; apply B, I].
      - split; [exact A|]. intros x I. right. apply B, I.
    Qed.

    Definition tries (t : nat) (keys : list N) (tr : trace) (c : @config S) : Prop :=
      exists bs rest, drawn_by t tr = bs ++ rest /\ incl bs keys /\ (length rest <= 1)%nat /\
        match cf_threads c t with
        | Checking _ sid => rest = [] \/ rest = [sid]
        | Panicked => True
        | _ => rest = []
        end.

    Lemma tries_invariant : forall t keys w, kept_within st0 before w keys ->
      (forall sid p, ~ In (EvAlloc t sid p) (fst (window w))) -> tries t keys (fst (window w)) (snd (window w)).
    Proof.
      intros t keys w. apply (window_ind (fun w tr c => kept_within st0 before w keys ->
        (forall sid p, ~ In (EvAlloc t sid p) tr) -> tries t keys tr c)); clear w.
      - intros _ _. exists [], []. split; [reflexivity|]. split; [easy|]. split; [cbn; lia|].
        destruct (cf_threads start t); auto.
      - intros w tr c a ev c' R IH Sh K NA.
        destruct IH as (bs & rest & D & B & L & M).
        { eapply kept_prefix; exact K. } { intros sid p I. apply (NA sid p). apply in_or_app. now left. }
        unfold tries. rewrite drawn_by_app, D.
        assert (OT : forall cnt st conn u x, u <> t -> drawn_by t ev = [] -> exists bs0 rest0,
          (bs ++ rest) ++ drawn_by t ev = bs0 ++ rest0 /\ incl bs0 keys /\ (length rest0 <= 1)%nat /\
          match cf_threads (Config (S := S) cnt st conn (set_thread (cf_threads c) u x)) t with
          | Checking _ sid => rest0 = [] \/ rest0 = [sid] | Panicked => True | _ => rest0 = [] end).
        { intros cnt st conn u x Nu Ev. exists bs, rest. rewrite Ev, app_nil_r. cbn [cf_threads]. rewrite set_other by congruence. auto. }
        destruct Sh as [a H1 H2|u p T|k|k|u md T| |u p T|u p sid T St|u p sid st T St F|u p sid T St F|u p sid st T F|u p sid st f st' T F|u p sid st T F|u T].
        1,3,4,5,6: exists bs, rest; cbn [drawn_by flat_map cf_threads]; rewrite app_nil_r; auto; fail.
        all: destruct (Nat.eq_dec u t) as [->|Nu].
        all: try (apply OT; [exact Nu|cbn [drawn_by flat_map app]; destruct (Nat.eqb_spec u t); [contradiction|reflexivity]]; fail).
        all: try (apply OT; [exact Nu|reflexivity]; fail).
        all: rewrite T in M; cbn [drawn_by flat_map cf_threads app]; rewrite ?set_same, ?Nat.eqb_refl, ?app_nil_r.
        + exists bs, rest. auto.
        + subst rest. rewrite app_nil_r. exists bs, [fst (sid_draw (cf_counter c))]. split; [reflexivity|]. split; [exact B|]. split; [cbn; lia|now right].
        + exists (bs ++ rest), []. rewrite app_nil_r. split; [reflexivity|]. split; [|split; [cbn; lia|reflexivity]].
          apply incl_app; [exact B|]. destruct M as [-> | ->]; [easy|]. intros x [<-|[]].
          apply (kept_store w keys _ sid K). now rewrite R.
        + exfalso. apply (NA sid p). apply in_or_app. right. now left.
        + exists bs, rest. auto.
        + exists bs, rest. auto.
        + exists bs, rest. split; [reflexivity|]. split; [exact B|]. split; [exact L|]. destruct (snd (cn_send_and_forget cn (cf_conn c) f)); exact M.
        + exists bs, rest. auto.
        + exists bs, rest. auto.
    Qed.

    Lemma call_progress : forall t w keys,
      N.of_nat (length (drawn (fst (window w)))) <= 2 ^ 30 -> kept_within st0 before w keys ->
      (forall sid p, ~ In (EvAlloc t sid p) (fst (window w))) ->
      (length (drawn_by t (fst (window w))) <= length keys + 1)%nat.
    Proof.
      intros t w keys L K NA. destruct (tries_invariant t keys w K NA) as (bs & rest & D & B & Lr & _).
      pose proof (drawn_by_sub t _ (window_draws w L)) as [Nd _]. rewrite D in Nd.
      apply NoDup_app_remove_r in Nd. pose proof (NoDup_incl_length Nd B). rewrite D, app_length. lia.
    Qed.
  End Window.
End Connection.
