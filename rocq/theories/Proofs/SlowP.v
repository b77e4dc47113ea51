(** * Connections whose operations take time *)

From Verif Require Import Model.SlowM Spec.Slow.
From Verif Require Import Proofs.SocketP Proofs.TraceP.

Section Sim.
  Context {S E : Type} (sc : slow_connection S E) (bd : build) (chunk : option N).
  Local Notation sx := (slow_exec sc bd chunk).
  Local Notation ss := (slow_step sc bd chunk).

  Lemma sx_app : forall a b c, sx (a ++ b) c = (fst (sx a c) ++ fst (sx b (snd (sx a c))), snd (sx b (snd (sx a c)))).
  Proof.
    induction a as [|x a IH]; intros b c; cbn [app slow_exec].
    - cbn. now destruct (sx b c).
    - destruct (ss x c) as [e c']. rewrite IH. destruct (sx a c'). cbn [fst snd]. now rewrite app_assoc.
  Qed.

  (** ** Threads here and there *)

  Definition like (x : slow_thread) (y : thread) : Prop :=
    match x with
    | SlIdle => y = Idle
    | SlDrawing p => y = Drawing p
    | SlChecking p sid => y = Checking p sid
    | SlSending p sid st => y = Sending p sid st
    | SlInside (OpForget f) (Some (p, sid, st')) => exists st, y = Sending p sid st /\ fnf_next bd st = Ret (Some (f, st'))
    | SlInside (OpSend f) None => y = Idle /\ exists md, f = FMetadataPush (metadata_push_new md)
    | SlInside OpClose None => y = Idle
    | SlInside _ _ => False
    | SlPanicked => True
    end.

  Record alike (c : @slow_config S) (d : @config nat) : Prop := Alike {
    al_counter : cf_counter d = sl_counter c;
    al_store : cf_store d = sl_store c;
    al_threads : forall t, like (sl_threads c t) (cf_threads d t) }.

  (** The answers of the trace, in order. *)
  Definition answers (tr : list (slow_event E)) : list (option (option E)) :=
    flat_map (fun e => match e with SlEnd _ (OpForget _) a => [answer a] | _ => [] end) tr.

  Lemma alike_set : forall (c : @slow_config S) (d : @config nat) t x y k st n,
    (forall u, like (sl_threads c u) (cf_threads d u)) -> like x y ->
    forall conn, alike (SlowConfig k st conn (fun u => if Nat.eqb u t then x else sl_threads c u))
      (Config k st n (set_thread (cf_threads d) t y)).
  Proof.
    intros c d t x y k st n H XY conn. constructor; try reflexivity. intros u. cbn. unfold set_thread.
    destruct (Nat.eqb u t); [exact XY|apply H].
  Qed.

  Section Ans.
    Context (ans : nat -> option (option E)).
    Local Notation ex := (exec (answering ans) bd chunk).

    Lemma ex_app : forall a b d, ex (a ++ b) d = (fst (ex a d) ++ fst (ex b (snd (ex a d))), snd (ex b (snd (ex a d)))).
    Proof.
      induction a as [|x a IH]; intros b d; cbn [app exec].
      - cbn. now destruct (ex b d).
      - destruct (step (answering ans) bd chunk x d) as [e d']. rewrite IH. destruct (ex a d'). cbn [fst snd]. now rewrite app_assoc.
    Qed.

    Lemma step_sim : forall a c d, alike c d ->
      (forall r, nth_error (answers (fst (ss a c))) 0 = Some r -> ans (cf_conn d) = r) ->
      exists l, stands_for a l /\ fst (ex l d) = at_ends (fst (ss a c)) /\ alike (snd (ss a c)) (snd (ex l d)) /\
        cf_conn (snd (ex l d)) = (cf_conn d + length (answers (fst (ss a c))))%nat.
    Proof.
      intros a c d AL AN. pose proof AL as [AC AS AT].
      assert (ID : forall t x l0, (sl_threads c t = SlIdle -> forall y, x = y -> ss a c = y ->
        (forall r, nth_error (answers (fst y)) 0 = Some r -> ans (cf_conn d) = r) ->
        exists l, stands_for a l /\ fst (ex l d) = at_ends (fst y) /\ alike (snd y) (snd (ex l d)) /\
        cf_conn (snd (ex l d)) = (cf_conn d + length (answers (fst y)))%nat) -> l0 = @nil action -> stands_for a l0 ->
        ss a c = match sl_threads c t with SlIdle => x | _ => ([], c) end ->
        exists l, stands_for a l /\ fst (ex l d) = at_ends (fst (ss a c)) /\ alike (snd (ss a c)) (snd (ex l d)) /\
        cf_conn (snd (ex l d)) = (cf_conn d + length (answers (fst (ss a c))))%nat).
      { intros t x l0 H -> SF EQ. destruct (sl_threads c t) eqn:T.
        - destruct (H eq_refl x eq_refl EQ) as (l & R1 & R2 & R3 & R4); [now rewrite <- EQ|].
          exists l. rewrite EQ. auto.
        - rewrite EQ. exists []. cbn. split; [exact SF|]. split; [reflexivity|]. split; [exact AL|lia].
        - rewrite EQ. exists []. cbn. split; [exact SF|]. split; [reflexivity|]. split; [exact AL|lia].
        - rewrite EQ. exists []. cbn. split; [exact SF|]. split; [reflexivity|]. split; [exact AL|lia].
        - rewrite EQ. exists []. cbn. split; [exact SF|]. split; [reflexivity|]. split; [exact AL|lia].
        - rewrite EQ. exists []. cbn. split; [exact SF|]. split; [reflexivity|]. split; [exact AL|lia]. }
      destruct a as [t p|t md|t|t|t|k|k|n].
      - eapply (ID t _ []); [|reflexivity|now left|reflexivity]. clear ID. intros T y EQ _ _. subst y.
        exists [Call t p]. split; [now right|]. cbn [exec step]. pose proof (AT t) as X. rewrite T in X. cbn in X. rewrite X.
        cbn. split; [reflexivity|]. split; [|lia]. unfold sl_set. rewrite AC, AS. now apply alike_set.
      - eapply (ID t _ []); [|reflexivity|reflexivity|reflexivity]. clear ID. intros T y EQ _ _. subst y.
        exists []. split; [reflexivity|]. cbn. split; [reflexivity|]. split; [|lia].
        constructor; [exact AC|exact AS|]. intros u. cbn. pose proof (AT u) as X. destruct (Nat.eqb_spec u t) as [->|Z]; [|exact X].
        rewrite T in X. split; [exact X|now exists md].
      - eapply (ID t _ []); [|reflexivity|reflexivity|reflexivity]. clear ID. intros T y EQ _ _. subst y.
        exists []. split; [reflexivity|]. cbn. split; [reflexivity|]. split; [|lia].
        constructor; [exact AC|exact AS|]. intros u. cbn. pose proof (AT u) as X. destruct (Nat.eqb_spec u t) as [->|Z]; [|exact X].
        now rewrite T in X.
      - eapply (ID t _ []); [|reflexivity|now left|reflexivity]. clear ID. intros T y EQ _ _. subst y.
        exists [Request t]. split; [now right|]. cbn [exec step]. pose proof (AT t) as X. rewrite T in X. cbn in X. rewrite X.
        cbn. split; [reflexivity|]. split; [|lia]. unfold sl_set. rewrite AC, AS. now apply alike_set.
      - clear ID. cbn [slow_step] in *. unfold sl_run in *. pose proof (AT t) as X.
        destruct (sl_threads c t) as [|p|p sid|p sid st|op back|] eqn:T.
        + exists []. cbn. split; [now left|]. split; [reflexivity|]. split; [exact AL|lia].
        + cbn in X. exists [Run t]. split; [now right; left|]. cbn [exec step]. rewrite X, AC, AS.
          destruct (sid_draw (sl_counter c)) as [sid k]. cbn. split; [reflexivity|]. split; [|lia]. now apply alike_set.
        + cbn in X. exists [Run t]. split; [now right; left|]. cbn [exec step]. rewrite X, AC, AS.
          destruct (sl_store c sid); [cbn; split; [reflexivity|]; split; [now apply alike_set|lia]|].
          destruct (fnf_start chunk sid p) as [st| |]; cbn; (split; [reflexivity|]; split; [now apply alike_set|lia]).
        + cbn in X. destruct (fnf_next bd st) as [[[f st']|]| |] eqn:F.
          * exists []. split; [now left|]. cbn. split; [reflexivity|]. split; [|lia].
            constructor; [exact AC|exact AS|]. intros u. cbn. pose proof (AT u) as Y. destruct (Nat.eqb_spec u t) as [->|Z]; [|exact Y].
            exists st. auto.
          * exists [Run t]. split; [now right; left|]. cbn [exec step]. rewrite X, AC, AS, F. cbn.
            split; [reflexivity|]. split; [now apply alike_set|lia].
          * exists [Run t]. split; [now right; left|]. cbn [exec step]. rewrite X, AC, AS, F. cbn.
            split; [reflexivity|]. split; [now apply alike_set|lia].
          * exists [Run t]. split; [now right; left|]. cbn [exec step]. rewrite X, AC, AS, F. cbn.
            split; [reflexivity|]. split; [now apply alike_set|lia].
        + destruct (sc_go sc (sl_conn c) t) as [conn [a|]].
          * destruct op as [f|f|]; destruct back as [[[p sid] st']|]; cbn [like] in X; try contradiction.
            -- destruct X as (st & X & F). exists [Run t]. split; [now right; left|].
               cbn [exec step]. rewrite X, F, AC, AS. cbn in AN |- *. rewrite (AN (answer a)) by reflexivity.
               split; [reflexivity|]. split; [|lia]. unfold sl_set. cbn [sl_counter sl_store sl_conn sl_threads].
               apply alike_set; [exact AT|]. destruct a as [[e|]|]; reflexivity.
            -- destruct X as (X & md & ->). exists [Push t md]. split; [do 3 right; now exists md|].
               cbn [exec step]. rewrite X. cbn. split; [reflexivity|]. split; [|lia].
               constructor; [exact AC|exact AS|]. intros u. cbn. pose proof (AT u) as Y.
               destruct (Nat.eqb_spec u t) as [->|Z]; [|exact Y]. destruct a as [[e|]|]; cbn; auto.
            -- exists [Close]. split; [now right; right; left|]. cbn. split; [reflexivity|]. split; [|lia].
               constructor; [exact AC|exact AS|]. intros u. cbn. pose proof (AT u) as Y.
               destruct (Nat.eqb_spec u t) as [->|Z]; [|exact Y]. destruct a as [[e|]|]; cbn; auto.
          * exists []. split; [now left|]. cbn. split; [reflexivity|]. split; [|lia].
            constructor; [exact AC|exact AS|exact AT].
        + exists []. cbn. split; [now left|]. split; [reflexivity|]. split; [exact AL|lia].
      - exists [Insert k]. split; [reflexivity|]. cbn. split; [reflexivity|]. split; [|lia].
        constructor; [exact AC|cbn; now rewrite AS|exact AT].
      - exists [Remove k]. split; [reflexivity|]. cbn. split; [reflexivity|]. split; [|lia].
        constructor; [exact AC|cbn; now rewrite AS|exact AT].
      - exists []. split; [reflexivity|]. cbn. split; [reflexivity|]. split; [|lia].
        constructor; [exact AC|exact AS|exact AT].
    Qed.

    Lemma exec_sim : forall acts c d, alike c d ->
      (forall i r, nth_error (answers (fst (sx acts c))) i = Some r -> ans (cf_conn d + i)%nat = r) ->
      exists ls, Forall2 stands_for acts ls /\ forall n,
        fst (ex (concat (firstn n ls)) d) = at_ends (fst (sx (firstn n acts) c)) /\
        alike (snd (sx (firstn n acts) c)) (snd (ex (concat (firstn n ls)) d)).
    Proof.
      induction acts as [|a acts IH]; intros c d AL AN.
      - exists []. split; [constructor|]. intros n. rewrite !firstn_nil. cbn. auto.
      - cbn [slow_exec] in AN. destruct (step_sim a c d AL) as (l & R1 & R2 & R3 & R4).
        { intros r I. rewrite <- (Nat.add_0_r (cf_conn d)). apply AN. destruct (ss a c) as [ev c']. cbn [fst] in I.
          destruct (sx acts c') as [evs c'']. cbn [fst]. unfold answers in *. rewrite flat_map_app.
          rewrite nth_error_app1; [exact I|]. apply nth_error_Some. congruence. }
        destruct (IH (snd (ss a c)) (snd (ex l d)) R3) as (ls & F & W).
        { intros i r I. rewrite R4, <- Nat.add_assoc. apply AN. destruct (ss a c) as [ev c']. cbn [fst snd] in *.
          destruct (sx acts c') as [evs c'']. cbn [fst] in *. unfold answers in *. rewrite flat_map_app.
          rewrite nth_error_app2 by lia. now replace (length (flat_map (fun e : slow_event E => match e with SlEnd _ (OpForget _) a0 => [answer a0] | _ => [] end) ev) + i - length (flat_map (fun e : slow_event E => match e with SlEnd _ (OpForget _) a0 => [answer a0] | _ => [] end) ev))%nat with i by lia. }
        exists (l :: ls). split; [now constructor|]. intros [|n]; [cbn; auto|].
        cbn [firstn concat slow_exec]. specialize (W n). rewrite ex_app.
        destruct (ss a c) as [ev c']. cbn [fst snd] in *. destruct (sx (firstn n acts) c') as [evs c'']. cbn [fst snd] in *.
        unfold at_ends in *. rewrite flat_map_app, R2. destruct W as [W1 W2]. split; [now rewrite W1|exact W2].
    Qed.
  End Ans.

  (** ** One operation at a time *)

  Definition inside (x : slow_thread) : option conn_op := match x with SlInside op _ => Some op | _ => None end.

  (** What a step does, seen from thread [t]. *)
  Inductive move (t : nat) : slow_thread -> list (slow_event E) -> slow_thread -> Prop :=
  | Mv_other : forall x ev, Forall (fun e => whose e <> t) ev -> move t x ev x
  | Mv_silent : forall x y, inside x = None -> inside y = None -> x <> SlPanicked -> move t x [] y
  | Mv_own : forall x e y, inside x = None -> inside y = None -> x <> SlPanicked -> whose e = t -> borders e = false -> move t x [e] y
  | Mv_begin : forall x op y, inside x = None -> inside y = Some op -> x <> SlPanicked -> move t x [SlBegin t op] y
  | Mv_end : forall x op r y, inside x = Some op -> inside y = None -> move t x [SlEnd t op (Returned r)] y
  | Mv_unwound : forall x op, inside x = Some op -> move t x [SlEnd t op Unwound] SlPanicked.

  Lemma step_move : forall a (c : @slow_config S) t, move t (sl_threads c t) (fst (ss a c)) (sl_threads (snd (ss a c)) t).
  Proof.
    intros a c t.
    assert (SAME : forall e k st (conn : S), Forall (fun e => whose e <> t) e ->
      move t (sl_threads c t) (fst (e, SlowConfig k st conn (sl_threads c))) (sl_threads (snd (e, SlowConfig k st conn (sl_threads c))) t)).
    { intros. cbn [fst snd sl_threads]. now apply Mv_other. }
    assert (NOP : move t (sl_threads c t) (fst ([], c)) (sl_threads (snd (@nil (slow_event E), c)) t)) by (cbn [fst snd]; now apply Mv_other).
    assert (SET : forall u ev x k st (conn : S), Forall (fun e => whose e = u) ev -> (u = t -> move t (sl_threads c t) ev x) ->
      move t (sl_threads c t) ev (sl_threads (SlowConfig k st conn (fun v => if Nat.eqb v u then x else sl_threads c v)) t)).
    { intros u ev x k st conn F M. cbn. destruct (Nat.eqb_spec t u) as [Q|Q]; [subst u; now apply M|].
      apply Mv_other. eapply Forall_impl; [|exact F]. cbn. intros e <-. congruence. }
    destruct a as [u p|u md|u|u|u|k|k|n]; cbn [slow_step].
    - destruct (sl_threads c u) eqn:T; try exact NOP. apply SET; [constructor|]. intros ->. rewrite T. now constructor.
    - destruct (sl_threads c u) eqn:T; try exact NOP. apply SET; [repeat constructor|]. intros ->. rewrite T. now constructor.
    - destruct (sl_threads c u) eqn:T; try exact NOP. apply SET; [repeat constructor|]. intros ->. rewrite T. now constructor.
    - destruct (sl_threads c u) eqn:T; try exact NOP. apply SET; [repeat constructor|]. intros ->. rewrite T. now constructor.
    - unfold sl_run. destruct (sl_threads c u) as [|p|p sid|p sid st|op back|] eqn:T; try exact NOP.
      + destruct (sid_draw (sl_counter c)) as [sid k]. apply SET; [repeat constructor|]. intros ->. rewrite T. now constructor.
      + destruct (sl_store c sid); [|destruct (fnf_start chunk sid p)];
          (apply SET; [repeat constructor|]; intros ->; rewrite T; now constructor).
      + destruct (fnf_next bd st) as [[[f st']|]| |]; (apply SET; [repeat constructor|]; intros ->; rewrite T; now constructor).
      + destruct (sc_go sc (sl_conn c) u) as [conn [a|]]; [|now apply SAME].
        apply SET; [repeat constructor|]. intros ->. rewrite T. destruct a as [r|]; [|now constructor].
        apply Mv_end; [reflexivity|]. destruct r, back as [[[p sid] st']|]; reflexivity.
    - now apply SAME.
    - now apply SAME.
    - now apply SAME.
  Qed.

  Lemma gone : forall acts (c : @slow_config S) t, sl_threads c t = SlPanicked ->
    Forall (fun e => whose e <> t) (fst (sx acts c)) /\ sl_threads (snd (sx acts c)) t = SlPanicked.
  Proof.
    induction acts as [|a acts IH]; intros c t T; [cbn; auto|]. cbn [slow_exec]. pose proof (step_move a c t) as M.
    rewrite T in M. destruct (ss a c) as [ev c']. cbn [fst snd] in M.
    assert (X : Forall (fun e => whose e <> t) ev /\ sl_threads c' t = SlPanicked).
    { inversion M; subst; try congruence; try discriminate. auto. }
    destruct X as [X1 X2]. destruct (IH c' t X2) as [Y1 Y2]. destruct (sx acts c') as [evs c'']. cbn [fst snd] in *.
    split; [apply Forall_app; auto|exact Y2].
  Qed.

  Lemma turn_others : forall t o (ev tr : list (slow_event E)) o', Forall (fun e => whose e <> t) ev -> in_turn t o tr o' -> in_turn t o (ev ++ tr) o'.
  Proof. intros t o ev tr o' F T. induction F as [|e ev N F IH]; [exact T|]. cbn [app]. now apply It_other. Qed.

  Lemma turns : forall acts (c : @slow_config S) t, in_turn t (inside (sl_threads c t)) (fst (sx acts c)) (inside (sl_threads (snd (sx acts c)) t)).
  Proof.
    induction acts as [|a acts IH]; intros c t; [cbn; constructor|]. cbn [slow_exec]. pose proof (step_move a c t) as M.
    destruct (ss a c) as [ev c'] eqn:Q. cbn [fst snd] in M. specialize (IH c' t). pose proof (gone acts c' t) as G.
    destruct (sx acts c') as [evs c'']. cbn [fst snd] in *. inversion M as [x l F|x y X Y N|x e y X Y N W B|x op y X Y N|x op r y X Y|x op X]; subst.
    - rewrite <- H1 in IH. now apply turn_others.
    - rewrite X. now rewrite Y in IH.
    - rewrite X. rewrite Y in IH. now apply It_own.
    - rewrite X. rewrite Y in IH. now apply It_begin.
    - rewrite X. rewrite Y in IH. now apply It_end.
    - rewrite X. destruct G as [G1 G2]; [congruence|]. rewrite G2. now apply It_unwound.
  Qed.

  Lemma turn_fun : forall t o (tr : list (slow_event E)) o1 o2, in_turn t o tr o1 -> in_turn t o tr o2 -> o1 = o2.
  Proof.
    intros t o tr o1 o2 H. revert o2. induction H; intros o2 H2; inversion H2; subst; auto; try discriminate; cbn in *; try congruence.
    exfalso. rewrite <- H3 in H0. discriminate.
  Qed.
End Sim.

Section Ends.
  Context {S E : Type} (sc : slow_connection S E) (bd : build) (chunk : option N) (init : Z) (st : store) (conn : S).
  Local Notation start := (slow_init init st conn).

  Lemma simulated : forall acts, exists ans ls, Forall2 stands_for acts ls /\ forall n,
    let run := slow_exec sc bd chunk (firstn n acts) start in
    let l := concat (firstn n ls) in
    let run' := exec (answering ans) bd chunk l (config_init init st 0%nat) in
    fst run' = at_ends (fst run) /\ cf_counter (snd run') = sl_counter (snd run) /\ cf_store (snd run') = sl_store (snd run) /\
    forall t f, in_turn t None (fst run) (Some (OpForget f)) -> exists r,
      fst (exec (answering ans) bd chunk (l ++ [Run t]) (config_init init st 0%nat)) = at_ends (fst run) ++ [EvSend t f r].
  Proof.
    intros acts. set (as_ := answers (fst (slow_exec sc bd chunk acts start))).
    exists (fun n => nth n as_ None).
    destruct (exec_sim sc bd chunk (fun n => nth n as_ None) acts start (config_init init st 0%nat)) as (ls & F & W).
    { constructor; reflexivity. }
    { intros i r I. cbn. fold as_ in I. now apply nth_error_nth. }
    exists ls. split; [exact F|]. intros n. cbn zeta. destruct (W n) as [W1 [AC AS AT]].
    split; [exact W1|]. split; [exact AC|]. split; [exact AS|]. intros t f T.
    pose proof (turns sc bd chunk (firstn n acts) start t) as T2. cbn [slow_init sl_threads inside] in T2.
    pose proof (turn_fun _ _ _ _ _ T T2) as I. specialize (AT t). rewrite ex_app, W1. cbn [fst].
    destruct (sl_threads (snd (slow_exec sc bd chunk (firstn n acts) start)) t) as [| | | |op back|]; try discriminate.
    cbn [inside] in I. injection I as <-. destruct back as [[[p sid] st']|]; cbn [like] in AT; [|contradiction].
    destruct AT as (s0 & AT & FN). cbn [exec step]. rewrite AT, FN. cbn. eexists. reflexivity.
  Qed.

  Lemma turn_each : forall acts t, exists o, in_turn t None (fst (slow_exec sc bd chunk acts start)) o.
  Proof. intros acts t. eexists. exact (turns sc bd chunk acts start t). Qed.

  (** ** The frames of a call, in order *)

  Lemma begun_app : forall t sid (a b : list (slow_event E)), begun t sid (a ++ b) = begun t sid a ++ begun t sid b.
  Proof. intros. apply flat_map_app. Qed.

  Definition mine (t : nat) (sid : N) {X : Type} (tr : list (event X)) : list frame :=
    flat_map (fun e => match e with EvSend u f _ => if Nat.eqb u t && carries_id sid f then [f] else [] | _ => [] end) tr.

  (** What has been begun is what has ended, and what is under way. *)
  Lemma begun_ended : forall t sid o (tr : list (slow_event E)) o', in_turn t o tr o' ->
    let w x := match x with Some (OpForget f) => if carries_id sid f then [f] else [] | _ => [] end in
    w o ++ begun t sid tr = mine t sid (at_ends tr) ++ w o'.
  Proof.
    intros t sid o tr o' H. cbn zeta.
    induction H as [o|e o tr o' N H IH|e tr o' W B H IH|op tr o' H IH|op r tr o' H IH|op tr F].
    - cbn. now rewrite app_nil_r.
    - assert (X : begun t sid [e] = [] /\ mine t sid (at_ends [e]) = []).
      { assert (Q : forall u, u <> t -> Nat.eqb u t = false) by (intros; now apply Nat.eqb_neq).
        destruct e as [u x|u x p|u x|u [f|f|]|u [f|f|] a|u x|u|u]; cbn in *; rewrite ?(Q u N); auto. }
      change (e :: tr) with ([e] ++ tr). rewrite begun_app. unfold at_ends, mine in *. rewrite !flat_map_app.
      destruct X as [-> ->]. exact IH.
    - assert (X : begun t sid [e] = [] /\ mine t sid (at_ends [e]) = []) by (destruct e; try discriminate; cbn; auto).
      change (e :: tr) with ([e] ++ tr). rewrite begun_app. unfold at_ends, mine in *. rewrite !flat_map_app.
      destruct X as [-> ->]. exact IH.
    - change (SlBegin t op :: tr) with ([SlBegin t op] ++ tr). rewrite begun_app. unfold at_ends, mine in *. cbn [app flat_map at_end].
      rewrite <- IH. destruct op as [f|f|]; cbn; rewrite ?Nat.eqb_refl; cbn; try reflexivity. now rewrite app_nil_r.
    - unfold at_ends, mine in *. cbn [flat_map]. rewrite flat_map_app, <- app_assoc, <- IH. unfold begun. cbn [flat_map app].
      destruct op as [f|f|]; cbn; rewrite ?Nat.eqb_refl; cbn; reflexivity || (destruct (carries_id sid f); reflexivity).
    - assert (X : begun t sid tr = [] /\ mine t sid (at_ends tr) = []).
      { assert (Q : forall u, u <> t -> Nat.eqb u t = false) by (intros; now apply Nat.eqb_neq).
        induction F as [|e tr N F IH]; [auto|]. change (e :: tr) with ([e] ++ tr). rewrite begun_app. unfold at_ends, mine in *.
        rewrite !flat_map_app. destruct IH as [-> ->]. rewrite !app_nil_r.
        destruct e as [u x|u x p|u x|u [f|f|]|u [f|f|] a|u x|u|u]; cbn in *; rewrite ?(Q u N); auto. }
      change (SlEnd t op Unwound :: tr) with ([SlEnd t op Unwound] ++ tr). rewrite begun_app. unfold at_ends, mine in *.
      rewrite !flat_map_app. destruct X as [-> ->]. cbn [begun flat_map app].
      destruct op as [f|f|]; cbn; rewrite ?Nat.eqb_refl; cbn; rewrite ?app_nil_r; reflexivity.
  Qed.

  Lemma mine_received : forall t sid X (tr : list (event X)),
    (forall u f r, In (EvSend u f r) tr -> carries_id sid f = true -> u = t) ->
    (forall u f r, In (EvPush u f r) tr -> carries_id sid f = false) -> received sid tr = mine t sid tr.
  Proof.
    intros t sid X tr A B. unfold received, mine. induction tr as [|e tr IH]; [reflexivity|]. cbn [flat_map].
    rewrite IH; [|intros u f r I; apply (A u f r); now right|intros u f r I; apply (B u f r); now right]. f_equal.
    destruct e as [u x|u x p|u x|u f r|u x|u|u f r| |u]; try reflexivity.
    - specialize (A u f r (or_introl eq_refl)). destruct (carries_id sid f); [|now rewrite andb_false_r].
      rewrite (A eq_refl), Nat.eqb_refl. reflexivity.
    - now rewrite (B u f r (or_introl eq_refl)).
  Qed.

  Lemma whole : forall acts, exists ans acts',
    let tr := fst (slow_exec sc bd chunk acts start) in
    fst (exec (answering ans) bd chunk acts' (config_init init st 0%nat)) = at_ends tr /\
    forall t f, in_turn t None tr (Some (OpForget f)) -> exists r,
      fst (exec (answering ans) bd chunk (acts' ++ [Run t]) (config_init init st 0%nat)) = at_ends tr ++ [EvSend t f r].
  Proof.
    intros acts. destruct (simulated acts) as (ans & ls & F & W). exists ans, (concat ls).
    specialize (W (length acts)). cbn zeta in *. rewrite firstn_all in W.
    assert (L : length ls = length acts) by (clear - F; induction F; cbn; congruence).
    rewrite <- L, firstn_all in W. destruct W as (W1 & _ & _ & W2). auto.
  Qed.

  Lemma at_ends_in : forall (tr : list (slow_event E)),
    (forall t sid p, In (SlAlloc t sid p) tr <-> In (EvAlloc t sid p) (at_ends tr)) /\
    (forall t sid, In (SlReturn t sid) tr <-> In (EvReturn t sid) (at_ends tr)).
  Proof.
    intros tr. unfold at_ends. split; intros; split; intros I.
    - apply in_flat_map. eexists. split; [exact I|]. now left.
    - apply in_flat_map in I as (e & I & J). destruct e as [u x|u x q|u x|u [f|f|]|u [f|f|] a|u x|u|u]; cbn in J; intuition; try discriminate.
      match goal with H : _ = EvAlloc _ _ _ |- _ => injection H as -> -> -> end. exact I.
    - apply in_flat_map. eexists. split; [exact I|]. now left.
    - apply in_flat_map in I as (e & I & J). destruct e as [u x|u x q|u x|u [f|f|]|u [f|f|] a|u x|u|u]; cbn in J; intuition; try discriminate.
      match goal with H : _ = EvReturn _ _ |- _ => injection H as -> -> end. exact I.
  Qed.

  Lemma in_allocs : forall X (tr : list (event X)) t sid p, In (EvAlloc t sid p) tr -> In (t, sid, p) (allocs tr).
  Proof. intros X tr t sid p I. unfold allocs. apply in_flat_map. eexists. split; [exact I|]. now left. Qed.

  Lemma one_owner : forall X (tr : list (event X)) t sid p u q, NoDup (alloc_ids tr) ->
    In (EvAlloc t sid p) tr -> In (EvAlloc u sid q) tr -> t = u.
  Proof.
    intros X tr t sid p u q N A B. apply in_allocs in A. apply in_allocs in B. unfold alloc_ids in N.
    revert A B N. generalize (allocs tr). intros l. induction l as [|x l IH]; [intros []|].
    intros [A|A] [B|B] N; cbn in N; inversion N as [|y m N1 N2]; subst.
    - congruence.
    - exfalso. apply N1. cbn. apply (in_map (fun x => snd (fst x))) in B. exact B.
    - exfalso. apply N1. cbn. apply (in_map (fun x => snd (fst x))) in A. exact A.
    - auto.
  Qed.
  Lemma drawn_app1 : forall X (tr : list (event X)) e, (forall t sid, e <> EvDraw t sid) -> drawn (tr ++ [e]) = drawn tr.
  Proof. intros X tr e H. unfold drawn. rewrite flat_map_app. destruct e; cbn; rewrite ?app_nil_r; try reflexivity. exfalso. eapply H. reflexivity. Qed.

  Lemma begun_in_order : chunk <> Some 0 -> forall acts,
    let tr := fst (slow_exec sc bd chunk acts start) in
    N.of_nat (List.length (drawn (at_ends tr))) <= 2 ^ 30 ->
    forall t sid p, In (SlAlloc t sid p) tr ->
    exists all rest, carries sid (fragments chunk p) all /\ all = begun t sid tr ++ rest /\ (In (SlReturn t sid) tr -> rest = []).
  Proof.
    intros C acts. cbn zeta. set (tr := fst (slow_exec sc bd chunk acts start)). intros D t sid p A.
    destruct (whole acts) as (ans & acts' & W1 & W2). fold tr in W1, W2.
    destruct (turn_each acts t) as (o & T). fold tr in T.
    pose proof (begun_ended t sid None tr o T) as B. cbn zeta in B. cbn [app] in B.
    destruct (at_ends_in tr) as [IA IR].
    assert (GEN : forall acts'' tr'', fst (exec (answering ans) bd chunk acts'' (config_init init st 0%nat)) = tr'' ->
      drawn tr'' = drawn (at_ends tr) -> (forall e, In e (at_ends tr) -> In e tr'') ->
      begun t sid tr = mine t sid tr'' ->
      exists all rest, carries sid (fragments chunk p) all /\ all = begun t sid tr ++ rest /\ (In (SlReturn t sid) tr -> rest = [])).
    { intros acts'' tr'' E1 E2 E3 E4.
      pose proof (no_mixing (answering ans) bd chunk init st 0%nat C acts'') as NM. cbn zeta in NM. rewrite E1 in NM.
      pose proof (alloc_distinct (answering ans) bd chunk init st 0%nat acts'') as AD. cbn zeta in AD. rewrite E1 in AD.
      pose proof (only_calls (answering ans) bd chunk init st 0%nat C acts'') as OC. cbn zeta in OC. rewrite E1 in OC.
      rewrite E2 in *. specialize (AD D). specialize (OC D).
      assert (A2 : In (EvAlloc t sid p) tr'') by (apply E3, IA; exact A).
      destruct (NM D t sid p A2) as (all & rest & R1 & R2 & R3). exists all, rest. split; [exact R1|]. split.
      - rewrite R2, E4. f_equal. apply mine_received.
        + intros u f r I K. destruct (OC u f r I) as (q & p' & -> & J). cbn in K. apply N.eqb_eq in K. rewrite K in J.
          symmetry. eapply one_owner; eauto.
        + intros u f r I. pose proof (push_events (answering ans) bd chunk init st 0%nat acts'' u f r) as PE. rewrite E1 in PE.
          destruct (PE I) as (md & -> & _). reflexivity.
      - intros I. apply R3, E3, IR, I. }
    destruct o as [[f|f|]|].
    - destruct (W2 t f T) as (r & W3). apply (GEN _ _ W3).
      + apply drawn_app1. discriminate.
      + intros e I. apply in_or_app. now left.
      + rewrite B. unfold mine. rewrite flat_map_app. cbn. rewrite Nat.eqb_refl. cbn. now rewrite app_nil_r.
    - apply (GEN _ _ W1); auto. now rewrite B, app_nil_r.
    - apply (GEN _ _ W1); auto. now rewrite B, app_nil_r.
    - apply (GEN _ _ W1); auto. now rewrite B, app_nil_r.
  Qed.

  (** ** Who begins what *)

  Lemma begins_ends : forall t op o (tr : list (slow_event E)) o', in_turn t o tr o' -> In (SlBegin t op) tr ->
    o' = Some op \/ exists a, In (SlEnd t op a) tr.
  Proof.
    intros t op o tr o' H.
    assert (G : (o = Some op \/ In (SlBegin t op) tr) -> o' = Some op \/ exists a, In (SlEnd t op a) tr).
    { induction H as [o|e o tr o' N H IH|e tr o' W B H IH|op' tr o' H IH|op' r tr o' H IH|op' tr F]; intros G.
      - destruct G as [G|[]]; auto.
      - assert (X : o' = Some op \/ exists a, In (SlEnd t op a) tr).
        { apply IH. destruct G as [G|[G|G]]; auto. exfalso. apply N. now rewrite G. }
        destruct X as [X|(a & X)]; [now left|right; exists a; now right].
      - assert (X : o' = Some op \/ exists a, In (SlEnd t op a) tr).
        { apply IH. destruct G as [G|[G|G]]; auto. rewrite G in B. discriminate. }
        destruct X as [X|(a & X)]; [now left|right; exists a; now right].
      - assert (X : o' = Some op \/ exists a, In (SlEnd t op a) tr).
        { apply IH. destruct G as [G|[G|G]]; auto; [discriminate|]. injection G as ->. now left. }
        destruct X as [X|(a & X)]; [now left|right; exists a; now right].
      - destruct G as [G|[G|G]]; [|discriminate|].
        + injection G as ->. right. eexists. now left.
        + assert (X : o' = Some op \/ exists a, In (SlEnd t op a) tr) by (apply IH; now right).
          destruct X as [X|(a & X)]; [now left|right; exists a; now right].
      - destruct G as [G|[G|G]]; [|discriminate|].
        + injection G as ->. right. eexists. now left.
        + exfalso. rewrite Forall_forall in F. apply (F _ G). reflexivity. }
    intros I. apply G. now right.
  Qed.

  Lemma begun_by_calls : chunk <> Some 0 -> forall acts,
    let tr := fst (slow_exec sc bd chunk acts start) in
    N.of_nat (List.length (drawn (at_ends tr))) <= 2 ^ 30 ->
    NoDup (alloc_ids (at_ends tr)) /\
    forall t f, In (SlBegin t (OpForget f)) tr -> exists q p, f = FRequestFnf q /\ In (SlAlloc t (fnf_stream_id q) p) tr.
  Proof.
    intros C acts. cbn zeta. set (tr := fst (slow_exec sc bd chunk acts start)). intros D.
    destruct (whole acts) as (ans & acts' & W1 & W2). fold tr in W1, W2. destruct (at_ends_in tr) as [IA IR].
    split.
    { pose proof (alloc_distinct (answering ans) bd chunk init st 0%nat acts') as AD. cbn zeta in AD. rewrite W1 in AD. auto. }
    intros t f I. destruct (turn_each acts t) as (o & T). fold tr in T.
    destruct (begins_ends t (OpForget f) None tr o T I) as [->|(a & J)].
    - destruct (W2 t f T) as (r & W3).
      pose proof (only_calls (answering ans) bd chunk init st 0%nat C (acts' ++ [Run t])) as OC. cbn zeta in OC. rewrite W3 in OC.
      rewrite drawn_app1 in OC by discriminate. destruct (OC D t f r) as (q & p & -> & J).
      { apply in_or_app. right. now left. }
      exists q, p. split; [reflexivity|]. apply IA. apply in_app_or in J as [J|[J|[]]]; [exact J|discriminate].
    - pose proof (only_calls (answering ans) bd chunk init st 0%nat C acts') as OC. cbn zeta in OC. rewrite W1 in OC.
      destruct (OC D t f (answer a)) as (q & p & -> & K).
      { unfold at_ends. apply in_flat_map. eexists. split; [exact J|]. now left. }
      exists q, p. split; [reflexivity|]. now apply IA.
  Qed.
End Ends.

(** ** And the other way round *)

Section Whole.
  Context {S E : Type} (cn : connection S E) (bd : build) (chunk : option N).
  Local Notation sx := (slow_exec (instant cn) bd chunk).

  Definition conv (x : thread) : slow_thread :=
    match x with
    | Idle => SlIdle
    | Drawing p => SlDrawing p
    | Checking p sid => SlChecking p sid
    | Sending p sid st => SlSending p sid st
    | Panicked => SlPanicked
    end.

  Record mirrors (d : @config S) (c : @slow_config (S * (nat -> option E))) : Prop := Mirrors {
    mi_counter : sl_counter c = cf_counter d;
    mi_store : sl_store c = cf_store d;
    mi_conn : fst (sl_conn c) = cf_conn d;
    mi_threads : forall t, sl_threads c t = conv (cf_threads d t) }.

  Lemma mirrors_set : forall (d : @config S) (c : @slow_config (S * (nat -> option E))) t x k st conn conn',
    (forall u, sl_threads c u = conv (cf_threads d u)) -> fst conn' = conn ->
    mirrors (Config k st conn (set_thread (cf_threads d) t x))
      (SlowConfig k st conn' (fun u => if Nat.eqb u t then conv x else sl_threads c u)).
  Proof.
    intros d c t x k st conn conn' H CN. constructor; cbn; try easy. intros u. unfold set_thread.
    destruct (Nat.eqb u t); [reflexivity|apply H].
  Qed.

  Local Arguments sid_draw : simpl never. Local Arguments fnf_next : simpl never. Local Arguments fnf_start : simpl never.
  Definition names (a : action) : nat := match a with Call t _ | Run t | Push t _ | Request t => t | _ => 0 end.

  Lemma send_twice : forall c t p sid st f st', sl_threads c t = SlSending p sid st -> fnf_next bd st = Ret (Some (f, st')) ->
    let r := snd (cn_send_and_forget cn (fst (sl_conn c)) f) in
    sx [SlRun t; SlRun t] c =
      ([SlBegin t (OpForget f); SlEnd t (OpForget f) (Returned r)],
       SlowConfig (sl_counter c) (sl_store c)
         (fst (cn_send_and_forget cn (fst (sl_conn c)) f), fun u => if Nat.eqb u t then r else snd (sl_conn c) u)
         (fun u => if Nat.eqb u t then sl_after (Returned r) (Some (p, sid, st')) else if Nat.eqb u t then SlInside (OpForget f) (Some (p, sid, st')) else sl_threads c u)).
  Proof.
    intros c t p sid st f st' TT NX r.
    assert (E1 : slow_step (instant cn) bd chunk (SlRun t) c = sl_enter (instant cn) c t (OpForget f) (Some (p, sid, st'))).
    { cbn [slow_step]. unfold sl_run. rewrite TT, NX. reflexivity. }
    cbn [slow_exec]. rewrite E1. unfold sl_enter. cbn [slow_step]. unfold sl_run. cbn. rewrite Nat.eqb_refl. cbn.
    reflexivity.
  Qed.

  Lemma whole_step : forall u a d c, mirrors d c -> cf_threads d u = Idle -> names a <> u ->
    exists l, at_ends (fst (sx l c)) = map unpushed (fst (step cn bd chunk a d)) /\
      mirrors (snd (step cn bd chunk a d)) (snd (sx l c)) /\ cf_threads (snd (step cn bd chunk a d)) u = Idle.
  Proof.
    intros u a d c MI ID NU. pose proof MI as [MC MS MN MT].
    destruct a as [t p|t|t md| |k|k|t]; cbn [names] in NU;
      try (pose proof (MT t) as TT; assert (UT : Nat.eqb u t = false) by (apply Nat.eqb_neq; congruence)).
    - exists [SlCall t p]. cbn. rewrite TT. destruct (cf_threads d t); cbn; unfold set_thread; rewrite ?UT;
        (split; [reflexivity|split; [|exact ID]]); try exact MI. unfold sl_set. rewrite MC, MS.
      now apply (mirrors_set d c t (Drawing p)).
    - destruct (cf_threads d t) eqn:DT; cbn [conv] in TT.
      + exists []. cbn. rewrite DT. cbn. auto.
      + exists [SlRun t]. cbn. unfold sl_run. rewrite TT, MC, DT. destruct (sid_draw (cf_counter d)) as [sid k].
        cbn. unfold set_thread at 2. rewrite UT. split; [reflexivity|]. split; [|exact ID]. unfold sl_set. cbn. rewrite MS.
        now apply (mirrors_set d c t (Checking p sid)).
      + exists [SlRun t]. cbn. unfold sl_run. rewrite TT, MS, DT. destruct (cf_store d sid).
        * cbn. unfold set_thread at 2. rewrite UT. split; [reflexivity|]. split; [|exact ID]. unfold sl_set. rewrite MC, MS.
          now apply (mirrors_set d c t (Drawing p)).
        * destruct (fnf_start chunk sid p); cbn; unfold set_thread at 2; rewrite UT; (split; [reflexivity|]); (split; [|exact ID]);
            unfold sl_set; rewrite MC, MS;
            first [now apply (mirrors_set d c t (Sending p sid a))|now apply (mirrors_set d c t Panicked)].
      + destruct (fnf_next bd st) as [[[f st']|]| |] eqn:NX.
        * exists [SlRun t; SlRun t]. rewrite (send_twice _ _ _ _ _ _ _ TT NX). cbn. rewrite DT, NX, MN.
          destruct (cn_send_and_forget cn (cf_conn d) f) as [conn' r]. cbn.
          unfold set_thread at 2. rewrite UT. split; [now destruct r|]. split; [|exact ID].
          constructor; cbn; try assumption; try reflexivity.
          intros v. unfold set_thread. destruct (Nat.eqb v t) eqn:V; [now destruct r|apply MT].
        * exists [SlRun t]. cbn. unfold sl_run. rewrite TT, DT, NX. cbn. unfold set_thread at 2. rewrite UT.
          split; [reflexivity|]. split; [|exact ID]. unfold sl_set. rewrite MC, MS. now apply (mirrors_set d c t Idle).
        * exists [SlRun t]. cbn. unfold sl_run. rewrite TT, DT, NX. cbn. unfold set_thread at 2. rewrite UT.
          split; [reflexivity|]. split; [|exact ID]. unfold sl_set. rewrite MC, MS. now apply (mirrors_set d c t Panicked).
        * exists [SlRun t]. cbn. unfold sl_run. rewrite TT, DT, NX. cbn. unfold set_thread at 2. rewrite UT.
          split; [reflexivity|]. split; [|exact ID]. unfold sl_set. rewrite MC, MS. now apply (mirrors_set d c t Panicked).
      + exists []. cbn. rewrite DT. cbn. auto.
    - destruct (cf_threads d t) eqn:DT; cbn [conv] in TT;
        try (exists []; cbn; rewrite DT; cbn; auto; fail).
      exists [SlPush t md; SlRun t]. cbn. rewrite TT, DT. cbn. unfold sl_run. cbn. rewrite Nat.eqb_refl. cbn.
      rewrite MN. split; [reflexivity|]. split; [|exact ID]. unfold sl_set. cbn. constructor; cbn; try assumption; try reflexivity.
      intros v. destruct (Nat.eqb v t) eqn:V; [|apply MT]. apply Nat.eqb_eq in V. subst v. rewrite DT.
      now destruct (snd (sl_conn c) t).
    - pose proof (MT u) as TU. rewrite ID in TU. cbn in TU.
      exists [SlClose u; SlRun u]. cbn. rewrite TU. cbn. unfold sl_run. cbn. rewrite Nat.eqb_refl. cbn.
      rewrite MN. split; [reflexivity|]. split; [|exact ID]. unfold sl_set. cbn. constructor; cbn; try assumption; try reflexivity.
      intros v. destruct (Nat.eqb v u) eqn:V; [|apply MT]. apply Nat.eqb_eq in V. subst v. rewrite ID.
      now destruct (snd (sl_conn c) u).
    - exists [SlInsert k]. cbn. split; [reflexivity|]. split; [|exact ID]. constructor; cbn; try assumption. now rewrite MS.
    - exists [SlRemove k]. cbn. split; [reflexivity|]. split; [|exact ID]. constructor; cbn; try assumption. now rewrite MS.
    - exists [SlRequest t]. cbn. rewrite TT. destruct (cf_threads d t) eqn:DT; cbn; unfold set_thread; rewrite ?UT;
        (split; [reflexivity|split; [|exact ID]]); try exact MI. unfold sl_set. rewrite MC, MS.
      now apply (mirrors_set d c t Panicked).
  Qed.

  Lemma at_ends_app' : forall a b : list (slow_event E), at_ends (a ++ b) = (at_ends a ++ at_ends b)%list.
  Proof. intros. apply flat_map_app. Qed.

  Lemma none_missing : forall init st conn acts, exists acts',
    let run := slow_exec (instant cn) bd chunk acts' (slow_init init st (conn, fun _ => None)) in
    let run' := exec cn bd chunk acts (config_init init st conn) in
    at_ends (fst run) = map unpushed (fst run') /\ sl_counter (snd run) = cf_counter (snd run') /\
    sl_store (snd run) = cf_store (snd run') /\ fst (sl_conn (snd run)) = cf_conn (snd run').
  Proof.
    intros init st conn acts.
    assert (G : forall u acts d c, mirrors d c -> cf_threads d u = Idle -> Forall (fun a => names a <> u) acts ->
      exists acts', at_ends (fst (sx acts' c)) = map unpushed (fst (exec cn bd chunk acts d)) /\
        mirrors (snd (exec cn bd chunk acts d)) (snd (sx acts' c))).
    { clear acts. intros u. induction acts as [|a acts IH]; intros d c MI ID FR.
      - exists []. cbn. auto.
      - inversion_clear FR as [|? ? NU FR'].
        destruct (whole_step u a d c MI ID NU) as (l & L1 & L2 & L3).
        destruct (IH _ _ L2 L3 FR') as (l' & L4 & L5). exists (l ++ l')%list. rewrite sx_app. cbn [exec fst snd].
        destruct (step cn bd chunk a d) as [ev d']. cbn [fst snd] in *. destruct (exec cn bd chunk acts d') as [evs d''].
        cbn [fst snd] in *. split; [|exact L5]. rewrite at_ends_app', map_app. now rewrite L1, L4. }
    destruct (G (Datatypes.S (list_max (map names acts))) acts (config_init init st conn)
                (slow_init init st (conn, fun _ => None))) as (l & L1 & [L2 L3 L4 _]).
    - now constructor.
    - reflexivity.
    - assert (H : Forall (fun k => (k <= list_max (map names acts))%nat) (map names acts)) by (now apply list_max_le).
      apply Forall_map in H. eapply Forall_impl; [|exact H]. cbn. intros a. lia.
    - exists l. cbn zeta. auto.
  Qed.
End Whole.
