(** * What each thread does and what the connection goes through *)

From Verif Require Import Model.SocketM Spec.Socket.
From Verif Require Import Proofs.SidP Proofs.SocketP Proofs.TraceP.

(** ** Subsequences *)

Lemma some_of_refl : forall (A : Type) (l : list A), some_of l l.
Proof. induction l; constructor; assumption. Qed.
Lemma some_of_app : forall (A : Type) (a b c d : list A), some_of a b -> some_of c d -> some_of (a ++ c) (b ++ d).
Proof.
  intros A a b c d H K. induction H as [l|l x m H IH|l x m H IH]; cbn [app].
  - induction l as [|x l IH]; [exact K|]. cbn [app]. now constructor.
  - now constructor.
  - now constructor.
Qed.
Lemma some_of_more : forall (A : Type) (a b c : list A), some_of a b -> some_of a (b ++ c).
Proof. intros A a b c H. rewrite <- (app_nil_r a). apply some_of_app; [exact H|constructor]. Qed.

Lemma asked_app : forall t a b, asked t (a ++ b) = asked t a ++ asked t b.
Proof. intros. unfold asked. apply flat_map_app. Qed.

Section Connection.
  Context {S E : Type} (cn : connection S E).
  Variables (bd : build) (chunk : option N) (init : Z) (st0 : store) (conn0 : S).

  Notation run acts := (exec cn bd chunk acts (config_init init st0 conn0)).
  Notation trace := (list (event E)).

  (** ** The connection *)

  Lemma replays_app : forall s (a b : trace) s1 s2, replays cn s a s1 -> replays cn s1 b s2 -> replays cn s (a ++ b) s2.
  Proof. intros s a b s1 s2 H K. induction H; [exact K|]. cbn [app]. econstructor; eauto. Qed.
  Lemma replays_one : forall s (e : event E) s', undergoes cn s e s' -> replays cn s [e] s'.
  Proof. intros. econstructor; [eassumption|constructor]. Qed.

  Lemma replayed : forall acts, replays cn conn0 (fst (run acts)) (cf_conn (snd (run acts))).
  Proof.
    apply (run_ind cn bd chunk init st0 conn0 (fun _ tr c => replays cn conn0 tr (cf_conn c))).
    - constructor.
    - intros acts tr c a ev c' _ IH Sh. eapply replays_app; [exact IH|]. clear IH.
      destruct Sh; cbn [cf_conn]; try constructor; apply replays_one; cbn; try reflexivity; apply surjective_pairing.
  Qed.

  (** The closes in a trace are those asked for. *)
  Notation is_close := (fun e : event E => match e with EvClose => true | _ => false end).
  Lemma closes : forall acts (c : @config S),
    length (filter is_close (fst (exec cn bd chunk acts c))) =
    length (filter (fun a => match a with Close => true | _ => false end) acts).
  Proof.
    induction acts as [|a acts IH]; intros c; [reflexivity|]. cbn [exec].
    pose proof (IH (snd (step cn bd chunk a c))) as X. clear IH.
    assert (Y : length (filter is_close (fst (step cn bd chunk a c))) = match a with Close => 1%nat | _ => 0%nat end).
    { destruct a as [t p|t|t md| |k|k|t]; cbn [step]; try reflexivity.
      - destruct (cf_threads c t); reflexivity.
      - destruct (cf_threads c t) as [|p|p sid|p sid st|]; try reflexivity.
        + destruct (cf_store c sid); [reflexivity|]. destruct (fnf_start chunk sid p); reflexivity.
        + destruct (fnf_next bd st) as [[[f st']|]| |]; try reflexivity.
          destruct (cn_send_and_forget cn (cf_conn c) f); reflexivity.
      - destruct (cf_threads c t); reflexivity.
      - destruct (cf_threads c t); reflexivity. }
    destruct (step cn bd chunk a c) as [ev c']. cbn [fst snd] in X, Y.
    destruct (exec cn bd chunk acts c') as [evs c'']. cbn [fst] in *.
    rewrite filter_app, app_length, X, Y. now destruct a.
  Qed.

  (** ** One thread *)

  Notation behaves := (@behaves E chunk).

  Lemma behaves_app : forall t rs a (tr : trace) b, behaves t rs a tr b ->
    forall rs' tr' c, behaves t rs' b tr' c -> behaves t (rs ++ rs') a (tr ++ tr') c.
  Proof.
    intros t rs a tr b H. induction H as [a|rs a e b rs1 tr c D B IH]; intros rs' tr' c' K; [exact K|].
    rewrite <- app_assoc. cbn [app]. econstructor; [exact D|]. now apply IH.
  Qed.
  Lemma behaves_one : forall t rs a (e : event E) b, does chunk t rs a e b -> behaves t rs a [e] b.
  Proof. intros t rs a e b D. rewrite <- (app_nil_r rs). econstructor; [exact D|constructor]. Qed.
  Lemma behaves_other : forall t a (tr : trace), Forall (fun e => by_thread t e = false) tr -> behaves t [] a tr a.
  Proof.
    intros t a tr H. induction H as [|e tr H F IH]; [constructor|].
    change (@nil request) with ([] ++ @nil request). econstructor; [now constructor|exact IH].
  Qed.

  (** The phase that goes with a state of the model; [more]: the request being taken up. *)
  Definition fits (ph : phase) (more : list request) (th : @thread) : Prop :=
    match th with
    | Idle => ph = Outside /\ more = []
    | Drawing p => (ph = Looking p /\ more = []) \/ (ph = Outside /\ more = [AskCall p])
    | Checking p sid => ph = Drawn p sid /\ more = [] /\ sid < 2 ^ 31
    | Sending p sid st => exists rest, ph = Inside sid rest /\ more = [] /\ yields bd st rest
    | Panicked => ph = Gone /\ more = []
    end.
  Definition thread_inv (t : nat) (acts : list action) (tr : trace) (th : @thread) : Prop :=
    exists rs more ph, behaves t rs Outside tr ph /\ some_of (rs ++ more) (asked t acts) /\ fits ph more th.

  Lemma thread_other : forall t acts (tr : trace) th more ev,
    thread_inv t acts tr th -> Forall (fun e => by_thread t e = false) ev -> thread_inv t (acts ++ more) (tr ++ ev) th.
  Proof.
    intros t acts tr th more ev (rs & mr & ph & B & H & F) O. exists rs, mr, ph. split; [|split; [|exact F]].
    - rewrite <- (app_nil_r rs). eapply behaves_app; [exact B|]. now apply behaves_other.
    - rewrite asked_app. now apply some_of_more.
  Qed.
  (** A step of the thread itself. *)
  Lemma thread_step : forall t acts (tr : trace) rs mr ph a e rs' mr' ph' th',
    behaves t rs Outside tr ph -> some_of (rs ++ mr) (asked t acts) ->
    does chunk t rs' ph e ph' -> (rs' ++ mr' = mr \/ (mr = [] /\ rs' ++ mr' = asked t [a])) -> fits ph' mr' th' ->
    thread_inv t (acts ++ [a]) (tr ++ [e]) th'.
  Proof.
    intros t acts tr rs mr ph a e rs' mr' ph' th' B H D M F. exists (rs ++ rs'), mr', ph'.
    split; [eapply behaves_app; [exact B|]; now apply behaves_one|]. split; [|exact F].
    rewrite <- app_assoc, asked_app. destruct M as [->|[-> ->]]; [now apply some_of_more|].
    rewrite app_nil_r in H. apply some_of_app; [exact H|apply some_of_refl].
  Qed.

  Lemma thread_invariant : forall t acts, thread_inv t acts (fst (run acts)) (cf_threads (snd (run acts)) t).
  Proof.
    intros t. apply (run_ind cn bd chunk init st0 conn0 (fun acts tr c => thread_inv t acts tr (cf_threads c t))).
    - exists [], [], Outside. split; [constructor|]. split; [constructor|]. now split.
    - intros acts tr c a ev c' R I Sh.
      assert (O : forall th', Forall (fun e => by_thread t e = false) ev -> th' = cf_threads c t ->
        thread_inv t (acts ++ [a]) (tr ++ ev) th') by (intros th' O ->; now apply thread_other).
      destruct Sh as [a H1 H2|u p T|k|k|u md T| |u p T|u p sid T St|u p sid st T St F|u p sid T St F|u p sid st T F|u p sid st f st' T F|u p sid st T F|u T];
        cbn [cf_threads]; try (now apply O); [| |apply O; [repeat constructor|reflexivity]|..];
        (destruct (Nat.eq_dec t u) as [->|Hn];
          [rewrite ?set_same|apply O; [repeat constructor; cbn; now apply Nat.eqb_neq; apply not_eq_sym|now rewrite ?set_other by exact Hn]]);
        destruct I as (rs & mr & ph & B & H & Ft); rewrite T in Ft; cbn [fits] in Ft.
      + (* a call begins *)
        destruct Ft as [-> ->]. exists rs, [AskCall p], Outside. rewrite app_nil_r in H |- *. split; [exact B|]. split; [|now right].
        rewrite asked_app. apply some_of_app; [exact H|]. cbn. rewrite Nat.eqb_refl. apply some_of_refl.
      + (* a push *)
        destruct Ft as [-> ->]. rewrite T. eapply thread_step; [exact B|exact H|apply Do_push| |now split].
        right. split; [reflexivity|]. cbn. now rewrite Nat.eqb_refl.
      + (* an id is drawn *)
        assert (Bd : fst (sid_draw (cf_counter c)) < 2 ^ 31).
        { pose proof (draw_invariant cn bd chunk init st0 conn0 acts) as D. rewrite R in D. cbn [fst snd] in D.
          destruct D as (_ & D & _). rewrite (proj1 (draw_at _ _ _ D)). apply id_bound. }
        destruct Ft as [[-> ->]|[-> ->]].
        * eapply thread_step; [exact B|exact H|apply Do_again|left; reflexivity|now split].
        * eapply thread_step; [exact B|exact H|apply Do_first|left; reflexivity|now split].
      + (* the id is in use *)
        destruct Ft as (-> & -> & Bd). eapply thread_step; [exact B|exact H|apply Do_busy|left; reflexivity|left; now split].
      + (* the id is free *)
        destruct Ft as (-> & -> & Bd).
        assert (Hc : chunk <> Some 0) by (intros Z; apply (start_panics chunk sid p) in Z; congruence).
        destruct (start_yields bd chunk sid p Bd Hc) as (st1 & F1 & Y). assert (st1 = st) by congruence. subst st1.
        eapply thread_step; [exact B|exact H|eapply Do_alloc; apply call_carries|left; reflexivity|].
        eexists. split; [reflexivity|]. split; [reflexivity|exact Y].
      + (* the chunk size is zero *)
        destruct Ft as (-> & -> & Bd).
        assert (Hc : chunk = Some 0).
        { destruct (fnf_start chunk sid p) as [st| |] eqn:Fs; [now destruct (F st)|now apply (start_panics chunk sid p)|].
          exfalso. destruct chunk as [n|]; [|discriminate]. destruct (N.eq_dec n 0) as [->|Hz]; [discriminate|].
          destruct (start_yields bd (Some n) sid p Bd ltac:(congruence)) as (st1 & F1 & _). congruence. }
        eapply thread_step; [exact B|exact H|now apply Do_panic|left; reflexivity|now split].
      + (* the call returns *)
        destruct Ft as (rest & -> & -> & Y). inversion Y as [? Y1|? ? ? ? Y1]; [subst|congruence].
        eapply thread_step; [exact B|exact H|apply Do_return|left; reflexivity|now split].
      + (* a frame is handed over *)
        destruct Ft as (rest & -> & -> & Y). inversion Y as [? Y1|? g st1 fs Y1 Y2]; [congruence|].
        subst rest. rewrite F in Y1. injection Y1 as <- <-.
        destruct (snd (cn_send_and_forget cn (cf_conn c) f)) as [e|].
        * eapply thread_step; [exact B|exact H|apply Do_refused|left; reflexivity|now split].
        * eapply thread_step; [exact B|exact H|apply Do_send|left; reflexivity|].
          exists fs. split; [reflexivity|]. split; [reflexivity|exact Y2].
      + (* no frame can be built *)
        exfalso. destruct Ft as (rest & -> & -> & Y). inversion Y as [? Y1|? ? ? ? Y1]; subst; eapply F; exact Y1.
      + (* a method that is not implemented *)
        destruct Ft as [-> ->]. eapply thread_step; [exact B|exact H|apply Do_missing| |now split].
        right. split; [reflexivity|]. cbn. now rewrite Nat.eqb_refl.
  Qed.

  Lemma behaviour : forall t acts, exists rs ph,
    some_of rs (asked t acts) /\ behaves t rs Outside (fst (run acts)) ph.
  Proof.
    intros t acts. destruct (thread_invariant t acts) as (rs & mr & ph & B & H & _). exists rs, ph. split; [|exact B].
    clear - H. revert H. generalize (asked t acts). induction rs as [|r rs IH]; intros l H; [constructor|].
    cbn [app] in H. remember (r :: rs ++ mr) as l0 eqn:E0. revert E0.
    induction H as [l|l x m H IHH|l x m H IHH]; intros E0; [discriminate|now constructor; apply IHH|].
    injection E0 as -> ->. apply So_take. now apply IH.
  Qed.

  Lemma behaves_panic : forall t rs a (tr : trace) b, behaves t rs a tr b -> In (EvPanic t) tr -> chunk = Some 0.
  Proof.
    intros t rs a tr b H. induction H as [a|rs a e b rs1 tr c D B IH]; intros I; [contradiction|].
    destruct I as [->|I]; [|now apply IH]. inversion D as [? ? O| | | | | | | | | |]; [|assumption].
    cbn in O. now rewrite Nat.eqb_refl in O.
  Qed.
  Lemma no_panic : chunk <> Some 0 -> forall acts t, ~ In (EvPanic t) (fst (run acts)).
  Proof.
    intros Hc acts t I. destruct (behaviour t acts) as (rs & ph & _ & B). apply Hc. eapply behaves_panic; eauto.
  Qed.
End Connection.

(** ** A new machine *)

Lemma fresh_call : forall (S E : Type) (send : S -> frame -> S * option E) fuel bd r p conn, (2 <= fuel)%nat ->
  let f := fnf_frame (match r with Client => 1 | Server => 2 end) false p in
  fire_and_forget send fuel bd (machine_new r) p conn =
  Ret (snd (send conn f), [f], (match r with Client => 3 | Server => 4 end)%Z, fst (send conn f)).
Proof.
  intros S E send fuel bd r p conn Hf f. destruct fuel as [|[|fuel]]; [lia|lia|].
  assert (Hn : next_stream_id (Datatypes.S (Datatypes.S fuel)) (rm_receivers (machine_new r)) (rm_stream_id (machine_new r)) =
    Ret (match r with Client => 1 | Server => 2 end, (match r with Client => 3 | Server => 4 end)%Z))
    by (destruct r; reflexivity).
  set (sid := match r with Client => 1 | Server => 2 end) in *.
  assert (Hs : sid < 2 ^ 31) by (unfold sid; destruct r; reflexivity).
  unfold fire_and_forget. rewrite Hn. clear Hn.
  destruct (start_yields bd (rm_chunk_payload (machine_new r)) sid p Hs ltac:(discriminate)) as (st & Fs & Y).
  rewrite Fs. change (call_frames (rm_chunk_payload (machine_new r)) sid p) with [f] in Y.
  inversion Y as [|? ? st1 fs Y1 Y2]; subst. inversion Y2 as [? Y3|]; subst.
  cbn [fnf_finish]. rewrite Y1, Y3. destruct (send conn f) as [conn' [e|]]; reflexivity.
Qed.

Section Fresh.
  Context {S E : Type} (cn : connection S E).
  Variables (bd : build) (r : role) (conn0 : S).
  Notation m := (machine_new r).
  Notation run acts := (exec cn bd (rm_chunk_payload m) acts (config_init (rm_stream_id m) (rm_receivers m) conn0)).

  Definition fresh_inv (tr : list (event E)) (c : @config S) : Prop :=
    (forall k, cf_store c k = false) /\ (forall t sid, ~ In (EvBusy t sid) tr) /\
    (forall t p sid st, cf_threads c t = Sending p sid st -> In (EvAlloc t sid p) tr /\
       exists fs, yields bd st fs /\ (fs = [] \/ fs = [fnf_frame sid false p])) /\
    (forall t f a, In (EvSend t f a) tr -> exists sid p, f = fnf_frame sid false p /\ In (EvAlloc t sid p) tr).

  Lemma fresh_invariant : forall acts, (forall k, ~ In (Insert k) acts) -> fresh_inv (fst (run acts)) (snd (run acts)).
  Proof.
    apply (run_ind cn bd (rm_chunk_payload m) (rm_stream_id m) (rm_receivers m) conn0
      (fun acts tr c => (forall k, ~ In (Insert k) acts) -> fresh_inv tr c)).
    - intros _. split; [reflexivity|]. split; [cbn; auto|]. split; [discriminate|contradiction].
    - intros acts tr c a ev c' R IH Sh NI.
      destruct IH as (I1 & I2 & I3 & I4); [intros k I; apply (NI k), in_or_app; now left|].
      assert (Q : (forall k, cf_store c' k = false) -> (forall t sid, ~ In (EvBusy t sid) ev) ->
        (forall t f x, ~ In (EvSend t f x) ev) ->
        (forall t p sid st, cf_threads c' t = Sending p sid st -> cf_threads c t = Sending p sid st \/
           In (EvAlloc t sid p) ev /\ yields bd st [fnf_frame sid false p]) -> fresh_inv (tr ++ ev) c').
      { intros Q1 Q2 Q3 Q4. split; [exact Q1|]. split; [|split].
        - intros t sid I. apply in_app_iff in I as [I|I]; [eapply I2; eauto|eapply Q2; eauto].
        - intros t p sid st H. destruct (Q4 _ _ _ _ H) as [X|(X & Y)].
          + destruct (I3 _ _ _ _ X) as (A & B). split; [apply in_or_app; now left|exact B].
          + split; [apply in_or_app; now right|]. eauto.
        - intros t f x I. apply in_app_iff in I as [I|I]; [|destruct (Q3 _ _ _ I)].
          destruct (I4 _ _ _ I) as (sid & p & Ef & A). exists sid, p. split; [exact Ef|]. apply in_or_app. now left. }
      destruct Sh as [a H1 H2|t p T|k|k|t md T| |t p T|t p sid T St|t p sid st T St F|t p sid T St F|t p sid st T F|t p sid st f st' T F|t p sid st T F|t T].
      all: try (apply Q; [exact I1|cbn; intros ? ? H; intuition discriminate|cbn; intros ? ? ? H; intuition discriminate|
        cbn [cf_threads]; intros u q s x H; try (apply threads_after in H as [[_ H]|[_ H]]; [discriminate|]); left; exact H]).
      + destruct (NI k). apply in_or_app. right. now left.
      + apply Q; [|cbn; auto|cbn; auto|auto]. cbn [cf_store]. intros j. unfold set_store. now rewrite I1; destruct (j =? k).
      + now rewrite I1 in St.
      + apply Q; [exact I1|cbn; intros ? ? H; intuition discriminate|cbn; intros ? ? ? H; intuition discriminate|].
        cbn [cf_threads]. intros u q s x H. apply threads_after in H as [[-> H]|[_ H]]; [|now left]. right.
        injection H as -> -> ->. split; [now left|].
        assert (Bd : s < 2 ^ 31).
        { pose proof (draw_invariant cn bd (rm_chunk_payload m) (rm_stream_id m) (rm_receivers m) conn0 acts) as D.
          rewrite R in D. cbn [fst snd] in D. destruct D as (D1 & _ & D3 & _). apply D3 in T. rewrite D1 in T.
          unfold draws in T. apply in_map_iff in T as (i & <- & _). apply id_bound. }
        destruct (start_yields bd (rm_chunk_payload m) s q Bd ltac:(discriminate)) as (st1 & F1 & Y).
        rewrite F in F1. injection F1 as ->. exact Y.
      + destruct (I3 _ _ _ _ T) as (A & fs & Y & Hfs). inversion Y as [? Y1|? g st1 fs1 Y1 Y2]; subst; [congruence|].
        destruct Hfs as [Hfs|Hfs]; [discriminate|]. rewrite F in Y1. injection Y1 as <- <-. injection Hfs as -> ->.
        split; [exact I1|]. split; [|split].
        * intros u s I. apply in_app_iff in I as [I|[I|[]]]; [eapply I2; eauto|discriminate].
        * cbn [cf_threads]. intros u q s x H. apply threads_after in H as [[-> H]|[_ H]].
          -- destruct (snd (cn_send_and_forget cn (cf_conn c) _)); [discriminate|]. injection H as <- <- <-.
             split; [apply in_or_app; now left|]. eauto.
          -- destruct (I3 _ _ _ _ H) as (A' & B'). split; [apply in_or_app; now left|exact B'].
        * intros u g x I. apply in_app_iff in I as [I|[I|[]]].
          -- destruct (I4 _ _ _ I) as (s & q & Ef & A'). exists s, q. split; [exact Ef|]. apply in_or_app. now left.
          -- injection I as <- <- _. exists sid, p. split; [reflexivity|]. apply in_or_app. now left.
  Qed.

  (** Without other users of the store, every id drawn is taken at once. *)
  Lemma fresh_machine : forall acts, (forall k, ~ In (Insert k) acts) ->
    (forall t sid, ~ In (EvBusy t sid) (fst (run acts))) /\
    (forall t f a, In (EvSend t f a) (fst (run acts)) ->
       exists sid p, f = fnf_frame sid false p /\ In (EvAlloc t sid p) (fst (run acts))).
  Proof. intros acts NI. destruct (fresh_invariant acts NI) as (_ & A & _ & B). now split. Qed.
End Fresh.
