(** * What reaches a receiver of concurrent calls *)

From Verif Require Import Model.SocketM Model.BufM Spec.Socket.
From Verif Require Import Proofs.BitsP Proofs.CodecP Proofs.DecodeP Proofs.BuildP Proofs.CtorP Proofs.SidP Proofs.SocketP Proofs.TraceP.

(** ** Accepted frames *)

Section Accepted.
  Context {S E : Type} (cn : connection S E).
  Variables (bd : build) (chunk : option N) (init : Z) (st0 : store) (conn0 : S).

  Notation run acts := (exec cn bd chunk acts (config_init init st0 conn0)).
  Notation trace := (list (event E)).

  Lemma accepted_app : forall sid (a b : trace), accepted sid (a ++ b) = accepted sid a ++ accepted sid b.
  Proof. intros. unfold accepted. apply flat_map_app. Qed.
  Lemma accepted_filter : forall sid (tr : trace), accepted sid tr = filter (carries_id sid) (accepted_all tr).
  Proof.
    intros sid tr. induction tr as [|e tr IH]; [reflexivity|]. cbn [accepted accepted_all flat_map].
    fold (accepted sid tr) (accepted_all tr). rewrite filter_app, <- IH. f_equal.
    destruct e as [| | |t f [e|]| | |t f [e|]| |]; try reflexivity; cbn [filter]; now destruct (carries_id sid f).
  Qed.

  Definition acc_inv (tr : trace) (c : @config S) : Prop :=
    (forall t p sid st, cf_threads c t = Sending p sid st -> accepted sid tr = received sid tr) /\
    (forall t sid, In (EvReturn t sid) tr -> accepted sid tr = received sid tr) /\
    (forall sid, exists rest, received sid tr = accepted sid tr ++ rest) /\
    (forall t f e sid, In (EvSend t f (Some e)) tr -> carries_id sid f = true ->
       exists g rest, received sid tr = accepted sid tr ++ g :: rest).

  Lemma acc_invariant : chunk <> Some 0 -> forall acts, N.of_nat (length (drawn (fst (run acts)))) <= 2 ^ 30 ->
    acc_inv (fst (run acts)) (snd (run acts)).
  Proof.
    intros Hc acts. apply (run_ind cn bd chunk init st0 conn0 (fun _ tr c => N.of_nat (length (drawn tr)) <= 2 ^ 30 -> acc_inv tr c)); clear acts.
    - intros _. split; [cbn; discriminate|]. split; [cbn; contradiction|]. split; [|cbn; contradiction]. intros sid. exists []. reflexivity.
    - intros acts tr c a ev c' R IH Sh Ln. rewrite drawn_app, app_length in Ln.
      pose proof (call_invariant cn bd chunk init st0 conn0 Hc acts) as CI. rewrite R in CI. cbn [fst snd] in CI.
      destruct (CI ltac:(lia)) as (I1 & I2 & I3 & I4 & I5 & I6 & I7). clear CI.
      destruct (IH ltac:(lia)) as (A1 & A2 & A3 & A4). clear IH.
      assert (noev : forall (x : event E) tr, In x (tr ++ ev) <-> In x tr \/ In x ev) by (intros; apply in_app_iff).
      (* events that neither send nor return *)
      assert (Q : (forall sid, accepted sid ev = [] /\ received sid ev = []) ->
        (forall t sid, In (EvReturn t sid) ev -> exists p st, cf_threads c t = Sending p sid st) ->
        (forall t f e, ~ In (EvSend t f (Some e)) ev) ->
        (forall t p sid st, cf_threads c' t = Sending p sid st ->
           cf_threads c t = Sending p sid st \/ received sid tr = []) -> acc_inv (tr ++ ev) c').
      { intros Q1 Q2 Q3 Q4.
        assert (EA : forall sid, accepted sid (tr ++ ev) = accepted sid tr)
          by (intros s; rewrite accepted_app, (proj1 (Q1 s)); apply app_nil_r).
        assert (ER : forall sid, received sid (tr ++ ev) = received sid tr)
          by (intros s; rewrite received_app, (proj2 (Q1 s)); apply app_nil_r).
        split; [|split; [|split]].
        - intros t p sid st H. rewrite EA, ER. destruct (Q4 _ _ _ _ H) as [X|X]; [eapply A1; eauto|].
          destruct (A3 sid) as (rest & Er). rewrite X in Er. destruct (accepted sid tr); [now rewrite X|discriminate].
        - intros t sid H. rewrite EA, ER. apply noev in H as [H|H]; [eapply A2; eauto|].
          destruct (Q2 _ _ H) as (p & st & X). eapply A1; eauto.
        - intros sid. rewrite EA, ER. apply A3.
        - intros t f e sid H. rewrite EA, ER. apply noev in H as [H|H]; [eapply A4; eauto|]. destruct (Q3 _ _ _ H). }
      destruct Sh as [a H1 H2|t p T|k|k|t md T| |t p T|t p sid T St|t p sid st T St F|t p sid T St F|t p sid st T F|t p sid st f st' T F|t p sid st T F|t T].
      all: try (apply Q; [intros s; split; reflexivity|cbn; intros ? ? H; intuition discriminate|cbn; intros ? ? ? H; intuition discriminate|
        cbn [cf_threads]; intros u q s x H; try (apply threads_after in H as [[_ H]|[_ H]]; [discriminate|]); left; exact H]).
      + (* a push *)
        apply Q; [|cbn; intros ? ? H; intuition discriminate|cbn; intros ? ? ? H; intuition discriminate|auto].
        intros s. cbn. destruct (snd (cn_send cn (cf_conn c) _)); split; reflexivity.
      + (* the id is obtained *)
        apply Q; [intros s; split; reflexivity|cbn; intros ? ? H; intuition discriminate|cbn; intros ? ? ? H; intuition discriminate|].
        cbn [cf_threads]. intros u q s x H. apply threads_after in H as [[_ H]|[_ H]]; [|now left]. right.
        injection H as -> -> ->. apply received_none; [|exact I6|eapply I1; eauto].
        intros v g r I. pose proof (push_events cn bd chunk init st0 conn0 acts v g r) as X. rewrite R in X.
        destruct (X I) as (md & -> & _). reflexivity.
      + (* a return *)
        apply Q; [intros s; split; reflexivity| |cbn; intros ? ? ? H; intuition discriminate|].
        * intros u s [H|[]]. injection H as <- <-. eauto.
        * cbn [cf_threads]. intros u q s x H. apply threads_after in H as [[_ H]|[_ H]]; [discriminate|now left].
      + (* a frame goes out *)
        clear Q. destruct (I4 _ _ _ _ T) as (B1 & B2 & rest & B3 & Y). inversion Y as [? Y0|? g st2 fs Y0 Y1]; subst; [congruence|].
        rewrite F in Y0. injection Y0 as <- <-.
        destruct (yields_id _ _ _ _ _ _ B3) as (w & -> & Ew).
        set (r := snd (cn_send_and_forget cn (cf_conn c) (FRequestFnf w))) in *.
        assert (RC : forall s, received s (tr ++ [EvSend t (FRequestFnf w) r]) =
          received s tr ++ (if sid =? s then [FRequestFnf w] else [])).
        { intros s. rewrite received_app. cbn. rewrite Ew. now rewrite app_nil_r. }
        assert (AC : forall s, accepted s (tr ++ [EvSend t (FRequestFnf w) r]) =
          accepted s tr ++ (match r with None => if sid =? s then [FRequestFnf w] else [] | Some _ => [] end)).
        { intros s. rewrite accepted_app. cbn. rewrite Ew. destruct r; now rewrite !app_nil_r. }
        assert (Now : accepted sid tr = received sid tr) by (eapply A1; eauto).
        split; [|split; [|split]].
        * cbn [cf_threads]. intros u q s x H. rewrite RC, AC. apply threads_after in H as [[-> H]|[Nu H]].
          -- destruct r as [e|]; [discriminate|]. injection H as <- <- <-. now rewrite Now.
          -- destruct (N.eqb_spec sid s) as [<-|].
             ++ exfalso. apply Nu. destruct (I4 _ _ _ _ H) as (C1 & _). eapply nodup_key; [exact I3|exact C1|exact B1].
             ++ rewrite (A1 _ _ _ _ H). destruct r; reflexivity.
        * intros u s H. apply noev in H as [H|[H|[]]]; [|discriminate]. rewrite RC, AC.
          destruct (N.eqb_spec sid s) as [<-|]; [destruct (B2 _ H)|]. rewrite (A2 _ _ H). destruct r; reflexivity.
        * intros s. rewrite RC, AC. destruct (N.eqb_spec sid s) as [<-|].
          -- rewrite Now. destruct r; [exists [FRequestFnf w]|exists []]; now rewrite !app_nil_r.
          -- destruct (A3 s) as (x & ->). exists x. destruct r; now rewrite !app_nil_r.
        * intros u g e s H K. rewrite RC, AC. apply noev in H as [H|[H|[]]].
          -- destruct (A4 _ _ _ _ H K) as (g0 & x & Eg). destruct (N.eqb_spec sid s) as [<-|].
             ++ exfalso. rewrite Now in Eg. apply (f_equal (@length _)) in Eg. rewrite app_length in Eg. cbn [length] in Eg. lia.
             ++ exists g0, x. rewrite Eg. destruct r; now rewrite !app_nil_r.
          -- injection H as <- <- Er. cbn [carries_id] in K. apply N.eqb_eq in K. rewrite Ew in K. subst s.
             rewrite Er, N.eqb_refl, Now. exists (FRequestFnf w), []. now rewrite app_nil_r.
  Qed.

  (** What has been taken of a call. *)
  Lemma accepted_call : chunk <> Some 0 -> forall acts, N.of_nat (length (drawn (fst (run acts)))) <= 2 ^ 30 ->
    forall t sid p, In (EvAlloc t sid p) (fst (run acts)) -> exists rest,
    call_frames chunk sid p = accepted sid (fst (run acts)) ++ rest /\
    (In (EvReturn t sid) (fst (run acts)) -> rest = []) /\
    (forall f e, In (EvSend t f (Some e)) (fst (run acts)) -> carries_id sid f = true -> rest <> []).
  Proof.
    intros Hc acts L t sid p I. destruct (call_invariant cn bd chunk init st0 conn0 Hc acts L) as (_ & _ & _ & _ & I5 & _).
    destruct (acc_invariant Hc acts L) as (_ & A2 & A3 & A4).
    apply in_allocs in I. destruct (I5 _ _ _ I) as (rest & B1 & B2). destruct (A3 sid) as (x & Ex).
    exists (x ++ rest). split; [rewrite B1, Ex; now rewrite <- app_assoc|]. split.
    - intros H. rewrite (B2 H), app_nil_r. specialize (A2 _ _ H). rewrite A2 in Ex.
      apply (f_equal (@length _)) in Ex. rewrite app_length in Ex. destruct x; [reflexivity|cbn [length] in Ex; lia].
    - intros f e H K. destruct (A4 _ _ _ _ H K) as (g & y & Ey). rewrite Ey in Ex. apply app_inv_head in Ex. subst x. discriminate.
  Qed.
  Lemma no_mixing_accepted : chunk <> Some 0 -> forall acts, N.of_nat (length (drawn (fst (run acts)))) <= 2 ^ 30 ->
    forall t sid p, In (EvAlloc t sid p) (fst (run acts)) -> exists all rest,
    carries sid (fragments chunk p) all /\ all = accepted sid (fst (run acts)) ++ rest /\
    (In (EvReturn t sid) (fst (run acts)) -> rest = []) /\
    (forall f e, In (EvSend t f (Some e)) (fst (run acts)) -> carries_id sid f = true -> rest <> []).
  Proof.
    intros Hc acts L t sid p I. destruct (accepted_call Hc acts L t sid p I) as (rest & H).
    exists (call_frames chunk sid p), rest. split; [apply call_carries|exact H].
  Qed.
  Lemma accepted_none : chunk <> Some 0 -> forall acts, N.of_nat (length (drawn (fst (run acts)))) <= 2 ^ 30 ->
    forall sid, ~ In sid (alloc_ids (fst (run acts))) -> accepted sid (fst (run acts)) = [].
  Proof.
    intros Hc acts L sid N0. destruct (call_invariant cn bd chunk init st0 conn0 Hc acts L) as (_ & _ & _ & _ & _ & I6 & _).
    destruct (acc_invariant Hc acts L) as (_ & _ & A3 & _). destruct (A3 sid) as (x & Ex).
    rewrite received_none in Ex; [| |exact I6|exact N0].
    - now destruct (accepted sid (fst (run acts))).
    - intros t f r I. destruct (push_events cn bd chunk init st0 conn0 acts _ _ _ I) as (md & -> & _). reflexivity.
  Qed.
  (** Every taken frame is a push or part of a call. *)
  Lemma accepted_kinds : chunk <> Some 0 -> forall acts, N.of_nat (length (drawn (fst (run acts)))) <= 2 ^ 30 ->
    forall f, In f (accepted_all (fst (run acts))) ->
    (exists md, f = FMetadataPush (MetadataPushFrame md)) \/
    (exists sid b q, sid < 2 ^ 31 /\ f = fnf_frame sid b q).
  Proof.
    intros Hc acts L f I. destruct (call_invariant cn bd chunk init st0 conn0 Hc acts L) as (_ & _ & _ & _ & I5 & I6 & _).
    unfold accepted_all in I. apply in_flat_map in I as (ev & I & H).
    destruct ev as [| | |t g [e|]| | |t g [e|]| |]; cbn in H; try contradiction; destruct H as [->|[]].
    - right. destruct (I6 _ _ _ I) as (w & p & -> & Ia).
      assert (K : In (FRequestFnf w) (accepted (fnf_stream_id w) (fst (run acts)))).
      { rewrite accepted_filter. apply filter_In. split; [|cbn [carries_id]; apply N.eqb_refl].
        apply in_flat_map. eexists. split; [exact I|]. now left. }
      destruct (accepted_call Hc acts L _ _ _ (proj1 (in_allocs _ _ _ _) Ia)) as (rest & Ec & _).
      pose proof (call_carries chunk (fnf_stream_id w) p) as C. rewrite Ec in C.
      apply Forall2_app_inv_r in C as (l1 & l2 & C & _ & _).
      assert (X : exists b q, FRequestFnf w = fnf_frame (fnf_stream_id w) b q).
      { clear -C K. induction C as [|q g ps fs (b & ->) C IH]; [contradiction|]. destruct K as [K|K]; [|auto]. eauto. }
      destruct X as (b & q & X). exists (fnf_stream_id w), b, q. split; [|exact X].
      apply (drawn_class cn bd chunk init st0 conn0 acts). apply (draw_invariant cn bd chunk init st0 conn0 acts). eapply in_ids, Ia.
    - left. destruct (push_events cn bd chunk init st0 conn0 acts _ _ _ I) as (md & -> & _). eauto.
  Qed.
End Accepted.

(** ** Reading headers *)

Lemma header_read : forall sid c w rest, sid < 2 ^ 31 -> c < 64 -> w < 1024 ->
  let v := header_bytes 0 sid c w ++ rest in
  stream_of v = sid /\ type_of v = c /\ follows_of v = N.testbit w 6.
Proof.
  intros sid c w rest Hs Hc Hw v. unfold v, header_bytes. clear v.
  assert (F1 : firstn 4 ((to_be 4 (0 * 2 ^ 31 + sid) ++ to_be 2 (c * 1024 + w)) ++ rest) = to_be 4 sid) by reflexivity.
  assert (F2 : firstn 2 (skipn 4 ((to_be 4 (0 * 2 ^ 31 + sid) ++ to_be 2 (c * 1024 + w)) ++ rest)) = to_be 2 (c * 1024 + w)) by reflexivity.
  unfold stream_of, type_of, follows_of. rewrite F1, F2, !number_of_be.
  rewrite (of_be_to_be 4) by (change (256 ^ N.of_nat 4) with (2 ^ 32); change (2 ^ 31) with 2147483648 in Hs; change (2 ^ 32) with 4294967296; lia).
  rewrite (of_be_to_be 2) by (change (256 ^ N.of_nat 2) with 65536; lia).
  change 1024 with (2 ^ 10) in *. split; [now apply N.mod_small|]. split.
  - rewrite N.div_add_l by discriminate. rewrite N.div_small by exact Hw. lia.
  - rewrite <- (N.mod_pow2_bits_low (c * 2 ^ 10 + w) 10 6) by lia.
    rewrite N.add_comm, N.mod_add, N.mod_small by (try discriminate; exact Hw). reflexivity.
Qed.

Lemma fnf_read : forall sid b q v, sid < 2 ^ 31 -> frame_encode (fnf_frame sid b q) [] = EOk v ->
  stream_of v = sid /\ type_of v = 5 /\ follows_of v = b.
Proof.
  intros sid b q v Hs E0. pose proof (fnf_in_range sid b q Hs (encode_small _ _ _ _ E0)) as R.
  rewrite encode_typed in E0; [|now apply in_range_typed|now apply in_range_small]. injection E0 as <-. cbn [app].
  unfold wire_bytes. set (w := flag_word (fnf_frame sid b q)).
  assert (Hw : w < 1024) by (apply flag_word_lt; now apply in_range_typed).
  destruct (header_read sid 5 w (body_bytes 0 0 (fnf_frame sid b q)) Hs ltac:(lia) Hw) as (X & Y & Z).
  split; [exact X|]. split; [exact Y|].
  transitivity (N.testbit w 6); [exact Z|]. unfold w. cbn [flag_word fnf_frame fnf_flags].
  destruct (present (p_metadata q)), b; reflexivity.
Qed.
Lemma push_read : forall md v, frame_encode (FMetadataPush (MetadataPushFrame md)) [] = EOk v -> type_of v <> 5.
Proof.
  intros md v E0. assert (R : in_range (FMetadataPush (MetadataPushFrame md))) by exact I.
  rewrite encode_typed in E0; [|now apply in_range_typed|now apply in_range_small]. injection E0 as <-. cbn [app].
  unfold wire_bytes. match goal with |- type_of (header_bytes 0 ?s ?c ?w ++ ?r) <> 5 =>
    destruct (header_read s c w r) as (_ & Y & _) end; [reflexivity|reflexivity|reflexivity|]. rewrite Y. discriminate.
Qed.

(** ** One stream of the receiver *)

Definition on_stream (sid : N) (v : bytes) : bool := (type_of v =? 5) && (stream_of v =? sid).
Fixpoint cut (g : list bytes) (l : list bytes) : list (list bytes) :=
  match l with
  | [] => []
  | v :: l' => if follows_of v then cut (g ++ [v]) l' else (g ++ [v]) :: cut [] l'
  end.

Lemma deliveries_stream : forall l pend sid,
  filter (fun x => fst x =? sid) (deliveries pend l) = map (pair sid) (cut (pend sid) (filter (on_stream sid) l)).
Proof.
  induction l as [|v l IH]; intros pend sid; [reflexivity|]. cbn [deliveries filter]. unfold on_stream at 1.
  destruct (type_of v =? 5); [|apply IH]. cbn [andb]. destruct (N.eqb_spec (stream_of v) sid) as [Es|Ns].
  - cbn [cut]. destruct (follows_of v).
    + rewrite IH, Es, N.eqb_refl. reflexivity.
    + cbn [filter fst]. rewrite (proj2 (N.eqb_eq _ _) Es). cbn [map]. rewrite IH, Es, N.eqb_refl. reflexivity.
  - assert (D : (sid =? stream_of v) = false) by (apply N.eqb_neq; congruence). destruct (follows_of v).
    + rewrite IH, D. reflexivity.
    + cbn [filter fst]. rewrite (proj2 (N.eqb_neq _ _) Ns), IH, D. reflexivity.
Qed.

Lemma nodup_by_filter : forall l : list (N * list bytes),
  (forall k, (length (filter (fun x => (fst x =? k)%N) l) <= 1)%nat) -> NoDup (map fst l).
Proof.
  induction l as [|[k g] l IH]; intros H; [constructor|]. cbn [map fst]. constructor.
  - intros I. apply in_map_iff in I as ([k' g'] & Ek & I). cbn [fst] in Ek. subst k'.
    specialize (H k). cbn [filter fst] in H. rewrite N.eqb_refl in H. cbn [length] in H.
    assert (X : In (k, g') (filter (fun x => fst x =? k) l)) by (apply filter_In; split; [exact I|apply N.eqb_refl]).
    destruct (filter (fun x => fst x =? k) l); [contradiction|cbn [length] in H; lia].
  - apply IH. intros k'. specialize (H k'). cbn [filter fst] in H. destruct (k =? k'); cbn [length] in H; lia.
Qed.

Lemma filter_encoded : forall sid fs l,
  (forall f, In f fs -> (exists md, f = FMetadataPush (MetadataPushFrame md)) \/
     (exists s b q, s < 2 ^ 31 /\ f = fnf_frame s b q)) ->
  Forall2 (fun f v => frame_encode f [] = EOk v) fs l ->
  Forall2 (fun f v => frame_encode f [] = EOk v) (filter (carries_id sid) fs) (filter (on_stream sid) l).
Proof.
  intros sid fs l K H. induction H as [|f v fs l E0 H IH]; [constructor|]. cbn [filter]. unfold on_stream at 1.
  assert (IH' := IH (fun g I => K g (or_intror I))). destruct (K f (or_introl eq_refl)) as [(md & ->)|(s & b & q & Hs & ->)].
  - cbn [carries_id]. rewrite (proj2 (N.eqb_neq _ _) (push_read _ _ E0)). exact IH'.
  - destruct (fnf_read _ _ _ _ Hs E0) as (-> & -> & _). cbn [carries_id fnf_frame fnf_stream_id]. rewrite N.eqb_refl. cbn [andb].
    destruct (s =? sid); [constructor; assumption|exact IH'].
Qed.

Lemma cut_marked : forall sid, sid < 2 ^ 31 -> forall ps acc rest l g, marked sid ps = acc ++ rest ->
  Forall2 (fun f v => frame_encode f [] = EOk v) acc l ->
  (rest = [] /\ ps <> [] /\ cut g l = [g ++ l]) \/ ((rest <> [] \/ ps = []) /\ cut g l = []).
Proof.
  intros sid Hs. induction ps as [|q ps IH]; intros acc rest l g M H.
  - right. split; [now right|]. destruct acc; [|discriminate]. inversion H. reflexivity.
  - destruct acc as [|f acc].
    + inversion H; subst. right. split; [|reflexivity]. left. cbn [app] in M. rewrite <- M. cbn [marked]. destruct ps; discriminate.
    + inversion H as [|? v ? l' E0 H']; subst. destruct ps as [|q' ps].
      * cbn [marked app] in M. injection M as <- M. symmetry in M. apply app_eq_nil in M as [-> ->]. inversion H'; subst.
        left. split; [reflexivity|]. split; [discriminate|]. cbn [cut].
        destruct (fnf_read _ _ _ _ Hs E0) as (_ & _ & ->). reflexivity.
      * change (marked sid (q :: q' :: ps)) with (fnf_frame sid true q :: marked sid (q' :: ps)) in M. cbn [app] in M.
        injection M as <- M. cbn [cut]. destruct (fnf_read _ _ _ _ Hs E0) as (_ & _ & ->).
        destruct (IH _ _ _ (g ++ [v]) M H') as [(-> & _ & ->)|(A & ->)].
        -- left. split; [reflexivity|]. split; [discriminate|]. now rewrite <- app_assoc.
        -- right. split; [|reflexivity]. destruct A as [A|A]; [now left|discriminate].
Qed.

Lemma drop_full : forall p, p_metadata p <> Some [] -> p_data p <> Some [] -> drop_empty_payload p = p.
Proof.
  intros [m d] A B. unfold drop_empty_payload. cbn [p_metadata p_data] in *.
  destruct m as [[|]|], d as [[|]|]; try reflexivity; exfalso; auto.
Qed.

(** ** All of them *)

Section Delivered.
  Context {S E : Type} (cn : connection S E).
  Variables (bd : build) (chunk : option N) (init : Z) (st0 : store) (conn0 : S).
  Notation run acts := (exec cn bd chunk acts (config_init init st0 conn0)).

  Lemma delivered : chunk <> Some 0 -> (forall n, chunk = Some n -> n <= usize_max) -> forall acts l,
    N.of_nat (length (drawn (fst (run acts)))) <= 2 ^ 30 ->
    (forall t sid p, In (EvAlloc t sid p) (fst (run acts)) -> deliverable p) ->
    Forall2 (fun f v => frame_encode f [] = EOk v) (accepted_all (fst (run acts))) l ->
    NoDup (map fst (deliveries (fun _ => []) l)) /\
    (forall sid g, In (sid, g) (deliveries (fun _ => []) l) ->
       exists t p, In (EvAlloc t sid p) (fst (run acts)) /\ bl_try_into flat 0 g = DOk p) /\
    (forall t sid p, In (EvAlloc t sid p) (fst (run acts)) -> In (EvReturn t sid) (fst (run acts)) ->
       exists g, In (sid, g) (deliveries (fun _ => []) l) /\ bl_try_into flat 0 g = DOk p) /\
    (forall t sid p f e g, In (EvAlloc t sid p) (fst (run acts)) -> In (EvSend t f (Some e)) (fst (run acts)) ->
       carries_id sid f = true -> ~ In (sid, g) (deliveries (fun _ => []) l)).
  Proof.
    intros Hc Hn acts l L P H.
    assert (FE : forall sid, Forall2 (fun f v => frame_encode f [] = EOk v) (accepted sid (fst (run acts))) (filter (on_stream sid) l)).
    { intros sid. rewrite accepted_filter. apply filter_encoded; [|exact H].
      intros f I. apply (accepted_kinds cn bd chunk init st0 conn0 Hc acts L f I). }
    assert (DS : forall sid, filter (fun x => fst x =? sid) (deliveries (fun _ => []) l) = map (pair sid) (cut [] (filter (on_stream sid) l)))
      by (intros; apply deliveries_stream).
    assert (Hin : forall sid g, In (sid, g) (deliveries (fun _ => []) l) <-> In g (cut [] (filter (on_stream sid) l))).
    { intros sid g. split; intros I.
      - assert (X : In (sid, g) (filter (fun x => fst x =? sid) (deliveries (fun _ => []) l)))
          by (apply filter_In; split; [exact I|apply N.eqb_refl]).
        rewrite DS in X. apply in_map_iff in X as (g' & [= <-] & X). exact X.
      - apply (in_map (pair sid)) in I. rewrite <- DS in I. apply filter_In in I. apply I. }
    (* a stream that belongs to a call *)
    assert (One : forall t sid p, In (EvAlloc t sid p) (fst (run acts)) -> exists rest,
      call_frames chunk sid p = accepted sid (fst (run acts)) ++ rest /\
      (In (EvReturn t sid) (fst (run acts)) -> rest = []) /\
      (forall f e, In (EvSend t f (Some e)) (fst (run acts)) -> carries_id sid f = true -> rest <> []) /\
      ((rest = [] /\ cut [] (filter (on_stream sid) l) = [filter (on_stream sid) l] /\
        bl_try_into flat 0 (filter (on_stream sid) l) = DOk p) \/
       (rest <> [] /\ cut [] (filter (on_stream sid) l) = []))).
    { intros t sid p I. destruct (accepted_call cn bd chunk init st0 conn0 Hc acts L t sid p I) as (rest & A & B & C).
      exists rest. split; [exact A|]. split; [exact B|]. split; [exact C|].
      destruct (P _ _ _ I) as (P1 & P2 & P3 & P4 & P5).
      assert (Hs : sid < 2 ^ 31).
      { apply (drawn_class cn bd chunk init st0 conn0 acts). apply (draw_invariant cn bd chunk init st0 conn0 acts).
        eapply in_ids, in_allocs, I. }
      pose proof (call_marked chunk sid p Hc Hn P1 P2 P3 P4) as M. rewrite A in M. symmetry in M.
      destruct (cut_marked sid Hs _ _ _ _ [] M (FE sid)) as [(-> & _ & X)|([X|X] & Y)].
      - left. split; [reflexivity|]. split; [exact X|]. rewrite app_nil_r in A.
        assert (C0 : carries sid (fragments chunk p) (accepted sid (fst (run acts)))) by (rewrite <- A; apply call_carries).
        rewrite (end_to_end chunk sid p _ _ Hc Hs C0 (FE sid)), drop_full by assumption. reflexivity.
      - right. auto.
      - exfalso. apply fragments_empty in X as [_ X]; [|exact Hc]. contradiction. }
    assert (Nothing : forall sid, ~ In sid (alloc_ids (fst (run acts))) -> cut [] (filter (on_stream sid) l) = []).
    { intros sid N0. specialize (FE sid). rewrite (accepted_none cn bd chunk init st0 conn0 Hc acts L sid N0) in FE. inversion FE. reflexivity. }
    split; [|split; [|split]].
    - apply nodup_by_filter. intros sid. rewrite DS, map_length.
      destruct (in_dec N.eq_dec sid (alloc_ids (fst (run acts)))) as [I|I]; [|rewrite (Nothing _ I); cbn; lia].
      apply ids_in in I as (t & p & I). apply in_allocs in I.
      destruct (One _ _ _ I) as (rest & _ & _ & _ & [(_ & -> & _)|(_ & ->)]); cbn; lia.
    - intros sid g I. apply Hin in I.
      destruct (in_dec N.eq_dec sid (alloc_ids (fst (run acts)))) as [Ia|Ia]; [|rewrite (Nothing _ Ia) in I; contradiction].
      apply ids_in in Ia as (t & p & Ia). apply in_allocs in Ia. exists t, p. split; [exact Ia|].
      destruct (One _ _ _ Ia) as (rest & _ & _ & _ & [(_ & X & Y)|(_ & X)]); rewrite X in I; [|contradiction].
      destruct I as [<-|[]]. exact Y.
    - intros t sid p Ia Ir. destruct (One _ _ _ Ia) as (rest & _ & B & _ & [(_ & X & Y)|(X & _)]); [|destruct X; auto].
      eexists. split; [|exact Y]. apply Hin. rewrite X. now left.
    - intros t sid p f e g Ia Is K I. apply Hin in I.
      destruct (One _ _ _ Ia) as (rest & _ & _ & C & [(X & _)|(_ & X)]); [exact (C _ _ Is K X)|]. rewrite X in I. contradiction.
  Qed.
End Delivered.

(** A call whose parts are present but empty ends well and is never delivered. *)
Lemma lost : forall (S E : Type) (send : S -> frame -> S * option E) fuel bd m n p conn gs c' conn' l,
  fire_and_forget send fuel bd m p conn = Ret (None, gs, c', conn') ->
  rm_chunk_payload m = Some n -> n <= usize_max ->
  part (p_metadata p) = [] -> part (p_data p) = [] -> p <> Payload None None ->
  Forall2 (fun f v => frame_encode f [] = EOk v) gs l ->
  deliveries (fun _ => []) l = [].
Proof.
  intros S E send fuel bd m n p conn gs c' conn' l H Em Hn HM HD X F.
  destruct (fnf_empty_part send _ _ _ _ _ _ _ _ _ H Em Hn HM HD X) as (sid & Eg).
  apply no_mix_ok in H as (_ & sid' & _ & Hs & Ec). pose proof (call_carries (rm_chunk_payload m) sid' p) as C.
  rewrite <- Ec, Eg in C. inversion C as [|q f ps fs (b & Ef) _]. unfold fnf_frame in Ef. injection Ef as Es _ _. subst sid'. rewrite Eg in F. clear -Hs F.
  destruct l as [|v [|v' l]]; [inversion F| |inversion F as [|? ? ? ? _ F']; inversion F'].
  assert (E0 : frame_encode (fnf_frame sid true p) [] = EOk v) by (inversion F; assumption). cbn [deliveries].
  destruct (fnf_read _ _ _ _ Hs E0) as (_ & -> & ->). reflexivity.
Qed.
