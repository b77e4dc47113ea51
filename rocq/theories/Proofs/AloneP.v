(** * A call with nobody else running, in the two models *)

From Verif Require Import Model.SocketM Spec.Socket.
From Verif Require Import Proofs.TraceP Proofs.ProgressP.

Section Connection.
  Context {S E : Type} (cn : connection S E).
  Variables (bd : build) (chunk : option N).
  Notation exec := (exec cn bd chunk).
  Notation alone t k := (repeat (Run t) k).

  (** All but thread [t] is as it was. *)
  Definition others (t : nat) (c c' : @config S) : Prop :=
    cf_store c' = cf_store c /\ forall u, u <> t -> cf_threads c' u = cf_threads c u.
  Lemma others_refl : forall t c, others t c c.
  Proof. split; auto. Qed.
  Lemma others_trans : forall t a b c, others t a b -> others t b c -> others t a c.
  Proof. intros t a b c [A B] [C D]. split; [congruence|]. intros u H. rewrite D, B; auto. Qed.
  Lemma others_set : forall t c cnt conn x, others t c (Config cnt (cf_store c) conn (set_thread (cf_threads c) t x)).
  Proof. intros. split; [reflexivity|]. intros u H. cbn [cf_threads]. now apply set_other. Qed.

  Lemma sent_app : forall a b : list (event E), sent (a ++ b) = sent a ++ sent b.
  Proof. intros. unfold sent. apply flat_map_app. Qed.

  Lemma exec_cons : forall a acts (c : @config S), exec (a :: acts) c =
    (fst (step cn bd chunk a c) ++ fst (exec acts (snd (step cn bd chunk a c))), snd (exec acts (snd (step cn bd chunk a c)))).
  Proof.
    intros a acts c. cbn [SocketM.exec]. destruct (step cn bd chunk a c) as [ev c']. cbn [fst snd].
    now destruct (exec acts c').
  Qed.

  Lemma alone_search : forall t fuel (c : @config S) p sid k', cf_threads c t = Drawing p ->
    next_stream_id fuel (cf_store c) (cf_counter c) = Ret (sid, k') ->
    exists k, let x := exec (alone t k) c in
      sent (fst x) = [] /\ cf_threads (snd x) t = Checking p sid /\ cf_counter (snd x) = k' /\
      cf_conn (snd x) = cf_conn c /\ others t c (snd x) /\ cf_store c sid = false.
  Proof.
    intros t. induction fuel as [|fuel IH]; intros c p sid k' T H; [discriminate|]. cbn [next_stream_id] in H.
    destruct (sid_draw (cf_counter c)) as [s c1] eqn:D. destruct (cf_store c s) eqn:St; cbn [negb] in H.
    - set (c2 := Config c1 (cf_store c) (cf_conn c) (set_thread (set_thread (cf_threads c) t (Checking p s)) t (Drawing p))).
      destruct (IH c2 p sid k') as (k & A & B & C & F & G & I); [apply set_same|exact H|].
      exists (Datatypes.S (Datatypes.S k)). cbn [repeat].
      assert (X : exec (Run t :: Run t :: alone t k) c = ([EvDraw t s; EvBusy t s] ++ fst (exec (alone t k) c2), snd (exec (alone t k) c2))).
      { rewrite !exec_cons. cbn [step]. rewrite T, D. cbn [fst snd cf_threads cf_store]. rewrite set_same, St. reflexivity. }
      rewrite X. cbn [fst snd]. rewrite sent_app, A. repeat split; auto; [apply G|].
      intros u Hu. destruct G as [_ G]. rewrite G by exact Hu. unfold c2. cbn [cf_threads]. now rewrite !set_other by exact Hu.
    - injection H as <- <-. exists 1%nat. cbn [repeat]. rewrite exec_cons. cbn [step]. rewrite T, D. cbn [fst snd SocketM.exec app].
      repeat split; auto; [apply set_same|]. intros u Hu. cbn [cf_threads]. now apply set_other.
  Qed.

  Definition ended (t : nat) (sid : N) (r : option E) (tr : list (event E)) : Prop :=
    match r with
    | None => exists tr0, tr = tr0 ++ [EvReturn t sid]
    | Some e => exists tr0 f, tr = tr0 ++ [EvSend t f (Some e)]
    end.

  Lemma alone_finish : forall t fuel (c : @config S) p sid st r fs conn', cf_threads c t = Sending p sid st ->
    fnf_finish (cn_send_and_forget cn) fuel bd st (cf_conn c) = Ret (r, fs, conn') ->
    exists k, let x := exec (alone t k) c in
      sent (fst x) = fs /\ ended t sid r (fst x) /\ cf_threads (snd x) t = Idle /\ cf_counter (snd x) = cf_counter c /\
      cf_conn (snd x) = conn' /\ others t c (snd x).
  Proof.
    intros t. induction fuel as [|fuel IH]; intros c p sid st r fs conn' T H; [discriminate|]. cbn [fnf_finish] in H.
    destruct (fnf_next bd st) as [[[f st']|]| |] eqn:Fn; try discriminate.
    - destruct (cn_send_and_forget cn (cf_conn c) f) as [conn1 [e|]] eqn:Sn.
      + injection H as <- <- <-. exists 1%nat. cbn [repeat]. rewrite exec_cons. cbn [step]. rewrite T, Fn, Sn.
        cbn [fst snd SocketM.exec app cf_threads]. rewrite set_same. repeat split; auto; [exists [], f; reflexivity|].
        intros u Hu. cbn [cf_threads]. now apply set_other.
      + destruct (fnf_finish (cn_send_and_forget cn) fuel bd st' conn1) as [[[r' fs'] conn2]| |] eqn:Fi; try discriminate.
        injection H as <- <- <-.
        set (c2 := Config (cf_counter c) (cf_store c) conn1 (set_thread (cf_threads c) t (Sending p sid st'))).
        destruct (IH c2 p sid st' r' fs' conn2) as (k & A & B & C & D & F & G); [apply set_same|exact Fi|].
        exists (Datatypes.S k). cbn [repeat].
        assert (X : exec (Run t :: alone t k) c = ([EvSend t f None] ++ fst (exec (alone t k) c2), snd (exec (alone t k) c2))).
        { rewrite exec_cons. cbn [step]. rewrite T, Fn, Sn. reflexivity. }
        rewrite X. cbn [fst snd]. rewrite sent_app, A. repeat split; auto; [|apply G|].
        * destruct r' as [e|]; cbn [ended] in *.
          -- destruct B as (tr0 & g & ->). exists ([EvSend t f None] ++ tr0), g. now rewrite app_assoc.
          -- destruct B as (tr0 & ->). exists ([EvSend t f None] ++ tr0). now rewrite app_assoc.
        * intros u Hu. destruct G as [_ G]. rewrite G by exact Hu. apply set_other, Hu.
    - injection H as <- <- <-. exists 1%nat. cbn [repeat]. rewrite exec_cons. cbn [step]. rewrite T, Fn.
      cbn [fst snd SocketM.exec app cf_threads]. rewrite set_same. repeat split; auto; [exists []; reflexivity|].
      intros u Hu. cbn [cf_threads]. now apply set_other.
  Qed.
End Connection.

Lemma alone_call : forall (S E : Type) (cn : connection S E) fuel bd m p conn r gs c' conn' t th,
  fire_and_forget (cn_send_and_forget cn) fuel bd m p conn = Ret (r, gs, c', conn') -> th t = Idle ->
  exists sid k tr c, next_stream_id fuel (rm_receivers m) (rm_stream_id m) = Ret (sid, c') /\
    exec cn bd (rm_chunk_payload m) (Call t p :: repeat (Run t) k)
      (Config (rm_stream_id m) (rm_receivers m) conn th) = (tr, c) /\
    sent tr = gs /\
    match r with
    | None => exists tr0, tr = tr0 ++ [EvReturn t sid]
    | Some e => exists tr0 f, tr = tr0 ++ [EvSend t f (Some e)]
    end /\
    cf_counter c = c' /\ cf_conn c = conn' /\ cf_store c = rm_receivers m /\ forall u, cf_threads c u = th u.
Proof.
  intros S E cn fuel bd m p conn r gs c' conn' t th H T. unfold fire_and_forget in H.
  destruct (next_stream_id fuel (rm_receivers m) (rm_stream_id m)) as [[sid c1]| |] eqn:Nx; try discriminate.
  destruct (fnf_start (rm_chunk_payload m) sid p) as [st| |] eqn:Fs; try discriminate.
  destruct (fnf_finish (cn_send_and_forget cn) fuel bd st conn) as [[[r' fs] conn1]| |] eqn:Ff; try discriminate.
  injection H as -> -> -> ->.
  set (c0 := Config (rm_stream_id m) (rm_receivers m) conn th).
  set (c2 := Config (rm_stream_id m) (rm_receivers m) conn (set_thread th t (Drawing p))).
  destruct (alone_search cn bd (rm_chunk_payload m) t fuel c2 p sid c') as (k1 & A1 & A2 & A3 & A4 & A5 & A6); [apply set_same|exact Nx|].
  set (x1 := exec cn bd (rm_chunk_payload m) (repeat (Run t) k1) c2) in *.
  set (c4 := Config (cf_counter (snd x1)) (cf_store (snd x1)) (cf_conn (snd x1)) (set_thread (cf_threads (snd x1)) t (Sending p sid st))).
  destruct (alone_finish cn bd (rm_chunk_payload m) t fuel c4 p sid st r gs conn') as (k2 & B1 & B2 & B3 & B4 & B5 & B6).
  { apply set_same. } { unfold c4. cbn [cf_conn]. rewrite A4. exact Ff. }
  set (x2 := exec cn bd (rm_chunk_payload m) (repeat (Run t) k2) c4) in *.
  assert (X : exec cn bd (rm_chunk_payload m) (Call t p :: repeat (Run t) (k1 + Datatypes.S k2)) c0 =
    (fst x1 ++ [EvAlloc t sid p] ++ fst x2, snd x2)).
  { assert (S1 : step cn bd (rm_chunk_payload m) (Call t p) c0 = ([], c2)).
    { unfold c0. cbn [step cf_threads]. rewrite T. reflexivity. }
    assert (S2 : step cn bd (rm_chunk_payload m) (Run t) (snd x1) = ([EvAlloc t sid p], c4)).
    { cbn [step]. rewrite A2. destruct A5 as [A5 _]. rewrite A5, A6, Fs. unfold c4. now rewrite A5. }
    rewrite repeat_app, exec_cons, S1. cbn [fst snd app]. rewrite exec_app. fold x1. cbn [repeat].
    rewrite exec_cons, S2. reflexivity. }
  exists sid, (k1 + Datatypes.S k2)%nat, (fst x1 ++ [EvAlloc t sid p] ++ fst x2), (snd x2).
  split; [reflexivity|]. split; [exact X|]. split; [|split; [|split; [|split; [exact B5|split]]]].
  - rewrite !sent_app, A1, B1. reflexivity.
  - destruct r as [e|]; cbn [ended] in B2.
    + destruct B2 as (tr0 & g & ->). exists (fst x1 ++ [EvAlloc t sid p] ++ tr0), g. now rewrite <- !app_assoc.
    + destruct B2 as (tr0 & ->). exists (fst x1 ++ [EvAlloc t sid p] ++ tr0). now rewrite <- !app_assoc.
  - rewrite B4. exact A3.
  - destruct B6 as [B6 _]. rewrite B6. apply A5.
  - intros u. destruct (Nat.eq_dec u t) as [->|Nu]; [congruence|].
    destruct B6 as [_ B6]. rewrite B6 by exact Nu. unfold c4. cbn [cf_threads]. rewrite set_other by exact Nu.
    destruct A5 as [_ A5]. rewrite A5 by exact Nu. apply set_other, Nu.
Qed.
