(** * fire_and_forget, one caller *)

From Verif Require Import Model.SocketM Model.BufM Spec.Socket.
From Verif Require Import Proofs.BitsP Proofs.CodecP Proofs.StableP Proofs.BuildP Proofs.CtorP Proofs.ChunkP Proofs.BufP Proofs.SidP.

(** ** Frames *)

Lemma fnf_made : forall bd sid follows p, sid < 2 ^ 31 ->
  request_fnf_new bd sid follows p =
  Ret (RequestFnfFrame sid ((if present (p_metadata p) then 128 else 0) + (if follows then 64 else 0)) p).
Proof.
  intros bd sid follows p H. unfold request_fnf_new. rewrite max_u31_ok, land31_id by assumption.
  destruct p as [[m|] d], follows; reflexivity.
Qed.

(** The frames a call produces, given the count it works with. *)
Fixpoint counted (sid len i : N) (ps : list payload) : list frame :=
  match ps with
  | [] => []
  | q :: ps' => fnf_frame sid (negb (i + 1 =? len)) q :: counted sid len (i + 1) ps'
  end.
Definition call_frames (chunk : option N) (sid : N) (p : payload) : list frame :=
  match chunk with
  | None => [fnf_frame sid false p]
  | Some n => counted sid (chunks_len (state_at n 0 p)) 0 (chunk_list n p)
  end.

Lemma carries_length : forall sid ps fs, carries sid ps fs -> length ps = length fs.
Proof. intros sid ps fs H. induction H; cbn [length]; congruence. Qed.
Lemma counted_carries : forall sid len ps i, carries sid ps (counted sid len i ps).
Proof.
  intros sid len ps. induction ps as [|q ps IH]; intros i; cbn [counted]; constructor; [|apply IH].
  eexists. reflexivity.
Qed.
Lemma call_carries : forall chunk sid p, carries sid (fragments chunk p) (call_frames chunk sid p).
Proof.
  intros [n|] sid p; [apply counted_carries|]. constructor; [|constructor]. eexists. reflexivity.
Qed.

Inductive yields (bd : build) : fnf_state -> list frame -> Prop :=
| Y_nil : forall st, fnf_next bd st = Ret None -> yields bd st []
| Y_cons : forall st f st' fs, fnf_next bd st = Ret (Some (f, st')) -> yields bd st' fs -> yields bd st (f :: fs).

Definition chunks_from (n i : N) (p : payload) : list payload :=
  map (fun j => chunk_at n (N.of_nat j) p) (seq (N.to_nat i) (N.to_nat (pieces_of n p - i))).

Lemma chunks_from_0 : forall n p, chunks_from n 0 p = chunk_list n p.
Proof. intros n p. unfold chunks_from, chunk_list. now rewrite N.sub_0_r. Qed.
Lemma chunks_from_cons : forall n i p, i < pieces_of n p ->
  chunks_from n i p = chunk_at n i p :: chunks_from n (i + 1) p.
Proof.
  intros n i p H. unfold chunks_from.
  replace (N.to_nat (pieces_of n p - i)) with (S (N.to_nat (pieces_of n p - (i + 1)))) by lia.
  cbn [seq map]. rewrite N2Nat.id. replace (N.to_nat (i + 1)) with (S (N.to_nat i)) by lia. reflexivity.
Qed.
Lemma chunks_from_nil : forall n i p, pieces_of n p <= i -> chunks_from n i p = [].
Proof. intros n i p H. unfold chunks_from. now replace (N.to_nat (pieces_of n p - i)) with 0%nat by lia. Qed.

Lemma loop_yields : forall bd sid len n p, sid < 2 ^ 31 -> n <> 0 -> forall k i, pieces_of n p <= i + N.of_nat k ->
  yields bd (FnfLoop sid i len (state_at n i p)) (counted sid len i (chunks_from n i p)).
Proof.
  intros bd sid len n p Hs Hn. induction k as [|k IH]; intros i L.
  - rewrite chunks_from_nil by lia. constructor. cbn [fnf_next]. rewrite next_step by exact Hn.
    destruct (N.ltb_spec i (pieces_of n p)); [lia|reflexivity].
  - destruct (N.lt_ge_cases i (pieces_of n p)) as [G|G].
    + rewrite chunks_from_cons by exact G. cbn [counted].
      apply Y_cons with (st' := FnfLoop sid (i + 1) len (state_at n (i + 1) p)).
      * cbn [fnf_next]. rewrite next_step by exact Hn. destruct (N.ltb_spec i (pieces_of n p)); [|lia].
        rewrite fnf_made by exact Hs. reflexivity.
      * apply IH. lia.
    + rewrite chunks_from_nil by lia. constructor. cbn [fnf_next]. rewrite next_step by exact Hn.
      destruct (N.ltb_spec i (pieces_of n p)); [lia|reflexivity].
Qed.

Lemma start_yields : forall bd chunk sid p, sid < 2 ^ 31 -> chunk <> Some 0 ->
  exists st, fnf_start chunk sid p = Ret st /\ yields bd st (call_frames chunk sid p).
Proof.
  intros bd [n|] sid p Hs Hn; cbn [fnf_start call_frames].
  - assert (N0 : n <> 0) by congruence. rewrite chunks_start by exact N0.
    eexists. split; [reflexivity|]. rewrite <- chunks_from_0. apply loop_yields with (k := N.to_nat (pieces_of n p)); auto. lia.
  - eexists. split; [reflexivity|]. apply Y_cons with (st' := FnfReturn).
    + cbn [fnf_next]. rewrite fnf_made by exact Hs. reflexivity.
    + constructor. reflexivity.
Qed.
Lemma start_panics : forall chunk sid p, fnf_start chunk sid p = Panic <-> chunk = Some 0.
Proof.
  intros [n|] sid p; cbn [fnf_start]; [|split; discriminate].
  destruct (N.eq_dec n 0) as [->|Hn]; [split; reflexivity|]. rewrite chunks_start by exact Hn. split; congruence.
Qed.

(** ** Handing over *)

Section Connection.
  Context {S E : Type} (send : S -> frame -> S * option E).

  Lemma finish_delivers : forall bd fs st, yields bd st fs -> forall fuel conn, (length fs < fuel)%nat ->
    exists r gs conn', fnf_finish send fuel bd st conn = Ret (r, gs, conn') /\ delivers send conn fs r gs conn'.
  Proof.
    intros bd fs st Y. induction Y as [st H|st f st' fs H Y IH]; intros fuel conn L.
    - destruct fuel as [|fuel]; [lia|]. cbn [fnf_finish]. rewrite H. do 3 eexists. split; [reflexivity|].
      constructor. constructor.
    - destruct fuel as [|fuel]; [cbn in L; lia|]. cbn [fnf_finish]. rewrite H.
      destruct (send conn f) as [conn1 [e|]] eqn:Es.
      + do 3 eexists. split; [reflexivity|]. apply (Del_stop send conn [] conn f conn1 e fs); [constructor|exact Es].
      + destruct (IH fuel conn1) as (r & gs & conn2 & E1 & D); [cbn in L; lia|]. rewrite E1.
        do 3 eexists. split; [reflexivity|]. inversion D as [s0 fs0 s' A|s0 fs1 s1 g s2 e fs2 A Eg]; subst.
        * apply Del_all. econstructor; eauto.
        * apply (Del_stop send conn (f :: fs1) s1 g conn2 e fs2); [|exact Eg]. econstructor; eauto.
  Qed.

  Lemma accepts_det : forall s fs s1, accepts send s fs s1 -> forall s2, accepts send s fs s2 -> s1 = s2.
  Proof.
    intros s fs s1 A. induction A as [s|s f s1 fs s2 H A IH]; intros s3 B; inversion B; subst; [reflexivity|].
    apply IH. congruence.
  Qed.
  Lemma delivers_det : forall s fs r gs s', delivers send s fs r gs s' ->
    forall r2 gs2 s2, delivers send s fs r2 gs2 s2 -> r = r2 /\ gs = gs2 /\ s' = s2.
  Proof.
    intros s fs r gs s' D.
    revert s r gs s' D. induction fs as [|f fs IH]; intros s r gs s' D r2 gs2 s2 D2.
    - inversion D as [? ? ? A|? fs1 ? ? ? ? ? A1 E1 X1]; subst; [|destruct fs1; discriminate].
      inversion D2 as [? ? ? A2|? fs1 ? ? ? ? ? A1 E1 X1]; subst; [|destruct fs1; discriminate].
      repeat split. eapply accepts_det; eauto.
    - assert (step : forall r gs s', delivers send s (f :: fs) r gs s' ->
        exists s1 o, send s f = (s1, o) /\
          match o with
          | Some e => r = Some e /\ gs = [f] /\ s' = s1
          | None => exists gs', gs = f :: gs' /\ delivers send s1 fs r gs' s'
          end).
      { clear. intros r gs s' D. remember (f :: fs) as all eqn:X1.
        destruct D as [s all s' A|s fs1 s1 g s' e fs2 A1 E1]; [subst all|].
        - inversion A as [|? ? s1 ? ? H A']; subst. exists s1, None. split; [exact H|]. exists fs. split; [reflexivity|]. now constructor.
        - destruct fs1 as [|g0 fs1].
          + cbn in X1. injection X1 as -> ->. inversion A1; subst. exists s', (Some e). repeat split; auto.
          + cbn in X1. injection X1 as -> <-. inversion A1 as [|? ? s3 ? ? H A']; subst.
            exists s3, None. split; [exact H|]. eexists. split; [reflexivity|]. econstructor; eauto. }
      destruct (step _ _ _ D) as (s1 & o & H1 & M1). destruct (step _ _ _ D2) as (s3 & o3 & H3 & M3).
      rewrite H1 in H3. injection H3 as <- <-. destruct o as [e|].
      + destruct M1 as (-> & -> & ->), M3 as (-> & -> & ->). auto.
      + destruct M1 as (g1 & -> & D1), M3 as (g3 & -> & D3). destruct (IH _ _ _ _ D1 _ _ _ D3) as (-> & -> & ->). auto.
  Qed.

  (** The whole call. *)
  Lemma call_spec : forall bd m p conn sid c' f1,
    next_stream_id f1 (rm_receivers m) (rm_stream_id m) = Ret (sid, c') ->
    rm_chunk_payload m <> Some 0 ->
    forall fuel, (f1 <= fuel)%nat -> (length (fragments (rm_chunk_payload m) p) < fuel)%nat ->
    exists r gs conn', fire_and_forget send fuel bd m p conn = Ret (r, gs, c', conn') /\
      delivers send conn (call_frames (rm_chunk_payload m) sid p) r gs conn'.
  Proof.
    intros bd m p conn sid c' f1 H1 Hc fuel L1 L2.
    assert (Hn : next_stream_id fuel (rm_receivers m) (rm_stream_id m) = Ret (sid, c')).
    { apply next_first_free in H1 as (k & A & B). apply next_first_free. exists k. split; [lia|exact B]. }
    assert (Hs : sid < 2 ^ 31).
    { apply next_first_free in H1 as (k & _ & -> & _). apply id_bound. }
    unfold fire_and_forget. rewrite Hn. destruct (start_yields bd (rm_chunk_payload m) sid p Hs Hc) as (st & -> & Y).
    assert (Lf : (length (call_frames (rm_chunk_payload m) sid p) < fuel)%nat).
    { rewrite <- (carries_length _ _ _ (call_carries (rm_chunk_payload m) sid p)). exact L2. }
    destruct (finish_delivers bd _ st Y fuel conn Lf) as (r & gs & conn' & -> & D). eauto 6.
  Qed.

  (** Conversely, a call that ends did this. *)
  Lemma call_inv : forall fuel bd m p conn r gs c' conn',
    fire_and_forget send fuel bd m p conn = Ret (r, gs, c', conn') ->
    rm_chunk_payload m <> Some 0 /\
    exists sid, next_stream_id fuel (rm_receivers m) (rm_stream_id m) = Ret (sid, c') /\
      delivers send conn (call_frames (rm_chunk_payload m) sid p) r gs conn'.
  Proof.
    intros fuel bd m p conn r gs c' conn' H. unfold fire_and_forget in H.
    destruct (next_stream_id fuel (rm_receivers m) (rm_stream_id m)) as [[sid c1]| |] eqn:Hn; try discriminate.
    assert (Hs : sid < 2 ^ 31).
    { apply next_first_free in Hn as (k & _ & -> & _). apply id_bound. }
    assert (Hc : rm_chunk_payload m <> Some 0).
    { intros X. apply (start_panics _ sid p) in X. rewrite X in H. discriminate. }
    split; [exact Hc|]. destruct (start_yields bd (rm_chunk_payload m) sid p Hs Hc) as (st & E1 & Y). rewrite E1 in H.
    exists sid. destruct (fnf_finish send fuel bd st conn) as [[[r1 g1] conn1]| |] eqn:F; try discriminate.
    injection H as <- <- <- <-. split; [reflexivity|].
    assert (X : exists big, (length (call_frames (rm_chunk_payload m) sid p) < big)%nat /\ (fuel <= big)%nat)
      by (exists (Datatypes.S (length (call_frames (rm_chunk_payload m) sid p)) + fuel)%nat; lia).
    destruct X as (big & B1 & B2). destruct (finish_delivers bd _ st Y big conn B1) as (r2 & g2 & conn2 & F2 & D).
    assert (mono : forall f1 f2 st conn x, (f1 <= f2)%nat ->
      fnf_finish send f1 bd st conn = Ret x -> fnf_finish send f2 bd st conn = Ret x).
    { clear. induction f1 as [|f1 IH]; intros f2 st conn x L H; [discriminate|].
      destruct f2 as [|f2]; [lia|]. cbn [fnf_finish] in *. destruct (fnf_next bd st) as [[[f st']|]| |]; auto.
      destruct (send conn f) as [c1 [e|]]; auto.
      destruct (fnf_finish send f1 bd st' c1) as [[[r g] c2]| |] eqn:F; try discriminate.
      rewrite (IH f2 st' c1 _ ltac:(lia) F). exact H. }
    rewrite (mono _ _ _ _ _ B2 F) in F2. injection F2 as -> -> ->. exact D.
  Qed.
End Connection.

(** ** FOLLOWS *)

Lemma counted_marked : forall sid ps i, counted sid (i + N.of_nat (length ps)) i ps = marked sid ps.
Proof.
  intros sid ps. induction ps as [|q ps IH]; intros i; [reflexivity|]. cbn [counted].
  destruct ps as [|q' ps].
  - cbn [counted marked length]. replace (i + 1 =? i + N.of_nat 1) with true by (symmetry; apply N.eqb_eq; lia). reflexivity.
  - change (marked sid (q :: q' :: ps)) with (fnf_frame sid true q :: marked sid (q' :: ps)). f_equal.
    + f_equal. apply negb_true_iff, N.eqb_neq. cbn [length]. lia.
    + rewrite <- (IH (i + 1)). f_equal. cbn [length]. lia.
Qed.

Lemma marked_count : forall sid ps i len, ps <> [] -> counted sid len i ps = marked sid ps ->
  i + N.of_nat (length ps) = len.
Proof.
  intros sid ps. induction ps as [|q ps IH]; intros i len H E; [congruence|]. destruct ps as [|q' ps].
  - cbn [counted marked] in E. injection E as E. cbn [length].
    destruct (N.eqb_spec (i + 1) len); [lia|]. cbn [negb] in E. exfalso. destruct (present (p_metadata q)); lia.
  - change (marked sid (q :: q' :: ps)) with (fnf_frame sid true q :: marked sid (q' :: ps)) in E.
    assert (X : counted sid len (i + 1) (q' :: ps) = marked sid (q' :: ps)) by (cbn [counted] in E |- *; congruence).
    rewrite <- (IH (i + 1) len); [cbn [length]; lia|discriminate|exact X].
Qed.

Lemma chunk_list_length : forall n p, N.of_nat (length (chunk_list n p)) = pieces_of n p.
Proof. intros n p. unfold chunk_list. rewrite map_length, seq_length. lia. Qed.

Lemma call_marked : forall chunk sid p, chunk <> Some 0 -> (forall n, chunk = Some n -> n <= usize_max) ->
  p_metadata p <> Some [] -> p_data p <> Some [] ->
  size (part (p_metadata p)) <= 2 ^ 24 -> size (part (p_data p)) <= 2 ^ 24 ->
  call_frames chunk sid p = marked sid (fragments chunk p).
Proof.
  intros [n|] sid p Hc Hn HM HD LM LD; [|reflexivity]. cbn [call_frames fragments].
  assert (N0 : n <> 0) by congruence. specialize (Hn n eq_refl).
  rewrite len_at by (auto; lia). rewrite N.sub_0_r.
  rewrite <- chunk_list_length. apply (counted_marked sid (chunk_list n p) 0).
Qed.

Lemma call_marked_iff : forall n sid p, 1 <= n <= usize_max ->
  size (part (p_metadata p)) <= 2 ^ 24 -> size (part (p_data p)) <= 2 ^ 24 ->
  (call_frames (Some n) sid p = marked sid (fragments (Some n) p) <->
   p = Payload None None \/ part (p_metadata p) <> [] \/ part (p_data p) <> []).
Proof.
  intros n sid p Hn LM LD. assert (N0 : n <> 0) by lia. cbn [call_frames fragments].
  pose proof (len_right_iff n p (state_at n 0 p) 0 (chunks_start n p N0) ltac:(lia) LM LD) as X.
  cbn [chunks_calls snd] in X. rewrite N.sub_0_r in X.
  assert (Y : counted sid (chunks_len (state_at n 0 p)) 0 (chunk_list n p) = marked sid (chunk_list n p) <->
    chunks_len (state_at n 0 p) = pieces_of n p \/ p = Payload None None).
  { split.
    - intros H. destruct (chunk_list n p) as [|q ps] eqn:E.
      + right. pose proof (chunk_list_length n p) as L. rewrite E in L. cbn in L. destruct p as [[m|] [d|]]; unfold pieces_of in L; cbn [p_metadata p_data pieces] in L; [lia|lia|lia|reflexivity].
      + left. apply marked_count in H; [|discriminate]. rewrite <- E, chunk_list_length in H. lia.
    - intros [H| ->]; [|reflexivity]. rewrite H, <- chunk_list_length. apply (counted_marked sid (chunk_list n p) 0). }
  rewrite Y, X. clear X Y. split.
  - intros [H|H]; [|auto]. destruct (part (p_metadata p)) as [|x l]; [|right; left; discriminate].
    destruct (part (p_data p)) as [|x l]; [|right; right; discriminate].
    left. destruct p as [[m|] [d|]]; try reflexivity; exfalso; apply H; repeat split; discriminate.
  - intros [H|[H|H]]; [auto| |]; left; intros (_ & A & B & _); contradiction.
Qed.

Lemma slice_whole : forall n l, size l <= n -> slice n 0 l = l.
Proof.
  intros n l H. unfold slice, size in *. rewrite N.mul_0_l. cbn [N.to_nat skipn]. apply firstn_all2. lia.
Qed.

Lemma whole_chunk : forall n p, size (part (p_metadata p)) <= n -> size (part (p_data p)) <= n ->
  chunk_at n 0 p = p.
Proof.
  intros n [m d] LM LD. unfold chunk_at. cbn [p_metadata p_data] in *.
  destruct m as [m|], d as [d|]; cbn [part piece] in *;
    unfold piece; cbn [N.eqb orb]; rewrite ?slice_whole by assumption; reflexivity.
Qed.

Lemma call_marked_one : forall n sid p, 1 <= n <= usize_max ->
  part (p_metadata p) <> [] \/ part (p_data p) <> [] ->
  size (part (p_metadata p)) <= n -> size (part (p_data p)) <= n ->
  call_frames (Some n) sid p = [fnf_frame sid false p].
Proof.
  intros n sid p Hn NE LM LD. assert (N0 : n <> 0) by lia. cbn [call_frames].
  destruct (len_one n 0 p Hn NE LM LD) as [L P]. rewrite L, N.sub_0_r.
  unfold chunk_list. rewrite P. change (seq 0 (N.to_nat 1)) with [0%nat]. cbn [map].
  change (N.of_nat 0) with 0. rewrite whole_chunk by assumption. reflexivity.
Qed.

(** ** End to end *)

Lemma encode_small : forall sid follows q v, frame_encode (fnf_frame sid follows q) [] = EOk v -> small_metadata q.
Proof.
  intros sid follows q v H. unfold small_metadata.
  destruct (N.lt_ge_cases (size (part (p_metadata q))) (2 ^ 24)) as [L|L]; [exact L|]. exfalso.
  revert H. unfold fnf_frame. cbn [frame_encode]. unfold request_fnf_encode, put_metadata_len. cbn [fnf_payload].
  assert (X : u24_from_usize (match payload_metadata q with Some v => blen v | None => 0 end) = Panic).
  { apply u24_from_usize_panic. unfold payload_metadata. destruct (p_metadata q); exact L. }
  rewrite X. discriminate.
Qed.

Lemma fnf_in_range : forall sid follows q, sid < 2 ^ 31 -> small_metadata q -> in_range (fnf_frame sid follows q).
Proof.
  intros sid follows q Hs Hm. cbn [in_range fnf_frame fnf_stream_id fnf_flags fnf_payload]. split; [exact Hs|]. split; [|exact Hm].
  destruct (present (p_metadata q)), follows; vm_compute; auto.
Qed.

Lemma assembled_carries : forall sid ps fs, carries sid ps fs ->
  map meta_of fs = map (fun q => part (p_metadata q)) ps /\ map data_of fs = map (fun q => part (p_data q)) ps.
Proof.
  intros sid ps fs H. induction H as [|q f ps fs (b & ->) H (A & B)]; [split; reflexivity|].
  cbn [map]. now rewrite A, B.
Qed.

Lemma fragments_concat : forall chunk p, chunk <> Some 0 ->
  concat (map (fun q => part (p_metadata q)) (fragments chunk p)) = part (p_metadata p) /\
  concat (map (fun q => part (p_data q)) (fragments chunk p)) = part (p_data p).
Proof.
  intros [n|] p H; cbn [fragments].
  - apply chunk_list_concat. congruence.
  - cbn [map concat]. now rewrite !app_nil_r.
Qed.

Lemma absent_drop : forall o, absent_if_empty (part o) = drop_empty o.
Proof. now intros [[|x l]|]. Qed.

Lemma end_to_end : forall chunk sid p fs l, chunk <> Some 0 -> sid < 2 ^ 31 ->
  carries sid (fragments chunk p) fs -> Forall2 (fun f v => frame_encode f [] = EOk v) fs l ->
  bl_try_into flat 0 l = DOk (drop_empty_payload p).
Proof.
  intros chunk sid p fs l Hc Hs C H.
  assert (R : Forall2 (fun f v => in_range f /\ coherent f /\ frame_encode f [] = EOk v) fs l).
  { assert (I : Forall (fun f => exists b q, f = fnf_frame sid b q) fs).
    { clear -C. induction C as [|q f ps fs (b & ->) C IH]; constructor; eauto. }
    clear C. induction H as [|f v fs l E H IH]; [constructor|]. inversion I as [|? ? (b & q & ->) I']; subst.
    constructor; [|auto]. split; [|split; [exact Logic.I|exact E]]. apply fnf_in_range; [exact Hs|]. eapply encode_small, E. }
  rewrite (flat_reassemble_encoded _ _ R). unfold assembled. destruct (assembled_carries _ _ _ C) as [-> ->].
  destruct (fragments_concat chunk p Hc) as [-> ->]. unfold drop_empty_payload. now rewrite !absent_drop.
Qed.

(** All frames can be encoded when every metadata fragment is small enough. *)
Lemma fragment_small : forall chunk p q, chunk <> Some 0 -> In q (fragments chunk p) ->
  size (part (p_metadata p)) < 2 ^ 24 \/ (exists n, chunk = Some n /\ n < 2 ^ 24) -> small_metadata q.
Proof.
  intros [n|] p q Hc I H; cbn [fragments] in I.
  - assert (N0 : n <> 0) by congruence. unfold chunk_list in I. apply in_map_iff in I as (i & <- & _).
    unfold small_metadata, chunk_at. cbn [p_metadata]. rewrite piece_bytes by exact N0. unfold slice.
    rewrite size_firstn. destruct H as [H|(n' & [= <-] & H)]; [|lia].
    rewrite size_skipn. lia.
  - destruct I as [<-|[]]. destruct H as [H|(n & X & _)]; [exact H|discriminate].
Qed.
Lemma encodes_all : forall chunk sid p fs, chunk <> Some 0 -> sid < 2 ^ 31 ->
  carries sid (fragments chunk p) fs ->
  size (part (p_metadata p)) < 2 ^ 24 \/ (exists n, chunk = Some n /\ n < 2 ^ 24) ->
  exists l, Forall2 (fun f v => frame_encode f [] = EOk v) fs l.
Proof.
  intros chunk sid p fs Hc Hs C H.
  assert (X : forall q, In q (fragments chunk p) -> small_metadata q) by (intros; eapply fragment_small; eauto).
  revert X. clear H. induction C as [|q f ps fs (b & ->) C IH]; intros X; [exists []; constructor|].
  destruct IH as (l & Hl); [intros q' I; apply X; now right|].
  destruct (roundtrip_drop (fnf_frame sid b q) (fnf_in_range sid b q Hs (X q (or_introl eq_refl))) Logic.I) as (bs & E & _).
  exists (bs :: l). constructor; [apply (E [])|exact Hl].
Qed.

(** ** Sizes on the wire *)

Lemma fnf_wire_size : forall sid follows q v, sid < 2 ^ 31 -> frame_encode (fnf_frame sid follows q) [] = EOk v ->
  size v = 9 + size (part (p_metadata q)) + size (part (p_data q)).
Proof.
  intros sid follows q v Hs E. assert (T : typed (fnf_frame sid follows q)).
  { cbn. split; [lia|]. destruct (present (p_metadata q)), follows; vm_compute; auto. }
  destruct (encode_len _ _ _ T E) as (bs & -> & _ & L & _). cbn [app] in *. rewrite N.add_0_r in L. rewrite <- L.
  unfold frame_len, fnf_frame, request_fnf_len, payload_len. cbn [fnf_payload].
  destruct q as [[m|] [d|]]; cbn [p_metadata p_data part]; unfold blen, size; cbn [length]; lia.
Qed.

Lemma size_app_total : forall (a b : bytes), size (a ++ b) = size a + size b.
Proof. intros. unfold size. rewrite app_length. lia. Qed.

Lemma wire_total : forall sid ps fs l, sid < 2 ^ 31 -> carries sid ps fs ->
  Forall2 (fun f v => frame_encode f [] = EOk v) fs l ->
  size (concat l) = size (concat (map (fun q => part (p_metadata q)) ps)) +
    size (concat (map (fun q => part (p_data q)) ps)) + 9 * N.of_nat (length fs).
Proof.
  intros sid ps fs l Hs C. revert l. induction C as [|q f ps fs (b & ->) C IH]; intros l H; inversion H as [|? v ? l' E H']; subst.
  - reflexivity.
  - cbn [concat map length]. rewrite !size_app_total, (IH _ H'), (fnf_wire_size _ _ _ _ Hs E). lia.
Qed.

(** ** Sequential summary *)

Lemma marked_carries : forall sid ps, carries sid ps (marked sid ps).
Proof.
  intros sid ps. rewrite <- (counted_marked sid ps 0). apply counted_carries.
Qed.
Lemma carries_sid : forall s1 s2 q ps fs, carries s1 (q :: ps) fs -> carries s2 (q :: ps) fs -> s1 = s2.
Proof.
  intros s1 s2 q ps fs A B. destruct fs as [|f fs]; [inversion A|].
  inversion A as [|? ? ? ? (b1 & A1) A2]; subst. inversion B as [|? ? ? ? (b2 & B1) B2]; subst.
  unfold fnf_frame in B1. now injection B1.
Qed.

Lemma counted_nth : forall sid len ps i k q, nth_error ps k = Some q ->
  nth_error (counted sid len i ps) k = Some (fnf_frame sid (negb (i + N.of_nat k + 1 =? len)) q).
Proof.
  intros sid len ps. induction ps as [|x ps IH]; intros i k q H; [destruct k; discriminate|].
  destruct k as [|k]; cbn [nth_error counted] in *.
  - injection H as ->. now rewrite N.add_0_r.
  - rewrite (IH (i + 1) k q H). do 4 f_equal. lia.
Qed.
Lemma chunk_nth : forall n p k, N.of_nat k < pieces_of n p ->
  nth_error (chunk_list n p) k = Some (chunk_at n (N.of_nat k) p).
Proof.
  intros n p k H. unfold chunk_list. rewrite nth_error_map.
  rewrite (nth_error_nth' _ 0%nat) by (rewrite seq_length; lia). rewrite seq_nth by lia. reflexivity.
Qed.

Section Connection.
  Context {S E : Type} (send : S -> frame -> S * option E).

  Lemma ok_all : forall conn fs gs conn', delivers send conn fs None gs conn' ->
    gs = fs /\ accepts send conn fs conn'.
  Proof. intros conn fs gs conn' D. inversion D; subst. auto. Qed.

  Lemma accepts_iff : forall conn fs r gs conn', delivers send conn fs r gs conn' ->
    (r = None <-> exists conn2, accepts send conn fs conn2).
  Proof.
    intros conn fs r gs conn' D. split.
    - intros ->. apply ok_all in D as [_ A]. eauto.
    - intros (conn2 & A). destruct (delivers_det send _ _ _ _ _ D None fs conn2 (Del_all send _ _ _ A)) as [-> _]. reflexivity.
  Qed.

  Lemma no_mix_ok : forall fuel bd m p conn gs c' conn',
    fire_and_forget send fuel bd m p conn = Ret (None, gs, c', conn') ->
    rm_chunk_payload m <> Some 0 /\
    exists sid, next_stream_id fuel (rm_receivers m) (rm_stream_id m) = Ret (sid, c') /\ sid < 2 ^ 31 /\
      gs = call_frames (rm_chunk_payload m) sid p.
  Proof.
    intros fuel bd m p conn gs c' conn' H. apply call_inv in H as (Hc & sid & Hn & D). split; [exact Hc|].
    exists sid. split; [exact Hn|]. apply ok_all in D as [-> _]. split; [|reflexivity].
    apply next_first_free in Hn as (k & _ & -> & _). apply id_bound.
  Qed.

  Lemma fnf_end_to_end : forall fuel bd m p conn gs c' conn' l,
    fire_and_forget send fuel bd m p conn = Ret (None, gs, c', conn') ->
    Forall2 (fun f v => frame_encode f [] = EOk v) gs l ->
    bl_try_into flat 0 l = DOk (drop_empty_payload p).
  Proof.
    intros fuel bd m p conn gs c' conn' l H L. apply no_mix_ok in H as (Hc & sid & _ & Hs & ->).
    eapply end_to_end; eauto. apply call_carries.
  Qed.
  Lemma fnf_wire_total : forall fuel bd m p conn gs c' conn' l,
    fire_and_forget send fuel bd m p conn = Ret (None, gs, c', conn') ->
    Forall2 (fun f v => frame_encode f [] = EOk v) gs l ->
    size (concat l) = size (part (p_metadata p)) + size (part (p_data p)) + 9 * N.of_nat (length gs).
  Proof.
    intros fuel bd m p conn gs c' conn' l H L. apply no_mix_ok in H as (Hc & sid & _ & Hs & ->).
    rewrite (wire_total sid _ _ l Hs (call_carries _ _ _) L). now destruct (fragments_concat _ p Hc) as [-> ->].
  Qed.
  Lemma fnf_wire_each : forall fuel bd m n p conn gs c' conn' l,
    fire_and_forget send fuel bd m p conn = Ret (None, gs, c', conn') ->
    rm_chunk_payload m = Some n ->
    Forall2 (fun f v => frame_encode f [] = EOk v) gs l ->
    Forall (fun v => size v <= 9 + 2 * n) l.
  Proof.
    intros fuel bd m n p conn gs c' conn' l H En L. apply no_mix_ok in H as (Hc & sid & _ & Hs & ->).
    rewrite En in *. assert (N0 : n <> 0) by congruence.
    assert (B : Forall (fun q => size (part (p_metadata q)) <= n /\ size (part (p_data q)) <= n) (fragments (Some n) p)).
    { apply Forall_forall. intros q I. cbn [fragments] in I. unfold chunk_list in I. apply in_map_iff in I as (i & <- & _).
      unfold chunk_at. cbn [p_metadata p_data]. rewrite !piece_bytes by exact N0. unfold slice. rewrite !size_firstn. lia. }
    pose proof (call_carries (Some n) sid p) as C. revert B C L. generalize (fragments (Some n) p), (call_frames (Some n) sid p).
    intros ps fs B C. revert l. induction C as [|q f ps fs (b & ->) C IH]; intros l L; inversion L as [|? v ? l' E' L']; subst; constructor.
    - inversion B as [|? ? [B1 B2] _]; subst. rewrite (fnf_wire_size _ _ _ _ Hs E'). lia.
    - inversion B; subst. now apply IH.
  Qed.
  Lemma fnf_encodes : forall fuel bd m p conn gs c' conn',
    fire_and_forget send fuel bd m p conn = Ret (None, gs, c', conn') ->
    size (part (p_metadata p)) < 2 ^ 24 \/ (exists n, rm_chunk_payload m = Some n /\ n < 2 ^ 24) ->
    exists l, Forall2 (fun f v => frame_encode f [] = EOk v) gs l.
  Proof.
    intros fuel bd m p conn gs c' conn' H L. apply no_mix_ok in H as (Hc & sid & _ & Hs & ->).
    eapply encodes_all; eauto. apply call_carries.
  Qed.

  Lemma fnf_marked : forall fuel bd m p conn gs c' conn',
    fire_and_forget send fuel bd m p conn = Ret (None, gs, c', conn') ->
    (forall n, rm_chunk_payload m = Some n -> n <= usize_max) ->
    p_metadata p <> Some [] -> p_data p <> Some [] ->
    size (part (p_metadata p)) <= 2 ^ 24 -> size (part (p_data p)) <= 2 ^ 24 ->
    exists sid, next_stream_id fuel (rm_receivers m) (rm_stream_id m) = Ret (sid, c') /\
      gs = marked sid (fragments (rm_chunk_payload m) p).
  Proof.
    intros fuel bd m p conn gs c' conn' H Hn HM HD LM LD. apply no_mix_ok in H as (Hc & sid & Hi & _ & ->).
    exists sid. split; [exact Hi|]. now apply call_marked.
  Qed.
  Lemma fnf_one_piece : forall fuel bd m n p conn gs c' conn',
    fire_and_forget send fuel bd m p conn = Ret (None, gs, c', conn') ->
    rm_chunk_payload m = Some n -> n <= usize_max ->
    part (p_metadata p) <> [] \/ part (p_data p) <> [] ->
    size (part (p_metadata p)) <= n -> size (part (p_data p)) <= n ->
    exists sid, next_stream_id fuel (rm_receivers m) (rm_stream_id m) = Ret (sid, c') /\
      gs = [fnf_frame sid false p].
  Proof.
    intros fuel bd m n p conn gs c' conn' H Em Hn NE LM LD. apply no_mix_ok in H as (Hc & sid & Hi & _ & ->).
    exists sid. split; [exact Hi|]. rewrite Em in *. apply call_marked_one; auto.
    split; [assert (n <> 0) by congruence; lia|exact Hn].
  Qed.
  Lemma fnf_marked_iff : forall fuel bd m n p conn gs c' conn',
    fire_and_forget send fuel bd m p conn = Ret (None, gs, c', conn') ->
    rm_chunk_payload m = Some n -> n <= usize_max ->
    size (part (p_metadata p)) <= 2 ^ 24 -> size (part (p_data p)) <= 2 ^ 24 ->
    ((exists sid, gs = marked sid (fragments (Some n) p)) <->
     p = Payload None None \/ part (p_metadata p) <> [] \/ part (p_data p) <> []).
  Proof.
    intros fuel bd m n p conn gs c' conn' H Em Hn LM LD. apply no_mix_ok in H as (Hc & sid & Hi & _ & ->).
    rewrite Em in *. assert (N0 : 1 <= n <= usize_max) by (split; [assert (n <> 0) by congruence; lia|exact Hn]).
    rewrite <- (call_marked_iff n sid p N0 LM LD). split; [|eauto].
    intros (sid' & X). destruct (fragments (Some n) p) as [|q ps] eqn:Ef.
    - rewrite X. reflexivity.
    - assert (Es : sid = sid').
      { apply (carries_sid sid sid' q ps (marked sid' (q :: ps))); [|apply marked_carries].
        rewrite <- X, <- Ef. apply call_carries. }
      subst sid'. exact X.
  Qed.
  Lemma fnf_empty_part : forall fuel bd m n p conn gs c' conn',
    fire_and_forget send fuel bd m p conn = Ret (None, gs, c', conn') ->
    rm_chunk_payload m = Some n -> n <= usize_max ->
    part (p_metadata p) = [] -> part (p_data p) = [] -> p <> Payload None None ->
    exists sid, gs = [fnf_frame sid true p].
  Proof.
    intros fuel bd m n p conn gs c' conn' H Em Hn HM HD X. apply no_mix_ok in H as (Hc & sid & Hi & _ & ->).
    rewrite Em in *. assert (N0 : n <> 0) by congruence. exists sid. cbn [call_frames].
    destruct (len_zero_byte_parts n p (state_at n 0 p) (chunks_start n p N0) Hn HM HD X) as [-> Ec].
    assert (El : chunk_list n p = [p]).
    { pose proof (chunk_list_length n p) as L. assert (P1 : pieces_of n p = 1).
      { assert (Z1 : forall o, part o = [] -> pieces n o = if present o then 1 else 0).
        { intros [[|x l]|] Ho; try discriminate; [|reflexivity].
          cbn [pieces present]. change (size []) with 0. rewrite N.div_small by lia. reflexivity. }
        unfold pieces_of. rewrite (Z1 _ HM), (Z1 _ HD). destruct p as [[m0|] [d0|]]; try reflexivity. congruence. }
      assert (Z2 : forall o, part o = [] -> piece n 0 o = o).
      { intros [[|x l]|] Ho; try discriminate; [|reflexivity].
        cbn [piece]. unfold slice. now rewrite skipn_nil, firstn_nil. }
      unfold chunk_list. rewrite P1. change (seq 0 (N.to_nat 1)) with [0%nat]. cbn [map]. f_equal.
      unfold chunk_at. change (N.of_nat 0) with 0. rewrite (Z2 _ HM), (Z2 _ HD). now destruct p. }
    rewrite El. cbn [counted]. reflexivity.
  Qed.
  Lemma fnf_long : forall fuel bd m d conn gs c' conn',
    fire_and_forget send fuel bd m (Payload None (Some d)) conn = Ret (None, gs, c', conn') ->
    rm_chunk_payload m = Some (2 ^ 16) -> size d = 2 ^ 24 + 1 ->
    exists sid, length gs = 257%nat /\
      nth_error gs 255 = Some (fnf_frame sid false (Payload None (Some (slice (2 ^ 16) 255 d)))) /\
      nth_error gs 256 = Some (fnf_frame sid true (Payload None (Some (slice (2 ^ 16) 256 d)))).
  Proof.
    intros fuel bd m d conn gs c' conn' H Em Hd. apply no_mix_ok in H as (Hc & sid & Hi & _ & ->).
    rewrite Em in *. exists sid. assert (N0 : 2 ^ 16 <> 0) by discriminate.
    destruct (len_low d (state_at (2 ^ 16) 0 (Payload None (Some d))) Hd (chunks_start _ _ N0)) as [E1 E2].
    cbn [call_frames]. rewrite E1. split; [|split].
    - rewrite <- (carries_length _ _ _ (counted_carries sid 256 (chunk_list (2 ^ 16) (Payload None (Some d))) 0)).
      apply Nat2N.inj. rewrite chunk_list_length. exact E2.
    - erewrite counted_nth; [|apply chunk_nth; rewrite E2; reflexivity].
      unfold chunk_at, piece. cbn [p_metadata p_data]. rewrite Hd. reflexivity.
    - erewrite counted_nth; [|apply chunk_nth; rewrite E2; reflexivity].
      unfold chunk_at, piece. cbn [p_metadata p_data]. rewrite Hd. reflexivity.
  Qed.

  Lemma fragments_empty : forall chunk p, chunk <> Some 0 ->
    (fragments chunk p = [] <-> chunk <> None /\ p = Payload None None).
  Proof.
    intros [n|] p Hc; cbn [fragments].
    - assert (N0 : n <> 0) by congruence. split.
      + intros H. split; [discriminate|]. pose proof (chunk_list_length n p) as L. rewrite H in L. cbn in L.
        destruct p as [[m|] [d|]]; unfold pieces_of in L; cbn [p_metadata p_data pieces] in L; [lia|lia|lia|reflexivity].
      + intros [_ ->]. reflexivity.
    - split; [discriminate|]. intros [X _]. congruence.
  Qed.
  Lemma fnf_sends : forall fuel bd m p conn gs c' conn',
    fire_and_forget send fuel bd m p conn = Ret (None, gs, c', conn') ->
    (gs = [] <-> rm_chunk_payload m <> None /\ p = Payload None None) /\
    Forall (fun f => exists q, f = FRequestFnf q) gs.
  Proof.
    intros fuel bd m p conn gs c' conn' H. apply no_mix_ok in H as (Hc & sid & Hi & _ & ->).
    pose proof (call_carries (rm_chunk_payload m) sid p) as C. split.
    - rewrite <- fragments_empty by exact Hc. split; intros X; rewrite X in C; inversion C; reflexivity.
    - clear -C. induction C as [|q f ps fs (b & ->) C IH]; constructor; [eexists; reflexivity|exact IH].
  Qed.

  Lemma fnf_outcome : forall fuel bd m p conn r gs c' conn',
    fire_and_forget send fuel bd m p conn = Ret (r, gs, c', conn') ->
    exists sid all, next_stream_id fuel (rm_receivers m) (rm_stream_id m) = Ret (sid, c') /\
      carries sid (fragments (rm_chunk_payload m) p) all /\
      delivers send conn all r gs conn' /\
      (r = None <-> exists conn2, accepts send conn all conn2).
  Proof.
    intros fuel bd m p conn r gs c' conn' H. apply call_inv in H as (Hc & sid & Hn & D).
    exists sid, (call_frames (rm_chunk_payload m) sid p). split; [exact Hn|]. split; [apply call_carries|].
    split; [exact D|]. eapply accepts_iff, D.
  Qed.

  (** The call comes back exactly when an id is free, unless the chunk size is 0. *)
  Lemma fnf_total : forall bd m p conn, rm_chunk_payload m <> Some 0 ->
    ((exists fuel x, fire_and_forget send fuel bd m p conn = Ret x) <->
     exists sid, in_class (rm_stream_id m) sid /\ rm_receivers m sid = false).
  Proof.
    intros bd m p conn Hc. rewrite <- next_terminates. split.
    - intros (fuel & [[[r gs] c'] conn'] & H). apply call_inv in H as (_ & sid & Hn & _). eauto.
    - intros (f1 & [sid c'] & Hn).
      set (fuel := (f1 + Datatypes.S (length (fragments (rm_chunk_payload m) p)))%nat).
      destruct (call_spec send bd m p conn sid c' f1 Hn Hc fuel) as (r & gs & conn' & H & _); [lia|lia|]. eauto.
  Qed.
  Lemma fnf_zero_chunk : forall bd m p conn sid c' f1, rm_chunk_payload m = Some 0 ->
    next_stream_id f1 (rm_receivers m) (rm_stream_id m) = Ret (sid, c') ->
    fire_and_forget send f1 bd m p conn = Panic.
  Proof.
    intros bd m p conn sid c' f1 Hc Hn. unfold fire_and_forget. rewrite Hn, Hc. reflexivity.
  Qed.

  Lemma push_frame : forall metadata conn,
    let f := FMetadataPush (MetadataPushFrame metadata) in
    metadata_push send metadata conn = ([f], send conn f) /\
    exists bs, frame_encode f [] = EOk bs /\ decode bs = (DOk f, []).
  Proof.
    intros metadata conn f. split; [reflexivity|].
    destruct (roundtrip_drop f Logic.I Logic.I) as (bs & E1 & D). exists bs. split; [apply (E1 [])|exact D].
  Qed.
End Connection.
