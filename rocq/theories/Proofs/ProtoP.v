(** * Fragmented requests and the RSocket protocol *)

From Verif Require Import Model.SocketM Spec.Proto.
From Verif Require Import Proofs.ChunkP Proofs.SocketP.

Lemma fnf_follows : forall sid (b : bool) p, exists fl, fnf_frame sid b p = FRequestFnf (RequestFnfFrame sid fl p) /\ follows_set fl = b.
Proof. intros sid b p. unfold fnf_frame. eexists. split; [reflexivity|]. now destruct (present (p_metadata p)), b. Qed.
Lemma whole : forall sid p, one_request sid [fnf_frame sid false p].
Proof. intros sid p. destruct (fnf_follows sid false p) as (fl & -> & F). now apply One_whole. Qed.

Lemma one_request_alone : forall sid fs, one_request sid fs -> Forall (fun f => exists q, f = FRequestFnf q) fs ->
  exists v, fs = [FRequestFnf v] /\ fnf_stream_id v = sid /\ follows_set (fnf_flags v) = false.
Proof.
  intros sid fs H F. destruct H as [v Hs Hf|v fs Hs Hf C]; [eauto|].
  exfalso. apply Forall_inv_tail in F. destruct C as [w _ _|w fs _ _ _]; apply Forall_inv in F as (q & X); discriminate X.
Qed.

(** A receiver on the frames of a call. *)
Lemma dropped_rest : forall sid ps pending p0, pending sid = Some p0 -> take_frames false pending (marked sid ps) = [].
Proof.
  intros sid ps. induction ps as [|q ps IH]; intros pending p0 H; [reflexivity|].
  destruct ps as [|q' ps]; [cbn|change (marked sid (q :: q' :: ps)) with (fnf_frame sid true q :: marked sid (q' :: ps)); cbn [take_frames]].
  - now rewrite H.
  - unfold fnf_frame at 1. cbn [take_frame fnf_stream_id]. rewrite H. cbn [app]. now apply IH with p0.
Qed.
Lemma restarted_rest : forall sid ps q pending, take_frames true pending (marked sid (ps ++ [q])) = [(sid, q)].
Proof.
  intros sid ps q. induction ps as [|p ps IH]; intros pending.
  - cbn [app marked take_frames]. destruct (fnf_follows sid false q) as (fl & -> & F).
    cbn [take_frame fnf_flags]. rewrite F. reflexivity.
  - change ((p :: ps) ++ [q]) with (p :: (ps ++ [q])).
    assert (X : marked sid (p :: ps ++ [q]) = fnf_frame sid true p :: marked sid (ps ++ [q])) by (destruct ps; reflexivity).
    rewrite X. cbn [take_frames]. destruct (fnf_follows sid true p) as (fl & -> & F). cbn [take_frame fnf_flags]. rewrite F. cbn [app]. apply IH.
Qed.
Lemma marked_handed : forall sid p ps q restarts, handed_on restarts (marked sid (p :: ps ++ [q])) = if restarts then [(sid, q)] else [].
Proof.
  intros sid p ps q [|].
  - exact (restarted_rest sid (p :: ps) q _).
  - unfold handed_on. assert (X : marked sid (p :: ps ++ [q]) = fnf_frame sid true p :: marked sid (ps ++ [q])) by (destruct ps; reflexivity).
    rewrite X. cbn [take_frames]. destruct (fnf_follows sid true p) as (fl & -> & F). cbn [take_frame fnf_flags]. rewrite F. cbn [app].
    apply dropped_rest with p. cbn. now rewrite N.eqb_refl.
Qed.

Section Calls.
  Context {S E : Type} (send : S -> frame -> S * option E).

  Lemma pieces_small : forall n o, n <> 0 -> pieces n o <= 1 <-> size (part o) <= n.
  Proof.
    intros n [l|] N0; cbn [pieces part]; [|cbn; lia].
    pose proof (N.div_mod' (size l + n - 1) n) as D. pose proof (N.mod_lt (size l + n - 1) n N0) as M.
    set (q := (size l + n - 1) / n) in *. set (r := (size l + n - 1) mod n) in *. clearbody q r.
    split; intros H.
    - assert (q <= 1) by lia. assert (n * q <= n) by nia. lia.
    - destruct (N.le_gt_cases q 1) as [|Q]; [lia|]. assert (n * 2 <= n * q) by nia. lia.
  Qed.

  Lemma fnf_one_request : forall fuel bd m p conn gs c' conn',
    fire_and_forget send fuel bd m p conn = Ret (None, gs, c', conn') ->
    (forall n, rm_chunk_payload m = Some n -> n <= usize_max) ->
    ((exists sid, one_request sid gs) <->
     (forall n, rm_chunk_payload m = Some n -> (part (p_metadata p) <> [] \/ part (p_data p) <> []) /\
        size (part (p_metadata p)) <= n /\ size (part (p_data p)) <= n)).
  Proof.
    intros fuel bd m p conn gs c' conn' H Hn.
    pose proof (fnf_outcome send fuel bd m p conn None gs c' conn' H) as (sid & all & Hi & C & D & _).
    assert (G : gs = all) by (inversion D; reflexivity). subst all.
    assert (Hc : rm_chunk_payload m <> Some 0).
    { intros X. rewrite (fnf_zero_chunk send bd m p conn sid c' fuel X Hi) in H. discriminate H. }
    split.
    - intros (sid' & O) n Em. destruct (one_request_alone _ _ O (proj2 (fnf_sends send _ _ _ _ _ _ _ _ H))) as (v & -> & Hs & Hf).
      assert (NE : part (p_metadata p) <> [] \/ part (p_data p) <> []).
      { destruct (part (p_metadata p)) as [|x l] eqn:EM; [|left; discriminate].
        destruct (part (p_data p)) as [|y l] eqn:ED; [|right; discriminate]. exfalso.
        destruct p as [[mm|] [dd|]]; [| | |].
        1-3: match type of H with fire_and_forget _ _ _ _ ?p _ = _ =>
               destruct (fnf_empty_part send fuel bd m n p conn _ c' conn' H Em (Hn n Em) EM ED) as (s & X); [discriminate|];
               destruct (fnf_follows s true p) as (fl & Y & F); rewrite Y in X; injection X as X; rewrite X in Hf; cbn [fnf_flags] in Hf; congruence end.
        destruct (fnf_sends send fuel bd m _ conn _ c' conn' H) as [X _].
        assert (Y : [FRequestFnf v] = []) by (apply X; split; [congruence|reflexivity]). discriminate Y. }
      split; [exact NE|].
      rewrite Em in C. cbn [fragments] in C. apply carries_length in C. cbn [length] in C.
      pose proof (chunk_list_length n p) as L. rewrite C in L. unfold pieces_of in L.
      assert (N0 : n <> 0) by congruence.
      split; apply (pieces_small n _ N0); lia.
    - intros K. destruct (rm_chunk_payload m) as [n|] eqn:Em.
      + destruct (K n eq_refl) as (NE & LM & LD).
        destruct (fnf_one_piece send fuel bd m n p conn gs c' conn' H Em (Hn n eq_refl) NE LM LD) as (s & _ & ->).
        exists s. apply whole.
      + apply no_mix_ok in H as (_ & s & _ & _ & ->). rewrite Em. exists s. apply whole.
  Qed.

  Lemma fnf_handed : forall fuel bd m n p conn gs c' conn',
    fire_and_forget send fuel bd m p conn = Ret (None, gs, c', conn') ->
    rm_chunk_payload m = Some n -> n <= usize_max ->
    p_metadata p <> Some [] -> p_data p <> Some [] ->
    size (part (p_metadata p)) <= 2 ^ 24 -> size (part (p_data p)) <= 2 ^ 24 ->
    n < size (part (p_metadata p)) \/ n < size (part (p_data p)) ->
    exists sid, next_stream_id fuel (rm_receivers m) (rm_stream_id m) = Ret (sid, c') /\
      handed_on false gs = [] /\
      handed_on true gs = [(sid, chunk_at n (pieces_of n p - 1) p)] /\
      chunk_at n (pieces_of n p - 1) p <> p.
  Proof.
    intros fuel bd m n p conn gs c' conn' H Em Hn HM HD LM LD HL.
    destruct (fnf_marked send fuel bd m p conn gs c' conn' H) as (sid & Hi & G); auto.
    { intros k X. congruence. }
    exists sid. split; [exact Hi|]. rewrite Em in G. cbn [fragments] in G.
    assert (N0 : n <> 0).
    { intros ->. rewrite (fnf_zero_chunk send bd m p conn sid c' fuel Em Hi) in H. discriminate H. }
    assert (P2 : 2 <= pieces_of n p).
    { unfold pieces_of. pose proof (proj1 (pieces_small n (p_metadata p) N0)). pose proof (proj1 (pieces_small n (p_data p) N0)). lia. }
    assert (X : exists ps, chunk_list n p = chunk_at n 0 p :: ps ++ [chunk_at n (pieces_of n p - 1) p]).
    { unfold chunk_list. set (K := N.to_nat (pieces_of n p)). replace K with (Datatypes.S (K - 2 + 1)) by lia.
      rewrite <- cons_seq, seq_app. cbn [map]. rewrite map_app. cbn [seq map].
      replace (N.of_nat (1 + (K - 2))) with (pieces_of n p - 1) by lia. eexists. reflexivity. }
    destruct X as (ps & X). rewrite X in G. subst gs. rewrite !marked_handed. repeat split.
    destruct p as [o1 o2]. unfold chunk_at. cbn [p_metadata p_data] in *. intros Y. injection Y as Y1 Y2.
    assert (Z : forall o i, n < size (part o) -> piece n i o <> o).
    { intros [l|] i Hl; cbn [piece part] in *; [|cbn in Hl; lia]. destruct ((i =? 0) || (i * n <? size l)); [|discriminate].
      intros W. injection W as W. apply (f_equal (@length _)) in W. unfold slice, size in *. rewrite firstn_length in W. lia. }
    destruct HL as [HL|HL]; [eapply (Z o1); eassumption|eapply (Z o2); eassumption].
  Qed.
End Calls.
