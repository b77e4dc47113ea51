(** * Whose fragments a payload is put together from *)

From Verif Require Import Model.BufM Spec.Mix Proofs.BitsP Proofs.CodecP Proofs.DecodeP Proofs.StableP Proofs.BufP.

(** ** Requests of the protocol *)

Definition decodes (l : list bytes) (fs : list frame) : Prop := Forall2 (fun v f => fst (decode v) = DOk f) l fs.

Lemma join_part_bytes : forall a b, part (join_part a b) = part a ++ part b.
Proof. intros [a|] [b|]; cbn; now rewrite ?app_nil_r. Qed.

Lemma continuation_parts : forall sid fs p, continuation sid fs ->
  part (p_metadata (fold_left (fun p g => join_payload p (carried g)) fs p)) = part (p_metadata p) ++ concat (map meta_of fs) /\
  part (p_data (fold_left (fun p g => join_payload p (carried g)) fs p)) = part (p_data p) ++ concat (map data_of fs).
Proof.
  intros sid fs p H. revert p. induction H as [v _ _|v fs _ _ _ IH]; intros p; cbn [fold_left map concat].
  - cbn. now rewrite !join_part_bytes, !app_nil_r.
  - destruct (IH (join_payload p (carried (FPayload v)))) as [-> ->]. cbn. now rewrite !join_part_bytes, <- !app_assoc.
Qed.

Lemma opened : forall f x, opens f = Some x -> contributes f = Some (carried f).
Proof. intros [] x H; try discriminate; reflexivity. Qed.

Lemma request_joined : forall sid fs, whole_request sid fs -> assembled fs = without_empty (joined fs).
Proof.
  intros sid fs H. unfold assembled, without_empty. destruct H as [f O|f fs O C]; cbn [joined fold_left map concat].
  - unfold meta_of, data_of. rewrite (opened f _ O). now rewrite !app_nil_r.
  - destruct (continuation_parts sid fs (carried f) C) as [-> ->].
    unfold meta_of at 1, data_of at 1. now rewrite (opened f _ O).
Qed.

Lemma request_payload : forall sid l fs, decodes l fs -> whole_request sid fs ->
  bl_try_into flat 0 l = DOk (without_empty (joined fs)).
Proof. intros sid l fs D W. rewrite (flat_try_into_ok l fs D). now rewrite (request_joined sid fs W). Qed.

Lemma fnf_whole : forall sid fs, one_request sid fs -> whole_request sid fs.
Proof.
  intros sid fs [v <- F|v gs <- F C]; [apply Whole_alone|apply Whole_parts; [|exact C]]; cbn [opens]; now rewrite F.
Qed.

Lemma continuation_handed : forall r sid fs p pending, continuation sid fs -> pending sid = Some p ->
  take_frames r pending fs = [(sid, fold_left (fun p g => join_payload p (carried g)) fs p)].
Proof.
  intros r sid fs p pending H. revert p pending. induction H as [v E F|v fs E F C IH]; intros p pending G;
    cbn [take_frames take_frame fold_left]; rewrite E, G, F.
  - reflexivity.
  - cbn [app]. apply IH. now rewrite N.eqb_refl.
Qed.

Lemma handed_joined : forall r sid fs, one_request sid fs -> handed_on r fs = [(sid, joined fs)].
Proof.
  intros r sid fs [v E F|v gs E F C]; unfold handed_on; cbn [take_frames take_frame]; rewrite E, F.
  - destruct r; reflexivity.
  - destruct r; cbn [app joined]; (apply continuation_handed; [exact C|]); cbv beta; rewrite N.eqb_refl; reflexivity.
Qed.

Lemma request_handed : forall r sid l fs, decodes l fs -> one_request sid fs ->
  exists p, handed_on r fs = [(sid, p)] /\ bl_try_into flat 0 l = DOk (without_empty p).
Proof.
  intros r sid l fs D O. exists (joined fs). split; [exact (handed_joined r sid fs O)|].
  exact (request_payload sid l fs D (fnf_whole sid fs O)).
Qed.

(** ** Other lists *)

Lemma payload_part_blind : forall t sid sid' fl fl' body f,
  fst (after_header 0 t sid fl body) = DOk f -> contributes f <> None ->
  exists f', fst (after_header 0 t sid' fl' body) = DOk f' /\ contributes f' = contributes f.
Proof.
  intros t sid sid' fl fl' body f H N. unfold after_header in *.
  destruct (needs_stream_zero t && negb (sid =? 0)) eqn:Z; [discriminate|].
  assert (K : needs_stream_zero t = false).
  { destruct t; try reflexivity; exfalso; apply N; unfold body_dec, d_map, d_bind in H;
      (let m := fresh in match type of H with context [match ?x with _ => _ end] => destruct x as [[] m] end);
      cbn in H; try discriminate; injection H as <-; reflexivity. }
  rewrite K. cbn [andb]. destruct t; try discriminate K; unfold body_dec, d_map in *;
    unfold request_response_decode, request_fnf_decode, request_stream_decode, request_channel_decode, payload_frame_decode in *;
    unfold d_bind, d_ret, d_panic in *.
  all: try discriminate H.
  all: repeat match type of H with context [match ?x with _ => _ end] =>
         lazymatch x with context [match _ with _ => _ end] => fail | _ => idtac end;
         let o := fresh "o" in let m := fresh "m" in destruct x as [o m]; destruct o; cbn [fst snd] in H |- *; try discriminate H
       end.
  all: injection H as <-; try (exfalso; now apply N); eexists; (split; [reflexivity|reflexivity]).
Qed.

Lemma relabelled_blind : forall v v' f, relabelled v v' -> fst (decode v) = DOk f -> contributes f <> None ->
  exists f', fst (decode v') = DOk f' /\ contributes f' = contributes f.
Proof.
  intros v v' f (hd & hd' & body & c & r & sid & w & r' & sid' & w' & Hc & Hr & Hs & Hw & Hr' & Hs' & Hw' & -> & -> & B & B') H N.
  rewrite <- header_bits in B, B' by assumption. apply bytes_bits_inj in B, B'. subst hd hd'.
  rewrite decode_header in * by assumption. destruct (ft_from_value c) as [t|]; [|discriminate].
  eapply payload_part_blind; eassumption.
Qed.

Lemma relabelled_all : forall l l', Forall2 relabelled l l' ->
  Forall (fun v => exists f, fst (decode v) = DOk f /\ contributes f <> None) l ->
  bl_try_into flat 0 l' = bl_try_into flat 0 l.
Proof.
  intros l l' R H.
  assert (X : exists fs fs', decodes l fs /\ decodes l' fs' /\ map contributes fs' = map contributes fs).
  { induction R as [|v v' l l' R X IH]; [exists [], []; repeat constructor|].
    inversion H as [|x y (f & D & C) H']; subst x y. destruct (IH H') as (fs & fs' & A & B & E).
    destruct (relabelled_blind v v' f R D C) as (f' & D' & C'). exists (f :: fs), (f' :: fs').
    split; [now constructor|]. split; [now constructor|]. cbn [map]. congruence. }
  destruct X as (fs & fs' & A & B & E). rewrite (flat_try_into_ok l fs A), (flat_try_into_ok l' fs' B). f_equal.
  assert (M : map meta_of fs' = map meta_of fs /\ map data_of fs' = map data_of fs).
  { clear -E. revert fs E. induction fs' as [|g fs' IH]; intros [|f fs] E; try discriminate; [auto|].
    cbn [map] in *. injection E as E1 E2. destruct (IH fs E2) as [-> ->]. unfold meta_of at 1 3, data_of at 1 3. now rewrite E1. }
  unfold assembled. destruct M as [-> ->]. reflexivity.
Qed.

Lemma part_absent : forall l, part (absent_if_empty l) = l.
Proof. now intros []. Qed.

Lemma mixed_size : forall {A} (g : A -> bytes) fs gs hs, mixed fs gs hs ->
  length (concat (map g hs)) = (length (concat (map g fs)) + length (concat (map g gs)))%nat.
Proof.
  intros A g fs gs hs M. induction M; cbn [map concat]; rewrite ?app_length; try lia. reflexivity.
Qed.

Lemma mixed_accepted : forall l fs gs hs, mixed fs gs hs -> decodes l hs ->
  exists p, bl_try_into flat 0 l = DOk p /\
    length (part (p_metadata p)) = (length (part (p_metadata (assembled fs))) + length (part (p_metadata (assembled gs))))%nat /\
    length (part (p_data p)) = (length (part (p_data (assembled fs))) + length (part (p_data (assembled gs))))%nat.
Proof.
  intros l fs gs hs M D. exists (assembled hs). split; [now apply flat_try_into_ok|].
  unfold assembled. cbn [p_metadata p_data]. rewrite !part_absent. split; now apply mixed_size.
Qed.
