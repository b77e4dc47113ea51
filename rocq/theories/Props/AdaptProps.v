(** * Properties of decoding from other buffers and of frames of known length: C103 *)

From Verif Require Import Model.AdaptM Model.BufM Spec.Adapt Spec.Wire.
From Verif Require Import Proofs.AdaptP Proofs.BufP.

Ltac decide_all :=
  repeat match goal with |- _ /\ _ => split end;
  try reflexivity; try discriminate; try (intros; discriminate); try (intros; congruence).
Definition exa (l : list N) : bytes := map n2b l.

(** ** The buffers keep the rules of the trait *)

Theorem C103_take : forall T (ops : buf_ops T) repr behind fuel, lawful ops repr ->
  lawful (take_ops ops fuel) (upto fuel (taking repr behind)).
Proof. exact take_lawful. Qed.
Print Assumptions C103_take.

Theorem C103_chain : forall T U (a : buf_ops T) (b : buf_ops U) ra rb fuel, lawful a ra -> lawful b rb ->
  lawful (chain_ops a b fuel) (upto fuel (chained ra rb)).
Proof. exact chain_lawful. Qed.
Print Assumptions C103_chain.

Theorem C103_std : forall fuel,
  lawful (deque_ops fuel) (upto fuel queued) /\ lawful (cursor_ops fuel) (upto fuel pointed).
Proof. exact (fun fuel => conj (deque_lawful fuel) (cursor_lawful fuel)). Qed.
Print Assumptions C103_std.

(** So a frame may be read from a deque of bytes chained before a cursor, both cut anywhere. *)
Definition ex_cancel : bytes := exa [0;0;0;9; 36;0].
Definition ex_rn : bytes := exa [0;0;0;9; 32;0; 0;0;0;5].
Example C103_chain_example :
  let b := Chain (Deque (exa [0]) (exa [0; 0; 9])) (Cursor (exa [77; 78; 32; 0; 0; 0; 0; 5; 1; 2]) 2) in
  upto 30 (chained (upto 30 queued) (upto 30 pointed)) b (ex_rn ++ exa [1; 2]) /\
  frame_decode (chain_ops (deque_ops 30) (cursor_ops 30) 30) 30 b =
    (DOk (FRequestN (RequestNFrame 9 5)), Chain (Deque [] []) (Cursor (exa [77; 78; 32; 0; 0; 0; 0; 5; 1; 2]) 8)).
Proof.
  split; [|vm_compute; reflexivity]. split; [|cbn; lia].
  exists (exa [0; 0; 0; 9]), (exa [32; 0; 0; 0; 0; 5; 1; 2]).
  split; [split; [reflexivity|cbn; lia]|]. split; [|reflexivity].
  split; [exists (exa [77; 78]); split; reflexivity|cbn; lia].
Qed.

(** ** Frames of known length *)

(** A caller that reads each frame through a [Take] of its length gets for each body what decoding
    that body alone gives, whatever the bodies are, up to the first panic; then the buffer holds what
    follows the last body. *)
Theorem C103_delimited : forall T (ops : buf_ops T) repr fuel bodies b rest, lawful ops repr -> (8 <= fuel)%nat ->
  repr b (concat bodies ++ rest) -> Forall (fun s => (length s <= fuel)%nat) bodies ->
  let (rs, b') := read_frames ops fuel (map (@length byte) bodies) b in
  rs = until_panic (map (fun s => fst (decode s)) bodies) /\ (~ In DPanic rs -> repr b' rest).
Proof.
  exact (fun T ops repr fuel bodies b rest law enough => read_delimited ops repr law fuel enough bodies b rest).
Qed.
Print Assumptions C103_delimited.

(** So any frames that fit come through, one after the other, in any buffer. *)
Theorem C103_frames : forall T (ops : buf_ops T) repr fuel fs vs b rest, lawful ops repr -> (8 <= fuel)%nat ->
  Forall fits fs -> Forall2 (fun f v => frame_encode f [] = EOk v) fs vs ->
  repr b (concat vs ++ rest) -> Forall (fun s => (length s <= fuel)%nat) vs -> exists b',
  read_frames ops fuel (map (@length byte) vs) b = (map DOk fs, b') /\ repr b' rest.
Proof.
  exact (fun T ops repr fuel fs vs b rest law enough => read_written ops repr law fuel enough fs vs b rest).
Qed.
Print Assumptions C103_frames.

(** The lengths [Frame::len] reports will do instead exactly when no SETUP frame without token comes before
    another frame. *)
Theorem C103_reported : forall T (ops : buf_ops T) repr fuel fs vs b, lawful ops repr -> (8 <= fuel)%nat ->
  Forall fits fs -> Forall2 (fun f v => frame_encode f [] = EOk v) fs vs ->
  repr b (concat vs) -> (length (concat vs) <= fuel)%nat ->
  ((exists b', read_frames ops fuel (map (fun f => N.to_nat (frame_len f)) fs) b = (map DOk fs, b')) <->
   forall l f r, fs = l ++ f :: r -> r <> [] -> ~ tokenless f).
Proof.
  exact (fun T ops repr fuel fs vs b law enough => read_reported ops repr law fuel enough fs vs b).
Qed.
Print Assumptions C103_reported.

(** Three bodies in two segments: an ERROR cut short, a PAYLOAD whose data looks like a CANCEL, a CANCEL. *)
Definition ex_bodies : list bytes :=
  [exa [0;0;0;1; 44;0; 0]; exa [0;0;0;7; 40;0; 0;0;0] ++ ex_cancel; ex_cancel].
Example C103_delimited_example :
  let l := [firstn 9 (concat ex_bodies); skipn 9 (concat ex_bodies) ++ exa [1]] in
  together eq l (concat ex_bodies ++ exa [1]) /\
  read_frames (buf_list_ops flat 40) 40 (map (@length byte) ex_bodies) l =
    ([DErr InComplete; DOk (FPayload (PayloadFrame 7 0 (Payload None (Some ex_cancel)))); DOk (FCancel (CancelFrame 9))],
     [exa [1]]).
Proof.
  split; [|vm_compute; reflexivity].
  exists [firstn 9 (concat ex_bodies); skipn 9 (concat ex_bodies) ++ exa [1]].
  split; [repeat constructor|]. split; [|reflexivity]. repeat constructor; discriminate.
Qed.

(** A SETUP frame without token before a CANCEL, read with the reported lengths: the data of the SETUP frame gets the
    first two bytes of the CANCEL, which is lost. *)
Definition ex_bare : frame :=
  FSetup (SetupFrame 0 (Version 1 0) 30 90 None (exa [120]) (exa [121]) (Payload None (Some (exa [65])))).
Lemma ex_bare_fits : fits ex_bare.
Proof.
  unfold fits, ex_bare. cbn [in_range consistent]. cbn. unfold flags_ok, typed_version, small_metadata, solid_payload, solid.
  cbn. decide_all; split; intros; congruence.
Qed.
Lemma ex_cancel_fits : fits (FCancel (CancelFrame 9)).
Proof. split; cbn; [reflexivity|]. auto. Qed.
Example C103_reported_example : exists v,
  fits ex_bare /\ fits (FCancel (CancelFrame 9)) /\ tokenless ex_bare /\
  frame_encode ex_bare [] = EOk v /\ frame_encode (FCancel (CancelFrame 9)) [] = EOk ex_cancel /\
  N.to_nat (frame_len ex_bare) = (length v + 2)%nat /\
  fst (read_frames flat 40 [length v; 6%nat] (v ++ ex_cancel)) = [DOk ex_bare; DOk (FCancel (CancelFrame 9))] /\
  fst (read_frames flat 40 [N.to_nat (frame_len ex_bare); 6%nat] (v ++ ex_cancel)) =
    [DOk (FSetup (SetupFrame 0 (Version 1 0) 30 90 None (exa [120]) (exa [121]) (Payload None (Some (exa [65; 0; 0])))));
     DErr InComplete].
Proof.
  exists (match frame_encode ex_bare [] with EOk v => v | _ => [] end).
  split; [exact ex_bare_fits|]. split; [exact ex_cancel_fits|]. vm_compute. repeat split.
Qed.
