(** * The storage of an encoded frame: C98 *)

From Verif Require Import Model.StoreM Spec.Store Proofs.StoreP.
From Verif Require Import Props.CodecProps.

(** ** C98 *)

(** The documented sentence, "guaranteed to return a [Bytes] whose capacity is exactly the same as
    [self.len()]", is false. *)
Definition st_setup : frame :=
  FSetup (SetupFrame 0 (Version 1 0) 30000 60000 None [n2b 97] [n2b 98] (Payload None (Some [n2b 1]))).
Theorem C98_refuted : ~ (forall grow f b, typed f -> frame_to_bytes_stored grow f = Ret b ->
  N.of_nat (bm_cap b) = frame_len f).
Proof.
  intro H.
  assert (E : frame_to_bytes_stored (fun _ n => n) st_setup = Ret (BytesMut (map n2b
    [0;0;0;0; 4;0; 0;1;0;0; 0;0;117;48; 0;0;234;96; 1;97; 1;98; 0;0;0; 1]) 26 [28%nat; 26%nat])) by reflexivity.
  apply H in E; [discriminate E|]. cbn. unfold flags_ok, typed_version. repeat split; reflexivity.
Qed.
Print Assumptions C98_refuted.

(** What holds of every frame: however the storage would grow, it does not; the content is never
    longer than promised and fills its block. *)
Theorem C98_blocks : forall grow f b, frame_to_bytes_stored grow f = Ret b ->
  bm_cap b = length (bm_bytes b) /\
  N.of_nat (bm_cap b) + (if without_token f then 2 else 0) = frame_len f /\
  bm_blocks b = N.to_nat (frame_len f) :: (if without_token f then [bm_cap b] else []).
Proof. exact stored_blocks. Qed.
Print Assumptions C98_blocks.

(** So the sentence is true, and one block is enough, of all frames but SETUP without a token. *)
Theorem C98_exact_iff : forall grow f b, frame_to_bytes_stored grow f = Ret b ->
  (N.of_nat (bm_cap b) = frame_len f <-> without_token f = false) /\
  (bm_blocks b = [N.to_nat (frame_len f)] <-> without_token f = false).
Proof. exact stored_exact_iff. Qed.
Print Assumptions C98_exact_iff.

(** The storage changes nothing about the bytes, nor about the panics. *)
Theorem C98_same : forall grow f,
  frame_to_bytes f = match frame_to_bytes_stored grow f with
                     | Ret b => Ret (bm_bytes b) | Panic => Panic | Loop => Loop end.
Proof. exact stored_same. Qed.
Print Assumptions C98_same.

(** [encode] into a buffer of the caller: with room for [len()] more bytes nothing is asked of the
    allocator; in any case the bytes are those of the buffer without storage. *)
Theorem C98_room : forall grow f b b',
  N.of_nat (length (bm_bytes b)) + frame_len f <= N.of_nat (bm_cap b) ->
  bm_puts grow (frame_puts f) b = Ret b' ->
  frame_encode f (bm_bytes b) = EOk (bm_bytes b') /\ bm_cap b' = bm_cap b /\ bm_blocks b' = bm_blocks b.
Proof. exact encode_room. Qed.
Print Assumptions C98_room.

Theorem C98_any : forall grow f b,
  match bm_puts grow (frame_puts f) b with
  | Ret b' => frame_encode f (bm_bytes b) = EOk (bm_bytes b')
  | Panic => exists x, frame_encode f (bm_bytes b) = EPanic x
  | Loop => False
  end.
Proof. exact encode_any. Qed.
Print Assumptions C98_any.

(** The parts of a frame keep the documented sentence. *)
Theorem C98_parts : forall grow,
  (forall p, to_bytes_stored grow (payload_len p) (payload_puts p) =
     let bs := part (p_metadata p) ++ part (p_data p) in
     Ret (BytesMut bs (length bs) (match bs with [] => [] | _ => [length bs] end))) /\
  (forall u, exists bs, to_bytes_stored grow (u24_len u) (u24_puts u) = Ret (BytesMut bs 3 [3%nat]) /\
     u24_encode u [] = EOk bs) /\
  (forall v, exists bs, to_bytes_stored grow (version_len v) (version_puts v) = Ret (BytesMut bs 4 [4%nat]) /\
     version_encode v [] = EOk bs).
Proof. exact parts_stored. Qed.
Print Assumptions C98_parts.

(** A frame that takes one block, one that takes two, a buffer with room and one that has to grow. *)
Example C98_example : forall grow,
  (exists b, frame_to_bytes_stored grow ex_stream = Ret b /\ without_token ex_stream = false /\
     bm_cap b = 18%nat /\ bm_blocks b = [18%nat]) /\
  (exists b, frame_to_bytes_stored grow ex_setup = Ret b /\ without_token ex_setup = false /\
     bm_blocks b = [bm_cap b]) /\
  (exists b, frame_to_bytes_stored grow st_setup = Ret b /\ without_token st_setup = true /\
     bm_blocks b = [28%nat; 26%nat]) /\
  bm_puts grow (frame_puts (FCancel (CancelFrame 5))) (BytesMut [n2b 9] 7 [7%nat]) =
    Ret (BytesMut (map n2b [9; 0;0;0;5; 36;0]) 7 [7%nat]) /\
  bm_puts grow (frame_puts (FCancel (CancelFrame 5))) (BytesMut [n2b 9] 5 [5%nat]) =
    Ret (BytesMut (map n2b [9; 0;0;0;5; 36;0]) (grow 5 7)%nat [5; grow 5 7]%nat).
Proof. intro grow. repeat split; try (eexists; repeat split); reflexivity. Qed.
