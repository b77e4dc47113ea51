(** * Lengths in a [usize] of [w] bits: C89 *)

From Coq Require Import Lia.
From Verif Require Import Model.CodecM.
From Verif Require Import Model.WordM Spec.Word.
From Verif Require Import Proofs.WordP.

(** ** C89: lengths and the width of [usize] *)

(** A payload has two parts, each at most [isize::MAX] bytes long: their sum always fits. *)
Theorem C89_payload : forall w bd p, 32 <= w -> in_memory w [part (p_metadata p); part (p_data p)] ->
  payload_len_w w bd p = Ret (size (part (p_metadata p)) + size (part (p_data p))).
Proof. exact payload_fits. Qed.
Print Assumptions C89_payload.

(** [len] of a frame is the sum; what happens when it does not fit depends on the build. *)
Theorem C89_len : forall w bd f, 32 <= w -> in_memory w (byte_parts f) ->
  frame_len_w w bd f = overflowing w bd (total f).
Proof. exact len_exact. Qed.
Print Assumptions C89_len.

(** It fits for every frame that can be written: those the decoder returns, those the builder of SETUP frames makes
    as long as their metadata is short, and the other kinds under the same condition. *)
Theorem C89_len_written : forall w bd f, 32 <= w -> in_memory w (byte_parts f) -> setup_limits f -> short_metadata f ->
  frame_len_w w bd f = Ret (total f).
Proof. exact len_written. Qed.
Print Assumptions C89_len_written.
Theorem C89_decoded : forall input f rest, decode input = (DOk f, rest) -> setup_limits f /\ short_metadata f.
Proof. exact decoded_limits. Qed.
Print Assumptions C89_decoded.
Theorem C89_built : forall bd cs f, setup_run bd cs = Ret f -> setup_limits (FSetup f).
Proof. exact built_limits. Qed.
Print Assumptions C89_built.

Definition ex_word : frame :=
  FPayload (PayloadFrame 1 0x80 (Payload (Some (map n2b [1; 2])) (Some (map n2b [3; 4; 5])))).
Example C89_example : in_memory 32 (byte_parts ex_word) /\ setup_limits ex_word /\ short_metadata ex_word /\
  frame_len_w 32 Debug ex_word = Ret 14 /\ frame_len_w 64 Release ex_word = Ret 14.
Proof.
  split; [repeat constructor; vm_compute; discriminate|]. split; [exact I|].
  split; [intros p H; injection H as <-; reflexivity|]. split; vm_compute; reflexivity.
Qed.

(** Metadata and data of [isize::MAX] bytes each: a panic, or 7. *)
Theorem C89_overflows : forall w m d, 32 <= w -> size m = largest w -> size d = largest w ->
  let f := FPayload (PayloadFrame 1 0x80 (Payload (Some m) (Some d))) in
  typed f /\ in_memory w (byte_parts f) /\
  frame_len_w w Debug f = Panic /\ frame_len_w w Release f = Ret 7.
Proof. exact len_overflows. Qed.
Print Assumptions C89_overflows.
Example C89_overflows_example : size (repeat (n2b 7) (N.to_nat (largest 32))) = largest 32.
Proof. unfold size. rewrite repeat_length. apply N2Nat.id. Qed.

(** [to_bytes] does not depend on the build: it gives the bytes of [encode] as long as these, as counted by [len], can be allocated. *)
Theorem C89_to_bytes : forall w bd f, 32 <= w -> typed f -> in_memory w (byte_parts f) ->
  (short_metadata f /\ total f <= largest w /\
   exists bs, to_bytes_w w bd f = Ret bs /\ forall buf, frame_encode f buf = EOk (buf ++ bs)) \/
  ((~ short_metadata f \/ largest w < total f) /\ to_bytes_w w bd f = Panic).
Proof. exact to_bytes_exact. Qed.
Print Assumptions C89_to_bytes.

Example C89_to_bytes_example : typed ex_word /\
  to_bytes_w 32 Debug ex_word = Ret (map n2b [0;0;0;1; 0x28;0x80; 0;0;2;1;2; 3;4;5]).
Proof. split; [repeat split|vm_compute; reflexivity]. Qed.
(** Data of [isize::MAX] bytes and no metadata: [len] is right, [to_bytes] panics. *)
Example C89_too_long : forall d, size d = largest 32 ->
  let f := FPayload (PayloadFrame 1 0 (Payload None (Some d))) in
  frame_len_w 32 Release f = Ret (2 ^ 31 + 8) /\ to_bytes_w 32 Release f = Panic.
Proof.
  intros d H f.
  assert (L : frame_len_w 32 Release f = Ret (2 ^ 31 + 8)).
  { unfold f, frame_len_w, payload_len_w, add_part, oc_add, add_w. cbn [pf_payload p_metadata p_data].
    change (blen d) with (size d). rewrite H. reflexivity. }
  split; [exact L|]. unfold to_bytes_w. rewrite L. reflexivity.
Qed.

(** The number of chunks, and the index of a chunk plus one (fire_and_forget), do not depend on the width either. *)
Theorem C89_chunks : forall w n p c k, 32 <= w <= 64 -> n < 2 ^ w -> payload_chunks p n = Ret c ->
  in_memory w [part (p_metadata p); part (p_data p)] ->
  chunks_len_w w (snd (chunks_calls k c)) = chunks_len (snd (chunks_calls k c)) /\
  (fst (chunks_next (snd (chunks_calls k c))) <> None -> N.of_nat k + 1 < 2 ^ w).
Proof. exact chunks_w. Qed.
Print Assumptions C89_chunks.

Example C89_chunks_example : exists c, payload_chunks (Payload None (Some (map n2b [1; 2; 3]))) 2 = Ret c /\
  chunks_len_w 32 c = 2 /\ fst (chunks_next (snd (chunks_calls 1 c))) <> None.
Proof. eexists. split; [reflexivity|]. split; [vm_compute; reflexivity|discriminate]. Qed.

(** [remaining] of a list of buffers is a sum over any number of buffers, which may share their bytes. *)
Theorem C89_remaining : forall w bd l, 32 <= w -> in_memory w l ->
  bl_remaining_w flat w bd l = overflowing w bd (size (concat l)).
Proof. exact remaining_memory. Qed.
Print Assumptions C89_remaining.

(** Up to [isize::MAX] bytes in all, the list keeps the rules of [Buf]: all that is proved of such buffers holds. *)
Theorem C89_lawful : forall w bd fuel, 32 <= w -> lawful (buf_list_ops_w flat w bd fuel)
  (fun l s => concat l = s /\ solid l /\ (length l <= fuel)%nat /\ size s <= largest w).
Proof. exact lawful_w. Qed.
Print Assumptions C89_lawful.

Example C89_lawful_example :
  bl_copy_to_bytes_w flat 32 Debug 3 4 [map n2b [1; 2; 3]; map n2b [4; 5]] = Ret (map n2b [1; 2; 3; 4], [map n2b [5]]).
Proof. vm_compute. reflexivity. Qed.

(** With more the sum is lost: a list may report nothing, and a decoder waits for a frame that is there. *)
Theorem C89_wrapped : forall w fuel l, 32 <= w -> in_memory w l -> 2 ^ w <= size (concat l) -> size (concat l) mod 2 ^ w < 6 ->
  bl_remaining_w flat w Debug l = Panic /\
  frame_decode (buf_list_ops_w flat w Release fuel) fuel l = (DErr InComplete, l).
Proof. exact decode_wrapped. Qed.
Print Assumptions C89_wrapped.

(** Four times the same gigabyte, beginning with a CANCEL frame. *)
Example C89_wrapped_example : forall zeros, size zeros = 2 ^ 30 - 6 ->
  let b := map n2b [0;0;0;5; 0x24;0] ++ zeros in
  let l := [b; b; b; b] in
  in_memory 32 l /\ size (concat l) = 2 ^ 32 /\
  fst (decode (concat l)) = DOk (FCancel (CancelFrame 5)) /\
  forall fuel, frame_decode (buf_list_ops_w flat 32 Release fuel) fuel l = (DErr InComplete, l).
Proof.
  intros zeros Z b l.
  assert (B : size b = 2 ^ 30).
  { unfold b, size. rewrite app_length. cbn [map length]. unfold size in Z. lia. }
  assert (M : in_memory 32 l) by (repeat constructor; rewrite B; vm_compute; discriminate).
  assert (S : size (concat l) = 2 ^ 32).
  { unfold l. cbn [concat]. unfold size in *. rewrite !app_length. cbn [length]. lia. }
  split; [exact M|]. split; [exact S|]. split.
  - unfold l. cbn [concat]. unfold b at 1. rewrite <- app_assoc. reflexivity.
  - intros fuel. apply decode_wrapped; rewrite ?S; [lia|exact M|lia|reflexivity].
Qed.
