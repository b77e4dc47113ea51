(** * Properties of [BufList]: C27-C31, C63, C86 *)

From Verif Require Import Model.BufM Spec.Buf.
From Verif Require Import Proofs.BufP Proofs.LeftP Proofs.BufGenP Proofs.WriteP Proofs.AskP.

Definition exl (l : list N) : bytes := map n2b l.
Definition ex_list : buf_list bytes := [exl [1; 2; 3]; exl [4]; exl [5; 6]].

(** ** C27: one byte sequence *)

(** Another buffer: bytes and a position, whose chunk is never longer than one byte. *)
Definition drip : buf_ops (nat * bytes) := {|
  b_remaining c := length (skipn (fst c) (snd c));
  b_chunk c := firstn 1 (skipn (fst c) (snd c));
  b_advance k c := if Nat.leb k (length (skipn (fst c) (snd c))) then Ret (fst c + k, snd c)%nat else Panic;
  b_copy_to_bytes k c := if Nat.leb k (length (skipn (fst c) (snd c)))
    then Ret (firstn k (skipn (fst c) (snd c)), (fst c + k, snd c)%nat) else Panic;
  b_vectored n c := match n, skipn (fst c) (snd c) with S _, x :: _ => [[x]] | _, _ => [] end |}.
Lemma drip_lawful : lawful drip (fun c s => skipn (fst c) (snd c) = s).
Proof.
  constructor; intros [p l] s; cbn [fst snd drip b_remaining b_chunk b_advance b_copy_to_bytes].
  - now intros <-.
  - intros <-. exists (skipn 1 (skipn p l)). rewrite firstn_skipn. split; [reflexivity|].
    now destruct (skipn p l).
  - intros k <-. destruct (Nat.leb k _); [|reflexivity]. eexists. split; [reflexivity|].
    cbn [fst snd]. now rewrite skipn_add.
  - intros k <-. destruct (Nat.leb k _); [|reflexivity]. eexists. split; [reflexivity|].
    cbn [fst snd]. now rewrite skipn_add.
Qed.

(** Any history of operations answers as the concatenation would, panics
    included, with or without debug assertions. *)
Theorem C27_history : forall bd fuel ops l, solid l -> solid (pushes ops) ->
  (length l + length (pushes ops) <= fuel)%nat ->
  let (r, l') := bl_run flat bd fuel ops l in
  queue_run ops (concat l) = (r, concat l') /\ solid l'.
Proof. exact flat_run_queue. Qed.
Print Assumptions C27_history.

(** Which buffers are left: those with a byte not yet taken, so that [len] is their number. *)
Theorem C27_left : forall bd fuel ops l r l', solid l -> solid (pushes ops) ->
  (length l + length (pushes ops) <= fuel)%nat ->
  bl_run flat bd fuel ops l = (r, l') -> ~ In ResPanic r ->
  l' = leftover (taken ops) (l ++ pushes ops) /\
  bl_len l' = length (leftover (taken ops) (l ++ pushes ops)).
Proof. exact flat_run_leftover. Qed.
Print Assumptions C27_left.

Example C27_left_example :
  let run := bl_run flat Debug 4 [OpAdvance 3; OpPush (exl [7; 8]); OpCopy 2] ex_list in
  run = ([ResUnit; ResUnit; ResBytes (exl [4; 5])], [exl [6]; exl [7; 8]]) /\ bl_len (snd run) = 2%nat /\
  bl_len ex_list = 3%nat.
Proof. split; [vm_compute; reflexivity|]. split; vm_compute; reflexivity. Qed.

(** [advance] does not even need the buffers to be non-empty. *)
Theorem C27_advance : forall l cnt,
  if Nat.leb cnt (length (concat l))
  then exists l', bl_advance flat cnt l = Ret l' /\
         concat l' = skipn cnt (concat l) /\ (solid l -> solid l') /\ (length l' <= length l)%nat
  else bl_advance flat cnt l = Panic.
Proof. exact flat_advance_spec. Qed.
Print Assumptions C27_advance.

Theorem C27_remaining : forall l, bl_remaining flat l = length (concat l).
Proof. exact remaining_concat. Qed.
Print Assumptions C27_remaining.

(** [chunk] is a prefix of the content, empty only at the end. *)
Theorem C27_chunk : forall l, solid l ->
  exists r, concat l = bl_chunk flat l ++ r /\ (bl_chunk flat l = [] -> concat l = []).
Proof. exact chunk_is_prefix. Qed.
Print Assumptions C27_chunk.

Example C27_example :
  bl_run flat Debug 5 [OpRemaining; OpCopy 2; OpPush (exl [7; 8]); OpAdvance 3; OpCopy 2; OpRemaining; OpCopy 2] ex_list =
  ([ResNum 6; ResBytes (exl [1; 2]); ResUnit; ResUnit; ResBytes (exl [6; 7]); ResNum 1; ResPanic], [exl [8]]) /\
  solid ex_list.
Proof. split; [reflexivity|]. repeat constructor; discriminate. Qed.

(** The same over any buffers that keep the rules of the trait: a list of them keeps
    these rules, so lists of lists do, and every history answers as the bytes would. *)
Theorem C27_any_buffers : forall T (ops : buf_ops T) repr fuel, lawful ops repr ->
  lawful (buf_list_ops ops fuel) (fun l s => together repr l s /\ (length s <= fuel)%nat).
Proof. exact (fun T ops repr fuel law => gen_lawful ops repr law fuel). Qed.
Print Assumptions C27_any_buffers.

Theorem C27_any_history : forall T (ops : buf_ops T) repr bd fuel h hs l s, lawful ops repr ->
  Forall2 (same_op repr) h hs -> together repr l s -> solid (pushes hs) ->
  (length s + length (concat (pushes hs)) <= fuel)%nat ->
  fst (bl_run ops bd fuel h l) = fst (queue_run hs s) /\
  together repr (snd (bl_run ops bd fuel h l)) (snd (queue_run hs s)).
Proof. exact (fun T ops repr bd fuel h hs l s law => gen_run ops repr law bd fuel h hs l s). Qed.
Print Assumptions C27_any_history.

(** A list of two such buffers, with the history of the example above. *)
Example C27_example_any :
  together (fun c s => skipn (fst c) (snd c) = s) [(1%nat, exl [0; 1; 2; 3]); (0%nat, exl [4; 5; 6])] (exl [1; 2; 3; 4; 5; 6]) /\
  fst (bl_run drip Debug 9 [OpRemaining; OpCopy 2; OpPush (2%nat, exl [0; 0; 7; 8]); OpAdvance 3; OpCopy 2; OpRemaining; OpCopy 2]
    [(1%nat, exl [0; 1; 2; 3]); (0%nat, exl [4; 5; 6])]) =
  [ResNum 6; ResBytes (exl [1; 2]); ResUnit; ResUnit; ResBytes (exl [6; 7]); ResNum 1; ResPanic].
Proof.
  split; [|reflexivity]. exists [exl [1; 2; 3]; exl [4; 5; 6]].
  split; [repeat constructor|]. split; [repeat constructor; discriminate|reflexivity].
Qed.

(** ** C28: decoding does not depend on the segmentation *)

Theorem C28_segmentation : forall fuel l, solid l -> (8 + length l <= fuel)%nat ->
  fst (frame_decode (buf_list_ops flat fuel) fuel l) = fst (decode (concat l)) /\
  concat (snd (frame_decode (buf_list_ops flat fuel) fuel l)) = snd (decode (concat l)) /\
  solid (snd (frame_decode (buf_list_ops flat fuel) fuel l)).
Proof. exact decode_segments. Qed.
Print Assumptions C28_segmentation.

(** More: any buffer that keeps the rules of the [Buf] trait decodes like the bytes it
    holds.  Both buffers of the crate keep them. *)
Theorem C28_any_buffer : forall B (ops : buf_ops B) repr fuel b s,
  lawful ops repr -> (8 <= fuel)%nat -> repr b s ->
  fst (frame_decode ops fuel b) = fst (decode s) /\
  repr (snd (frame_decode ops fuel b)) (snd (decode s)).
Proof. exact decode_any. Qed.
Print Assumptions C28_any_buffer.

Theorem C28_lawful : lawful flat eq /\
  forall fuel, lawful (buf_list_ops flat fuel)
    (fun l s => concat l = s /\ solid l /\ (length l <= fuel)%nat).
Proof. exact (conj flat_lawful buf_list_lawful). Qed.
Print Assumptions C28_lawful.

(** A REQUEST_STREAM frame in one-byte segments. *)
Definition ex_frame_bytes : bytes := exl [0;0;0;9; 25;0; 0;0;1;0; 0;0;2; 65;66; 67;68;69].
Example C28_example :
  let l := map (fun b => [b]) ex_frame_bytes in
  concat l = ex_frame_bytes /\ solid l /\
  frame_decode (buf_list_ops flat 30) 30 l =
    (DOk (FRequestStream (RequestStreamFrame 9 256 256 (Payload (Some (exl [65; 66])) (Some (exl [67; 68; 69]))))), []).
Proof. split; [reflexivity|]. split; [repeat constructor; discriminate|]. vm_compute. reflexivity. Qed.

Example C28_example_any : lawful drip (fun c s => skipn (fst c) (snd c) = s) /\
  fst (frame_decode drip 8 (2%nat, exl [7; 7] ++ ex_frame_bytes)) =
    DOk (FRequestStream (RequestStreamFrame 9 256 256 (Payload (Some (exl [65; 66])) (Some (exl [67; 68; 69]))))).
Proof. split; [exact drip_lawful|]. vm_compute. reflexivity. Qed.

(** ** C29: empty buffers *)

Theorem C29_push_empty : forall bd l,
  bl_push flat bd [] l = match bd with Debug => Panic | Release => Ret (l ++ [[]]) end.
Proof. exact flat_push_empty. Qed.
Print Assumptions C29_push_empty.

Theorem C29_front_empty_diverges : forall fuel len rest, (0 < len <= length (concat rest))%nat ->
  bl_copy_to_bytes flat fuel len ([] :: rest) = Loop.
Proof. exact flat_copy_stuck. Qed.
Print Assumptions C29_front_empty_diverges.

(** Exactly: [copy_to_bytes] of an available length fails to terminate iff an
    empty buffer lies before the last byte to copy. *)
Theorem C29_diverges_iff : forall len l, (len <= length (concat l))%nat ->
  ((forall fuel, bl_copy_to_bytes flat fuel len l = Loop) <-> early_empty len l) /\
  (~ early_empty len l -> forall fuel, (length l <= fuel)%nat -> exists l',
     bl_copy_to_bytes flat fuel len l = Ret (firstn len (concat l), l') /\
     concat l' = skipn len (concat l)).
Proof. exact flat_copy_diverges_iff. Qed.
Print Assumptions C29_diverges_iff.

Example C29_example : forall fuel, exists l,
  bl_push flat Release (exl [1]) bl_new = Ret [exl [1]] /\ bl_push flat Release [] [exl [1]] = Ret [exl [1]; []] /\
  bl_push flat Release (exl [2]) [exl [1]; []] = Ret l /\ bl_copy_to_bytes flat fuel 2 l = Loop /\
  bl_copy_to_bytes flat 0 1 l = Ret (exl [1], [[]; exl [2]]).
Proof.
  intros fuel. eexists. repeat split. apply C29_diverges_iff; [cbn; lia|].
  exists [exl [1]], [exl [2]]. split; [reflexivity|cbn; lia].
Qed.

(** ** C30: vectored view *)

Theorem C30_vectored : forall l slots, solid l -> bl_vectored flat slots l = firstn slots l.
Proof. exact flat_vectored_spec. Qed.
Print Assumptions C30_vectored.

(** With empty buffers too, the slots are not overrun and hold a prefix of the content. *)
Theorem C30_bounded : forall l slots, (length (bl_vectored flat slots l) <= slots)%nat.
Proof. exact (fun l slots => proj1 (flat_vectored_any l slots)). Qed.
Print Assumptions C30_bounded.
Theorem C30_prefix : forall l slots, exists r, concat l = concat (bl_vectored flat slots l) ++ r.
Proof. exact flat_vectored_prefix. Qed.
Print Assumptions C30_prefix.

Example C30_example : bl_vectored flat 2 ex_list = [exl [1; 2; 3]; exl [4]] /\
  bl_vectored flat 7 ex_list = ex_list /\ bl_vectored flat 0 ex_list = [] /\
  bl_vectored flat 2 [[]; exl [1]; []; exl [2]] = [exl [1]; exl [2]].
Proof. repeat split; reflexivity. Qed.

(** Over any buffers that gather all they hold when there is room. *)
Theorem C30_any_buffers : forall T (ops : buf_ops T) repr fuel, gathers ops repr ->
  gathers (buf_list_ops ops fuel) (fun l s => exists ss, Forall2 repr l ss /\ concat ss = s).
Proof. exact gen_gathers. Qed.
Print Assumptions C30_any_buffers.

Theorem C30_bytes_gather : gathers flat eq.
Proof. exact flat_gathers. Qed.
Print Assumptions C30_bytes_gather.

(** That condition is needed: with the default [chunks_vectored] of the trait on an inner
    buffer of several chunks, the list skips bytes. *)
Theorem C30_default_skips : exists (l : list (nat * bytes)) s,
  lawful drip (fun c s => skipn (fst c) (snd c) = s) /\
  (forall n c, b_vectored drip n c = default_vectored drip n c) /\
  together (fun c s => skipn (fst c) (snd c) = s) l s /\
  forall r, s <> concat (bl_vectored drip 2 l) ++ r.
Proof.
  exists [(0%nat, exl [1; 2]); (0%nat, exl [3])], (exl [1; 2; 3]).
  split; [exact drip_lawful|]. split.
  - intros [|n] [q b]; cbn; [reflexivity|]. now destruct (skipn q b).
  - split; [|discriminate]. exists [exl [1; 2]; exl [3]].
    split; [repeat constructor|]. split; [repeat constructor; discriminate|reflexivity].
Qed.
Print Assumptions C30_default_skips.

Example C30_example_nested :
  b_vectored (buf_list_ops (buf_list_ops flat 9) 9) 3 [ex_list; [exl [7]]] = ex_list /\
  concat (b_vectored (buf_list_ops (buf_list_ops flat 9) 9) 5 [ex_list; [exl [7]]]) = exl [1; 2; 3; 4; 5; 6; 7].
Proof. split; reflexivity. Qed.

(** ** C31: reassembly *)

(** Fragments that decode are put together in order; SETUP and the frames
    without payload contribute nothing. *)
Theorem C31_reassembly : forall l fs,
  Forall2 (fun v f => fst (decode v) = DOk f) l fs -> bl_try_into flat 0 l = DOk (assembled fs).
Proof. exact flat_try_into_ok. Qed.
Print Assumptions C31_reassembly.

Theorem C31_encoded : forall fs l,
  Forall2 (fun f v => in_range f /\ coherent f /\ frame_encode f [] = EOk v) fs l ->
  bl_try_into flat 0 l = DOk (assembled fs).
Proof. exact flat_reassemble_encoded. Qed.
Print Assumptions C31_encoded.

Theorem C31_first_error : forall pre v post fs e,
  Forall2 (fun v f => fst (decode v) = DOk f) pre fs -> fst (decode v) = DErr e ->
  bl_try_into flat 0 (pre ++ v :: post) = DErr e.
Proof. exact flat_try_into_err. Qed.
Print Assumptions C31_first_error.

Theorem C31_first_panic : forall pre v post fs,
  Forall2 (fun v f => fst (decode v) = DOk f) pre fs -> fst (decode v) = DPanic ->
  bl_try_into flat 0 (pre ++ v :: post) = DPanic.
Proof. exact flat_try_into_panic. Qed.
Print Assumptions C31_first_panic.

(** Over any buffers: as over the bytes they hold. *)
Theorem C31_any_buffers : forall T (ops : buf_ops T) repr fuel l ss, lawful ops repr ->
  (8 <= fuel)%nat -> Forall2 repr l ss -> bl_try_into ops fuel l = bl_try_into flat 0 ss.
Proof. exact (fun T ops repr fuel l ss law => gen_try ops repr law fuel l ss). Qed.
Print Assumptions C31_any_buffers.

Definition ex_fragments : list frame :=
  [FRequestFnf (RequestFnfFrame 1 384 (Payload (Some (exl [65])) None));
   FCancel (CancelFrame 1);
   FPayload (PayloadFrame 1 384 (Payload (Some (exl [66; 67])) (Some (exl [97]))));
   FPayload (PayloadFrame 1 0 (Payload None (Some (exl [98]))))].
Example C31_example : exists l,
  Forall2 (fun f v => in_range f /\ coherent f /\ frame_encode f [] = EOk v) ex_fragments l /\
  bl_try_into flat 0 l = DOk (Payload (Some (exl [65; 66; 67])) (Some (exl [97; 98]))) /\
  bl_try_into flat 0 (l ++ [exl [0; 0; 0; 1; 2]]) = DErr InComplete.
Proof.
  eexists. split.
  - repeat (constructor; [split; [vm_compute; repeat split; congruence || reflexivity || auto|split; [exact I|reflexivity]]|]). constructor.
  - split; vm_compute; reflexivity.
Qed.
Example C31_example_any :
  bl_try_into drip 8 [(0%nat, exl [0;0;0;1; 40;128; 0;0;0; 65]); (1%nat, exl [9; 0;0;0;1; 40;0; 0;0;1; 66; 67])] =
  DOk (Payload (Some (exl [66])) (Some (exl [65; 67]))).
Proof. vm_compute. reflexivity. Qed.

(** ** C63: writing a list out, slices at a time *)

(** Whatever the writer has taken, it and what is left make up the content. *)
Theorem C63_written : forall T (ops : buf_ops T) repr fuel l out l' s,
  lawful ops repr -> gathers ops repr -> together repr l s ->
  written (buf_list_ops ops fuel) l out l' -> exists s', s = out ++ s' /\ together repr l' s'.
Proof. intros T ops repr fuel l out l' s law gat H W. exact (written_content ops repr law gat fuel l out l' W s H). Qed.
Print Assumptions C63_written.

(** No turn panics, and while bytes are left every turn with a slot offers some. *)
Theorem C63_turn : forall T (ops : buf_ops T) repr fuel l s k n,
  lawful ops repr -> gathers ops repr -> together repr l s ->
  (n <= length (concat (b_vectored (buf_list_ops ops fuel) k l)))%nat ->
  exists l', b_advance (buf_list_ops ops fuel) n l = Ret l'.
Proof. intros T ops repr fuel l s k n law gat. exact (written_turn ops repr law gat fuel l s k n). Qed.
Print Assumptions C63_turn.
Theorem C63_progress : forall T (ops : buf_ops T) repr fuel l s k,
  gathers ops repr -> (forall n b, solid (b_vectored ops n b)) -> together repr l s -> s <> [] -> (0 < k)%nat ->
  (0 < length (concat (b_vectored (buf_list_ops ops fuel) k l)))%nat.
Proof. intros T ops repr fuel l s k gat Hs. exact (written_progress ops repr gat fuel Hs l s k). Qed.
Print Assumptions C63_progress.

(** So the whole content can be written, from any point. *)
Theorem C63_finishes : forall T (ops : buf_ops T) repr fuel l s,
  lawful ops repr -> gathers ops repr -> (forall n b, solid (b_vectored ops n b)) -> together repr l s ->
  exists l', written (buf_list_ops ops fuel) l s l' /\ together repr l' [].
Proof.
  intros T ops repr fuel l s law gat Hs.
  exact (written_finishes ops repr law gat fuel Hs 1%nat (le_n _) l s).
Qed.
Print Assumptions C63_finishes.

(** Lists of [Bytes] meet all of this.  Two turns: 4 of 4 bytes through two slots, then 1 of 2
    through one. *)
Example C63_bytes : lawful flat eq /\ gathers flat eq /\ (forall n b, solid (b_vectored flat n b)) /\
  together eq ex_list (exl [1; 2; 3; 4; 5; 6]) /\
  written (buf_list_ops flat 0) ex_list (exl [1; 2; 3; 4; 5]) [exl [6]].
Proof.
  split; [exact flat_lawful|]. split; [exact flat_gathers|]. split; [|split].
  - intros [|n] [|x b]; repeat constructor. discriminate.
  - exists ex_list. split; [repeat constructor|]. split; [repeat constructor; discriminate|reflexivity].
  - refine (Wr_turn (buf_list_ops flat 0) 2 4 ex_list [exl [5; 6]] (exl [5]) [exl [6]] _ eq_refl _); [cbn; lia|].
    refine (Wr_turn (buf_list_ops flat 0) 1 1 [exl [5; 6]] [exl [6]] [] [exl [6]] _ eq_refl _); [cbn; lia|].
    constructor.
Qed.

(** ** C86: what the decoder asks of a buffer *)

(** It makes no difference what a buffer does when it is asked for more than it reports: the decoder never does so. *)
Theorem C86_within : forall B (ops ops' : buf_ops B) fuel, agree_within ops ops' ->
  (forall b, (length (b_chunk ops b) <= b_remaining ops b)%nat) ->
  (forall b, frame_decode ops' fuel b = frame_decode ops fuel b) /\
  (forall t sid fl b, own_decode ops' fuel t sid fl b = own_decode ops fuel t sid fl b).
Proof. exact (fun B ops ops' fuel A W => conj (ask_within ops ops' fuel A W) (own_alike ops ops' fuel A W)). Qed.
Print Assumptions C86_within.

(** A frame is decoded with at most 30 calls, however long it is and however the bytes are divided. *)
Theorem C86_calls : forall B (ops : buf_ops B) repr, lawful ops repr -> forall fuel b s, (8 <= fuel)%nat -> repr b s ->
  let r := frame_decode (metered ops) fuel (b, 0%nat) in
  fst r = fst (decode s) /\ repr (fst (snd r)) (snd (decode s)) /\ (snd (snd r) <= 30)%nat.
Proof. exact (@calls_any). Qed.
Print Assumptions C86_calls.

(** With 16 when they are contiguous. *)
Theorem C86_contiguous : forall fuel input, (8 <= fuel)%nat ->
  let r := frame_decode (metered flat) fuel (input, 0%nat) in
  fst r = fst (decode input) /\ fst (snd r) = snd (decode input) /\ (snd (snd r) <= 16)%nat.
Proof. exact calls_flat. Qed.
Print Assumptions C86_contiguous.

(** A buffer that makes up the bytes it does not have. *)
Definition careless : buf_ops bytes := {|
  b_remaining := @length byte;
  b_chunk := fun b => b;
  b_advance := fun k b => Ret (skipn k b);
  b_copy_to_bytes := fun k b => Ret (firstn k b ++ repeat (n2b 0) (k - length b), skipn k b);
  b_vectored := b_vectored flat |}.
Example C86_careless : agree_within flat careless /\
  b_copy_to_bytes careless 3 [n2b 1] <> b_copy_to_bytes flat 3 [n2b 1] /\
  frame_decode careless 0 (exl [0;0;0;1; 0x28;0x80; 0xff;0xff;0xff; 1]) = (DErr InComplete, exl [1]).
Proof.
  split; [|split; [discriminate|vm_compute; reflexivity]].
  repeat split; intros k b H; cbn in *; unfold flat_advance, flat_copy_to_bytes;
    rewrite (proj2 (Nat.leb_le _ _)) by exact H; [reflexivity|].
  replace (k - length b)%nat with 0%nat; [cbn; now rewrite app_nil_r|]. symmetry. now apply Nat.sub_0_le.
Qed.
(** Both bounds are reached. *)
Definition ex_busy : bytes := exl
  [0;0;0;0; 4;0x40; 0;1;0;0; 0;0;0;1; 0;0;0;2; 0;1;9; 1;0x61; 1;0x62; 0;0;1; 5; 6;7].
Example C86_reached :
  (let r := frame_decode (metered flat) 8 (ex_busy, 0%nat) in
   match fst r with DOk _ => snd r = ([], 16%nat) | _ => False end) /\
  (let r := frame_decode (metered drip) 8 ((0%nat, ex_busy), 0%nat) in
   match fst r with DOk _ => snd (snd r) = 30%nat | _ => False end).
Proof. vm_compute. split; reflexivity. Qed.
