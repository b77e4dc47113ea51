(** * Storage of [to_bytes]: proofs *)

From Verif Require Import Model.StoreM Spec.Wire Spec.Store.
From Coq Require Import Lia.

(** The [put] calls on plain bytes. *)
Fixpoint enc_of (ps : list (option bytes)) (buf : bytes) : eres :=
  match ps with
  | [] => EOk buf
  | Some l :: ps' => enc_of ps' (buf ++ l)
  | None :: _ => EPanic buf
  end.

Lemma frame_encode_puts : forall f buf, frame_encode f buf = enc_of (frame_puts f) buf.
Proof.
  intros f buf.
  assert (M : forall p, metadata_len_puts p = [None] /\ put_metadata_len p = enc_panic \/
            exists a b, metadata_len_puts p = [Some a; Some b] /\
              put_metadata_len p = fun buf => EOk ((buf ++ a) ++ b)).
  { intro p. unfold metadata_len_puts, put_metadata_len. cbv zeta.
    destruct (u24_from_usize _) as [u| |]; [right; eauto|left; auto|left; auto]. }
  destruct f as [v|v|v|v|v|v|v|v|v|v|v|v|v|v];
    cbn [frame_encode frame_puts];
    unfold setup_encode, error_encode, lease_encode, keepalive_encode, request_response_encode,
      request_fnf_encode, request_stream_encode, request_channel_encode, request_n_encode, cancel_encode,
      payload_frame_encode, metadata_push_encode, resume_encode, resume_ok_encode;
    try (match goal with |- context [put_metadata_len ?p] =>
           destruct (M p) as [[-> ->]|(a & b & -> & ->)] end);
    unfold version_encode, payload_encode, payload_puts, part_puts, header_puts, version_puts, enc_opt,
      enc_seq, put_u8, put_u16, put_u32, put_u64, put_slice, enc_nop, enc_panic, is_some, lease_metadata;
    repeat match goal with
           | |- context [match ?o with Some _ => _ | None => _ end] => destruct o
           | |- context [if ?c then _ else _] => destruct c
           end; reflexivity.
Qed.

Lemma enc_of_some : forall ls buf, enc_of (map Some ls) buf = EOk (buf ++ concat ls).
Proof.
  induction ls as [|l ls IH]; intro buf; cbn; [rewrite app_nil_r; reflexivity|].
  rewrite IH, app_assoc. reflexivity.
Qed.
Lemma puts_cases : forall ps : list (option bytes),
  (exists ls, ps = map Some ls) \/
  ((forall buf, exists x, enc_of ps buf = EPanic x) /\ forall grow b, bm_puts grow ps b = Panic).
Proof.
  induction ps as [|[l|] ps IH]; [left; exists []; reflexivity| |right; split; [intro; eexists|intros]; reflexivity].
  destruct IH as [[ls ->]|[A B]]; [left; exists (l :: ls); reflexivity|].
  right. split; intros; cbn; auto.
Qed.

(** With room for all of them the calls ask nothing of the allocator. *)
Lemma puts_room : forall grow ls b,
  (length (bm_bytes b) + length (concat ls) <= bm_cap b)%nat ->
  bm_puts grow (map Some ls) b = Ret (BytesMut (bm_bytes b ++ concat ls) (bm_cap b) (bm_blocks b)).
Proof.
  intro grow. induction ls as [|l ls IH]; intros b H.
  - cbn. rewrite app_nil_r. destruct b; reflexivity.
  - cbn [map bm_puts concat] in *. rewrite app_length in H.
    unfold bm_put. destruct (Nat.leb_spec (length (bm_bytes b) + length l) (bm_cap b)); [|lia].
    rewrite IH; cbn [bm_bytes bm_cap bm_blocks]; [rewrite app_assoc; reflexivity|].
    rewrite app_length. lia.
Qed.
Lemma puts_bytes : forall grow ls b b', bm_puts grow (map Some ls) b = Ret b' ->
  bm_bytes b' = bm_bytes b ++ concat ls.
Proof.
  intro grow. induction ls as [|l ls IH]; intros b b' H; cbn in *.
  - injection H as <-. rewrite app_nil_r. reflexivity.
  - apply IH in H. rewrite H, app_assoc. f_equal. unfold bm_put. destruct (Nat.leb _ _); reflexivity.
Qed.
Lemma freeze_bytes : forall b, bm_bytes (bm_freeze b) = bm_bytes b.
Proof. intro b. unfold bm_freeze. destruct (Nat.eqb _ _); reflexivity. Qed.

Lemma to_be_len : forall k n, length (to_be k n) = k.
Proof. induction k as [|k IH]; intro n; cbn; [reflexivity|rewrite IH; reflexivity]. Qed.

(** The sizes add up to [len], but for SETUP without a token. *)
Definition puts_size (ps : list (option bytes)) : N := fold_right (fun o n => size (part o) + n) 0 ps.
Lemma puts_size_app : forall a b, puts_size (a ++ b) = puts_size a + puts_size b.
Proof. induction a as [|o a IH]; intro b; cbn; [reflexivity|]. unfold puts_size in *. rewrite IH. lia. Qed.
Lemma puts_size_some : forall ls, puts_size (map Some ls) = size (concat ls).
Proof.
  induction ls as [|l ls IH]; cbn; [reflexivity|]. unfold puts_size in IH. rewrite IH.
  unfold size. rewrite app_length. lia.
Qed.
Lemma size_to_be : forall k n, size (to_be k n) = N.of_nat k.
Proof. intros. unfold size. rewrite to_be_len. reflexivity. Qed.

Lemma frame_puts_size : forall f ls, frame_puts f = map Some ls ->
  frame_len f = size (concat ls) + (if without_token f then 2 else 0).
Proof.
  intros f ls H. rewrite <- puts_size_some, <- H.
  assert (M : forall p, ~ In None (metadata_len_puts p) -> puts_size (metadata_len_puts p) = 3).
  { intro p. unfold metadata_len_puts. destruct (u24_from_usize _) as [u| |]; cbn [In]; intro N.
    - unfold puts_size. cbn [fold_right part]. rewrite !size_to_be. reflexivity.
    - exfalso. auto.
    - exfalso. auto. }
  assert (NI : ~ In None (frame_puts f)).
  { rewrite H. clear. induction ls as [|l ls IH]; cbn; [auto|intros [E|E]; [discriminate|auto]]. }
  assert (P : forall p, puts_size (payload_puts p) = payload_len p).
  { intros [[m|] [d|]]; unfold payload_puts, payload_len, puts_size, blen, size; cbn; lia. }
  assert (O : forall o, puts_size (part_puts o) = size (part o)).
  { intros [l|]; unfold part_puts, puts_size, size; cbn; lia. }
  destruct f as [v|v|v|v|v|v|v|v|v|v|v|v|v|v];
    cbn [frame_puts frame_len without_token] in *;
    unfold setup_len, error_len, lease_len, keepalive_len, request_response_len, request_fnf_len,
      request_stream_len, request_channel_len, request_n_len, cancel_len, payload_frame_len,
      metadata_push_len, resume_len, resume_ok_len, version_puts, header_puts in *;
    repeat rewrite puts_size_app; repeat rewrite in_app_iff in NI;
    try (rewrite M by tauto); rewrite ?P, ?O;
    unfold puts_size; repeat (cbn [fold_right part]; rewrite ?size_to_be).
  1: destruct (sf_resume_token v) as [t|]; cbn [fold_right part present negb]; rewrite ?size_to_be;
     change blen with size; lia.
  all: repeat match goal with |- context [match ?o with Some _ => _ | None => _ end] => destruct o end;
    cbn [part]; change blen with size; try reflexivity; unfold size; cbn [length]; lia.
Qed.

(** ** The theorems *)

Lemma stored_cases : forall grow f,
  (exists ls, frame_puts f = map Some ls /\ frame_to_bytes f = Ret (concat ls) /\
     frame_to_bytes_stored grow f =
       Ret (bm_freeze (BytesMut (concat ls) (N.to_nat (frame_len f)) [N.to_nat (frame_len f)]))) \/
  (frame_to_bytes f = Panic /\ frame_to_bytes_stored grow f = Panic).
Proof.
  intros grow f. unfold frame_to_bytes, frame_to_bytes_stored, to_bytes_stored.
  destruct (puts_cases (frame_puts f)) as [[ls E]|[A B]].
  - left. exists ls. split; [exact E|].
    assert (L := frame_puts_size _ _ E). split.
    + rewrite frame_encode_puts, E, enc_of_some. reflexivity.
    + rewrite E, puts_room; unfold bm_with_capacity; cbn [bm_bytes bm_cap bm_blocks app length].
      * assert (Z : N.to_nat (frame_len f) <> O) by (destruct f; cbn [frame_len]; unfold setup_len, error_len,
          lease_len, keepalive_len, request_n_len, cancel_len, metadata_push_len, resume_len, resume_ok_len,
          request_response_len, request_fnf_len, request_stream_len, request_channel_len, payload_frame_len;
          repeat match goal with |- context [match ?o with Some _ => _ | None => _ end] => destruct o end; lia).
        destruct (N.to_nat (frame_len f)); [congruence|reflexivity].
      * rewrite L. unfold size. lia.
  - right. rewrite B. split; [|reflexivity]. rewrite frame_encode_puts. destruct (A []) as [x ->]. reflexivity.
Qed.

Lemma stored_same : forall grow f,
  frame_to_bytes f = match frame_to_bytes_stored grow f with
                     | Ret b => Ret (bm_bytes b) | Panic => Panic | Loop => Loop end.
Proof.
  intros grow f. destruct (stored_cases grow f) as [(ls & _ & -> & ->)|[-> ->]]; [|reflexivity].
  rewrite freeze_bytes. reflexivity.
Qed.

Lemma stored_blocks : forall grow f b, frame_to_bytes_stored grow f = Ret b ->
  bm_cap b = length (bm_bytes b) /\
  N.of_nat (bm_cap b) + (if without_token f then 2 else 0) = frame_len f /\
  bm_blocks b = N.to_nat (frame_len f) :: (if without_token f then [bm_cap b] else []).
Proof.
  intros grow f b H. destruct (stored_cases grow f) as [(ls & E & _ & S)|[_ S]]; [|congruence].
  rewrite S in H. injection H as <-. assert (L := frame_puts_size _ _ E).
  unfold bm_freeze. cbn [bm_bytes bm_cap bm_blocks]. unfold size in L.
  destruct (without_token f) eqn:W.
  - destruct (Nat.eqb_spec (length (concat ls)) (N.to_nat (frame_len f))); [lia|].
    cbn [bm_bytes bm_cap bm_blocks]. split; [reflexivity|]. split; [lia|].
    destruct f as [v|v|v|v|v|v|v|v|v|v|v|v|v|v]; try discriminate W.
    destruct (length (concat ls)) eqn:Z; [|reflexivity]. exfalso.
    rewrite L in *. cbn [frame_len] in L. unfold setup_len in L. destruct (sf_resume_token v); lia.
  - destruct (Nat.eqb_spec (length (concat ls)) (N.to_nat (frame_len f))) as [Q|Q]; [|lia].
    cbn [bm_bytes bm_cap bm_blocks]. split; [lia|]. split; [lia|]. rewrite <- Q. reflexivity.
Qed.

Lemma stored_exact_iff : forall grow f b, frame_to_bytes_stored grow f = Ret b ->
  (N.of_nat (bm_cap b) = frame_len f <-> without_token f = false) /\
  (bm_blocks b = [N.to_nat (frame_len f)] <-> without_token f = false).
Proof.
  intros grow f b H. destruct (stored_blocks _ _ _ H) as (A & B & C).
  destruct (without_token f); split; split; intro Q; try reflexivity; try discriminate; try lia.
  - rewrite C in Q. discriminate.
  - exact C.
Qed.

(** [encode] into a buffer with room for [len] more bytes. *)
Lemma encode_room : forall grow f b b',
  N.of_nat (length (bm_bytes b)) + frame_len f <= N.of_nat (bm_cap b) ->
  bm_puts grow (frame_puts f) b = Ret b' ->
  frame_encode f (bm_bytes b) = EOk (bm_bytes b') /\ bm_cap b' = bm_cap b /\ bm_blocks b' = bm_blocks b.
Proof.
  intros grow f b b' H E. destruct (puts_cases (frame_puts f)) as [[ls P]|[_ B]]; [|rewrite B in E; discriminate].
  assert (L := frame_puts_size _ _ P). unfold size in L.
  rewrite P, puts_room in E by lia. injection E as <-. cbn [bm_bytes bm_cap bm_blocks].
  split; [|auto]. rewrite frame_encode_puts, P. apply enc_of_some.
Qed.
(** [encode] into any buffer: the bytes are those of the plain model. *)
Lemma encode_any : forall grow f b,
  match bm_puts grow (frame_puts f) b with
  | Ret b' => frame_encode f (bm_bytes b) = EOk (bm_bytes b')
  | Panic => exists x, frame_encode f (bm_bytes b) = EPanic x
  | Loop => False
  end.
Proof.
  intros grow f b. rewrite frame_encode_puts.
  destruct (puts_cases (frame_puts f)) as [[ls P]|[A B]]; [|rewrite B; apply A].
  rewrite P. destruct (bm_puts grow (map Some ls) b) as [b'| |] eqn:E.
  - rewrite (puts_bytes _ _ _ _ E). apply enc_of_some.
  - exfalso. clear P. revert b E. induction ls as [|l ls IH]; intros b E; cbn in E; [discriminate|eauto].
  - clear P. revert b E. induction ls as [|l ls IH]; intros b E; cbn in E; [discriminate|eauto].
Qed.

Lemma parts_stored : forall grow,
  (forall p, to_bytes_stored grow (payload_len p) (payload_puts p) =
     let bs := part (p_metadata p) ++ part (p_data p) in
     Ret (BytesMut bs (length bs) (match bs with [] => [] | _ => [length bs] end))) /\
  (forall u, exists bs, to_bytes_stored grow (u24_len u) (u24_puts u) = Ret (BytesMut bs 3 [3%nat]) /\
     u24_encode u [] = EOk bs) /\
  (forall v, exists bs, to_bytes_stored grow (version_len v) (version_puts v) = Ret (BytesMut bs 4 [4%nat]) /\
     version_encode v [] = EOk bs).
Proof.
  intro grow. split; [|split].
  - intro p. unfold to_bytes_stored.
    assert (E : payload_puts p = map Some (match p_metadata p with Some m => [m] | None => [] end ++
                                           match p_data p with Some m => [m] | None => [] end)).
    { unfold payload_puts. destruct (p_metadata p), (p_data p); reflexivity. }
    assert (C : concat (match p_metadata p with Some m => [m] | None => [] end ++
                        match p_data p with Some m => [m] | None => [] end) = part (p_metadata p) ++ part (p_data p)).
    { destruct (p_metadata p), (p_data p); cbn; rewrite ?app_nil_r; reflexivity. }
    assert (L : N.to_nat (payload_len p) = length (part (p_metadata p) ++ part (p_data p))).
    { unfold payload_len, blen. rewrite app_length. destruct (p_metadata p), (p_data p); cbn [part length]; lia. }
    rewrite E, puts_room; rewrite C; unfold bm_with_capacity; cbn [bm_bytes bm_cap bm_blocks app length]; [|lia].
    rewrite L. unfold bm_freeze. cbn [bm_bytes bm_cap]. rewrite Nat.eqb_refl. cbv zeta.
    destruct (part (p_metadata p) ++ part (p_data p)); reflexivity.
  - intro u. eexists. split; reflexivity.
  - intro u. eexists. split; reflexivity.
Qed.
