(** * What the decoder asks of a buffer *)

From Coq Require Import Lia.
From Verif Require Import Model.FrameM Spec.Buf Proofs.BufP.

(** ** Never for more than it reports *)

Section Agree.
Context {B : Type} (ops ops' : buf_ops B) (fuel : nat).
Context (A : agree_within ops ops') (W : forall b, (length (b_chunk ops b) <= b_remaining ops b)%nat).

Lemma loop_agree : forall f k acc b, copy_loop ops' f k acc b = copy_loop ops f k acc b.
Proof using A W.
  destruct A as (R & Ch & Ad & _).
  induction f as [|f IH]; intros [|k] acc b; try reflexivity. cbn [copy_loop]. rewrite Ch.
  rewrite Ad by (pose proof (W b); lia).
  destruct (b_advance ops _ b); auto.
Qed.

Lemma get_be_agree : forall k b, get_be ops' fuel k b = get_be ops fuel k b.
Proof using A W.
  intros k b. unfold get_be, copy_to_slice. destruct A as (R & Ch & Ad & _). rewrite Ch, R.
  destruct (Nat.leb_spec k (length (b_chunk ops b))) as [L|L].
  - rewrite Ad by (pose proof (W b); lia). reflexivity.
  - now rewrite loop_agree.
Qed.
Lemma get_u8_agree : forall b, get_u8 ops' b = get_u8 ops b.
Proof using A.
  intros b. unfold get_u8. destruct A as (R & Ch & Ad & _). rewrite Ch, R.
  destruct (Nat.leb_spec 1 (b_remaining ops b)) as [L|L]; [|reflexivity]. now rewrite Ad by exact L.
Qed.

Definition alike {X} (m' m : dec B X) : Prop := forall b, m' b = m b.
Lemma alike_refl : forall {X} (m : dec B X), alike m m.
Proof. intros X m b. reflexivity. Qed.
Lemma alike_bind : forall {X Y} (m' m : dec B X) (k' k : X -> dec B Y),
  alike m' m -> (forall a, alike (k' a) (k a)) -> alike (d_bind m' k') (d_bind m k).
Proof using. intros X Y m' m k' k H K b. unfold d_bind. rewrite H. destruct (m b) as [[] ?]; auto. apply K. Qed.
Lemma alike_map : forall {X Y} (f : X -> Y) (m' m : dec B X), alike m' m -> alike (d_map f m') (d_map f m).
Proof using. intros. apply alike_bind; [assumption|]. intros; apply alike_refl. Qed.

Lemma alike_need : forall k, alike (need ops' k) (need ops k).
Proof using A. intros k b. unfold need. destruct A as (R & _). now rewrite R. Qed.
Lemma alike_remaining : alike (d_remaining ops') (d_remaining ops).
Proof using A. intros b. unfold d_remaining. destruct A as (R & _). now rewrite R. Qed.
Lemma alike_be : forall k, alike (d_lift (get_be ops' fuel k)) (d_lift (get_be ops fuel k)).
Proof using A W. intros k b. unfold d_lift. now rewrite get_be_agree. Qed.
Lemma alike_u8 : alike (eat_u8 ops') (eat_u8 ops).
Proof using A. apply alike_bind; [apply alike_need|]. intros _ b. unfold d_lift. now rewrite get_u8_agree. Qed.
Lemma alike_bytes : forall k, alike (eat_bytes ops' k) (eat_bytes ops k).
Proof using A.
  intros k b. unfold eat_bytes, d_bind, need, d_lift. destruct A as (R & _ & _ & C). rewrite R.
  destruct (Nat.ltb_spec (b_remaining ops b) k); [reflexivity|]. now rewrite C by assumption.
Qed.
Lemma alike_rest : alike (eat_rest ops') (eat_rest ops).
Proof using A.
  apply alike_bind; [apply alike_remaining|]. intros [|n]; [apply alike_refl|].
  apply alike_bind; [apply alike_bytes|]. intros; apply alike_refl.
Qed.

Ltac alike := repeat first
  [ apply alike_refl | apply alike_need | apply alike_remaining | apply alike_be | apply alike_u8 | apply alike_bytes
  | apply alike_rest | apply alike_map | apply alike_bind; [|intros]
  | match goal with |- alike (if ?c then _ else _) _ => destruct c end ].

Lemma alike_u16 : alike (eat_u16 ops' fuel) (eat_u16 ops fuel).
Proof using A W. unfold eat_u16. alike. Qed.
Lemma alike_u31 : alike (eat_u31 ops' fuel) (eat_u31 ops fuel).
Proof using A W. unfold eat_u31. alike. Qed.
Lemma alike_u32 : alike (eat_u32 ops' fuel) (eat_u32 ops fuel).
Proof using A W. unfold eat_u32. alike. Qed.
Lemma alike_u63 : alike (eat_u63 ops' fuel) (eat_u63 ops fuel).
Proof using A W. unfold eat_u63. alike. Qed.
Lemma alike_version : alike (eat_version ops' fuel) (eat_version ops fuel).
Proof using A W. unfold eat_version. alike. Qed.
Lemma alike_payload : alike (eat_payload ops' fuel true) (eat_payload ops fuel true).
Proof using A W. unfold eat_payload, eat_u24. cbv iota. alike. Qed.
Lemma alike_token : forall fl, alike (eat_resume_token ops' fuel fl) (eat_resume_token ops fuel fl).
Proof using A W. intros. unfold eat_resume_token. alike. Qed.

Ltac alike2 := repeat first [ apply alike_u16 | apply alike_u31 | apply alike_u32 | apply alike_u63 | apply alike_version
  | apply alike_payload | apply alike_token | progress alike ].

Lemma own_alike : forall t sid fl, alike (own_decode ops' fuel t sid fl) (own_decode ops fuel t sid fl).
Proof using A W.
  intros t sid fl. destruct t; cbn [own_decode];
    unfold setup_decode, error_decode, lease_decode, keepalive_decode, request_response_decode, request_fnf_decode,
      request_stream_decode, request_channel_decode, request_n_decode, cancel_decode, payload_frame_decode,
      metadata_push_decode, resume_decode, resume_ok_decode; alike2.
  intros b. destruct A as (R & _). rewrite R. apply alike_bytes.
Qed.

Theorem ask_within : forall b, frame_decode ops' fuel b = frame_decode ops fuel b.
Proof using A W.
  change (alike (frame_decode ops' fuel) (frame_decode ops fuel)). unfold frame_decode.
  apply alike_bind; [apply alike_need|intros _]. apply alike_bind; [unfold eat_stream_id; alike|intros sid].
  apply alike_bind; [unfold eat_flags; alike|].
  intros [t fl]. destruct (_ && _)%bool; [apply alike_refl|]. apply (own_alike t sid fl).
Qed.
End Agree.

(** ** How often *)

Section Meter.
Context {B : Type} (ops : buf_ops B) (repr : B -> bytes -> Prop) (L : lawful ops repr) (fuel : nat).
(** At most [c k] calls to read a number of [k] bytes. *)
Context (c : nat -> nat).

Definition costs {X} (m : dec (B * nat) X) (k : nat) : Prop := forall b n s, repr b s ->
  exists b' n' s', snd (m (b, n)) = (b', n') /\ (n' <= n + k)%nat /\ repr b' s'.

Context (HC : forall k, costs (d_lift (get_be (metered ops) fuel k)) (c k)).

Lemma costs_same : forall {X} (m : dec (B * nat) X), (forall b, snd (m b) = b) -> costs m 0.
Proof using. intros X m H b n s R. exists b, n, s. rewrite H. repeat split; [lia|assumption]. Qed.
Lemma costs_bind : forall {X Y} (m : dec (B * nat) X) (f : X -> dec (B * nat) Y) j k,
  costs m j -> (forall a, costs (f a) k) -> costs (d_bind m f) (j + k).
Proof using.
  intros X Y m f j k M F b n s R. destruct (M b n s R) as (b1 & n1 & s1 & E & Hn & R1).
  unfold d_bind. destruct (m (b, n)) as [o st]. cbn [snd] in E. subst st.
  destruct o as [a| | |]; [|exists b1, n1, s1; cbn; repeat split; [lia|assumption]..].
  destruct (F a b1 n1 s1 R1) as (b2 & n2 & s2 & E & Hn2 & R2). exists b2, n2, s2. repeat split; [assumption|lia|assumption].
Qed.
Lemma costs_more : forall {X} (m : dec (B * nat) X) j k, costs m j -> (j <= k)%nat -> costs m k.
Proof using.
  intros X m j k M H b n s R. destruct (M b n s R) as (b1 & n1 & s1 & E & Hn & R1).
  exists b1, n1, s1. repeat split; [assumption|lia|assumption].
Qed.
Lemma costs_map : forall {X Y} (f : X -> Y) (m : dec (B * nat) X) k, costs m k -> costs (d_map f m) k.
Proof using.
  intros X Y f m k M. apply (costs_more _ (k + 0)); [|lia]. apply costs_bind; [assumption|].
  intros a. now apply costs_same.
Qed.
Lemma costs_need : forall k, costs (need (metered ops) k) 0.
Proof using. intros k. apply costs_same. intros b. unfold need. now destruct (Nat.ltb _ _). Qed.

Lemma costs_u8 : costs (eat_u8 (metered ops)) 1.
Proof using L.
  apply (costs_bind _ _ 0 1 (costs_need 2)). intros _ b n s R. unfold d_lift, get_u8. cbn [metered b_remaining b_chunk b_advance fst snd].
  destruct (Nat.leb_spec 1 (b_remaining ops b)) as [H|H]; [|exists b, n, s; cbn; repeat split; [lia|assumption]].
  destruct (b_chunk ops b); [exists b, n, s; cbn; repeat split; [lia|assumption]|].
  pose proof (law_advance _ _ L b s 1 R) as A. rewrite <- (law_remaining _ _ L b s R) in A.
  rewrite (proj2 (Nat.leb_le _ _)) in A by assumption. destruct A as (b' & -> & R').
  exists b', (S n), (skipn 1 s). cbn. repeat split; [lia|assumption].
Qed.
Lemma costs_bytes : forall k, costs (eat_bytes (metered ops) k) 1.
Proof using L.
  intros k. apply (costs_bind _ _ 0 1 (costs_need k)). intros _ b n s R. unfold d_lift. cbn [metered b_copy_to_bytes fst snd].
  pose proof (law_copy _ _ L b s k R) as A. destruct (Nat.leb k (length s)).
  - destruct A as (b' & -> & R'). exists b', (S n), (skipn k s). cbn. repeat split; [lia|assumption].
  - rewrite A. exists b, n, s. cbn. repeat split; [lia|assumption].
Qed.
Lemma costs_ret : forall {X} (x : X), costs (d_ret x) 0.
Proof using. intros. now apply costs_same. Qed.
Lemma costs_err : forall {X} e, costs (@d_err _ X e) 0.
Proof using. intros. now apply costs_same. Qed.
Lemma costs_rest : costs (eat_rest (metered ops)) 1.
Proof using L.
  apply (costs_bind _ _ 0 1). { now apply costs_same. }
  intros [|n]. { apply (costs_more _ 0); [apply costs_ret|lia]. }
  apply (costs_bind _ _ 1 0); [apply costs_bytes|]. intros. apply costs_ret.
Qed.

Ltac ck := first [ assumption | apply HC | apply costs_need | apply costs_u8 | apply costs_bytes | apply costs_rest | apply costs_ret | apply costs_err ].
Ltac cb := eapply costs_bind; [|intros].
Lemma costs_u16 : costs (eat_u16 (metered ops) fuel) (c 2).
Proof using HC. apply (costs_bind _ _ 0 (c 2)); intros; ck. Qed.
Lemma costs_u32 : costs (eat_u32 (metered ops) fuel) (c 4).
Proof using HC. apply (costs_bind _ _ 0 (c 4)); intros; ck. Qed.
Lemma costs_u31 : costs (eat_u31 (metered ops) fuel) (c 4).
Proof using HC. eapply costs_more; [unfold eat_u31; cb; [ck|]; cb; ck|lia]. Qed.
Lemma costs_sid : costs (eat_stream_id (metered ops) fuel) (c 4).
Proof using HC. eapply costs_more; [unfold eat_stream_id; cb; [ck|]; cb; ck|lia]. Qed.
Lemma costs_u63 : costs (eat_u63 (metered ops) fuel) (c 8).
Proof using HC. eapply costs_more; [unfold eat_u63; cb; [ck|]; cb; ck|lia]. Qed.
Lemma costs_version : costs (eat_version (metered ops) fuel) (2 * c 2).
Proof using HC. eapply costs_more; [unfold eat_version; cb; [ck|]; cb; [ck|]; cb; ck|lia]. Qed.
Lemma costs_flags : costs (eat_flags (metered ops) fuel) (c 2).
Proof using HC.
  apply (costs_bind _ _ 0 (c 2)); [ck|intros _]. eapply costs_more; [cb; [ck|]|apply Nat.eq_le_incl, Nat.add_0_r].
  cbv zeta. destruct (ft_from_bits a); ck.
Qed.
Lemma costs_u24 : costs (eat_u24 (metered ops) fuel) (1 + c 2).
Proof using HC L. eapply costs_more; [unfold eat_u24; cb; [ck|]; cb; [apply costs_u16|]; ck|lia]. Qed.
Lemma costs_payload : costs (eat_payload (metered ops) fuel true) (3 + c 2).
Proof using HC L.
  eapply costs_more; [unfold eat_payload; cbv iota; cb; [cb; [apply costs_u24|ck]|]; cb; [|cb; ck]|].
  - instantiate (1 := 1%nat). destruct (0 <? a); [apply (costs_bind _ _ 1 0); intros; ck|apply (costs_more _ 0); [ck|lia]].
  - lia.
Qed.
Lemma costs_token : forall fl, costs (eat_resume_token (metered ops) fuel fl) (1 + c 2).
Proof using HC L.
  intros fl. unfold eat_resume_token. destruct (fl_contains fl FL_RESUME); [|apply (costs_more _ 0); [ck|lia]].
  eapply costs_more; [cb; [apply costs_u16|]; cb; ck|lia].
Qed.

Context (K : nat) (K1 : (4 * c 2 + 2 * c 4 + 8 <= K)%nat) (K2 : (3 * c 2 + 2 * c 8 + 1 <= K)%nat).
Ltac one := first [ apply costs_u16 | apply costs_u31 | apply costs_u32 | apply costs_u63 | apply costs_version | apply costs_payload | apply costs_token | ck ].
Ltac all := eapply costs_more; [repeat (cb; [one|]); one|lia].
Lemma costs_own : forall t sid fl, costs (own_decode (metered ops) fuel t sid fl) K.
Proof using HC L K1 K2.
  intros t sid fl. destruct t; cbn [own_decode]; try apply costs_map.
  - unfold setup_decode. all.
  - unfold lease_decode. destruct (negb (sid =? 0)); all.
  - unfold keepalive_decode. destruct (negb (sid =? 0)); cbv zeta; all.
  - unfold request_response_decode. all.
  - unfold request_fnf_decode. all.
  - unfold request_stream_decode. all.
  - unfold request_channel_decode. all.
  - unfold request_n_decode. all.
  - unfold cancel_decode. all.
  - unfold payload_frame_decode. all.
  - unfold error_decode. eapply costs_more; [cb; [one|]; cb; [apply costs_same|cb; one]|lia].
    intros b. unfold validate_stream_id, d_err, d_ret. repeat (match goal with |- context [if ?x then _ else _] => destruct x end); reflexivity.
  - unfold metadata_push_decode. eapply costs_more; [cb; [now apply costs_same|]; cb; one|lia].
  - unfold resume_decode. all.
  - unfold resume_ok_decode. all.
  - apply (costs_more _ 0); [now apply costs_same|lia].
Qed.

Lemma costs_frame : costs (frame_decode (metered ops) fuel) (c 4 + c 2 + K).
Proof using HC L K1 K2.
  unfold frame_decode. eapply costs_more; [cb; [ck|]; cb; [apply costs_sid|]; cb; [apply costs_flags|]|].
  - instantiate (1 := K). destruct a1 as [t fl]. destruct (_ && _)%bool; [apply (costs_more _ 0); [ck|lia]|].
    apply (costs_own t a0 fl).
  - lia.
Qed.
End Meter.

Section Metered.
Context {B : Type} (ops : buf_ops B) (repr : B -> bytes -> Prop) (L : lawful ops repr).

Lemma metered_lawful : lawful (metered ops) (fun c s => repr (fst c) s).
Proof using L.
  constructor.
  - intros [b n] s R. exact (law_remaining _ _ L b s R).
  - intros [b n] s R. exact (law_chunk _ _ L b s R).
  - intros [b n] s k R. cbn [metered b_advance fst snd] in *. pose proof (law_advance _ _ L b s k R) as A.
    destruct (Nat.leb k (length s)); [|now rewrite A]. destruct A as (b' & -> & R'). now exists (b', S n).
  - intros [b n] s k R. cbn [metered b_copy_to_bytes fst snd] in *. pose proof (law_copy _ _ L b s k R) as A.
    destruct (Nat.leb k (length s)); [|now rewrite A]. destruct A as (b' & -> & R'). now exists (b', S n).
Qed.

Lemma loop_calls : forall f k acc b n s, repr b s -> (k <= length s)%nat ->
  match copy_loop (metered ops) f k acc (b, n) with
  | Ret (_, (b', n')) => (n' <= n + k)%nat /\ exists s', repr b' s'
  | _ => True
  end.
Proof using L.
  induction f as [|f IH]; intros [|k] acc b n s R H; cbn [copy_loop]; try (split; [lia|eauto]); try exact I.
  cbn [metered b_chunk b_advance fst snd].
  destruct (law_chunk _ _ L b s R) as (r & E & Ne).
  assert (b_chunk ops b <> []) as Nc. { intros Q. specialize (Ne Q). subst s. rewrite Ne in H. cbn in H. lia. }
  set (cnt := Nat.min (length (b_chunk ops b)) (S k)).
  assert (1 <= cnt <= S k)%nat as Hc. { unfold cnt. destruct (b_chunk ops b); [congruence|cbn [length]; lia]. }
  pose proof (law_advance _ _ L b s cnt R) as A. rewrite (proj2 (Nat.leb_le _ _)) in A by lia. destruct A as (b' & -> & R').
  specialize (IH (S k - cnt)%nat (acc ++ firstn cnt (b_chunk ops b)) b' (S n) (skipn cnt s) R' ltac:(rewrite skipn_length; lia)).
  destruct (copy_loop (metered ops) f _ _ _) as [[l [b2 n2]]| |]; auto. destruct IH as [Hn Q]. split; [lia|assumption].
Qed.

Lemma be_calls : forall fuel k, costs repr (d_lift (get_be (metered ops) fuel k)) (Nat.max 1 k).
Proof using L.
  intros fuel k b n s R. unfold d_lift, get_be, copy_to_slice. cbn [metered b_chunk b_advance b_remaining fst snd].
  destruct (Nat.leb_spec k (length (b_chunk ops b))) as [H|H].
  - pose proof (law_advance _ _ L b s k R) as A. destruct (Nat.leb k (length s)).
    + destruct A as (b' & -> & R'). exists b', (S n), (skipn k s). cbn [fst snd]. repeat split; [lia|assumption].
    + rewrite A. exists b, n, s. cbn [fst snd]. repeat split; [lia|assumption].
  - rewrite (law_remaining _ _ L b s R). destruct (Nat.leb_spec k (length s)) as [G|G];
      [|exists b, n, s; cbn [fst snd]; repeat split; [lia|assumption]].
    pose proof (loop_calls fuel k [] b n s R G) as Q.
    destruct (copy_loop (metered ops) fuel k [] (b, n)) as [[l [b2 n2]]| |];
      [destruct Q as [Hn [s' R']]; exists b2, n2, s'; cbn [fst snd]; repeat split; [lia|assumption]|exists b, n, s; cbn [fst snd]; repeat split; [lia|assumption]..].
Qed.

Theorem calls_any : forall fuel b s, (8 <= fuel)%nat -> repr b s ->
  let r := frame_decode (metered ops) fuel (b, 0%nat) in
  fst r = fst (decode s) /\ repr (fst (snd r)) (snd (decode s)) /\ (snd (snd r) <= 30)%nat.
Proof using L.
  intros fuel b s F R. cbv zeta. destruct (decode_any _ _ _ fuel (b, 0%nat) s metered_lawful F R) as [E1 E2].
  split; [assumption|]. split; [assumption|].
  destruct (costs_frame ops repr L fuel (Nat.max 1) (be_calls fuel) 24 ltac:(apply Nat.leb_le; reflexivity) ltac:(apply Nat.leb_le; reflexivity) b 0%nat s R)
    as (b' & n' & s' & E & Hn & _). rewrite E. cbn [snd]. cbn in Hn. lia.
Qed.
End Metered.

Theorem calls_flat : forall fuel input, (8 <= fuel)%nat ->
  let r := frame_decode (metered flat) fuel (input, 0%nat) in
  fst r = fst (decode input) /\ fst (snd r) = snd (decode input) /\ (snd (snd r) <= 16)%nat.
Proof.
  intros fuel input F. cbv zeta. destruct (calls_any flat eq flat_lawful fuel input input F eq_refl) as (E1 & E2 & _).
  split; [assumption|]. split; [assumption|].
  assert (forall k, costs eq (d_lift (get_be (metered flat) fuel k)) ((fun _ => 1%nat) k)) as HC.
  { intros k b n s R. unfold d_lift, get_be, copy_to_slice. cbn [metered flat b_chunk b_advance b_remaining fst snd].
    destruct (Nat.leb_spec k (length b)) as [H|H].
    - unfold flat_advance. rewrite (proj2 (Nat.leb_le _ _)) by assumption. exists (skipn k b), (S n), (skipn k b). cbn. repeat split; lia.
    - exists b, n, s. cbn. repeat split; [lia|assumption]. }
  destruct (costs_frame flat eq flat_lawful fuel (fun _ => 1%nat) HC 14 ltac:(apply Nat.leb_le; reflexivity) ltac:(apply Nat.leb_le; reflexivity) input 0%nat input eq_refl)
    as (b' & n' & s' & E & Hn & _).
  rewrite E. cbn [snd]. cbn in Hn. lia.
Qed.
