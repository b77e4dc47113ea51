(** * Sharing of storage: proofs *)

From Coq Require Import Lia.
From Verif Require Import Model.ShareM Spec.Buf Spec.Share Proofs.BufP Proofs.BufGenP.

(** ** Every string of a decoded frame was handed out by the buffer, in order *)

Section Emits.
Context {S : Type} (ops : buf_ops S) (fuel : nat) (out : S -> list (nat * handle)) (Inv : S -> Prop).
Context (HA : forall k r r', Inv r -> b_advance ops k r = Ret r' -> Inv r' /\ out r' = out r).
Context (HC : forall k r l r', Inv r -> b_copy_to_bytes ops k r = Ret (l, r') ->
  Inv r' /\ exists e, out r' = out r ++ [e] /\ h_bytes (snd e) = l).

Definition emits {X} (m : dec S X) (P : X -> list bytes -> Prop) : Prop := forall r x r', Inv r -> m r = (DOk x, r') ->
  Inv r' /\ exists es, out r' = out r ++ es /\ P x (map (fun e => h_bytes (snd e)) es).

Lemma em_ret : forall {X} (x : X) (P : X -> list bytes -> Prop), P x [] -> emits (d_ret x) P.
Proof using. intros X x P G r y r' I E. injection E as <- <-. split; [exact I|]. exists []. now rewrite app_nil_r. Qed.
Lemma em_err : forall {X} e (P : X -> list bytes -> Prop), emits (d_err e) P.
Proof using. intros X e P r y r' I E. discriminate E. Qed.
Lemma em_panic : forall {X} (P : X -> list bytes -> Prop), emits d_panic P.
Proof using. intros X P r y r' I E. discriminate E. Qed.
Lemma em_bind : forall {X Y} (m : dec S X) (k : X -> dec S Y) P Q,
  emits m P -> (forall x es, P x es -> emits (k x) (fun y es' => Q y (es ++ es'))) -> emits (d_bind m k) Q.
Proof using.
  intros X Y m k P Q M K r y r' I E. unfold d_bind in E. destruct (m r) as [[x| | |] r1] eqn:E1; try discriminate E.
  destruct (M r x r1 I E1) as (I1 & es1 & O1 & P1). destruct (K x _ P1 r1 y r' I1 E) as (I2 & es2 & O2 & P2).
  split; [exact I2|]. exists (es1 ++ es2). rewrite O2, O1, <- app_assoc. split; [reflexivity|]. now rewrite map_app.
Qed.
Lemma em_weak : forall {X} (m : dec S X) (P Q : X -> list bytes -> Prop), emits m P -> (forall x es, P x es -> Q x es) -> emits m Q.
Proof using.
  intros X m P Q M H r x r' I E. destruct (M r x r' I E) as (I1 & es1 & O1 & P1). split; [exact I1|]. exists es1. auto.
Qed.

Definition none {X} (_ : X) (es : list bytes) : Prop := es = [].
Lemma em_need : forall n, emits (need ops n) none.
Proof using.
  intros n r x r' I E. unfold need in E. destruct (Nat.ltb _ _); [discriminate E|]. injection E as <- <-.
  split; [exact I|]. exists []. now rewrite app_nil_r.
Qed.
Lemma em_remaining : emits (d_remaining ops) none.
Proof using. intros r x r' I E. injection E as <- <-. split; [exact I|]. exists []. now rewrite app_nil_r. Qed.
Lemma em_loop : forall f k acc r l r', Inv r -> copy_loop ops f k acc r = Ret (l, r') -> Inv r' /\ out r' = out r.
Proof using HA.
  induction f as [|f IH]; intros [|k] acc r l r' I E; cbn [copy_loop] in E; try discriminate E; try (injection E as <- <-; now split).
  destruct (b_advance ops _ r) as [r1| |] eqn:E1; try discriminate E. destruct (HA _ _ _ I E1) as [I1 O1].
  destruct (IH _ _ _ _ _ I1 E) as [I2 O2]. split; [exact I2|congruence].
Qed.
Lemma em_be : forall k, emits (d_lift (get_be ops fuel k)) none.
Proof using HA.
  intros k r x r' I E. unfold d_lift, get_be, copy_to_slice in E.
  assert (X : Inv r' /\ out r' = out r).
  { destruct (Nat.leb k (length (b_chunk ops r))).
    - destruct (b_advance ops k r) as [r1| |] eqn:E1; try discriminate E. injection E as <- <-. now apply (HA k).
    - destruct (Nat.leb k (b_remaining ops r)); [|discriminate E].
      destruct (copy_loop ops fuel k [] r) as [[l r1]| |] eqn:E1; try discriminate E. injection E as <- <-.
      now apply (em_loop fuel k [] r l). }
  destruct X as [X1 X2]. split; [exact X1|]. exists []. now rewrite app_nil_r.
Qed.
Lemma em_u8 : emits (d_lift (get_u8 ops)) none.
Proof using HA.
  intros r x r' I E. unfold d_lift, get_u8 in E.
  destruct (Nat.leb 1 (b_remaining ops r)); [|discriminate E]. destruct (b_chunk ops r); [discriminate E|].
  destruct (b_advance ops 1 r) as [r1| |] eqn:E1; try discriminate E. injection E as <- <-.
  destruct (HA 1%nat _ _ I E1) as [X1 X2]. split; [exact X1|]. exists []. now rewrite app_nil_r.
Qed.
Lemma em_bytes : forall n, emits (eat_bytes ops n) (fun x es => es = [x]).
Proof using HC.
  intros n. apply (em_bind _ _ none); [apply em_need|]. intros u es -> r x r' I E. unfold d_lift in E.
  destruct (b_copy_to_bytes ops n r) as [[l r1]| |] eqn:E1; try discriminate E. injection E as <- <-.
  destruct (HC _ _ _ _ I E1) as (I1 & e & O & <-). split; [exact I1|]. now exists [e].
Qed.
Lemma em_rest : emits (eat_rest ops) (fun x es => es = given x).
Proof using HC.
  apply (em_bind _ _ none); [apply em_remaining|]. intros [|n] es ->; [now apply em_ret|].
  apply (em_bind _ _ (fun x es => es = [x])); [apply em_bytes|]. intros x es ->. now apply em_ret.
Qed.

Ltac prim := first [ apply em_need | apply em_remaining | apply em_be | apply em_u8 | apply em_bytes | apply em_rest ].
Ltac go := repeat first [ apply em_err | apply em_panic
  | eapply em_bind; [prim|intros ? ? ->]
  | match goal with |- emits (if ?c then _ else _) _ => destruct c end
  | apply em_ret; reflexivity ].
Lemma em_sid : emits (eat_stream_id ops fuel) none.
Proof using HA. unfold eat_stream_id. go. Qed.
Lemma em_flags : emits (eat_flags ops fuel) none.
Proof using HA. unfold eat_flags. go. cbv zeta. destruct (ft_from_bits x0); go. Qed.
Lemma em_version : emits (eat_version ops fuel) none.
Proof using HA. unfold eat_version. go. Qed.
Lemma em_e8 : emits (eat_u8 ops) none.
Proof using HA. unfold eat_u8. go. apply em_u8. Qed.
Lemma em_e16 : emits (eat_u16 ops fuel) none.
Proof using HA. unfold eat_u16. go. apply em_be. Qed.
Lemma em_e31 : emits (eat_u31 ops fuel) none.
Proof using HA. unfold eat_u31. go. Qed.
Lemma em_e32 : emits (eat_u32 ops fuel) none.
Proof using HA. unfold eat_u32. go. apply em_be. Qed.
Lemma em_e63 : emits (eat_u63 ops fuel) none.
Proof using HA. unfold eat_u63. go. Qed.
Lemma em_payload : emits (eat_payload ops fuel true) (fun p es => es = payload_strings p).
Proof using HA HC.
  unfold eat_payload, eat_u24. cbv iota. apply (em_bind _ _ none).
  - apply (em_bind _ _ none); [|intros ? ? ->; now apply em_ret].
    apply (em_bind _ _ none); [apply em_e8|intros ? ? ->]. apply (em_bind _ _ none); [apply em_e16|intros ? ? ->].
    now apply em_ret.
  - intros n es ->. apply (em_bind _ _ (fun x es => es = given x)).
    + destruct (0 <? n); [|now apply em_ret]. apply (em_bind _ _ (fun x es => es = [x])); [apply em_bytes|].
      intros x es ->. now apply em_ret.
    + intros x es ->. apply (em_bind _ _ (fun x es => es = given x)); [apply em_rest|]. intros y es ->.
      apply em_ret. now rewrite app_nil_r.
Qed.
Lemma em_token : forall fl, emits (eat_resume_token ops fuel fl) (fun x es => es = given x).
Proof using HA HC.
  intros fl. unfold eat_resume_token. destruct (fl_contains fl FL_RESUME); [|now apply em_ret].
  apply (em_bind _ _ none); [apply em_e16|]. intros n es ->.
  apply (em_bind _ _ (fun x es => es = [x])); [apply em_bytes|]. intros x es ->. now apply em_ret.
Qed.

Ltac one := first [ apply em_version | apply em_e8 | apply em_e16 | apply em_e31 | apply em_e32 | apply em_e63
  | apply em_payload | apply em_token | prim ].
Ltac all := repeat first [ apply em_err | apply em_panic
  | eapply em_bind; [one|intros ? ? ->]
  | match goal with |- emits (if ?c then _ else _) _ => destruct c end ].
Lemma em_map : forall {X Y} (f : X -> Y) (m : dec S X) P (Q : Y -> list bytes -> Prop), emits m P -> (forall x es, P x es -> Q (f x) es) -> emits (d_map f m) Q.
Proof using.
  intros X Y f m P Q M H. apply (em_bind _ _ P _ M). intros x es p. apply em_ret. rewrite app_nil_r. auto.
Qed.
Lemma em_valid : forall s c, emits (validate_stream_id s c) none.
Proof using.
  intros s c. unfold validate_stream_id.
  repeat match goal with |- context [if ?x then _ else _] => destruct x end; first [apply em_err|now apply em_ret].
Qed.
Lemma em_own : forall t sid fl, emits (own_decode ops fuel t sid fl) (fun f es => es = strings f).
Proof using HA HC.
  intros t sid fl. destruct t; cbn [own_decode]; [..|apply em_panic];
    unfold setup_decode, error_decode, lease_decode, keepalive_decode, request_response_decode, request_fnf_decode,
      request_stream_decode, request_channel_decode, request_n_decode, cancel_decode, payload_frame_decode,
      metadata_push_decode, resume_decode, resume_ok_decode.
  all: eapply em_map with (P := fun x es => es = strings (_ x)); [|intros x es H; exact H].
  all: repeat first [ eapply em_bind; [apply em_valid|intros ? ? ->] | progress all ].
  all: apply em_ret; cbn [strings app sf_resume_token sf_metadata_mimetype sf_data_mimetype sf_payload lf_metadata kf_data
    rr_payload fnf_payload rs_payload rc_payload pf_payload ef_data mp_metadata rf_resume_token]; rewrite ?app_nil_r; reflexivity.
Qed.
Lemma em_frame : emits (frame_decode ops fuel) (fun f es => es = strings f).
Proof using HA HC.
  unfold frame_decode. apply (em_bind _ _ none); [apply em_need|intros ? ? ->].
  apply (em_bind _ _ none); [apply em_sid|intros sid ? ->]. apply (em_bind _ _ none); [apply em_flags|intros [t fl] ? ->].
  cbn [app]. destruct (_ && _)%bool; [apply em_err|]. apply (em_own t sid fl).
Qed.
End Emits.

(** ** Places *)

Lemma skip_0 : forall h, h_skip 0 h = h.
Proof. intros [b [[x y]|]]; unfold h_skip; cbn; rewrite ?Nat.add_0_r; reflexivity. Qed.
Lemma plus_plus : forall a b x, at_plus a (at_plus b x) = at_plus (b + a) x.
Proof. intros a b [[x y]|]; cbn; [|reflexivity]. now rewrite Nat.add_assoc. Qed.
Lemma skip_skip : forall a b h, h_skip a (h_skip b h) = h_skip (b + a) h.
Proof. intros a b h. unfold h_skip. cbn [h_bytes h_at]. now rewrite skipn_add, plus_plus. Qed.
Lemma skip_len : forall k h, length (h_bytes (h_skip k h)) = (length (h_bytes h) - k)%nat.
Proof. intros. unfold h_skip. cbn [h_bytes]. apply skipn_length. Qed.
Lemma plus_same : forall q x s, h_at s <> None -> h_at x = at_plus q (h_at s) -> same_storage x s q.
Proof.
  intros q x s N E. destruct (h_at s) as [[b o]|] eqn:A; [|congruence]. exists b, o. now split.
Qed.
Lemma in_order_snoc : forall es e, in_order es ->
  (forall pre r x, es = pre ++ [(r, x)] -> (fst e + length (h_bytes x) <= r)%nat) -> in_order (es ++ [e]).
Proof.
  induction es as [|[r x] es IH]; intros [r' x'] O H; [exact Logic.I|].
  destruct es as [|[r1 x1] es].
  - cbn. split; [|exact Logic.I]. apply (H [] r x). reflexivity.
  - cbn [app in_order]. destruct O as [O1 O2]. split; [exact O1|]. apply (IH (r', x') O2).
    intros pre r2 x2 E. apply (H ((r, x) :: pre)). cbn. now rewrite E.
Qed.

(** ** A single [Bytes] *)

Definition one_inv (h : handle) (r : one_reader) : Prop :=
  exists k, (k <= length (h_bytes h))%nat /\ h_bytes (or_buf r) = skipn k (h_bytes h) /\
    (h_at (or_buf r) = at_plus k (h_at h) \/ (or_buf r = h_new)) /\
    Forall (from_one h) (or_out r) /\ in_order (or_out r) /\
    (forall pre n x, or_out r = pre ++ [(n, x)] -> (length (h_bytes h) - k + length (h_bytes x) <= n)%nat).

Lemma one_advance : forall h k r r', one_inv h r -> b_advance one_reader_ops k r = Ret r' ->
  one_inv h r' /\ or_out r' = or_out r.
Proof.
  intros h k r r' (n & L & B & A & F & O & T) E. cbn [one_reader_ops b_advance] in E. unfold or_advance, h_advance in E.
  destruct (Nat.leb_spec k (length (h_bytes (or_buf r)))) as [Lk|]; [|discriminate E]. injection E as <-.
  rewrite B, skipn_length in Lk. split; [|reflexivity]. exists (n + k)%nat. cbn [or_buf or_out].
  split; [lia|]. split; [unfold h_skip; cbn [h_bytes]; now rewrite B, skipn_add|].
  split; [|split; [exact F|]; split; [exact O|]; intros pre m x E; specialize (T pre m x E); lia].
  destruct A as [A|A]; [left; unfold h_skip; cbn [h_at]; now rewrite A, plus_plus|right].
  rewrite A. unfold h_skip, h_new. cbn. now rewrite skipn_nil.
Qed.

Lemma cut_len : forall p n (s : bytes), (p + n <= length s)%nat -> length (cut_out p n s) = n.
Proof. intros. unfold cut_out. rewrite firstn_length, skipn_length. lia. Qed.

Lemma one_copy : forall h, h_at h <> None -> forall k r l r', one_inv h r -> b_copy_to_bytes one_reader_ops k r = Ret (l, r') ->
  one_inv h r' /\ exists e, or_out r' = or_out r ++ [e] /\ h_bytes (snd e) = l.
Proof.
  intros h HN k r l r' (n & L & B & A & F & O & T) E. cbn [one_reader_ops b_copy_to_bytes] in E. unfold or_copy in E.
  destruct (h_copy k (or_buf r)) as [[x h']| |] eqn:C; try discriminate E. injection E as <- <-.
  assert (LB : length (h_bytes (or_buf r)) = (length (h_bytes h) - n)%nat) by now rewrite B, skipn_length.
  assert (X : (n + k <= length (h_bytes h))%nat /\ h_bytes x = cut_out n k (h_bytes h) /\
    (h_bytes x <> [] -> same_storage x h n) /\ (h_bytes x = [] -> h_at x = None \/ same_storage x h n) /\
    h_bytes h' = skipn (n + k) (h_bytes h) /\ (h_at h' = at_plus (n + k) (h_at h) \/ h' = h_new)).
  { unfold h_copy in C. destruct (Nat.eqb_spec k (length (h_bytes (or_buf r)))) as [Ek|Nk].
    - injection C as <- <-. split; [lia|]. split.
      + rewrite B. unfold cut_out. symmetry. apply firstn_all2. rewrite skipn_length. lia.
      + assert (S : h_bytes (or_buf r) <> [] -> same_storage (or_buf r) h n).
        { intros NE. apply plus_same; [exact HN|]. destruct A as [A|A]; [exact A|]. rewrite A in NE. now destruct NE. }
        split; [exact S|]. split.
        * intros Z. destruct A as [A|A]; [right; now apply plus_same|left; now rewrite A].
        * split; [|now right]. cbn. symmetry. apply skipn_all2. lia.
    - destruct (Nat.leb_spec k (length (h_bytes (or_buf r)))) as [Lk|]; [|discriminate C]. injection C as <- <-.
      assert (A' : h_at (or_buf r) = at_plus n (h_at h)).
      { destruct A as [A|A]; [exact A|]. rewrite A in Nk, Lk. cbn in Nk, Lk. lia. }
      split; [lia|]. split; [|split; [|split; [|split]]].
      + unfold h_first, cut_out. destruct k; [reflexivity|]. cbn [h_bytes]. now rewrite B.
      + intros NE. apply plus_same; [exact HN|]. destruct k; [now destruct NE|]. exact A'.
      + intros Z. destruct k; [now left|right]. apply plus_same; [exact HN|exact A'].
      + unfold h_skip. cbn [h_bytes]. now rewrite B, skipn_add.
      + left. unfold h_skip. cbn [h_at]. now rewrite A', plus_plus. }
  destruct X as (X1 & X2 & X3 & X4 & X5 & X6).
  assert (LX : length (h_bytes x) = k) by (rewrite X2; now apply cut_len).
  split; [|eexists; split; reflexivity]. exists (n + k)%nat. cbn [or_buf or_out]. repeat split.
  - exact X1.
  - exact X5.
  - exact X6.
  - apply Forall_app. split; [exact F|]. constructor; [|constructor]. unfold from_one. rewrite LB, LX.
    replace (length (h_bytes h) - (length (h_bytes h) - n))%nat with n by lia. repeat split; auto; lia.
  - apply in_order_snoc; [exact O|]. cbn [fst]. intros pre m y E. rewrite LB. exact (T pre m y E).
  - intros pre m y E. apply app_inj_tail in E as [_ E]. injection E as <- <-. lia.
Qed.

Theorem one_shares : forall h fuel f r, h_at h <> None ->
  frame_decode one_reader_ops fuel (OneReader h []) = (DOk f, r) ->
  map (fun e => h_bytes (snd e)) (or_out r) = strings f /\ Forall (from_one h) (or_out r) /\ in_order (or_out r).
Proof.
  intros h fuel f r HN E.
  assert (I : one_inv h (OneReader h [])).
  { exists O. cbn. repeat split; [lia|left; destruct (h_at h) as [[b o]|]; cbn; [now rewrite Nat.add_0_r|reflexivity]|constructor|].
    intros pre n x Z. now destruct pre. }
  destruct (em_frame one_reader_ops fuel or_out (one_inv h) (one_advance h) (one_copy h HN) _ _ _ I E)
    as ((k & _ & _ & _ & F & O & _) & es & Oe & M).
  cbn [or_out app] in Oe. rewrite Oe in *. auto.
Qed.

(** ** A list of [Bytes] *)

Definition full (l : list handle) : Prop := Forall (fun h => h_bytes h <> []) l.
Fixpoint cut (k : nat) (l : list handle) : list handle :=
  match l with
  | [] => []
  | h :: t => if Nat.leb (length (h_bytes h)) k then cut (k - length (h_bytes h)) t else h_skip k h :: t
  end.
Lemma content_cons : forall h l, content (h :: l) = h_bytes h ++ content l.
Proof. reflexivity. Qed.
Lemma content_app : forall a b, content (a ++ b) = content a ++ content b.
Proof. intros. unfold content. now rewrite map_app, concat_app. Qed.
Lemma full_len : forall h l, full (h :: l) -> (0 < length (h_bytes h))%nat /\ full l.
Proof. intros h l F. inversion F as [|x y P Q]; subst. split; [|exact Q]. destruct (h_bytes h); [congruence|cbn; lia]. Qed.
Lemma cut_0 : forall l, full l -> cut 0 l = l.
Proof.
  intros [|h l] F; [reflexivity|]. cbn [cut]. apply full_len in F as [F _].
  destruct (Nat.leb_spec (length (h_bytes h)) 0); [lia|]. now rewrite skip_0.
Qed.
Lemma cut_past : forall a l k, cut (length (content a) + k) (a ++ l) = cut k l.
Proof.
  induction a as [|h a IH]; intros l k; [reflexivity|]. cbn [app cut]. rewrite content_cons, app_length.
  destruct (Nat.leb_spec (length (h_bytes h)) (length (h_bytes h) + length (content a) + k)); [|lia].
  rewrite <- (IH l k). f_equal. lia.
Qed.
Lemma remaining_content : forall l, bl_remaining handle_ops l = length (content l).
Proof.
  induction l as [|h l IH]; [reflexivity|]. rewrite content_cons, app_length, <- IH. reflexivity.
Qed.
Lemma cut_content : forall l k, content (cut k l) = skipn k (content l).
Proof.
  induction l as [|h l IH]; intros k; [now rewrite skipn_nil|]. cbn [cut]. rewrite content_cons, skipn_app.
  destruct (Nat.leb_spec (length (h_bytes h)) k) as [L|L].
  - rewrite IH, (skipn_all2 (h_bytes h)) by exact L. reflexivity.
  - rewrite content_cons. replace (k - length (h_bytes h))%nat with O by lia. reflexivity.
Qed.
Lemma cut_split : forall l k, full l -> (k < length (content l))%nat ->
  exists a s b q, l = a ++ s :: b /\ k = (length (content a) + q)%nat /\ (q < length (h_bytes s))%nat /\
    cut k l = h_skip q s :: b.
Proof.
  induction l as [|h l IH]; intros k F L; [cbn in L; lia|]. rewrite content_cons, app_length in L. cbn [cut].
  destruct (Nat.leb_spec (length (h_bytes h)) k) as [H|H].
  - apply full_len in F as [_ F]. destruct (IH (k - length (h_bytes h))%nat F) as (a & s & b & q & El & E & Q & C); [lia|].
    exists (h :: a), s, b, q. rewrite content_cons, app_length. repeat split; [cbn; now rewrite El|lia|exact Q|exact C].
  - exists [], h, l, k. repeat split. exact H.
Qed.
Lemma split_unique : forall l a s b q a' s' b' q', l = a ++ s :: b -> l = a' ++ s' :: b' ->
  (length (content a) + q = length (content a') + q')%nat -> (q < length (h_bytes s))%nat -> (q' < length (h_bytes s'))%nat ->
  s = s' /\ q = q'.
Proof.
  induction l as [|h l IH]; intros a s b q a' s' b' q' E E' P Q Q'; [now destruct a|].
  destruct a as [|x a], a' as [|x' a']; cbn [app] in E, E'.
  - injection E as Eh El. injection E' as Eh' El'. cbn in P. split; congruence.
  - injection E as Eh El. injection E' as Eh' El'. subst h x'. rewrite content_cons, app_length in P. cbn [content map concat length] in P. lia.
  - injection E as Eh El. injection E' as Eh' El'. subst h x. rewrite content_cons, app_length in P. cbn [content map concat length] in P. lia.
  - injection E as Eh El. injection E' as Eh' El'. subst x x'. rewrite !content_cons, !app_length in P.
    apply (IH a s b q a' s' b' q'); auto. lia.
Qed.

Lemma cut_advance : forall l k c, full l -> (k + c <= length (content l))%nat ->
  bl_advance handle_ops c (cut k l) = Ret (cut (k + c) l).
Proof.
  induction l as [|h l IH]; intros k c F L.
  - cbn in L. replace c with O by lia. reflexivity.
  - rewrite content_cons, app_length in L. pose proof (full_len _ _ F) as [Ph Fl]. cbn [cut].
    destruct (Nat.leb_spec (length (h_bytes h)) k) as [H|H].
    + destruct (Nat.leb_spec (length (h_bytes h)) (k + c)); [|lia]. rewrite IH by (auto; lia). do 2 f_equal. lia.
    + destruct c as [|c]; [rewrite Nat.add_0_r; destruct (Nat.leb_spec (length (h_bytes h)) k); [lia|reflexivity]|].
      cbn [bl_advance handle_ops b_remaining b_advance]. rewrite skip_len.
      destruct (Nat.ltb_spec (Datatypes.S c) (length (h_bytes h) - k)) as [C|C].
      * unfold h_advance. rewrite skip_len, skip_skip. destruct (Nat.leb_spec (Datatypes.S c) (length (h_bytes h) - k)); [|lia].
        destruct (Nat.leb_spec (length (h_bytes h)) (k + Datatypes.S c)); [lia|reflexivity].
      * unfold h_advance. rewrite skip_len, Nat.leb_refl.
        destruct (Nat.leb_spec (length (h_bytes h)) (k + Datatypes.S c)); [|lia].
        specialize (IH O (Datatypes.S c - (length (h_bytes h) - k))%nat Fl). rewrite cut_0 in IH by exact Fl.
        rewrite IH by lia. do 2 f_equal. lia.
Qed.
Lemma advance_over : forall l c l', full l -> (length (content l) < c)%nat -> bl_advance handle_ops c l <> Ret l'.
Proof.
  induction l as [|x l IH]; intros c l' F Z E; [destruct c; [cbn in Z; lia|discriminate E]|].
  rewrite content_cons, app_length in Z. apply full_len in F as [Px Fl].
  destruct c as [|c]; [lia|]. cbn [bl_advance handle_ops b_remaining b_advance] in E.
  destruct (Nat.ltb_spec (Datatypes.S c) (length (h_bytes x))) as [C|C]; [lia|].
  unfold h_advance in E. rewrite Nat.leb_refl in E. apply (IH _ _ Fl) in E; [exact E|lia].
Qed.
Lemma cut_full : forall l k, full l -> full (cut k l).
Proof.
  induction l as [|h l IH]; intros k F; [constructor|]. cbn [cut]. pose proof (full_len _ _ F) as [_ Fl].
  destruct (Nat.leb_spec (length (h_bytes h)) k); [now apply IH|].
  constructor; [|exact Fl]. intros Z. apply (f_equal (@length byte)) in Z. rewrite skip_len in Z. cbn in Z. lia.
Qed.
Lemma cut_advance_inv : forall l k c l', full l -> (k <= length (content l))%nat ->
  bl_advance handle_ops c (cut k l) = Ret l' -> (k + c <= length (content l))%nat /\ l' = cut (k + c) l.
Proof.
  intros l k c l' F L E. destruct (Nat.leb_spec (k + c) (length (content l))) as [H|H].
  - rewrite cut_advance in E by auto. injection E as <-. auto.
  - apply advance_over in E; [destruct E|now apply cut_full|]. rewrite cut_content, skipn_length. lia.
Qed.

Lemma cut_put : forall c v l fuel limit acc k y l', full l -> (k + limit <= length (content l))%nat ->
  put_take (BufOps (bl_remaining handle_ops) (bl_chunk handle_ops) (bl_advance handle_ops) c v) fuel limit acc (cut k l) = Ret (y, l') ->
  y = acc ++ cut_out k limit (content l) /\ l' = cut (k + limit) l.
Proof.
  intros c v l. induction fuel as [|fuel IH]; intros limit acc k y l' F L E.
  - cbn [put_take b_remaining] in E. rewrite remaining_content, cut_content, skipn_length in E.
    destruct (Nat.min (length (content l) - k) limit) eqn:M; [|discriminate E]. injection E as <- <-.
    replace limit with O by lia. unfold cut_out. cbn. now rewrite app_nil_r, Nat.add_0_r.
  - cbn [put_take b_remaining b_chunk b_advance] in E. rewrite remaining_content, cut_content, skipn_length in E.
    destruct (Nat.min (length (content l) - k) limit) as [|m] eqn:M.
    { injection E as <- <-. replace limit with O by lia. unfold cut_out. cbn. now rewrite app_nil_r, Nat.add_0_r. }
    destruct (cut_split l k F) as (a & s & b & q & El & Ek & Q & C); [lia|].
    assert (P : exists t, skipn k (content l) = h_bytes (h_skip q s) ++ t).
    { exists (content b). rewrite <- cut_content, C. reflexivity. }
    destruct P as [t P].
    rewrite C in E. cbn [bl_chunk handle_ops b_chunk] in E. rewrite <- C in E.
    set (w := firstn (Nat.min (length (h_bytes (h_skip q s))) limit) (h_bytes (h_skip q s))) in E.
    assert (Lw : length w = Nat.min (length (h_bytes (h_skip q s))) limit).
    { unfold w. rewrite firstn_length. lia. }
    rewrite cut_advance in E by (auto; lia).
    apply IH in E; [|exact F|lia]. destruct E as [-> ->]. split; [|f_equal; lia].
    rewrite <- app_assoc. f_equal. unfold cut_out. rewrite <- skipn_add, P.
    assert (W : w = firstn (length w) (h_bytes (h_skip q s) ++ t)).
    { rewrite firstn_app. replace (length w - length (h_bytes (h_skip q s)))%nat with O by lia. cbn [firstn].
      rewrite app_nil_r, Lw. reflexivity. }
    rewrite W at 1. apply firstn_cut. lia.
Qed.

Definition proper_full : forall l n, proper l n -> full l.
Proof. intros l n P. eapply Forall_impl; [|exact P]. intros h [H _]. exact H. Qed.

Lemma list_copy : forall fuel len next l k n0 x l' next', proper l n0 -> (n0 <= next)%nat -> (k <= length (content l))%nat ->
  hl_copy fuel len next (cut k l) = Ret (x, l', next') ->
  (k + len <= length (content l))%nat /\ l' = cut (k + len) l /\ (next <= next')%nat /\
  length (h_bytes x) = len /\ from_list l n0 next' (length (content l) - k, x)%nat /\
  new_blocks n0 [((length (content l) - k)%nat, x)] = seq next (next' - next).
Proof.
  intros fuel len next l k n0 x l' next' P Hn Hk E. pose proof (proper_full _ _ P) as F.
  assert (Slow : (k + len <= length (content l))%nat -> (len <> 0 -> ~ exists s q, lies_in l k len s q)%nat ->
    bl_copy_slow handle_ops fuel len (cut k l) = Ret (h_bytes x, l') ->
    (match len with O => h_at x = None /\ next' = next | Datatypes.S _ => h_at x = Some (next, O) /\ next' = Datatypes.S next end) ->
    (k + len <= length (content l))%nat /\ l' = cut (k + len) l /\ (next <= next')%nat /\
    length (h_bytes x) = len /\ from_list l n0 next' (length (content l) - k, x)%nat /\
    new_blocks n0 [((length (content l) - k)%nat, x)] = seq next (next' - next)).
  { intros L NL B A. unfold bl_copy_slow in B. destruct (Nat.leb _ _); [|discriminate B].
    apply cut_put in B; [|exact F|exact L]. destruct B as [B ->]. cbn [app] in B.
    assert (Lx : length (h_bytes x) = len) by (rewrite B; now apply cut_len).
    split; [exact L|]. split; [reflexivity|]. split; [destruct len; lia|]. split; [exact Lx|].
    unfold from_list, new_blocks. cbn [flat_map snd]. rewrite Lx.
    replace (length (content l) - (length (content l) - k))%nat with k by lia. destruct len as [|len].
    - destruct A as [A ->]. rewrite A, Nat.sub_diag. split; [|reflexivity].
      assert (Z : h_bytes x = []) by (destruct (h_bytes x); [reflexivity|discriminate Lx]).
      repeat split; try lia; try tauto; try congruence.
    - destruct A as [A ->]. rewrite A. rewrite (proj2 (Nat.leb_le _ _)) by exact Hn.
      replace (Datatypes.S next - next)%nat with 1%nat by lia. split; [|reflexivity].
      assert (Z : h_bytes x <> []) by (intros Z; rewrite Z in Lx; discriminate Lx).
      repeat split; try lia; try tauto; try congruence.
      + intros s q _ H. exfalso. apply NL; [lia|]. now exists s, q.
      + intros _ _. exists next. split; [reflexivity|lia]. }
  unfold hl_copy in E. destruct (Nat.eqb_spec k (length (content l))) as [Ek|Nk].
  - assert (C : cut k l = []).
    { assert (C : content (cut k l) = []) by (rewrite cut_content; apply skipn_all2; lia).
      pose proof (cut_full l k F) as Fc.
      destruct (cut k l) as [|h t]; [reflexivity|]. apply full_len in Fc as [Fc _].
      rewrite content_cons in C. apply app_eq_nil in C as [C _]. rewrite C in Fc. cbn in Fc. lia. }
    rewrite C in *. cbn [cut] in E.
    destruct (bl_copy_slow handle_ops fuel len []) as [[b t]| |] eqn:B; try discriminate E.
    destruct len as [|len]; [|unfold bl_copy_slow in B; cbn in B; discriminate B].
    injection E as <- <- <-. apply Slow; [lia|lia|reflexivity|now split].
  - destruct (cut_split l k F) as (a & s & b & q & El & Ekq & Q & C); [lia|]. rewrite C in *.
    cbn [handle_ops b_remaining] in E. rewrite skip_len in E.
    assert (Ls : (length (content l) = length (content a) + length (h_bytes s) + length (content b))%nat).
    { rewrite El, content_app, content_cons, !app_length. lia. }
    assert (Ps : exists bk o, h_at s = Some (bk, o) /\ (bk < n0)%nat).
    { apply (proj1 (Forall_forall _ l) P s). rewrite El. apply in_or_app. right. now left. }
    destruct Ps as (bk & o & As & Lb).
    assert (Shared : h_bytes x = firstn len (h_bytes (h_skip q s)) -> (0 < len <= length (h_bytes s) - q)%nat ->
      h_at x = Some (bk, (o + q)%nat) -> next' = next -> l' = cut (k + len) l ->
      (k + len <= length (content l))%nat /\ l' = cut (k + len) l /\ (next <= next')%nat /\
      length (h_bytes x) = len /\ from_list l n0 next' (length (content l) - k, x)%nat /\
      new_blocks n0 [((length (content l) - k)%nat, x)] = seq next (next' - next)).
    { intros B Lq A -> ->. assert (Lx : length (h_bytes x) = len) by (rewrite B, firstn_length, skip_len; lia).
      split; [lia|]. split; [reflexivity|]. split; [lia|]. split; [exact Lx|].
      unfold from_list, new_blocks. cbn [flat_map snd]. rewrite A, Lx.
      replace (length (content l) - (length (content l) - k))%nat with k by lia.
      destruct (Nat.leb_spec n0 bk); [lia|]. rewrite Nat.sub_diag. split; [|reflexivity].
      assert (Z : h_bytes x <> []) by (intros Z; rewrite Z in Lx; cbn in Lx; lia).
      assert (In : lies_in l k len s q) by (exists a, b; repeat split; [exact El|exact Ekq|lia]).
      split; [lia|]. split; [|split; [split; [tauto|discriminate]|split]].
      - rewrite B. unfold cut_out. rewrite <- cut_content, C, content_cons, firstn_app, skip_len.
        replace (len - (length (h_bytes s) - q))%nat with O by lia. cbn [firstn]. now rewrite app_nil_r.
      - intros s' q' _ (a' & b' & E' & P' & Q'). destruct (split_unique l a s b q a' s' b' q' El E') as [-> ->]; try lia.
        exists bk, o. now split.
      - intros _ N. exfalso. apply N. now exists s, q. }
    destruct (Nat.eqb_spec (length (h_bytes s) - q) len) as [Elen|Nlen].
    + unfold h_copy in E. rewrite skip_len, Elen, Nat.eqb_refl in E. injection E as <- <- <-. apply Shared.
      * symmetry. apply firstn_all2. rewrite skip_len. lia.
      * lia.
      * unfold h_skip. cbn [h_at]. now rewrite As.
      * reflexivity.
      * subst k l. rewrite <- Nat.add_assoc, cut_past. cbn [cut].
        destruct (Nat.leb_spec (length (h_bytes s)) (q + len)); [|lia]. replace (q + len - length (h_bytes s))%nat with O by lia.
        symmetry. apply cut_0. apply Forall_app in F as [_ F]. now inversion F.
    + destruct (Nat.ltb_spec len (length (h_bytes s) - q)) as [Llen|Llen].
      * unfold h_copy in E. rewrite skip_len in E. destruct (Nat.eqb_spec len (length (h_bytes s) - q)); [lia|].
        rewrite (proj2 (Nat.leb_le _ _)) in E by lia. injection E as <- <- <-.
        assert (C' : h_skip len (h_skip q s) :: b = cut (k + len) l).
        { subst k l. rewrite <- Nat.add_assoc, cut_past. cbn [cut].
          destruct (Nat.leb_spec (length (h_bytes s)) (q + len)); [lia|]. now rewrite skip_skip. }
        destruct len as [|len].
        -- cbn [h_first]. unfold from_list, new_blocks. cbn [h_new h_bytes h_at flat_map snd length]. rewrite Nat.sub_diag.
           unfold cut_out. cbn [firstn]. repeat split; try lia; try tauto; exact C'.
        -- apply Shared; cbn [h_first h_bytes h_at]; [reflexivity|lia|unfold h_skip; cbn [h_at]; now rewrite As|reflexivity|exact C'].
      * destruct (bl_copy_slow handle_ops fuel len (h_skip q s :: b)) as [[y t]| |] eqn:B; try discriminate E.
        assert (L : (k + len <= length (content l))%nat).
        { unfold bl_copy_slow in B. rewrite remaining_content, <- C, cut_content, skipn_length in B.
          destruct (Nat.leb_spec len (length (content l) - k)); [lia|discriminate B]. }
        destruct len as [|len]; [lia|]. injection E as <- <- <-. apply Slow; [exact L| |reflexivity|now split].
        intros _ (s' & q' & a' & b' & E' & P' & Q'). destruct (split_unique l a s b q a' s' b' q' El E') as [-> ->]; lia.
Qed.

Lemma from_list_more : forall l n m m' e, (m <= m')%nat -> from_list l n m e -> from_list l n m' e.
Proof.
  intros l n m m' [r x] L (A & B & C & D & E). repeat split; try tauto. intros H N. destruct (E H N) as (b & H1 & H2).
  exists b. split; [exact H1|lia].
Qed.

Definition list_inv (l : list handle) (n0 : nat) (r : list_reader) : Prop :=
  exists k, (k <= length (content l))%nat /\ lr_bufs r = cut k l /\ (n0 <= lr_next r)%nat /\
    Forall (from_list l n0 (lr_next r)) (lr_out r) /\ in_order (lr_out r) /\
    new_blocks n0 (lr_out r) = seq n0 (lr_next r - n0) /\
    (forall pre n x, lr_out r = pre ++ [(n, x)] -> (length (content l) - k + length (h_bytes x) <= n)%nat).

Lemma list_advance : forall l n0 fuel, proper l n0 -> forall c r r', list_inv l n0 r ->
  b_advance (list_reader_ops fuel) c r = Ret r' -> list_inv l n0 r' /\ lr_out r' = lr_out r.
Proof.
  intros l n0 fuel P c r r' (k & L & B & N & F & O & S & T) E. cbn [list_reader_ops b_advance] in E. unfold lr_advance in E.
  destruct (bl_advance handle_ops c (lr_bufs r)) as [l'| |] eqn:E1; try discriminate E. injection E as <-.
  rewrite B in E1. apply cut_advance_inv in E1; [|now apply proper_full in P|exact L]. destruct E1 as [L' ->].
  split; [|reflexivity]. exists (k + c)%nat. cbn [lr_bufs lr_next lr_out]. repeat split; auto.
  intros pre n x Ex. specialize (T pre n x Ex). lia.
Qed.
Lemma list_copied : forall l n0 fuel, proper l n0 -> forall c r y r', list_inv l n0 r ->
  b_copy_to_bytes (list_reader_ops fuel) c r = Ret (y, r') ->
  list_inv l n0 r' /\ exists e, lr_out r' = lr_out r ++ [e] /\ h_bytes (snd e) = y.
Proof.
  intros l n0 fuel P c r y r' (k & L & B & N & F & O & S & T) E. cbn [list_reader_ops b_copy_to_bytes] in E. unfold lr_copy in E.
  rewrite B in E. destruct (hl_copy fuel c (lr_next r) (cut k l)) as [[[x l'] next']| |] eqn:E1; try discriminate E. injection E as <- <-.
  rewrite remaining_content, cut_content, skipn_length.
  destruct (list_copy _ _ _ _ _ n0 _ _ _ P N L E1) as (L' & -> & N' & Lx & Fx & Sx).
  split; [|eexists; split; reflexivity]. exists (k + c)%nat. cbn [lr_bufs lr_next lr_out]. repeat split.
  - exact L'.
  - lia.
  - apply Forall_app. split; [|constructor; [exact Fx|constructor]].
    eapply Forall_impl; [|exact F]. intros e. apply from_list_more. exact N'.
  - apply in_order_snoc; [exact O|]. cbn [fst]. intros pre m z Ez. apply (T pre m z Ez).
  - unfold new_blocks in *. rewrite flat_map_app, S, Sx. replace (next' - n0)%nat with (lr_next r - n0 + (next' - lr_next r))%nat by lia.
    rewrite seq_app. do 2 f_equal. lia.
  - intros pre m z Ez. apply app_inj_tail in Ez as [_ Ez]. injection Ez as <- <-. lia.
Qed.

Theorem list_shares : forall l next fuel f r, proper l next ->
  frame_decode (list_reader_ops fuel) fuel (ListReader l next []) = (DOk f, r) ->
  map (fun e => h_bytes (snd e)) (lr_out r) = strings f /\ Forall (from_list l next (lr_next r)) (lr_out r) /\
  in_order (lr_out r) /\ (next <= lr_next r)%nat /\ new_blocks next (lr_out r) = seq next (lr_next r - next).
Proof.
  intros l next fuel f r P E. pose proof (proper_full _ _ P) as Fu.
  assert (I : list_inv l next (ListReader l next [])).
  { exists O. cbn [lr_bufs lr_next lr_out]. rewrite cut_0, Nat.sub_diag by exact Fu. repeat split; try lia; [constructor|].
    intros pre n x Z. now destruct pre. }
  destruct (em_frame (list_reader_ops fuel) fuel lr_out (list_inv l next) (list_advance l next fuel P) (list_copied l next fuel P) _ _ _ I E)
    as ((k & _ & _ & N & F & O & S & _) & es & Oe & M).
  cbn [lr_out app] in Oe. rewrite Oe in *. auto.
Qed.

(** ** The readers decode what the bytes decode to *)

Lemma handle_lawful : lawful handle_ops (fun h s => h_bytes h = s).
Proof.
  constructor; cbn [handle_ops b_remaining b_chunk b_advance b_copy_to_bytes].
  - intros h s <-. reflexivity.
  - intros h s <-. exists []. now rewrite app_nil_r.
  - intros h s k <-. unfold h_advance. destruct (Nat.leb k (length (h_bytes h))); [|reflexivity]. eexists. split; reflexivity.
  - intros h s k <-. unfold h_copy. destruct (Nat.eqb_spec k (length (h_bytes h))) as [->|].
    + rewrite Nat.leb_refl, firstn_all, skipn_all. exists h_new. split; reflexivity.
    + destruct (Nat.leb k (length (h_bytes h))); [|reflexivity]. exists (h_skip k h). split; [|reflexivity].
      destruct k; reflexivity.
Qed.
Lemma one_lawful : lawful one_reader_ops (fun r s => h_bytes (or_buf r) = s).
Proof.
  destruct handle_lawful as [R Ch A C]. constructor; cbn [one_reader_ops b_remaining b_chunk b_advance b_copy_to_bytes].
  - intros r s H. apply (R _ _ H).
  - intros r s H. apply (Ch _ _ H).
  - intros r s k H. specialize (A _ s k H). cbn [handle_ops b_advance] in A. unfold or_advance.
    destruct (Nat.leb k (length s)); [|now rewrite A]. destruct A as (h & -> & E). eexists. split; [reflexivity|exact E].
  - intros r s k H. specialize (C _ s k H). cbn [handle_ops b_copy_to_bytes] in C. unfold or_copy.
    destruct (Nat.leb k (length s)).
    + destruct C as (h & E & E2). destruct (h_copy k (or_buf r)) as [[x h']| |]; try discriminate E. injection E as <- <-.
      eexists. split; [reflexivity|exact E2].
    + destruct (h_copy k (or_buf r)) as [[x h']| |]; try discriminate C. reflexivity.
Qed.
Lemma hl_seen : forall fuel len next l,
  match hl_copy fuel len next l with Ret (x, l', _) => Ret (h_bytes x, l') | Panic => Panic | Loop => Loop end =
  bl_copy_to_bytes handle_ops fuel len l.
Proof.
  intros fuel len next l. unfold hl_copy, bl_copy_to_bytes.
  assert (Z : match match bl_copy_slow handle_ops fuel len l with
      | Ret (b, l') => match len with O => Ret (Handle b None, l', next) | S _ => Ret (Handle b (Some (next, O)), l', S next) end
      | Panic => Panic | Loop => Loop end with Ret (x, l', _) => Ret (h_bytes x, l') | Panic => Panic | Loop => Loop end =
      bl_copy_slow handle_ops fuel len l).
  { destruct (bl_copy_slow handle_ops fuel len l) as [[b l']| |]; try reflexivity. destruct len; reflexivity. }
  destruct l as [|h l]; [exact Z|]. destruct (Nat.eqb _ _).
  - cbn [handle_ops b_copy_to_bytes]. destruct (h_copy len h) as [[x h']| |]; reflexivity.
  - destruct (Nat.ltb _ _); [|exact Z]. cbn [handle_ops b_copy_to_bytes]. destruct (h_copy len h) as [[x h']| |]; reflexivity.
Qed.
Lemma list_lawful : forall fuel, lawful (list_reader_ops fuel)
  (fun r s => together (fun h s => h_bytes h = s) (lr_bufs r) s /\ (length s <= fuel)%nat).
Proof.
  intros fuel. destruct (gen_lawful handle_ops _ handle_lawful fuel) as [R Ch A C].
  constructor; cbn [list_reader_ops b_remaining b_chunk b_advance b_copy_to_bytes].
  - intros r s H. apply (R _ _ H).
  - intros r s H. apply (Ch _ _ H).
  - intros r s k H. specialize (A _ s k H). cbn [buf_list_ops b_advance] in A. unfold lr_advance.
    destruct (Nat.leb k (length s)); [|now rewrite A]. destruct A as (h & -> & E). eexists. split; [reflexivity|exact E].
  - intros r s k H. specialize (C _ s k H). cbn [buf_list_ops b_copy_to_bytes] in C. rewrite <- (hl_seen fuel k (lr_next r)) in C. unfold lr_copy.
    destruct (Nat.leb k (length s)).
    + destruct C as (h & E & E2). destruct (hl_copy fuel k (lr_next r) (lr_bufs r)) as [[[x h'] n]| |]; try discriminate E. injection E as <- <-.
      eexists. split; [reflexivity|exact E2].
    + destruct (hl_copy fuel k (lr_next r) (lr_bufs r)) as [[[x h'] n]| |]; try discriminate C. reflexivity.
Qed.

Theorem readers_same :
  (forall fuel h, (8 <= fuel)%nat -> fst (frame_decode one_reader_ops fuel (OneReader h [])) = fst (decode (h_bytes h))) /\
  (forall fuel l next, Forall (fun h => h_bytes h <> []) l -> (8 + length (content l) <= fuel)%nat ->
     fst (frame_decode (list_reader_ops fuel) fuel (ListReader l next [])) = fst (decode (content l))).
Proof.
  split.
  - intros fuel h L. now apply (decode_any _ one_reader_ops _ fuel _ _ one_lawful L).
  - intros fuel l next F L. apply (decode_any _ (list_reader_ops fuel) _ fuel _ _ (list_lawful fuel)); [lia|]. split; [|lia].
    exists (map h_bytes l). split; [|split; [|reflexivity]].
    + clear. induction l; constructor; auto.
    + unfold solid. apply Forall_map. exact F.
Qed.

(** ** Chunks *)

Lemma held_part : forall n h, (0 < n)%nat -> held_part_next (N.of_nat n) (Some h) =
  if Nat.ltb n (length (h_bytes h)) then (Some (Handle (firstn n (h_bytes h)) (h_at h)), Some (h_skip n h)) else (Some h, None).
Proof.
  intros n h Hn. unfold held_part_next, blen. rewrite Nnat.Nat2N.id.
  destruct (N.ltb_spec (N.of_nat n) (N.of_nat (length (h_bytes h)))), (Nat.ltb_spec n (length (h_bytes h))); try lia; [|reflexivity].
  unfold h_split_to. rewrite (proj2 (Nat.leb_le _ _)) by lia. destruct n as [|n]; [lia|].
  destruct (Nat.eqb_spec (Datatypes.S n) (length (h_bytes h))); [lia|reflexivity].
Qed.

Lemma held_seen : forall n o, (0 < n)%nat ->
  (let (a, b) := held_part_next (N.of_nat n) o in (option_map h_bytes a, option_map h_bytes b)) =
  part_next (N.of_nat n) (option_map h_bytes o).
Proof.
  intros n [h|] Hn; [|reflexivity]. rewrite held_part by exact Hn. cbn [option_map part_next]. rewrite Nnat.Nat2N.id. unfold blen.
  destruct (N.ltb_spec (N.of_nat n) (N.of_nat (length (h_bytes h)))), (Nat.ltb_spec n (length (h_bytes h))); try lia; reflexivity.
Qed.
Theorem chunks_seen : forall c, hc_size c <> 0 ->
  (let (o, c') := held_next c in (option_map seen_payload o, seen_chunks c')) = chunks_next (seen_chunks c).
Proof.
  intros [n m d] Hn. cbn [hc_size] in Hn. unfold held_next, chunks_next, seen_chunks. cbn [hc_size hc_metadata hc_data ch_size ch_metadata ch_data].
  replace n with (N.of_nat (N.to_nat n)) by apply Nnat.N2Nat.id. remember (N.to_nat n) as k eqn:Ek.
  assert (Hk : (0 < k)%nat) by lia. pose proof (held_seen k m Hk) as HM. pose proof (held_seen k d Hk) as HD.
  destruct m as [m|], d as [d|]; cbn [option_map] in *; try reflexivity;
    destruct (held_part_next (N.of_nat k) _) as [a b]; destruct (held_part_next (N.of_nat k) _) as [a' b'];
    cbn [option_map] in HM, HD; rewrite <- HM, <- HD; reflexivity.
Qed.

(** The part after [k] calls, and what the next call yields of it. *)
Definition part_at (n k : nat) (h : handle) : option handle :=
  if (Nat.ltb (k * n) (length (h_bytes h)) || Nat.eqb k 0)%bool then Some (h_skip (k * n) h) else None.
Lemma part_step : forall n k h, (0 < n)%nat ->
  snd (held_part_next (N.of_nat n) (part_at n k h)) = part_at n (S k) h /\
  nth_piece n k h (fst (held_part_next (N.of_nat n) (part_at n k h))).
Proof.
  intros n k h Hn. unfold part_at, nth_piece. destruct (_ || _)%bool eqn:B.
  - assert (L : (k * n <= length (h_bytes h))%nat).
    { apply Bool.orb_true_iff in B as [B|B]; [apply Nat.ltb_lt in B; lia|apply Nat.eqb_eq in B; subst; cbn; lia]. }
    rewrite held_part by exact Hn. rewrite skip_len, Bool.orb_false_r.
    replace (S k * n)%nat with (k * n + n)%nat by lia.
    destruct (Nat.ltb_spec n (length (h_bytes h) - k * n)), (Nat.ltb_spec (k * n + n) (length (h_bytes h))); try lia; cbn [fst snd].
    + rewrite skip_skip. split; [reflexivity|]. eexists. split; [reflexivity|]. split; reflexivity.
    + split; [reflexivity|]. eexists. split; [reflexivity|]. split; [|reflexivity].
      unfold cut_out, h_skip. cbn [h_bytes]. symmetry. apply firstn_all2. rewrite skipn_length. lia.
  - apply Bool.orb_false_iff in B as [B _]. apply Nat.ltb_ge in B. split; [|reflexivity]. cbn [held_part_next snd].
    replace (S k * n)%nat with (n + k * n)%nat by lia.
    destruct (Nat.ltb_spec (n + k * n) (length (h_bytes h))); [lia|reflexivity].
Qed.

Definition opt_at (n k : nat) (o : option handle) : option handle :=
  match o with Some h => part_at n k h | None => None end.
Definition opt_piece (n k : nat) (h o : option handle) : Prop :=
  match h with Some h => nth_piece n k h o | None => o = None end.
Lemma opt_step : forall n k o, (0 < n)%nat ->
  snd (held_part_next (N.of_nat n) (opt_at n k o)) = opt_at n (S k) o /\
  opt_piece n k o (fst (held_part_next (N.of_nat n) (opt_at n k o))).
Proof. intros n k [h|] Hn; [now apply part_step|]. now split. Qed.

Lemma next_at : forall n k m d, (0 < n)%nat ->
  let r := held_next (HeldChunks (N.of_nat n) (opt_at n k m) (opt_at n k d)) in
  snd r = HeldChunks (N.of_nat n) (opt_at n (S k) m) (opt_at n (S k) d) /\
  match fst r with
  | Some p => opt_piece n k m (hp_metadata p) /\ opt_piece n k d (hp_data p)
  | None => opt_piece n k m None /\ opt_piece n k d None
  end.
Proof.
  intros n k m d Hn. destruct (opt_step n k m Hn) as [M1 M2]. destruct (opt_step n k d Hn) as [D1 D2].
  unfold held_next. cbn [hc_size hc_metadata hc_data].
  destruct (opt_at n k m) as [x|] eqn:Em, (opt_at n k d) as [y|] eqn:Ed;
    try (destruct (held_part_next (N.of_nat n) _) as [a a']; destruct (held_part_next (N.of_nat n) _) as [b b'];
         cbn [fst snd hp_metadata hp_data] in *; subst; now split).
  cbn [held_part_next fst snd] in *. now rewrite <- M1, <- D1.
Qed.
Lemma calls_at : forall n m d, (0 < n)%nat -> forall j k i r,
  nth_error (fst (held_calls j (HeldChunks (N.of_nat n) (opt_at n k m) (opt_at n k d)))) i = Some r ->
  match r with
  | Some p => opt_piece n (k + i) m (hp_metadata p) /\ opt_piece n (k + i) d (hp_data p)
  | None => opt_piece n (k + i) m None /\ opt_piece n (k + i) d None
  end.
Proof.
  intros n m d Hn. induction j as [|j IH]; intros k i r E; [now destruct i|]. cbn [held_calls] in E.
  pose proof (next_at n k m d Hn) as N. cbv zeta in N. destruct (held_next _) as [o c']. cbn [fst snd] in N. destruct N as [-> N].
  destruct (held_calls j _) as [rs c''] eqn:C. cbn [fst] in E. destruct i as [|i].
  - injection E as <-. rewrite Nat.add_0_r. exact N.
  - cbn [nth_error] in E. replace (k + S i)%nat with (S k + i)%nat by lia. apply IH. now rewrite C.
Qed.
Theorem chunks_share : forall p n c j i r, held_payload_chunks p n = Ret c ->
  nth_error (fst (held_calls j c)) i = Some r ->
  let piece (whole o : option handle) :=
    match whole with Some h => nth_piece (N.to_nat n) i h o | None => o = None end in
  match r with
  | Some q => piece (hp_metadata p) (hp_metadata q) /\ piece (hp_data p) (hp_data q)
  | None => piece (hp_metadata p) None /\ piece (hp_data p) None
  end.
Proof.
  intros p n c j i r H E. unfold held_payload_chunks in H. destruct (N.eqb_spec n 0) as [|Hn]; [discriminate H|]. injection H as <-.
  assert (X : forall o, opt_at (N.to_nat n) 0 o = o).
  { intros [h|]; [|reflexivity]. cbn. unfold part_at. cbn. rewrite Bool.orb_true_r. now rewrite skip_0. }
  apply (calls_at (N.to_nat n) (hp_metadata p) (hp_data p) ltac:(lia) j 0). rewrite !X, Nnat.N2Nat.id. exact E.
Qed.
