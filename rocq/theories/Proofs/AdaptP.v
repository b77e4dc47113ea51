(** * Buffers made of others, and frames of known length *)

From Verif Require Import Model.AdaptM Spec.Adapt.
From Verif Require Import Proofs.BitsP Proofs.EatP Proofs.StableP Proofs.BufP Proofs.CodecP Proofs.DecodeP Proofs.BackP.
From Verif Require Import Spec.Wire.

Lemma wire_six : forall r w r1 r2 f, (6 <= length (wire_bytes r w r1 r2 f))%nat.
Proof. intros. unfold wire_bytes, header_bytes. rewrite !app_length, !to_be_length. lia. Qed.

Lemma firstn_plus : forall {A} n m (l : list A), firstn (n + m) l = firstn n l ++ firstn m (skipn n l).
Proof.
  intros A. induction n as [|n IH]; intros m l; [reflexivity|].
  destruct l as [|x l]; cbn; [now rewrite firstn_nil|]. now rewrite IH.
Qed.

(** ** The default [copy_to_bytes] *)

Section Default.
Context {B : Type} (rem : B -> nat) (chunk : B -> bytes) (adv : nat -> B -> oc B) (repr : B -> bytes -> Prop).
Hypothesis H1 : forall b s, repr b s -> rem b = length s.
Hypothesis H2 : forall b s, repr b s -> exists r, s = chunk b ++ r /\ (chunk b = [] -> s = []).
Hypothesis H3 : forall b s k, repr b s ->
  if Nat.leb k (length s) then exists b', adv k b = Ret b' /\ repr b' (skipn k s) else adv k b = Panic.

Lemma default_put : forall c v fuel limit acc b s, repr b s -> (limit <= length s)%nat -> (limit <= fuel)%nat ->
  exists b', put_take (BufOps rem chunk adv c v) fuel limit acc b = Ret (acc ++ firstn limit s, b') /\
    repr b' (skipn limit s).
Proof.
  intros c v. induction fuel as [|fuel IH]; intros limit acc b s R L F.
  - replace limit with O by lia. exists b. cbn [put_take]. rewrite Nat.min_0_r. cbn. rewrite app_nil_r. auto.
  - cbn [put_take b_remaining b_chunk b_advance]. rewrite (H1 b s R), Nat.min_r by lia.
    destruct limit as [|limit]; [exists b; cbn; rewrite app_nil_r; auto|].
    destruct (H2 b s R) as (r & E & Z). set (q := chunk b) in *.
    assert (Q : q <> []). { intros N. rewrite (Z N) in L. cbn in L. lia. }
    assert (P : (0 < length q)%nat) by (destruct q; [congruence|cbn; lia]).
    set (n := Nat.min (length q) (S limit)).
    assert (Ln : length (firstn n q) = n) by (rewrite firstn_length; lia).
    rewrite Ln. pose proof (H3 b s n R) as A.
    assert (LE : (n <= length s)%nat) by lia.
    rewrite (proj2 (Nat.leb_le _ _) LE) in A. destruct A as (b' & -> & R').
    destruct (IH (S limit - n)%nat (acc ++ firstn n q) b' _ R') as (b2 & -> & R2).
    + rewrite skipn_length. lia.
    + lia.
    + exists b2. rewrite skipn_add in R2. split.
      * do 2 f_equal. rewrite <- app_assoc. f_equal.
        replace (S limit) with (n + (S limit - n))%nat at 2 by lia. rewrite firstn_plus. f_equal.
        rewrite E, firstn_app. replace (n - length q)%nat with O by lia. cbn. now rewrite app_nil_r.
      * replace (S limit) with (n + (S limit - n))%nat by lia. exact R2.
Qed.

Lemma default_lawful : forall fuel v,
  lawful (BufOps rem chunk adv (default_copy rem chunk adv fuel) v) (upto fuel repr).
Proof.
  intros fuel v. constructor; cbn [b_remaining b_chunk b_advance b_copy_to_bytes].
  - intros b s [R _]. auto.
  - intros b s [R _]. auto.
  - intros b s k [R L]. pose proof (H3 b s k R) as A. destruct (Nat.leb k (length s)); [|exact A].
    destruct A as (b' & E & R'). exists b'. split; [exact E|]. split; [exact R'|]. rewrite skipn_length. lia.
  - intros b s k [R L]. unfold default_copy. rewrite (H1 b s R).
    destruct (Nat.leb_spec k (length s)) as [K|K]; [|reflexivity].
    destruct (default_put (fun _ _ => Panic) (fun _ _ => []) fuel k [] b s R K) as (b' & -> & R'); [lia|].
    exists b'. split; [reflexivity|]. split; [exact R'|]. rewrite skipn_length. lia.
Qed.
End Default.

(** ** The implementations *)

Lemma take_lawful : forall T (ops : buf_ops T) repr r fuel, lawful ops repr ->
  lawful (take_ops ops fuel) (upto fuel (taking repr r)).
Proof.
  intros T ops repr r fuel L. apply default_lawful.
  - intros [i n] s [R C]. cbn [tk_inner tk_limit] in *. unfold tk_remaining. cbn [tk_inner tk_limit].
    rewrite (law_remaining ops repr L i _ R), app_length. destruct C as [->|[C ->]]; cbn [length]; lia.
  - intros [i n] s [R C]. cbn [tk_inner tk_limit] in *. unfold tk_chunk. cbn [tk_inner tk_limit].
    destruct (law_chunk ops repr L i _ R) as (q & E & Z). set (c := b_chunk ops i) in *.
    assert (F : forall m, firstn (Nat.min (length c) m) c = firstn m c).
    { intros m. rewrite <- firstn_firstn, firstn_all2 with (n := length c); [|rewrite firstn_length; lia]. reflexivity. }
    rewrite F. exists (skipn (length (firstn n c)) s). split.
    + assert (P : firstn n c = firstn (length (firstn n c)) s); [|rewrite P at 1; symmetry; apply firstn_skipn].
      assert (W : (length (firstn n c) <= length s)%nat).
      { rewrite firstn_length. apply (f_equal (@length byte)) in E. rewrite !app_length in E.
        destruct C as [->|[C ->]]; cbn [length] in E; lia. }
      assert (X : firstn (length (firstn n c)) (s ++ r) = firstn (length (firstn n c)) (c ++ q)) by now rewrite E.
      rewrite !firstn_app in X. replace (length (firstn n c) - length s)%nat with O in X by lia.
      rewrite (firstn_length n c) in X at 3. replace (Nat.min n (length c) - length c)%nat with O in X by lia.
      cbn [firstn] in X. rewrite !app_nil_r in X. rewrite X.
      rewrite firstn_length at 1. rewrite Nat.min_comm. symmetry. apply F.
    + intros N. destruct n as [|n].
      * destruct C as [C|[C _]]; [destruct s; [reflexivity|discriminate C]|lia].
      * destruct c as [|x c0]; [|discriminate N]. apply Z in N. apply app_eq_nil in N. tauto.
  - intros [i n] s k [R C]. cbn [tk_inner tk_limit] in *. unfold tk_advance. cbn [tk_inner tk_limit].
    pose proof (law_advance ops repr L i _ k R) as A. rewrite app_length in A.
    destruct (Nat.leb_spec k (length s)) as [K|K].
    + rewrite (proj2 (Nat.leb_le k n)) by (destruct C as [->|[C _]]; lia).
      rewrite (proj2 (Nat.leb_le k _)) in A by lia. destruct A as (i' & -> & R').
      eexists. split; [reflexivity|]. split; cbn [tk_inner tk_limit].
      * rewrite skipn_app in R'. now replace (k - length s)%nat with O in R' by lia.
      * rewrite skipn_length. destruct C as [->|[C ->]]; [left; lia|right; split; [lia|reflexivity]].
    + destruct (Nat.leb_spec k n) as [M|M]; [|reflexivity].
      destruct C as [C|[C ->]]; [lia|]. cbn [length] in A. rewrite (proj2 (Nat.leb_gt k _)) in A by lia.
      now rewrite A.
Qed.

Lemma chain_lawful : forall T U (a : buf_ops T) (b : buf_ops U) ra rb fuel, lawful a ra -> lawful b rb ->
  lawful (chain_ops a b fuel) (upto fuel (chained ra rb)).
Proof.
  intros T U a b ra rb fuel LA LB. apply default_lawful.
  - intros c s (x & y & RA & RB & ->). unfold cn_remaining.
    now rewrite (law_remaining a ra LA _ _ RA), (law_remaining b rb LB _ _ RB), app_length.
  - intros c s (x & y & RA & RB & ->). unfold cn_chunk. rewrite (law_remaining a ra LA _ _ RA).
    destruct (length x) as [|n] eqn:E.
    + destruct x; [|discriminate E]. cbn [app]. exact (law_chunk b rb LB _ _ RB).
    + destruct (law_chunk a ra LA _ _ RA) as (r & -> & Z). exists (r ++ y). split; [now rewrite app_assoc|].
      intros N. specialize (Z N). rewrite Z in E. discriminate E.
  - intros c s k (x & y & RA & RB & ->). unfold cn_advance. rewrite (law_remaining a ra LA _ _ RA), app_length.
    assert (REST : forall p m, ra p [] ->
      if Nat.leb m (length y)
      then exists d, match b_advance b m (cn_b c) with Ret q => Ret (Chain p q) | Panic => Panic | Loop => Loop end = Ret d
             /\ chained ra rb d (skipn m y)
      else match b_advance b m (cn_b c) with Ret q => Ret (Chain p q) | Panic => Panic | Loop => Loop end = Panic).
    { intros p m P. pose proof (law_advance b rb LB _ _ m RB) as A. destruct (Nat.leb m (length y)).
      - destruct A as (q & -> & R'). eexists. split; [reflexivity|]. exists [], (skipn m y). cbn [cn_a cn_b]. auto.
      - now rewrite A. }
    destruct (length x) as [|n] eqn:E.
    + destruct x; [|discriminate E]. cbn [app Nat.add]. apply REST. exact RA.
    + pose proof (law_advance a ra LA _ _ k RA) as A. rewrite E in A.
      destruct (Nat.leb_spec k (S n)) as [K|K].
      * destruct A as (p & -> & R'). rewrite (proj2 (Nat.leb_le _ _)) by lia.
        eexists. split; [reflexivity|]. exists (skipn k x), y. cbn [cn_a cn_b]. split; [exact R'|]. split; [exact RB|].
        rewrite skipn_app. now replace (k - length x)%nat with O by lia.
      * pose proof (law_advance a ra LA _ _ (S n) RA) as A2. rewrite E, Nat.leb_refl in A2.
        destruct A2 as (p & -> & R'). rewrite skipn_all2 in R' by lia.
        specialize (REST p (k - S n)%nat R'). rewrite skipn_app, (skipn_all2 x) by lia. cbn [app]. rewrite E.
        destruct (Nat.leb_spec (k - S n) (length y)) as [M|M].
        -- now rewrite (proj2 (Nat.leb_le _ _)) by lia.
        -- now rewrite (proj2 (Nat.leb_gt _ _)) by lia.
Qed.

Lemma deque_lawful : forall fuel, lawful (deque_ops fuel) (upto fuel queued).
Proof.
  intros fuel. apply default_lawful; unfold queued.
  - intros d s <-. unfold dq_remaining. now rewrite app_length.
  - intros [f b] s <-. unfold dq_chunk. cbn [dq_front dq_back]. destruct f as [|x f].
    + exists []. cbn. rewrite app_nil_r. auto.
    + exists b. split; [reflexivity|discriminate].
  - intros [f b] s k <-. unfold dq_advance, dq_remaining. cbn [dq_front dq_back]. rewrite app_length.
    destruct (Nat.leb k _); [|reflexivity]. eexists. split; [reflexivity|]. cbn [dq_front dq_back]. now rewrite skipn_app.
Qed.

Lemma cursor_lawful : forall fuel, lawful (cursor_ops fuel) (upto fuel pointed).
Proof.
  intros fuel. apply default_lawful.
  - intros [d p] s (r & E & P). cbn [cu_data cu_pos] in *. unfold cu_remaining. cbn [cu_data cu_pos]. subst d p.
    rewrite app_length. destruct (Nat.leb_spec (length r + length s) (length r)); lia.
  - intros [d p] s (r & E & P). cbn [cu_data cu_pos] in *. unfold cu_chunk. cbn [cu_data cu_pos]. subst d p.
    rewrite app_length. exists []. rewrite app_nil_r.
    destruct (Nat.leb_spec (length r + length s) (length r)) as [K|K].
    + destruct s; [auto|cbn in K; lia].
    + rewrite skipn_app, skipn_all, Nat.sub_diag. cbn. auto.
  - intros [d p] s k (r & E & P). cbn [cu_data cu_pos] in *. unfold cu_advance. cbn [cu_data cu_pos]. subst d p.
    rewrite app_length. destruct (Nat.leb_spec k (length s)) as [K|K].
    + rewrite (proj2 (Nat.leb_le _ _)) by lia. eexists. split; [reflexivity|].
      exists (r ++ firstn k s). cbn [cu_data cu_pos]. split.
      * now rewrite <- app_assoc, firstn_skipn.
      * rewrite app_length, firstn_length. lia.
    + now rewrite (proj2 (Nat.leb_gt _ _)) by lia.
Qed.

(** ** Frames of known length *)

Section Read.
Context {T : Type} (ops : buf_ops T) (repr : T -> bytes -> Prop) (law : lawful ops repr).
Context (fuel : nat) (enough : (8 <= fuel)%nat).

Lemma read_step : forall k ks b s r, repr b (s ++ r) -> k = length s \/ (length s < k)%nat /\ r = [] ->
  (length s <= fuel)%nat -> exists b',
  read_frames ops fuel (k :: ks) b =
    match fst (decode s) with
    | DPanic => ([DPanic], b')
    | x => let (rs, b'') := read_frames ops fuel ks b' in (x :: rs, b'')
    end /\ (fst (decode s) <> DPanic -> repr b' r).
Proof.
  intros k ks b s r R C F. cbn [read_frames].
  assert (R0 : upto fuel (taking repr r) (Take b k) s) by (split; [split; [exact R|exact C]|exact F]).
  destruct (decode_any _ _ _ _ _ _ (take_lawful T ops repr r fuel law) enough R0) as [E R1].
  destruct (frame_decode (take_ops ops fuel) fuel (Take b k)) as [x t]. cbn [fst snd] in E, R1. subst x.
  pose proof (decode_total s) as TOT.
  pose proof (law_remaining _ _ (take_lawful T ops repr r fuel law) _ _ R1) as M. cbn [take_ops b_remaining] in M.
  pose proof (law_advance _ _ (take_lawful T ops repr r fuel law) _ _ (length (snd (decode s))) R1) as A.
  rewrite Nat.leb_refl, skipn_all in A. cbn [take_ops b_advance] in A. rewrite M.
  destruct A as (t' & -> & [[R2 _] _]).
  destruct (fst (decode s)); [exists (tk_inner t')|exists (tk_inner t')|exists (tk_inner t)|contradiction];
    (split; [reflexivity|]); [auto|auto|congruence].
Qed.

Lemma read_delimited : forall bodies b rest, repr b (concat bodies ++ rest) ->
  Forall (fun s => (length s <= fuel)%nat) bodies ->
  let (rs, b') := read_frames ops fuel (map (@length byte) bodies) b in
  rs = until_panic (map (fun s => fst (decode s)) bodies) /\ (~ In DPanic rs -> repr b' rest).
Proof.
  induction bodies as [|s bodies IH]; intros b rest R F; [cbn; auto|].
  inversion F as [|x y F1 F2]; subst x y. cbn [concat] in R. rewrite <- app_assoc in R.
  cbn [map]. destruct (read_step (length s) (map (@length byte) bodies) b s _ R (or_introl eq_refl) F1) as (b' & -> & R').
  cbn [until_panic]. destruct (fst (decode s)) eqn:E.
  - specialize (IH b' rest (R' ltac:(discriminate)) F2).
    destruct (read_frames ops fuel (map (@length byte) bodies) b') as [rs b'']. destruct IH as [-> IH].
    split; [reflexivity|]. intros N. apply IH. intros I. apply N. now right.
  - specialize (IH b' rest (R' ltac:(discriminate)) F2).
    destruct (read_frames ops fuel (map (@length byte) bodies) b') as [rs b'']. destruct IH as [-> IH].
    split; [reflexivity|]. intros N. apply IH. intros I. apply N. now right.
  - split; [reflexivity|]. intros N. exfalso. apply N. now left.
  - pose proof (decode_total s) as X. now rewrite E in X.
Qed.

Lemma until_ok : forall A B (f : A -> B) l, until_panic (map (fun x => DOk (f x)) l) = map (fun x => DOk (f x)) l.
Proof. intros A B f. induction l as [|x l IH]; [reflexivity|]. cbn. now rewrite IH. Qed.

Lemma read_written : forall fs vs b rest, Forall fits fs -> Forall2 (fun f v => frame_encode f [] = EOk v) fs vs ->
  repr b (concat vs ++ rest) -> Forall (fun s => (length s <= fuel)%nat) vs -> exists b',
  read_frames ops fuel (map (@length byte) vs) b = (map DOk fs, b') /\ repr b' rest.
Proof.
  intros fs vs b rest FF W R L. pose proof (read_delimited vs b rest R L) as X.
  assert (E : map (fun s => fst (decode s)) vs = map DOk fs).
  { clear -FF W. revert FF. induction W as [|f v fs vs E W IH]; intros FF; [reflexivity|].
    inversion FF as [|x y F1 F2]; subst x y. cbn [map]. rewrite (IH F2). f_equal.
    destruct (roundtrip f F1) as (bs & E1 & D). rewrite E1 in E. cbn [app] in E. injection E as <-. now rewrite D. }
  rewrite E, (until_ok frame frame (fun f => f)) in X. destruct (read_frames ops fuel (map (@length byte) vs) b) as [rs b'].
  destruct X as [-> X]. exists b'. split; [reflexivity|]. apply X. rewrite in_map_iff. intros (f & N & _). discriminate N.
Qed.

(** The reported length is the length, but for a SETUP frame without token, where it is two more. *)
Lemma reported : forall f v, fits f -> frame_encode f [] = EOk v ->
  decode v = (DOk f, []) /\ (6 <= length v)%nat /\
  (tokenless f -> N.to_nat (frame_len f) = (2 + length v)%nat) /\ (~ tokenless f -> N.to_nat (frame_len f) = length v).
Proof.
  intros f v F E. destruct (roundtrip f F) as (bs & E1 & D). rewrite E1 in E. cbn [app] in E. injection E as <-.
  destruct (encode_len f [] bs (in_range_typed f (proj1 F)) (E1 [])) as (b2 & X & _ & L & _). cbn [app] in X. subst b2.
  split; [exact D|]. split.
  - apply decode_bwd in D as (r & w & r1 & r2 & H1 & H2 & H3 & H4 & _ & _ & _ & ->).
    rewrite app_nil_r. apply wire_six.
  - unfold size in L. destruct f as [s| | | | | | | | | | | | |]; cbn [tokenless] in *;
      try (split; [tauto|intros _; lia]). destruct (sf_resume_token s); cbn [present] in L; split; intros; try congruence; lia.
Qed.

Lemma read_reported : forall fs vs b, Forall fits fs -> Forall2 (fun f v => frame_encode f [] = EOk v) fs vs ->
  repr b (concat vs) -> (length (concat vs) <= fuel)%nat ->
  ((exists b', read_frames ops fuel (map (fun f => N.to_nat (frame_len f)) fs) b = (map DOk fs, b')) <->
   forall l f r, fs = l ++ f :: r -> r <> [] -> ~ tokenless f).
Proof.
  intros fs vs b FF W. revert b FF. induction W as [|f v fs vs E W IH]; intros b FF R L.
  - split; [intros _ [|x l] f r; discriminate|]. intros _. exists b. reflexivity.
  - inversion FF as [|x y F1 F2]; subst x y. cbn [concat] in R, L. rewrite app_length in L. cbn [map].
    destruct (reported f v F1 E) as (D & SIX & TK & NT).
    assert (DEC : tokenless f \/ ~ tokenless f).
    { destruct f as [s| | | | | | | | | | | | |]; cbn; try tauto. destruct (sf_resume_token s); [right; discriminate|now left]. }
    destruct DEC as [K|K].
    + rewrite (TK K). destruct W as [|g u fs vs Eg W].
      * cbn [concat] in R, L. destruct (read_step (2 + length v)%nat [] b v [] R) as (b' & X & _); [right; split; [lia|reflexivity]|lia|].
        cbn [map]. rewrite X, D. cbn [fst read_frames]. split; [|intros _; now exists b'].
        intros _ [|x l] h r Q Z; [injection Q as _ <-; congruence|]. injection Q as _ Q. destruct l; discriminate Q.
      * inversion F2 as [|x y Fg F3]; subst x y. destruct (reported g u Fg Eg) as (_ & SG & _).
        split.
        -- intros (b' & X). exfalso. set (w := concat (u :: vs)) in *.
           assert (LW : (6 <= length w)%nat) by (unfold w; cbn [concat]; rewrite app_length; lia).
           assert (SP : v ++ w = (v ++ firstn 2 w) ++ skipn 2 w) by now rewrite <- app_assoc, firstn_skipn.
           assert (NE : firstn 2 w <> []).
           { intros Z. apply (f_equal (@length byte)) in Z. rewrite firstn_length in Z. cbn [length] in Z. lia. }
           rewrite SP in R.
           destruct (read_step (2 + length v)%nat (map (fun f => N.to_nat (frame_len f)) (g :: fs)) b _ _ R) as (b2 & Y & _).
           { left. rewrite app_length, firstn_length. lia. }
           { rewrite app_length, firstn_length. lia. }
           rewrite Y, (decode_extend v f [] (firstn 2 w) D) in X. cbn [fst] in X.
           destruct (read_frames ops fuel (map (fun f => N.to_nat (frame_len f)) (g :: fs)) b2).
           cbn [map] in X. injection X as X _ _. revert X. apply extend_differs.
           ++ destruct f; cbn in K; try contradiction. exact Logic.I.
           ++ exact NE.
        -- intros H. exfalso. apply (H [] f (g :: fs)); [reflexivity|discriminate|exact K].
    + rewrite (NT K).
      destruct (read_step (length v) (map (fun f => N.to_nat (frame_len f)) fs) b v (concat vs) R (or_introl eq_refl)) as (b' & -> & R'); [lia|].
      rewrite D in *. cbn [fst] in *. specialize (IH b' F2 (R' ltac:(discriminate)) ltac:(lia)).
      destruct (read_frames ops fuel (map (fun f => N.to_nat (frame_len f)) fs) b') as [rs b''].
      split.
      * intros (b3 & X). injection X as X1 X2. subst rs b3.
        intros [|x l] h r Q Z; injection Q as Q1 Q2; subst; [exact K|].
        apply (proj1 IH (ex_intro _ b'' eq_refl) l h r); auto.
      * intros H. destruct (proj2 IH) as (b3 & X).
        { intros l h r Q Z. apply (H (f :: l) h r); [now rewrite Q|exact Z]. }
        injection X as X1 X2. subst rs b3. now exists b''.
Qed.
End Read.
