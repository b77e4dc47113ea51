(** * The provided methods of [Iterator] on [PayloadChunks] *)

From Verif Require Import Model.IterM Spec.Iter.
From Verif Require Import Proofs.ChunkP Proofs.SocketP.

Section Iter.
  Context {A X : Type} (next : A -> option X * A).

  Lemma gives_fold : forall it l, gives next it l -> forall B (f : B -> X -> B) b fuel, (length l < fuel)%nat ->
    it_fold next fuel f b it = Ret (fold_left f l b).
  Proof.
    intros it l H. induction H as [it it' H|it x it' l H G IH]; intros B f b fuel F; (destruct fuel as [|fuel]; [lia|]); cbn [it_fold]; rewrite H.
    - reflexivity.
    - apply IH. cbn in F. lia.
  Qed.
  Lemma gives_count : forall it l fuel, gives next it l -> (length l < fuel)%nat -> it_count next fuel it = Ret (N.of_nat (length l)).
  Proof.
    intros it l fuel H F. unfold it_count. rewrite (gives_fold it l H) by exact F. f_equal.
    assert (G : forall b, fold_left (fun n (_ : X) => n + 1) l b = b + N.of_nat (length l)).
    { clear. induction l as [|x l IH]; intros b; cbn [fold_left length]; [lia|]. rewrite IH. lia. }
    now rewrite G.
  Qed.
  Lemma fold_last : forall (l : list X) b, fold_left (fun _ x => Some x) l b = match last_of l with Some x => Some x | None => b end.
  Proof.
    intros l b. unfold last_of. destruct l as [|x l _] using rev_ind; [reflexivity|].
    rewrite fold_left_app, rev_app_distr. reflexivity.
  Qed.
  Lemma gives_last : forall it l fuel, gives next it l -> (length l < fuel)%nat -> it_last next fuel it = Ret (last_of l).
  Proof.
    intros it l fuel H F. unfold it_last. rewrite (gives_fold it l H) by exact F. rewrite fold_last. now destruct (last_of l).
  Qed.
  Lemma gives_collect : forall it l fuel, gives next it l -> (length l < fuel)%nat -> it_collect next fuel it = Ret l.
  Proof.
    intros it l fuel H F. unfold it_collect. rewrite (gives_fold it l H) by exact F. f_equal.
    assert (G : forall b, fold_left (fun l (x : X) => l ++ [x]) l b = b ++ l).
    { clear. induction l as [|x l IH]; intros b; cbn [fold_left]; [now rewrite app_nil_r|]. rewrite IH, <- app_assoc. reflexivity. }
    now rewrite G.
  Qed.
  Lemma gives_nth : forall it l n, gives next it l -> fst (it_nth next n it) = nth_error l n.
  Proof.
    intros it l n H. revert n. induction H as [it it' H|it x it' l H G IH]; intros [|n]; cbn [it_nth nth_error]; rewrite H; cbn [fst]; auto.
  Qed.
  Lemma gives_after_nth : forall it l n, gives next it l -> (n < length l)%nat -> gives next (snd (it_nth next n it)) (skipn (S n) l).
  Proof.
    intros it l n H. revert n. induction H as [it it' H|it x it' l H G IH]; intros n L; cbn in L; [lia|].
    destruct n as [|n]; cbn [it_nth]; rewrite H; cbn [snd].
    - exact G.
    - cbn [skipn]. apply IH. lia.
  Qed.

  Lemma gives_take : forall it l m, gives next it l -> gives (take_next next) (m, it) (firstn m l).
  Proof.
    intros it l m H. revert m. induction H as [it it' H|it x it' l H G IH]; intros [|m]; cbn [firstn];
      try (eapply Gives_end; cbn [take_next]; reflexivity).
    - eapply Gives_end. cbn [take_next]. rewrite H. reflexivity.
    - eapply Gives_item; [cbn [take_next]; rewrite H; reflexivity|]. apply IH.
  Qed.
  Lemma gives_skip0 : forall it l, gives next it l -> gives (skip_next next) (O, it) l.
  Proof.
    intros it l H. induction H as [it it' H|it x it' l H G IH].
    - eapply Gives_end. cbn [skip_next]. rewrite H. reflexivity.
    - eapply Gives_item; [cbn [skip_next]; rewrite H; reflexivity|]. exact IH.
  Qed.
  Lemma gives_skip : forall it l m, gives next it l -> gives (skip_next next) (m, it) (skipn m l).
  Proof.
    intros it l [|m] H; [now apply gives_skip0|].
    pose proof (gives_nth it l (S m) H) as HN. pose proof (gives_after_nth it l (S m) H) as HA.
    destruct (it_nth next (S m) it) as [r it'] eqn:E1. cbn [fst snd] in *.
    destruct (nth_error l (S m)) as [x|] eqn:E2; subst r.
    - assert (L : (S m < length l)%nat) by (apply nth_error_Some; congruence).
      assert (X1 : skipn (S m) l = x :: skipn (S (S m)) l).
      { clear -E2. revert E2. generalize (S m) as k. induction l as [|y l IH]; intros [|k] E2; try discriminate; cbn in *.
        - injection E2 as ->. reflexivity.
        - rewrite IH by exact E2. reflexivity. }
      rewrite X1. eapply Gives_item; [cbn [skip_next]; rewrite E1; reflexivity|]. apply gives_skip0. now apply HA.
    - apply nth_error_None in E2. rewrite skipn_all2 by exact E2.
      eapply Gives_end. cbn [skip_next]. rewrite E1. reflexivity.
  Qed.
  Lemma gives_enumerate : forall it l i, gives next it l -> gives (enumerate_next next) (i, it) (combine (seq i (length l)) l).
  Proof.
    intros it l i H. revert i. induction H as [it it' H|it x it' l H G IH]; intros i; cbn [length seq combine].
    - eapply Gives_end. cbn [enumerate_next]. rewrite H. reflexivity.
    - eapply Gives_item; [cbn [enumerate_next]; rewrite H; reflexivity|]. apply IH.
  Qed.

  (** [every s l] from position [j] of a round. *)
  Definition every_from (s j : nat) (l : list X) : list X :=
    flat_map (fun i => match nth_error l i with Some x => if Nat.eqb ((i + j) mod s) 0 then [x] else [] | None => [] end) (seq 0 (length l)).
  Lemma every_cons : forall s j x l, every_from s j (x :: l) =
    (if Nat.eqb (j mod s) 0 then [x] else []) ++ every_from s (S j) l.
  Proof.
    intros s j x l. unfold every_from. cbn [length seq flat_map nth_error plus]. f_equal.
    rewrite <- seq_shift, !flat_map_concat_map, map_map. f_equal. apply map_ext. intros i. cbn [nth_error].
    now replace (S i + j)%nat with (i + S j)%nat by lia.
  Qed.
  Lemma every_skip : forall s j l d, s <> O -> (0 < j)%nat -> (j + d = s)%nat -> every_from s j l = every_from s s (skipn d l).
  Proof.
    intros s j l d S0. revert j l. induction d as [|d IH]; intros j l J D.
    - cbn [skipn]. f_equal. lia.
    - destruct l as [|x l]; [reflexivity|]. rewrite every_cons. rewrite Nat.mod_small by lia.
      destruct (Nat.eqb j 0) eqn:E; [apply Nat.eqb_eq in E; lia|]. cbn [app skipn]. apply IH; lia.
  Qed.
  Lemma every_period : forall s l, s <> O -> every_from s s l = every_from s 0 l.
  Proof.
    intros s l S0. unfold every_from. rewrite !flat_map_concat_map. f_equal. apply map_ext. intros i.
    replace (i + s)%nat with (i + 1 * s)%nat by lia. rewrite Nat.mod_add by exact S0. now rewrite Nat.add_0_r.
  Qed.
  Lemma every_head : forall s x l, s <> O -> every_from s 0 (x :: l) = x :: every_from s 0 (skipn (s - 1) l).
  Proof.
    intros s x l S0. rewrite every_cons. rewrite Nat.mod_0_l by exact S0. cbn [Nat.eqb app]. f_equal.
    destruct (Nat.eq_dec s 1) as [->|S1].
    - cbn [Nat.sub skipn]. now rewrite every_period.
    - rewrite (every_skip s 1 l (s - 1)) by lia. now apply every_period.
  Qed.
  Lemma gives_step_later : forall s k it l, s <> O -> (length l <= k)%nat -> gives next it l ->
    gives (step_by_next next) ((s - 1, false)%nat, it) (every_from s 0 (skipn (s - 1) l)).
  Proof.
    intros s k. induction k as [|k IH]; intros it l S0 L H.
    - destruct l; [|cbn in L; lia]. rewrite skipn_nil. pose proof (gives_nth it [] (s - 1) H) as HN.
      destruct (it_nth next (s - 1) it) as [r it''] eqn:E1. cbn [fst] in HN.
      assert (HR : r = None) by (rewrite HN; now destruct (s - 1)%nat). clear HN. subst r.
      eapply Gives_end. cbn [step_by_next]. rewrite E1. reflexivity.
    - pose proof (gives_nth it l (s - 1) H) as HN. pose proof (gives_after_nth it l (s - 1) H) as HA.
      destruct (it_nth next (s - 1) it) as [r it'] eqn:E1. cbn [fst snd] in *.
      destruct (nth_error l (s - 1)) as [x|] eqn:E2; subst r.
      + assert (LL : (s - 1 < length l)%nat) by (apply nth_error_Some; congruence).
        assert (X1 : skipn (s - 1) l = x :: skipn (S (s - 1)) l).
        { clear -E2. revert E2. generalize (s - 1)%nat as j. induction l as [|y l IH]; intros [|j] E2; try discriminate; cbn in *.
          - injection E2 as ->. reflexivity.
          - rewrite IH by exact E2. reflexivity. }
        rewrite X1, every_head by exact S0.
        eapply Gives_item; [cbn [step_by_next]; rewrite E1; reflexivity|].
        apply IH; [exact S0| |now apply HA]. rewrite skipn_length. lia.
      + apply nth_error_None in E2. rewrite skipn_all2 by exact E2.
        eapply Gives_end. cbn [step_by_next]. rewrite E1. reflexivity.
  Qed.
  Lemma gives_step : forall s it l, s <> O -> gives next it l -> gives (step_by_next next) ((s - 1, true)%nat, it) (every s l).
  Proof.
    intros s it l S0 H. assert (X0 : every s l = every_from s 0 l).
    { unfold every, every_from. rewrite !flat_map_concat_map. f_equal. apply map_ext. intros i. now rewrite Nat.add_0_r. }
    rewrite X0. inversion H as [it0 it' E|it0 x it' l' E G]; subst.
    - eapply Gives_end. cbn [step_by_next]. rewrite E. reflexivity.
    - rewrite every_head by exact S0. eapply Gives_item; [cbn [step_by_next]; rewrite E; reflexivity|].
      now apply gives_step_later with (length l').
  Qed.
End Iter.

Lemma gives_zip : forall A X B Y (next : A -> option X * A) (next' : B -> option Y * B) a l b m,
  gives next a l -> gives next' b m -> gives (zip_next next next') (a, b) (combine l m).
Proof.
  intros A X B Y next next' a l b m H. revert b m. induction H as [a a' H|a x a' l H G IH]; intros b m K; cbn [combine].
  - eapply Gives_end. cbn [zip_next]. rewrite H. reflexivity.
  - destruct K as [b b' K|b y b' m K K'].
    + eapply Gives_end. cbn [zip_next]. rewrite H, K. reflexivity.
    + eapply Gives_item; [cbn [zip_next]; rewrite H, K; reflexivity|]. now apply IH.
Qed.

(** ** Chunks *)

Lemma calls_split : forall k j c, chunks_calls (k + j) c =
  (fst (chunks_calls k c) ++ fst (chunks_calls j (snd (chunks_calls k c))), snd (chunks_calls j (snd (chunks_calls k c)))).
Proof.
  induction k as [|k IH]; intros j c; cbn [plus chunks_calls fst snd app].
  - now destruct (chunks_calls j c).
  - destruct (chunks_next c) as [r c']. rewrite IH. destruct (chunks_calls k c') as [rs c'']. reflexivity.
Qed.
Lemma calls_give : forall l it extra, fst (chunks_calls (length l + S extra) it) = map Some l ++ repeat None (S extra) -> gives chunks_next it l.
Proof.
  induction l as [|x l IH]; intros it extra H.
  - cbn [length plus chunks_calls] in H. destruct (chunks_next it) as [r it'] eqn:E. destruct (chunks_calls extra it') as [rs it''].
    cbn in H. injection H as -> _. eapply Gives_end. exact E.
  - cbn [length plus chunks_calls] in H. destruct (chunks_next it) as [r it'] eqn:E.
    destruct (chunks_calls (length l + S extra) it') as [rs it''] eqn:E2. cbn [fst map app] in H. injection H as -> H.
    eapply Gives_item; [exact E|]. apply IH with extra. rewrite E2. exact H.
Qed.
Lemma chunks_give : forall p n k c, payload_chunks p n = Ret c -> gives chunks_next (snd (chunks_calls k c)) (skipn k (chunk_list n p)).
Proof.
  intros p n k c H.
  assert (N0 : n <> 0) by (intros ->; discriminate H).
  pose proof (chunk_list_length n p) as L.
  pose proof (calls_complete p n (k + (length (skipn k (chunk_list n p)) + S (length (chunk_list n p)))) c N0 H) as C.
  specialize (C ltac:(lia)). rewrite calls_split in C. cbn [fst] in C.
  pose proof (calls_complete p n (k + length (chunk_list n p)) c N0 H ltac:(lia)) as C0.
  apply calls_give with (length (chunk_list n p)).
  assert (LK : length (fst (chunks_calls k c)) = k).
  { clear. revert c. induction k as [|k IH]; intros c; [reflexivity|]. cbn [chunks_calls]. destruct (chunks_next c) as [r c'].
    specialize (IH c'). destruct (chunks_calls k c'). cbn in *. now f_equal. }
  apply (f_equal (skipn k)) in C. rewrite skipn_app, LK, Nat.sub_diag, skipn_all2 in C by lia. cbn [skipn app] in C. rewrite C.
  rewrite skipn_app, map_length, skipn_map. rewrite skipn_length in *.
  destruct (Nat.le_gt_cases k (length (chunk_list n p))) as [K|K].
  - replace (k - length (chunk_list n p))%nat with O by lia. cbn [skipn]. f_equal. f_equal. lia.
  - rewrite (skipn_all2 (chunk_list n p)) by lia. cbn [map app].
    replace (length (chunk_list n p) - k)%nat with O by lia. cbn [plus].
    set (m := length (chunk_list n p)) in *. replace (k + S m - m)%nat with (k - m + S m)%nat by lia.
    rewrite repeat_app, skipn_app, skipn_all2 by (rewrite repeat_length; lia). rewrite repeat_length, Nat.sub_diag. reflexivity.
Qed.

Lemma chunk_methods : forall p n k c, payload_chunks p n = Ret c ->
  let it := snd (chunks_calls k c) in
  let l := skipn k (chunk_list n p) in
  forall fuel, (length l < fuel)%nat ->
  it_count chunks_next fuel it = Ret (pieces_of n p - N.of_nat k) /\
  it_last chunks_next fuel it = Ret (last_of l) /\
  it_collect chunks_next fuel it = Ret l.
Proof.
  intros p n k c H it l fuel F. pose proof (chunks_give p n k c H) as G. fold it l in G.
  split; [|split; [now apply gives_last|now apply gives_collect]].
  rewrite (gives_count chunks_next it l fuel G F). f_equal. unfold l. rewrite skipn_length.
  pose proof (chunk_list_length n p). lia.
Qed.
Lemma chunk_nth_method : forall p n k j c, payload_chunks p n = Ret c ->
  let r := it_nth chunks_next j (snd (chunks_calls k c)) in
  fst r = nth_error (chunk_list n p) (k + j) /\ gives chunks_next (snd r) (skipn (k + j + 1) (chunk_list n p)).
Proof.
  intros p n k j c H r. pose proof (chunks_give p n k c H) as G. split.
  - subst r. rewrite (gives_nth chunks_next _ _ j G).
    clear. revert k. induction (chunk_list n p) as [|x l IH]; intros [|k]; cbn; try reflexivity; [now destruct j|apply IH].
  - destruct (Nat.lt_ge_cases (k + j) (length (chunk_list n p))) as [L|L].
    + subst r. pose proof (gives_after_nth chunks_next _ _ j G) as GA. rewrite skipn_length in GA. specialize (GA ltac:(lia)).
      assert (SS : forall X (l : list X) a b, skipn a (skipn b l) = skipn (b + a) l).
      { clear. intros X l a b. revert l. induction b as [|b IH]; intros l; [reflexivity|]. destruct l as [|x l]; [cbn; now rewrite skipn_nil|]. cbn. apply IH. }
      rewrite SS in GA. now replace (k + j + 1)%nat with (k + S j)%nat by lia.
    + rewrite skipn_all2 by lia. subst r.
      (* the iterator is exhausted and stays so *)
      assert (G0 : forall j it l, gives chunks_next it l -> (length l <= j)%nat -> gives chunks_next (snd (it_nth chunks_next j it)) []).
      { clear. induction j as [|j IH]; intros it l G L.
        - destruct l; [|cbn in L; lia]. inversion G as [x x' E|]; subst. cbn [it_nth].
          unfold chunks_next in *. destruct (ch_metadata it) eqn:E1, (ch_data it) eqn:E2;
            try (destruct (part_next _ _), (part_next _ _); discriminate E). cbn [snd].
          eapply Gives_end. unfold chunks_next. rewrite E1, E2. reflexivity.
        - inversion G as [x x' E|x y x' l' E G']; subst; cbn [it_nth]; rewrite E; cbn [snd].
          + unfold chunks_next in E. destruct (ch_metadata it) eqn:E1, (ch_data it) eqn:E2;
              try (destruct (part_next _ _), (part_next _ _); discriminate E). injection E as <-.
            eapply Gives_end. unfold chunks_next. rewrite E1, E2. reflexivity.
          + apply IH with l'; [exact G'|cbn in L; lia]. }
      apply G0 with (skipn k (chunk_list n p)); [exact G|]. rewrite skipn_length. lia.
Qed.
Lemma chunk_adaptors : forall p n k c, payload_chunks p n = Ret c ->
  let it := snd (chunks_calls k c) in
  let l := skipn k (chunk_list n p) in
  (forall m, gives (take_next chunks_next) (m, it) (firstn m l)) /\
  (forall m, gives (skip_next chunks_next) (m, it) (skipn m l)) /\
  (forall s, s <> O -> gives (step_by_next chunks_next) ((s - 1, true)%nat, it) (every s l)) /\
  gives (enumerate_next chunks_next) (O, it) (numbered l) /\
  (forall A X (next : A -> option X * A) it' l', gives next it' l' -> gives (zip_next chunks_next next) (it, it') (combine l l')).
Proof.
  intros p n k c H it l. pose proof (chunks_give p n k c H) as G. fold it l in G.
  repeat split; intros; [now apply gives_take|now apply gives_skip|now apply gives_step|now apply gives_enumerate|now apply gives_zip].
Qed.
