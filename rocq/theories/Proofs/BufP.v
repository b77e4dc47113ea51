(** * The buffer list *)

From Verif Require Import Model.BufM Spec.Buf Proofs.EatP Proofs.StableP.

(** ** The same operations on lists of bytes *)

Definition l_new : list bytes := [].
Definition l_push (bd : build) (buf : bytes) (l : list bytes) : oc (list bytes) :=
  match bd, buf with
  | Debug, [] => Panic                        (* debug_assert!(buf.has_remaining()) *)
  | _, _ => Ret (l ++ [buf])
  end.
Definition l_remaining (l : list bytes) : nat := fold_right (fun b n => length b + n)%nat O l.
Definition l_chunk (l : list bytes) : bytes := match l with b :: _ => b | [] => [] end.

Fixpoint l_advance (cnt : nat) (l : list bytes) : oc (list bytes) :=
  match cnt with
  | O => Ret l
  | S _ =>
    match l with
    | [] => Panic                             (* self.bufs[0] *)
    | front :: rest =>
      let rem := length front in
      if Nat.ltb cnt rem then Ret (skipn cnt front :: rest)
      else l_advance (cnt - rem) rest
    end
  end.

Fixpoint l_put_take (fuel limit : nat) (acc : bytes) (l : list bytes) : oc (bytes * list bytes) :=
  match Nat.min (l_remaining l) limit with
  | O => Ret (acc, l)
  | S _ =>
    match fuel with
    | O => Loop
    | S fuel' =>
      let s := firstn (Nat.min (length (l_chunk l)) limit) (l_chunk l) in
      match l_advance (length s) l with
      | Ret l' => l_put_take fuel' (limit - length s) (acc ++ s) l'
      | Panic => Panic
      | Loop => Loop
      end
    end
  end.

Definition l_copy_slow (fuel len : nat) (l : list bytes) : oc (bytes * list bytes) :=
  if Nat.leb len (l_remaining l) then l_put_take fuel len [] l
  else Panic.                                 (* assert!(len <= self.remaining()) *)
Definition l_copy_to_bytes (fuel len : nat) (l : list bytes) : oc (bytes * list bytes) :=
  match l with
  | front :: rest =>
    if Nat.eqb (length front) len then
      match flat_copy_to_bytes len front with
      | Ret (b, _) => Ret (b, rest)           (* pop_front *)
      | Panic => Panic
      | Loop => Loop
      end
    else if Nat.ltb len (length front) then
      match flat_copy_to_bytes len front with
      | Ret (b, front') => Ret (b, front' :: rest)
      | Panic => Panic
      | Loop => Loop
      end
    else l_copy_slow fuel len l
  | [] => l_copy_slow fuel len l
  end.

Fixpoint l_vectored_loop (slots : nat) (l : list bytes) : list bytes :=
  match l with
  | [] => []
  | b :: rest =>
    let w := flat_vectored slots b in
    let slots' := (slots - length w)%nat in
    match slots' with
    | O => w                                  (* break *)
    | S _ => w ++ l_vectored_loop slots' rest
    end
  end.
Definition l_vectored (slots : nat) (l : list bytes) : list bytes :=
  match slots with O => [] | S _ => l_vectored_loop slots l end.

Fixpoint l_try_into_loop (l : list bytes) (meta data : bytes) : dres payload :=
  match l with
  | [] =>
    DOk (payload_new (match meta with [] => None | _ => Some meta end)
                     (match data with [] => None | _ => Some data end))
  | v :: rest =>
    match fst (decode v) with
    | DOk f =>
      let (m, d) := fragment_parts f in
      l_try_into_loop rest (put_opt meta m) (put_opt data d)
    | DErr e => DErr e
    | DPanic => DPanic
    | DLoop => DLoop
    end
  end.
Definition l_try_into (l : list bytes) : dres payload := l_try_into_loop l [] [].

Fixpoint l_run (bd : build) (fuel : nat) (ops : list (buf_op bytes)) (l : list bytes) : list buf_res * list bytes :=
  match ops with
  | [] => ([], l)
  | OpPush b :: ops' =>
    match l_push bd b l with
    | Ret l' => let (r, l'') := l_run bd fuel ops' l' in (ResUnit :: r, l'')
    | Panic => ([ResPanic], l)
    | Loop => ([ResLoop], l)
    end
  | OpRemaining :: ops' =>
    let (r, l'') := l_run bd fuel ops' l in (ResNum (l_remaining l) :: r, l'')
  | OpAdvance n :: ops' =>
    match l_advance n l with
    | Ret l' => let (r, l'') := l_run bd fuel ops' l' in (ResUnit :: r, l'')
    | Panic => ([ResPanic], l)
    | Loop => ([ResLoop], l)
    end
  | OpCopy n :: ops' =>
    match l_copy_to_bytes fuel n l with
    | Ret (b, l') => let (r, l'') := l_run bd fuel ops' l' in (ResBytes b :: r, l'')
    | Panic => ([ResPanic], l)
    | Loop => ([ResLoop], l)
    end
  end.

Lemma remaining_concat : forall l, l_remaining l = length (concat l).
Proof.
  induction l as [|b l IH]; [reflexivity|]. cbn [l_remaining fold_right concat]. rewrite app_length.
  unfold l_remaining in IH. now rewrite IH.
Qed.

Lemma chunk_prefix : forall l, exists r, concat l = l_chunk l ++ r.
Proof. intros [|b l]; [now exists []|]. now exists (concat l). Qed.
Lemma chunk_solid : forall l, solid l -> l <> [] -> l_chunk l <> [].
Proof. intros [|b l] S H; [congruence|]. now inversion S. Qed.
Lemma solid_empty : forall l, solid l -> concat l = [] -> l = [].
Proof.
  intros [|b l] S E; [reflexivity|]. inversion S as [|x y P Q]; subst. cbn in E. apply app_eq_nil in E as [E _]. congruence.
Qed.

Lemma skipn_add : forall {A} a b (l : list A), skipn a (skipn b l) = skipn (b + a) l.
Proof.
  intros A a b. induction b as [|b IH]; intros l; [reflexivity|].
  destruct l as [|x l]; [now rewrite !skipn_nil|]. cbn [skipn Nat.add]. apply IH.
Qed.

(** What an operation leaves. *)
Definition leaves (l l' : list bytes) (rest : bytes) : Prop :=
  concat l' = rest /\ (solid l -> solid l') /\ (length l' <= length l)%nat.

Lemma advance_spec : forall l cnt,
  if Nat.leb cnt (length (concat l))
  then exists l', l_advance cnt l = Ret l' /\ leaves l l' (skipn cnt (concat l))
  else l_advance cnt l = Panic.
Proof.
  unfold leaves. induction l as [|b l IH]; intros cnt.
  - destruct cnt; cbn [concat length Nat.leb l_advance]; [|reflexivity].
    exists []. repeat split; auto.
  - destruct cnt as [|c]; [exists (b :: l); cbn; auto|]. set (cnt := S c).
    replace (l_advance cnt (b :: l)) with
      (if Nat.ltb cnt (length b) then Ret (skipn cnt b :: l) else l_advance (cnt - length b) l) by reflexivity.
    cbn [concat]. rewrite app_length, skipn_app.
    destruct (Nat.ltb_spec cnt (length b)) as [L|L].
    + rewrite (proj2 (Nat.leb_le _ _)) by lia. exists (skipn cnt b :: l). split; [reflexivity|].
      replace (cnt - length b)%nat with O by lia. cbn [concat skipn]. repeat split.
      * intros S. inversion S as [|x y P Q]; subst. constructor; [|exact Q].
        intros E. apply (f_equal (@length byte)) in E. rewrite skipn_length in E. cbn in E. lia.
      * cbn. lia.
    + specialize (IH (cnt - length b)%nat). rewrite (skipn_all2 b) by lia. cbn [app].
      destruct (Nat.leb_spec (cnt - length b) (length (concat l))) as [M|M].
      * rewrite (proj2 (Nat.leb_le _ _)) by lia. destruct IH as (l' & E & C & S & Ln).
        exists l'. repeat split; auto.
        -- intros S'. inversion S'; auto.
        -- cbn. lia.
      * rewrite (proj2 (Nat.leb_gt _ _)) by lia. exact IH.
Qed.

(** One turn of either copying loop over a solid list. *)
Lemma turn : forall l k, solid l -> (0 < k <= length (concat l))%nat ->
  let s := firstn (Nat.min (length (l_chunk l)) k) (l_chunk l) in
  (0 < length s <= k)%nat /\ length s = Nat.min (length (l_chunk l)) k /\
  s = firstn (length s) (concat l) /\
  exists l', l_advance (length s) l = Ret l' /\ leaves l l' (skipn (length s) (concat l)) /\
    (length s = k \/ (length l' < length l)%nat).
Proof.
  intros l k S H s. destruct l as [|b l]; [cbn in H; lia|]. cbn [l_chunk] in s.
  inversion S as [|x y P Q]; subst x y.
  assert (Lb : (0 < length b)%nat) by (destruct b; [congruence|cbn; lia]).
  assert (Ls : length s = Nat.min (length b) k).
  { unfold s. rewrite firstn_length. lia. }
  split; [lia|]. split; [exact Ls|]. split.
  { cbn [concat]. rewrite firstn_app. replace (length s - length b)%nat with O by lia. cbn [firstn].
    rewrite app_nil_r, Ls. reflexivity. }
  pose proof (advance_spec (b :: l) (length s)) as A.
  rewrite (proj2 (Nat.leb_le _ _)) in A by lia. destruct A as (l' & E & Lv). exists l'. split; [exact E|]. split; [exact Lv|].
  destruct (Nat.le_gt_cases k (length b)) as [M|M]; [left; lia|]. right.
  assert (Es : length s = length b) by lia. rewrite Es in E.
  destruct (length b) as [|n] eqn:Eb; [lia|]. cbn [l_advance] in E. rewrite Eb in E.
  rewrite Nat.ltb_irrefl, Nat.sub_diag in E. destruct l as [|b2 l2].
  - cbn in E. injection E as <-. cbn. lia.
  - cbn in E. injection E as <-. cbn. lia.
Qed.

Lemma put_take_spec : forall fuel limit acc l, solid l -> (limit <= length (concat l))%nat ->
  (length l <= fuel)%nat ->
  exists l', l_put_take fuel limit acc l = Ret (acc ++ firstn limit (concat l), l') /\
    leaves l l' (skipn limit (concat l)).
Proof.
  induction fuel as [|fuel IH]; intros limit acc l S H F.
  - destruct l; [|cbn in F; lia]. cbn in H. replace limit with O by lia. cbn.
    exists []. rewrite app_nil_r. repeat split; auto.
  - cbn [l_put_take]. rewrite remaining_concat. rewrite Nat.min_r by lia. destruct limit as [|k].
    + exists l. cbn [firstn skipn]. rewrite app_nil_r. repeat split; auto.
    + destruct (turn l (Datatypes.S k) S) as (L0 & L1 & Es & l1 & E1 & (C1 & S1 & N1) & Dr); [lia|].
      set (s := firstn (Nat.min (length (l_chunk l)) (Datatypes.S k)) (l_chunk l)) in *.
      rewrite E1.
      assert (Lc : length (concat l1) = (length (concat l) - length s)%nat) by (rewrite C1; apply skipn_length).
      destruct (Nat.eq_dec (length s) (Datatypes.S k)) as [Ek|Nk].
      * replace (Datatypes.S k - length s)%nat with O by lia.
        exists l1. split.
        -- destruct fuel; cbn [l_put_take]; rewrite Nat.min_0_r; rewrite Es, Ek; reflexivity.
        -- rewrite <- Ek. repeat split; auto.
      * destruct (IH (Datatypes.S k - length s)%nat (acc ++ s) l1 (S1 S)) as (l2 & E2 & C2 & S2 & N2); [lia|lia|].
        exists l2. rewrite E2. rewrite C1. split.
        -- f_equal. f_equal. rewrite <- app_assoc. f_equal.
           rewrite Es at 1.
           assert (X : forall (a b : nat) (m : bytes), (a <= b)%nat ->
             firstn a m ++ firstn (b - a) (skipn a m) = firstn b m).
           { induction a as [|a IHa]; intros b m Hab; [now rewrite Nat.sub_0_r|].
             destruct m; [now rewrite !firstn_nil|]. destruct b; [lia|]. cbn. f_equal. apply IHa. lia. }
           apply X. lia.
        -- unfold leaves. rewrite C2, C1, skipn_add. split; [f_equal; lia|]. split; [auto|lia].
Qed.

Lemma copy_spec : forall fuel len l, solid l -> (length l <= fuel)%nat ->
  if Nat.leb len (length (concat l))
  then exists l', l_copy_to_bytes fuel len l = Ret (firstn len (concat l), l') /\
         leaves l l' (skipn len (concat l))
  else l_copy_to_bytes fuel len l = Panic.
Proof.
  intros fuel len l S F.
  assert (Slow : if Nat.leb len (length (concat l))
    then exists l', l_copy_slow fuel len l = Ret (firstn len (concat l), l') /\
           leaves l l' (skipn len (concat l))
    else l_copy_slow fuel len l = Panic).
  { unfold l_copy_slow. rewrite remaining_concat. destruct (Nat.leb_spec len (length (concat l))) as [L|L]; [|reflexivity].
    exact (put_take_spec fuel len [] l S L F). }
  destruct l as [|b l]; [exact Slow|]. unfold l_copy_to_bytes.
  inversion S as [|x y P Q]; subst x y.
  destruct (Nat.eqb_spec (length b) len) as [E|E].
  - cbn [concat]. rewrite app_length, (proj2 (Nat.leb_le _ _)) by lia. unfold flat_copy_to_bytes.
    rewrite (proj2 (Nat.leb_le _ _)) by lia. exists l. split.
    + f_equal. f_equal. subst len. rewrite firstn_app, Nat.sub_diag, firstn_all. cbn [firstn]. now rewrite app_nil_r.
    + unfold leaves. subst len. rewrite skipn_app, Nat.sub_diag, skipn_all. cbn. auto.
  - destruct (Nat.ltb_spec len (length b)) as [L|L]; [|exact Slow].
    cbn [concat]. rewrite app_length, (proj2 (Nat.leb_le _ _)) by lia. unfold flat_copy_to_bytes.
    rewrite (proj2 (Nat.leb_le _ _)) by lia. exists (skipn len b :: l). split.
    + f_equal. f_equal. rewrite firstn_app. replace (len - length b)%nat with O by lia. cbn [firstn]. now rewrite app_nil_r.
    + unfold leaves. rewrite skipn_app. replace (len - length b)%nat with O by lia. cbn [skipn concat].
      split; [reflexivity|]. split; [|cbn; lia]. intros _. constructor; [|exact Q].
      intros Z. apply (f_equal (@length byte)) in Z. rewrite skipn_length in Z. cbn in Z. lia.
Qed.

(** ** Histories *)

Lemma run_queue : forall bd fuel ops l, solid l -> solid (pushes ops) ->
  (length l + length (pushes ops) <= fuel)%nat ->
  let (r, l') := l_run bd fuel ops l in
  queue_run ops (concat l) = (r, concat l') /\ solid l'.
Proof.
  intros bd fuel ops. induction ops as [|o ops IH]; intros l S P F.
  - cbn. auto.
  - destruct o as [b| |n|n]; cbn [l_run queue_run queue_step].
    + cbn [pushes flat_map app] in P, F. inversion P as [|x y Pb P']; subst x y.
      replace (l_push bd b l) with (Ret (l ++ [b])) by (destruct bd, b; reflexivity || congruence).
      specialize (IH (l ++ [b])). rewrite concat_app in IH. cbn [concat] in IH. rewrite app_nil_r in IH.
      destruct (l_run bd fuel ops (l ++ [b])) as [r l'].
      destruct IH as [IH1 IH2].
      * apply Forall_app. split; [exact S|]. constructor; [exact Pb|constructor].
      * exact P'.
      * rewrite app_length. cbn [length] in F |- *. unfold pushes in F |- *. lia.
      * rewrite IH1. auto.
    + specialize (IH l S P F). destruct (l_run bd fuel ops l) as [r l']. destruct IH as [IH1 IH2].
      rewrite IH1, remaining_concat. auto.
    + pose proof (advance_spec l n) as A. destruct (Nat.leb n (length (concat l))).
      * destruct A as (l1 & E & C & S1 & N1). rewrite E. specialize (IH l1 (S1 S) P).
        destruct (l_run bd fuel ops l1) as [r l']. destruct IH as [IH1 IH2].
        { change (pushes (OpAdvance n :: ops)) with (pushes ops) in F. lia. }
        rewrite <- C, IH1. auto.
      * rewrite A. auto.
    + change (pushes (OpCopy n :: ops)) with (pushes ops) in P, F.
      assert (Fl : (length l <= fuel)%nat) by lia.
      pose proof (copy_spec fuel n l S Fl) as A. destruct (Nat.leb n (length (concat l))).
      * destruct A as (l1 & E & C & S1 & N1). rewrite E. specialize (IH l1 (S1 S) P).
        destruct (l_run bd fuel ops l1) as [r l']. destruct IH as [IH1 IH2]; [lia|].
        rewrite <- C, IH1. auto.
      * rewrite A. auto.
Qed.

(** ** Empty buffers *)

Lemma push_empty : forall bd l, l_push bd [] l = match bd with Debug => Panic | Release => Ret (l ++ [[]]) end.
Proof. now intros [] l. Qed.

Lemma put_take_stuck : forall fuel limit acc rest, (0 < limit)%nat -> (0 < length (concat rest))%nat ->
  l_put_take fuel limit acc ([] :: rest) = Loop.
Proof.
  induction fuel as [|fuel IH]; intros limit acc rest L R; cbn [l_put_take]; rewrite remaining_concat; cbn [concat app].
  - destruct (Nat.min (length (concat rest)) limit) eqn:E; [lia|reflexivity].
  - destruct (Nat.min (length (concat rest)) limit) eqn:E; [lia|]. cbn [l_chunk length Nat.min firstn l_advance app].
    rewrite Nat.sub_0_r. now apply IH.
Qed.

Lemma copy_stuck : forall fuel len rest, (0 < len <= length (concat rest))%nat ->
  l_copy_to_bytes fuel len ([] :: rest) = Loop.
Proof.
  intros fuel len rest H. unfold l_copy_to_bytes. cbn [length].
  destruct len as [|k]; [lia|]. cbn [Nat.eqb Nat.ltb Nat.leb]. unfold l_copy_slow.
  rewrite remaining_concat. cbn [concat app]. rewrite (proj2 (Nat.leb_le _ _)) by lia.
  apply put_take_stuck; lia.
Qed.

(** ** Vectored view *)

Lemma vectored_spec : forall l slots, solid l -> l_vectored slots l = firstn slots l.
Proof.
  intros l slots S. destruct slots as [|n]; [reflexivity|]. unfold l_vectored.
  revert n. induction l as [|b l IH]; intros n; [reflexivity|].
  inversion S as [|x y P Q]; subst x y. cbn [l_vectored_loop].
  destruct b as [|x b]; [congruence|]. cbn [flat_vectored length firstn].
  destruct n as [|n]; [reflexivity|]. replace (Datatypes.S (Datatypes.S n) - 1)%nat with (Datatypes.S n) by lia.
  cbn [app]. rewrite IH by exact Q. reflexivity.
Qed.
Lemma vectored_any : forall l slots,
  (length (l_vectored slots l) <= slots)%nat /\
  l_vectored slots l = firstn slots (filter (fun b => negb (match b with [] => true | _ => false end)) l).
Proof.
  intros l slots. assert (X : l_vectored slots l = firstn slots (filter (fun b => negb (match b with [] => true | _ => false end)) l)).
  { destruct slots as [|n]; [reflexivity|]. unfold l_vectored. revert n.
    induction l as [|b l IH]; intros n; [reflexivity|]. cbn [l_vectored_loop filter].
    destruct b as [|x b]; cbn [flat_vectored length negb firstn app].
    - rewrite Nat.sub_0_r. apply IH.
    - destruct n as [|n]; [reflexivity|]. replace (S (S n) - 1)%nat with (S n) by lia. now rewrite IH. }
  split; [|exact X]. rewrite X, firstn_length. lia.
Qed.
Lemma concat_filter : forall l : list bytes,
  concat (filter (fun b => negb (match b with [] => true | _ => false end)) l) = concat l.
Proof. induction l as [|[|x b] l IH]; cbn; [reflexivity|exact IH|now rewrite IH]. Qed.
Lemma vectored_prefix : forall l slots, exists r, concat l = concat (l_vectored slots l) ++ r.
Proof.
  intros l slots. rewrite (proj2 (vectored_any l slots)), <- concat_filter.
  set (m := filter _ l). exists (concat (skipn slots m)). now rewrite <- concat_app, firstn_skipn.
Qed.

(** ** Exactly when copying does not terminate *)

Lemma early_empty_skip : forall x n l, (length x <= n)%nat -> early_empty (n - length x) l -> early_empty n (x :: l).
Proof.
  intros x n l H (a & b & -> & L). exists (x :: a), b. split; [reflexivity|]. cbn [concat]. rewrite app_length. lia.
Qed.

Lemma advance_front : forall b l, b <> [] -> l_advance (length b) (b :: l) = Ret l.
Proof.
  intros b l H. destruct (length b) as [|n] eqn:E; [destruct b; [congruence|discriminate]|].
  cbn [l_advance]. rewrite E, Nat.ltb_irrefl, Nat.sub_diag. destruct l; reflexivity.
Qed.
Lemma advance_part : forall n b l, (n < length b)%nat -> l_advance n (b :: l) = Ret (skipn n b :: l).
Proof.
  intros [|n] b l H; [reflexivity|]. cbn [l_advance]. now rewrite (proj2 (Nat.ltb_lt _ _)).
Qed.

Lemma put_take_done : forall fuel acc l, l_put_take fuel 0 acc l = Ret (acc, l).
Proof. intros [|fuel] acc l; cbn [l_put_take]; now rewrite Nat.min_0_r. Qed.

Lemma put_take_turn : forall fuel limit acc b l, b <> [] -> (0 < limit)%nat ->
  l_put_take (S fuel) limit acc (b :: l) =
    if Nat.ltb limit (length b) then Ret (acc ++ firstn limit b, skipn limit b :: l)
    else l_put_take fuel (limit - length b) (acc ++ b) l.
Proof.
  intros fuel limit acc b l Hb Hl.
  assert (Lb : (0 < length b)%nat) by (destruct b; [congruence|cbn; lia]).
  cbn [l_put_take]. rewrite remaining_concat. cbn [concat l_chunk]. rewrite app_length.
  destruct (Nat.min (length b + length (concat l)) limit) eqn:E; [lia|].
  destruct (Nat.ltb_spec limit (length b)) as [L|L].
  - rewrite (Nat.min_r (length b) limit) by lia. rewrite firstn_length, Nat.min_l by lia.
    rewrite advance_part by lia. rewrite Nat.sub_diag. apply put_take_done.
  - rewrite (Nat.min_l (length b) limit) by lia. rewrite firstn_all. now rewrite advance_front.
Qed.

Lemma put_take_gen : forall l fuel limit acc, (limit <= length (concat l))%nat -> (length l <= fuel)%nat ->
  ~ early_empty limit l ->
  exists l', l_put_take fuel limit acc l = Ret (acc ++ firstn limit (concat l), l') /\
    concat l' = skipn limit (concat l).
Proof.
  induction l as [|b l IH]; intros fuel limit acc H F NE.
  - cbn in H. replace limit with O by lia. rewrite put_take_done. exists []. now rewrite app_nil_r.
  - destruct limit as [|k].
    { rewrite put_take_done. exists (b :: l). cbn [firstn]. now rewrite app_nil_r. }
    destruct fuel as [|fuel]; [cbn in F; lia|].
    assert (Hb : b <> []). { intros ->. apply NE. exists [], l. split; [reflexivity|cbn; lia]. }
    rewrite put_take_turn by (exact Hb || lia).
    cbn [concat] in *. rewrite app_length in H. rewrite firstn_app, skipn_app.
    destruct (Nat.ltb_spec (S k) (length b)) as [L|L].
    + exists (skipn (S k) b :: l). replace (S k - length b)%nat with O by lia. cbn [firstn skipn concat].
      rewrite app_nil_r. auto.
    + destruct (IH fuel (S k - length b)%nat (acc ++ b)) as (l' & E & C); [lia|cbn in F; lia| |].
      { intros X. apply NE. now apply early_empty_skip. }
      exists l'. rewrite E, C. rewrite (firstn_all2 b), (skipn_all2 b) by lia. rewrite <- app_assoc. auto.
Qed.

Lemma put_take_loops : forall l fuel limit acc, (limit <= length (concat l))%nat ->
  early_empty limit l -> l_put_take fuel limit acc l = Loop.
Proof.
  induction l as [|b l IH]; intros fuel limit acc H (a & c & E & L).
  - destruct a; discriminate.
  - destruct b as [|x b].
    { apply put_take_stuck; [lia|exact (Nat.lt_le_trans _ _ _ (Nat.le_lt_trans _ _ _ (Nat.le_0_l _) L) H)]. }
    destruct a as [|a0 a]; [discriminate|]. injection E as <- ->.
    cbn [concat] in *. rewrite app_length in *.
    set (y := x :: b) in *.
    destruct fuel as [|fuel].
    + cbn [l_put_take]. rewrite remaining_concat. cbn [concat]. rewrite !app_length.
      destruct (Nat.min _ limit) eqn:M; [unfold y in *; cbn [length] in *; lia|reflexivity].
    + rewrite put_take_turn by (discriminate || (unfold y in *; lia)).
      rewrite (proj2 (Nat.ltb_ge _ _)) by lia. apply IH; [lia|].
      exists a, c. split; [reflexivity|lia].
Qed.

Lemma early_empty_dec : forall n l, early_empty n l \/ ~ early_empty n l.
Proof.
  intros n l. revert n. induction l as [|b l IH]; intros n.
  - right. intros (a & c & E & _). destruct a; discriminate.
  - destruct n as [|n]; [right; intros (a & c & _ & L); lia|].
    destruct b as [|x b].
    + left. exists [], l. split; [reflexivity|cbn; lia].
    + destruct (Nat.le_gt_cases (length (x :: b)) (S n)) as [L|L].
      * destruct (IH (S n - length (x :: b))%nat) as [Y|Nn].
        -- left. now apply early_empty_skip.
        -- right. intros (a & c & E & M). apply Nn. destruct a as [|a0 a]; [discriminate|]. injection E as <- ->.
           exists a, c. split; [reflexivity|]. cbn [concat] in M. rewrite app_length in M. lia.
      * right. intros (a & c & E & M). destruct a as [|a0 a]; [discriminate|]. injection E as <- ->.
        cbn [concat] in M. rewrite app_length in M. lia.
Qed.

(** [copy_to_bytes] of an available length diverges exactly when an empty buffer
    comes before the last byte to copy, and otherwise gives the bytes. *)
Lemma copy_diverges_iff : forall len l, (len <= length (concat l))%nat ->
  ((forall fuel, l_copy_to_bytes fuel len l = Loop) <-> early_empty len l) /\
  (~ early_empty len l -> forall fuel, (length l <= fuel)%nat -> exists l',
     l_copy_to_bytes fuel len l = Ret (firstn len (concat l), l') /\
     concat l' = skipn len (concat l)).
Proof.
  intros len l H.
  assert (Yes : early_empty len l -> forall fuel, l_copy_to_bytes fuel len l = Loop).
  { intros X fuel. assert (Y : l_copy_slow fuel len l = Loop).
    { unfold l_copy_slow. rewrite remaining_concat, (proj2 (Nat.leb_le _ _)) by exact H.
      now apply put_take_loops. }
    destruct l as [|b l]; [exact Y|]. unfold l_copy_to_bytes.
    destruct X as (a & c & E & L).
    destruct (Nat.eqb_spec (length b) len) as [Q|Q].
    { exfalso. destruct a as [|a0 a]; injection E as -> ->; cbn [concat length] in *; rewrite ?app_length in *; lia. }
    destruct (Nat.ltb_spec len (length b)) as [M|M]; [|exact Y].
    exfalso. destruct a as [|a0 a]; injection E as -> ->; cbn [concat length] in *; rewrite ?app_length in *; lia. }
  assert (No : ~ early_empty len l -> forall fuel, (length l <= fuel)%nat -> exists l',
     l_copy_to_bytes fuel len l = Ret (firstn len (concat l), l') /\ concat l' = skipn len (concat l)).
  { intros X fuel F. assert (Y : exists l', l_copy_slow fuel len l = Ret (firstn len (concat l), l') /\ concat l' = skipn len (concat l)).
    { unfold l_copy_slow. rewrite remaining_concat, (proj2 (Nat.leb_le _ _)) by exact H.
      now apply put_take_gen. }
    destruct l as [|b l]; [exact Y|]. unfold l_copy_to_bytes.
    destruct (Nat.eqb_spec (length b) len) as [E|E].
    - unfold flat_copy_to_bytes. rewrite (proj2 (Nat.leb_le _ _)) by lia. exists l. subst len. cbn [concat].
      rewrite firstn_app, skipn_app, Nat.sub_diag, firstn_all, skipn_all. cbn [firstn skipn app]. now rewrite app_nil_r.
    - destruct (Nat.ltb_spec len (length b)) as [L|L]; [|exact Y].
      unfold flat_copy_to_bytes. rewrite (proj2 (Nat.leb_le _ _)) by lia. exists (skipn len b :: l). cbn [concat].
      rewrite firstn_app, skipn_app. replace (len - length b)%nat with O by lia. cbn [firstn skipn]. now rewrite app_nil_r. }
  split; [|exact No]. split; [|exact Yes]. intros A. destruct (early_empty_dec len l) as [D|D]; [exact D|].
  exfalso. destruct (No D (length l) (le_n _)) as (l' & E & _). rewrite A in E. discriminate.
Qed.

(** ** Decoding: a buffer list against its concatenation *)

Lemma chunk_is_prefix : forall l, solid l ->
  exists r, concat l = l_chunk l ++ r /\ (l_chunk l = [] -> concat l = []).
Proof.
  intros l S. destruct (chunk_prefix l) as [r E]. exists r. split; [exact E|]. intros Z.
  destruct l as [|b l]; [reflexivity|]. now destruct (chunk_solid _ S ltac:(discriminate)).
Qed.

Lemma firstn_cut : forall (a b : nat) (m : bytes), (a <= b)%nat ->
  firstn a m ++ firstn (b - a) (skipn a m) = firstn b m.
Proof.
  induction a as [|a IHa]; intros b m Hab; [now rewrite Nat.sub_0_r|].
  destruct m; [now rewrite !firstn_nil|]. destruct b; [lia|]. cbn. f_equal. apply IHa. lia.
Qed.

Section Sim.
Context {B : Type} (ops : buf_ops B) (repr : B -> bytes -> Prop) (law : lawful ops repr).
Context (fuel : nat) (enough : (8 <= fuel)%nat).

Definition sim {A} (m : dec B A) (m' : dec bytes A) : Prop := forall l b, repr l b ->
  fst (m l) = fst (m' b) /\ repr (snd (m l)) (snd (m' b)).

Lemma sim_ret : forall {A} (a : A), sim (d_ret a) (d_ret a).
Proof. intros A a l b H. cbn. auto. Qed.
Lemma sim_err : forall {A} e, sim (@d_err _ A e) (d_err e).
Proof. intros A e l b H. cbn. auto. Qed.
Lemma sim_panic : forall {A}, sim (@d_panic _ A) d_panic.
Proof. intros A l b H. cbn. auto. Qed.
Lemma sim_bind : forall {A C} (m : dec B A) m' (k : A -> dec B C) k',
  sim m m' -> (forall a, sim (k a) (k' a)) -> sim (d_bind m k) (d_bind m' k').
Proof.
  intros A C m m' k k' Hm Hk l b H. unfold d_bind. destruct (Hm l b H) as [E S].
  destruct (m l) as [r l1], (m' b) as [r' b1]. cbn [fst snd] in *. subst r'.
  destruct r as [a|e| |]; cbn [fst snd]; auto. now apply Hk.
Qed.
Lemma sim_map : forall {A C} (f : A -> C) m m', sim m m' -> sim (d_map f m) (d_map f m').
Proof. intros. apply sim_bind; [assumption|]. intros. apply sim_ret. Qed.

Lemma sim_remaining : sim (d_remaining ops) (d_remaining flat).
Proof. intros l b H. cbn. rewrite (law_remaining ops repr law l b H). auto. Qed.
Lemma sim_need : forall k, sim (need ops k) (need flat k).
Proof.
  intros k l b H. unfold need. cbn [b_remaining flat]. rewrite (law_remaining ops repr law l b H).
  destruct (Nat.ltb _ k); cbn; auto.
Qed.
Lemma sim_copy : forall k, sim (d_lift (b_copy_to_bytes ops k)) (d_lift (b_copy_to_bytes flat k)).
Proof.
  intros k l b H. unfold d_lift. cbn [b_copy_to_bytes flat]. unfold flat_copy_to_bytes.
  pose proof (law_copy ops repr law l b k H) as P.
  destruct (Nat.leb k (length b)).
  - destruct P as (l' & -> & R). cbn. auto.
  - rewrite P. cbn. auto.
Qed.

Lemma chunk_firstn : forall l b k, repr l b -> (k <= length (b_chunk ops l))%nat ->
  firstn k (b_chunk ops l) = firstn k b.
Proof.
  intros l b k H L. destruct (law_chunk ops repr law l b H) as (r & -> & _).
  rewrite firstn_app. replace (k - length (b_chunk ops l))%nat with O by lia.
  cbn [firstn]. now rewrite app_nil_r.
Qed.
Lemma chunk_le : forall l b, repr l b -> (length (b_chunk ops l) <= length b)%nat.
Proof.
  intros l b H. destruct (law_chunk ops repr law l b H) as (r & -> & _). rewrite app_length. lia.
Qed.

Lemma copy_loop_spec : forall f k acc l b, repr l b -> (k <= length b)%nat -> (k <= f)%nat ->
  exists l', copy_loop ops f k acc l = Ret (acc ++ firstn k b, l') /\ repr l' (skipn k b).
Proof.
  induction f as [|f IH]; intros k acc l b R H F.
  - replace k with O by lia. exists l. cbn. rewrite app_nil_r. auto.
  - destruct k as [|k].
    + exists l. cbn. rewrite app_nil_r. auto.
    + cbn [copy_loop]. set (cnt := Nat.min (length (b_chunk ops l)) (Datatypes.S k)).
      assert (P : (0 < cnt <= Datatypes.S k)%nat).
      { destruct (law_chunk ops repr law l b R) as (r & E & Z).
        destruct (b_chunk ops l) as [|x y] eqn:Ec.
        - rewrite (Z eq_refl) in H. cbn in H. lia.
        - subst cnt. cbn [length]. lia. }
      pose proof (law_advance ops repr law l b cnt R) as A.
      rewrite (proj2 (Nat.leb_le cnt (length b))) in A by lia. destruct A as (l1 & -> & R1).
      destruct (IH (Datatypes.S k - cnt)%nat (acc ++ firstn cnt (b_chunk ops l)) l1 _ R1) as (l2 & E2 & R2).
      { rewrite skipn_length. lia. }
      { lia. }
      exists l2. rewrite E2. split.
      * f_equal. f_equal. rewrite <- app_assoc. f_equal.
        rewrite (chunk_firstn l b) by (auto; subst cnt; lia). apply firstn_cut. lia.
      * rewrite skipn_add in R2. now replace (cnt + (Datatypes.S k - cnt))%nat with (Datatypes.S k) in R2 by lia.
Qed.

Lemma sim_get_be : forall k, (k <= 8)%nat -> sim (d_lift (get_be ops fuel k)) (d_lift (get_be flat 0 k)).
Proof.
  intros k Hk l b H. unfold d_lift, get_be. cbn [b_chunk b_advance flat]. unfold flat_advance.
  destruct (Nat.leb_spec k (length (b_chunk ops l))) as [L|L].
  - pose proof (chunk_le l b H) as Lc.
    rewrite (proj2 (Nat.leb_le k (length b))) by lia.
    pose proof (law_advance ops repr law l b k H) as A.
    rewrite (proj2 (Nat.leb_le k (length b))) in A by lia.
    destruct A as (l' & -> & R). cbn [fst snd]. now rewrite (chunk_firstn l b) by assumption.
  - unfold copy_to_slice. cbn [b_remaining flat]. rewrite (law_remaining ops repr law l b H).
    destruct (Nat.leb_spec k (length b)) as [M|M]; [|cbn; auto].
    destruct (copy_loop_spec fuel k [] l b H) as (l' & -> & R); [exact M|lia|].
    cbn [fst snd app]. auto.
Qed.
Lemma sim_get_u8 : sim (d_lift (get_u8 ops)) (d_lift (get_u8 flat)).
Proof.
  intros l b H. unfold d_lift, get_u8. cbn [b_chunk b_advance b_remaining flat].
  rewrite (law_remaining ops repr law l b H).
  destruct (Nat.leb_spec 1 (length b)) as [L|L]; [|cbn; auto].
  pose proof (law_advance ops repr law l b 1 H) as A. rewrite (proj2 (Nat.leb_le 1 (length b))) in A by lia.
  destruct A as (l' & -> & R).
  destruct (law_chunk ops repr law l b H) as (r & E & Z).
  destruct (b_chunk ops l) as [|x y]; [rewrite (Z eq_refl) in L; cbn in L; lia|].
  subst b. cbn [app flat_advance length Nat.leb fst snd skipn] in *. auto.
Qed.

Ltac sims :=
  repeat first
    [ apply sim_ret | apply sim_err | apply sim_panic | apply sim_need | apply sim_remaining
    | apply sim_copy | apply sim_get_u8 | apply sim_get_be; lia | apply sim_map | assumption
    | apply sim_bind; [|intros ?]
    | match goal with
      | |- sim (let (_, _) := ?x in _) _ => destruct x
      | |- sim (match ?x with _ => _ end) _ => destruct x
      | |- sim (if ?x then _ else _) _ => destruct x
      end ].

Lemma sim_bytes : forall k, sim (eat_bytes ops k) (eat_bytes flat k).
Proof. intros k. unfold eat_bytes. sims. Qed.
Lemma sim_rest : sim (eat_rest ops) (eat_rest flat).
Proof. unfold eat_rest. sims; apply sim_bytes. Qed.
Lemma sim_payload : forall c, sim (eat_payload ops fuel c) (eat_payload flat 0 c).
Proof. intros c. unfold eat_payload, eat_u24, eat_u8, eat_u16. sims; try apply sim_bytes; apply sim_rest. Qed.
Lemma sim_token : forall fl, sim (eat_resume_token ops fuel fl) (eat_resume_token flat 0 fl).
Proof. intros fl. unfold eat_resume_token, eat_u16. sims; apply sim_bytes. Qed.

Lemma sim_frame : sim (frame_decode ops fuel) decode.
Proof.
  unfold decode, frame_decode, eat_stream_id, eat_flags, setup_decode, error_decode, lease_decode,
    keepalive_decode, request_response_decode, request_fnf_decode, request_stream_decode,
    request_channel_decode, request_n_decode, cancel_decode, payload_frame_decode,
    metadata_push_decode, resume_decode, resume_ok_decode, validate_stream_id,
    eat_version, eat_u31, eat_u8, eat_u16, eat_u32, eat_u63.
  repeat first [apply sim_bytes | apply sim_rest | apply sim_payload | apply sim_token
    | apply sim_ret | apply sim_err | apply sim_panic | apply sim_need | apply sim_remaining
    | apply sim_copy | apply sim_get_u8 | apply sim_get_be; lia | apply sim_map
    | apply sim_bind; [|intros ?]
    | match goal with
      | |- sim (let (_, _) := ?x in _) _ => destruct x
      | |- sim (if ?x then _ else _) _ => destruct x
      | |- sim (match ?x with _ => _ end) _ => destruct x
      end ].
  (* the remaining-bytes read of METADATA_PUSH *)
  intros l b H. replace (b_remaining flat b) with (b_remaining ops l).
  - now apply sim_bytes.
  - cbn. exact (law_remaining ops repr law l b H).
Qed.

(** The decoders of the frame types by themselves. *)
Lemma sim_own : forall t sid fl, sim (own_decode ops fuel t sid fl) (own_decode flat 0 t sid fl).
Proof.
  intros t sid fl. unfold own_decode, setup_decode, error_decode, lease_decode,
    keepalive_decode, request_response_decode, request_fnf_decode, request_stream_decode,
    request_channel_decode, request_n_decode, cancel_decode, payload_frame_decode,
    metadata_push_decode, resume_decode, resume_ok_decode, validate_stream_id,
    eat_version, eat_u31, eat_u8, eat_u16, eat_u32, eat_u63.
  repeat first [apply sim_bytes | apply sim_rest | apply sim_payload | apply sim_token
    | apply sim_ret | apply sim_err | apply sim_panic | apply sim_need | apply sim_remaining
    | apply sim_copy | apply sim_get_u8 | apply sim_get_be; lia | apply sim_map
    | apply sim_bind; [|intros ?]
    | match goal with
      | |- sim (let (_, _) := ?x in _) _ => destruct x
      | |- sim (if ?x then _ else _) _ => destruct x
      | |- sim (match ?x with _ => _ end) _ => destruct x
      end ].
  (* the remaining-bytes read of METADATA_PUSH *)
  intros l b H. replace (b_remaining flat b) with (b_remaining ops l).
  - now apply sim_bytes.
  - cbn. exact (law_remaining ops repr law l b H).
Qed.
End Sim.

(** ** Instances *)

Lemma flat_lawful : lawful flat eq.
Proof.
  constructor; intros b s; cbn.
  - now intros ->.
  - intros ->. exists []. rewrite app_nil_r. auto.
  - intros k ->. unfold flat_advance. destruct (Nat.leb k (length s)); eauto.
  - intros k ->. unfold flat_copy_to_bytes. destruct (Nat.leb k (length s)); eauto.
Qed.

Lemma decode_any : forall B (ops : buf_ops B) repr fuel b s, lawful ops repr -> (8 <= fuel)%nat -> repr b s ->
  fst (frame_decode ops fuel b) = fst (decode s) /\ repr (snd (frame_decode ops fuel b)) (snd (decode s)).
Proof. intros B ops repr fuel b s L F R. now apply (sim_frame ops repr L fuel F). Qed.

(** ** Reassembly *)

Lemma fragment_parts_spec : forall f,
  fragment_parts f = match contributes f with Some p => (p_metadata p, p_data p) | None => (None, None) end.
Proof. now intros []. Qed.

Lemma put_opt_part : forall acc o, put_opt acc o = acc ++ part o.
Proof. intros acc [l|]; cbn; [reflexivity|now rewrite app_nil_r]. Qed.

Lemma fragment_bytes : forall f m d acc1 acc2, fragment_parts f = (m, d) ->
  put_opt acc1 m = acc1 ++ meta_of f /\ put_opt acc2 d = acc2 ++ data_of f.
Proof.
  intros f m d acc1 acc2 E. rewrite fragment_parts_spec in E. unfold meta_of, data_of.
  destruct (contributes f) as [p|]; injection E as <- <-; rewrite !put_opt_part; auto.
Qed.

Lemma try_loop_ok : forall l fs meta data,
  Forall2 (fun v f => fst (decode v) = DOk f) l fs ->
  l_try_into_loop l meta data =
  DOk (Payload (absent_if_empty (meta ++ concat (map meta_of fs)))
               (absent_if_empty (data ++ concat (map data_of fs)))).
Proof.
  intros l fs meta data H. revert meta data. induction H as [|v f l fs E H IH]; intros meta data.
  - cbn. rewrite !app_nil_r. reflexivity.
  - cbn [l_try_into_loop map concat]. rewrite E.
    destruct (fragment_parts f) as [m d] eqn:P.
    destruct (fragment_bytes f m d meta data P) as [-> ->]. rewrite IH, <- !app_assoc. reflexivity.
Qed.

Lemma try_loop_stop : forall pre v post fs meta data,
  Forall2 (fun v f => fst (decode v) = DOk f) pre fs ->
  (forall f, fst (decode v) <> DOk f) ->
  l_try_into_loop (pre ++ v :: post) meta data =
  match fst (decode v) with DErr e => DErr e | DPanic => DPanic | _ => DLoop end.
Proof.
  intros pre v post fs meta data H NV. revert meta data. induction H as [|w f l fs E H IH]; intros meta data.
  - cbn [app l_try_into_loop]. destruct (fst (decode v)) as [f|e| |]; try reflexivity. now destruct (NV f).
  - cbn [app l_try_into_loop]. rewrite E. destruct (fragment_parts f). apply IH.
Qed.

Lemma try_into_ok : forall l fs,
  Forall2 (fun v f => fst (decode v) = DOk f) l fs -> l_try_into l = DOk (assembled fs).
Proof. intros l fs H. unfold l_try_into. now rewrite (try_loop_ok l fs). Qed.
Lemma try_into_err : forall pre v post fs e,
  Forall2 (fun v f => fst (decode v) = DOk f) pre fs -> fst (decode v) = DErr e ->
  l_try_into (pre ++ v :: post) = DErr e.
Proof.
  intros pre v post fs e H E. unfold l_try_into. rewrite (try_loop_stop pre v post fs); auto.
  - now rewrite E.
  - intros f. rewrite E. discriminate.
Qed.
Lemma try_into_panic : forall pre v post fs,
  Forall2 (fun v f => fst (decode v) = DOk f) pre fs -> fst (decode v) = DPanic ->
  l_try_into (pre ++ v :: post) = DPanic.
Proof.
  intros pre v post fs H E. unfold l_try_into. rewrite (try_loop_stop pre v post fs); auto.
  - now rewrite E.
  - intros f. rewrite E. discriminate.
Qed.

Lemma drop_empty_bytes : forall f, meta_of (drop_empty_parts f) = meta_of f /\ data_of (drop_empty_parts f) = data_of f.
Proof.
  assert (D : forall o, part (drop_empty o) = part o) by (intros [[|x l]|]; reflexivity).
  intros []; unfold drop_empty_parts, meta_of, data_of; cbn; rewrite ?D; auto.
Qed.

Lemma reassemble_encoded : forall fs l,
  Forall2 (fun f v => in_range f /\ coherent f /\ frame_encode f [] = EOk v) fs l ->
  l_try_into l = DOk (assembled fs).
Proof.
  intros fs l H. assert (X : Forall2 (fun v f => fst (decode v) = DOk f) l (map drop_empty_parts fs)).
  { induction H as [|f v fs l (R & C & E) H IH]; [constructor|]. cbn [map]. constructor; [|exact IH].
    destruct (roundtrip_drop f R C) as (bs & E' & D). specialize (E' []). cbn in E'. rewrite E in E'. injection E' as ->.
    now rewrite D. }
  rewrite (try_into_ok _ _ X). unfold assembled. rewrite !map_map.
  rewrite (map_ext (fun f => meta_of (drop_empty_parts f)) meta_of) by (intros; apply drop_empty_bytes).
  rewrite (map_ext (fun f => data_of (drop_empty_parts f)) data_of) by (intros; apply drop_empty_bytes).
  reflexivity.
Qed.

(** ** [BufList<Bytes>] *)

Lemma push_flat : forall bd b l, bl_push flat bd b l = l_push bd b l.
Proof. now intros [] [|x b] l. Qed.
Lemma advance_flat : forall l n, bl_advance flat n l = l_advance n l.
Proof.
  induction l as [|b l IH]; intros [|n]; try reflexivity.
  cbn [bl_advance l_advance b_remaining b_advance flat]. unfold flat_advance.
  destruct (Nat.ltb_spec (S n) (length b)) as [L|L].
  - now rewrite (proj2 (Nat.leb_le _ _)) by lia.
  - rewrite Nat.leb_refl. apply IH.
Qed.
Lemma put_take_flat : forall c v fuel limit acc l,
  put_take (BufOps (bl_remaining flat) (bl_chunk flat) (bl_advance flat) c v) fuel limit acc l =
  l_put_take fuel limit acc l.
Proof.
  intros c v fuel. induction fuel as [|fuel IH]; intros limit acc l.
  - reflexivity.
  - cbn [put_take l_put_take b_remaining b_chunk b_advance].
    change (bl_remaining flat l) with (l_remaining l). change (bl_chunk flat l) with (l_chunk l).
    destruct (Nat.min (l_remaining l) limit); [reflexivity|]. rewrite advance_flat.
    destruct (l_advance _ l); [apply IH|reflexivity|reflexivity].
Qed.
Lemma copy_flat : forall fuel len l, bl_copy_to_bytes flat fuel len l = l_copy_to_bytes fuel len l.
Proof.
  intros fuel len l. unfold bl_copy_to_bytes, l_copy_to_bytes, bl_copy_slow, l_copy_slow.
  rewrite put_take_flat. reflexivity.
Qed.
Lemma vectored_loop_flat : forall l slots, bl_vectored_loop flat slots l = l_vectored_loop slots l.
Proof.
  induction l as [|b l IH]; intros slots; [reflexivity|]. cbn [bl_vectored_loop l_vectored_loop b_vectored flat].
  rewrite IH. reflexivity.
Qed.
Lemma vectored_flat : forall slots l, bl_vectored flat slots l = l_vectored slots l.
Proof. intros [|n] l; [reflexivity|]. apply vectored_loop_flat. Qed.
Lemma try_loop_flat : forall l meta data, bl_try_into_loop flat 0 l meta data = l_try_into_loop l meta data.
Proof.
  induction l as [|v l IH]; intros meta data; [reflexivity|].
  cbn [bl_try_into_loop l_try_into_loop]. fold (decode v). destruct (fst (decode v)); try reflexivity.
  destruct (fragment_parts a). apply IH.
Qed.
Lemma try_flat : forall l, bl_try_into flat 0 l = l_try_into l.
Proof. intros l. apply try_loop_flat. Qed.
Lemma run_flat : forall bd fuel h l, bl_run flat bd fuel h l = l_run bd fuel h l.
Proof.
  intros bd fuel. induction h as [|[b| |n|n] h IH]; intros l; [reflexivity| | | |]; cbn [bl_run l_run].
  - rewrite push_flat. destruct (l_push bd b l); [now rewrite IH|reflexivity|reflexivity].
  - rewrite IH. reflexivity.
  - rewrite advance_flat. destruct (l_advance n l); [now rewrite IH|reflexivity|reflexivity].
  - rewrite copy_flat. destruct (l_copy_to_bytes fuel n l) as [[x y]| |]; [now rewrite IH|reflexivity|reflexivity].
Qed.

Definition similar (fuel : nat) (l : list bytes) (b : bytes) : Prop :=
  concat l = b /\ solid l /\ (length l <= fuel)%nat.

Lemma buf_list_lawful : forall fuel, lawful (buf_list_ops flat fuel) (similar fuel).
Proof.
  intros fuel. constructor; cbn [buf_list_ops b_remaining b_chunk b_advance b_copy_to_bytes].
  - intros l s (<- & _). apply remaining_concat.
  - intros l s (<- & S & _). now apply chunk_is_prefix.
  - intros l s k (<- & S & F). rewrite advance_flat. pose proof (advance_spec l k) as A.
    destruct (Nat.leb k (length (concat l))); [|exact A].
    destruct A as (l' & E & C & S' & N). exists l'. split; [exact E|]. split; [exact C|]. split; [auto|lia].
  - intros l s k (<- & S & F). rewrite copy_flat. pose proof (copy_spec fuel k l S ltac:(lia)) as A.
    destruct (Nat.leb k (length (concat l))); [|exact A].
    destruct A as (l' & E & C & S' & N). exists l'. split; [exact E|]. split; [exact C|]. split; [auto|lia].
Qed.

Lemma decode_segments : forall fuel l, solid l -> (8 + length l <= fuel)%nat ->
  fst (frame_decode (buf_list_ops flat fuel) fuel l) = fst (decode (concat l)) /\
  concat (snd (frame_decode (buf_list_ops flat fuel) fuel l)) = snd (decode (concat l)) /\
  solid (snd (frame_decode (buf_list_ops flat fuel) fuel l)).
Proof.
  intros fuel l S F.
  destruct (decode_any _ (buf_list_ops flat fuel) (similar fuel) fuel l (concat l)) as (E & C & S' & _).
  - apply buf_list_lawful.
  - lia.
  - repeat split; auto. lia.
  - auto.
Qed.
Lemma flat_run_queue : forall bd fuel ops l, solid l -> solid (pushes ops) ->
  (length l + length (pushes ops) <= fuel)%nat ->
  let (r, l') := bl_run flat bd fuel ops l in
  queue_run ops (concat l) = (r, concat l') /\ solid l'.
Proof.
  intros bd fuel ops l. rewrite run_flat. apply run_queue.
Qed.
Lemma flat_advance_spec : forall l cnt,
  if Nat.leb cnt (length (concat l))
  then exists l', bl_advance flat cnt l = Ret l' /\ leaves l l' (skipn cnt (concat l))
  else bl_advance flat cnt l = Panic.
Proof.
  intros l cnt. rewrite advance_flat. apply advance_spec.
Qed.
Lemma flat_push_empty : forall bd l, bl_push flat bd [] l = match bd with Debug => Panic | Release => Ret (l ++ [[]]) end.
Proof.
  intros bd l. rewrite push_flat. apply push_empty.
Qed.
Lemma flat_copy_stuck : forall fuel len rest, (0 < len <= length (concat rest))%nat ->
  bl_copy_to_bytes flat fuel len ([] :: rest) = Loop.
Proof.
  intros fuel len rest. rewrite copy_flat. apply copy_stuck.
Qed.
Lemma flat_copy_diverges_iff : forall len l, (len <= length (concat l))%nat ->
  ((forall fuel, bl_copy_to_bytes flat fuel len l = Loop) <-> early_empty len l) /\
  (~ early_empty len l -> forall fuel, (length l <= fuel)%nat -> exists l',
     bl_copy_to_bytes flat fuel len l = Ret (firstn len (concat l), l') /\
     concat l' = skipn len (concat l)).
Proof.
  intros len l H. destruct (copy_diverges_iff len l H) as [A C]. split.
  - rewrite <- A. split; intros X fuel; [rewrite <- copy_flat|rewrite copy_flat]; apply X.
  - intros X fuel F. rewrite copy_flat. now apply C.
Qed.
Lemma flat_vectored_spec : forall l slots, solid l -> bl_vectored flat slots l = firstn slots l.
Proof.
  intros l slots. rewrite vectored_flat. apply vectored_spec.
Qed.
Lemma flat_vectored_any : forall l slots,
  (length (bl_vectored flat slots l) <= slots)%nat /\
  bl_vectored flat slots l = firstn slots (filter (fun b => negb (match b with [] => true | _ => false end)) l).
Proof.
  intros l slots. rewrite vectored_flat. apply vectored_any.
Qed.
Lemma flat_vectored_prefix : forall l slots, exists r, concat l = concat (bl_vectored flat slots l) ++ r.
Proof.
  intros l slots. rewrite vectored_flat. apply vectored_prefix.
Qed.
Lemma flat_try_into_ok : forall l fs,
  Forall2 (fun v f => fst (decode v) = DOk f) l fs -> bl_try_into flat 0 l = DOk (assembled fs).
Proof.
  intros. rewrite try_flat. eapply try_into_ok; eassumption.
Qed.
Lemma flat_try_into_err : forall pre v post fs e,
  Forall2 (fun v f => fst (decode v) = DOk f) pre fs -> fst (decode v) = DErr e ->
  bl_try_into flat 0 (pre ++ v :: post) = DErr e.
Proof.
  intros. rewrite try_flat. eapply try_into_err; eassumption.
Qed.
Lemma flat_try_into_panic : forall pre v post fs,
  Forall2 (fun v f => fst (decode v) = DOk f) pre fs -> fst (decode v) = DPanic ->
  bl_try_into flat 0 (pre ++ v :: post) = DPanic.
Proof.
  intros. rewrite try_flat. eapply try_into_panic; eassumption.
Qed.
Lemma flat_reassemble_encoded : forall fs l,
  Forall2 (fun f v => in_range f /\ coherent f /\ frame_encode f [] = EOk v) fs l ->
  bl_try_into flat 0 l = DOk (assembled fs).
Proof.
  intros. rewrite try_flat. eapply reassemble_encoded; eassumption.
Qed.
