(** * Debug texts over several lines *)

From Coq Require Import Lia ZifyBool Ascii.
From Verif Require Import Model.PrettyM Model.FrameM Spec.Mime Spec.Wire.
From Verif Require Import Proofs.BitsP Proofs.CodecP Proofs.DecodeP Proofs.FlagsP Proofs.TextP Proofs.DebugP Proofs.FrameDebugP.
From Verif Require Import Spec.Pretty Spec.Debug.
Open Scope string_scope.
Open Scope N_scope.

(** ** Texts as trees of strings *)

Inductive ptree : Set :=
| PL (s : string)
| PS (n : string) (fs : list (string * ptree))
| PT (n : string) (t : ptree).
Fixpoint compact (t : ptree) : string :=
  match t with
  | PL s => s
  | PS n fs => debug_struct n (map (fun kt => (fst kt, compact (snd kt))) fs)
  | PT n t => debug_tuple n [compact t]
  end.
Fixpoint pretty (t : ptree) : string :=
  match t with
  | PL s => s
  | PS n fs => pretty_struct n (map (fun kt => (fst kt, pretty (snd kt))) fs)
  | PT n t => pretty_tuple n [pretty t]
  end.
Fixpoint plines (t : ptree) : list string :=
  match t with
  | PL s => [s]
  | PS n fs => ([(n ++ " {")%string] ++ map indented (flat_map (fun kt => comma (keyed (fst kt) (plines (snd kt)))) fs) ++ ["}"])%list
  | PT n t => ([(n ++ "(")%string] ++ map indented (comma (plines t)) ++ [")"])%list
  end.

(** The first character of a line. *)
Definition starts (c : ascii) : bool :=
  negb (Ascii.eqb c " ") && negb (Ascii.eqb c "}") && negb (Ascii.eqb c ")") && negb (Ascii.eqb c lf).
Definition starter (s : string) : bool := match s with String c _ => starts c | "" => false end.
Definition head_of (t : ptree) : string := match t with PL s => s | PS n _ => n | PT n _ => n end.
Fixpoint ok (t : ptree) : bool :=
  match t with
  | PL s => clean s && match s with "" => false | _ => true end
  | PS n fs => clean n && starter n && match fs with [] => false | _ => true end &&
      forallb (fun kt => clean (fst kt) && starter (fst kt) && ok (snd kt)) fs
  | PT n t => clean n && starter n && starter (head_of t) && ok t
  end.

Lemma ptree_rect' : forall (P : ptree -> Prop), (forall s, P (PL s)) ->
  (forall n fs, Forall (fun kt => P (snd kt)) fs -> P (PS n fs)) -> (forall n t, P t -> P (PT n t)) -> forall t, P t.
Proof.
  intros P HL HS HT. fix IH 1. intros [s|n fs|n t]; [apply HL| |apply HT, IH].
  apply HS. induction fs as [|[k t] fs F]; constructor; [apply IH|exact F].
Qed.

Lemma sapp_nil_r : forall s, s ++ "" = s.
Proof. induction s as [|c s IH]; [reflexivity|]. cbn. now rewrite IH. Qed.

(** ** The lines *)

(** No line is empty or contains a line feed. *)
Definition line_ok (l : string) : Prop := clean l = true /\ l <> "".
(** The lines, each with its line feed. *)
Definition ended (ls : list string) : string := fold_right (fun l s => l ++ newline ++ s) "" ls.
Lemma ended_app : forall a b, ended (a ++ b)%list = ended a ++ ended b.
Proof. induction a as [|l a IH]; intros b; [reflexivity|]. cbn [app ended fold_right] in *. unfold ended in *. now rewrite IH, !sapp_assoc. Qed.
Lemma text_more : forall l y r, lines_text (l :: y :: r) = l ++ newline ++ lines_text (y :: r).
Proof. reflexivity. Qed.
Lemma text_snoc : forall ls x, lines_text (ls ++ [x])%list = ended ls ++ x.
Proof.
  induction ls as [|l ls IH]; intros x; [reflexivity|]. cbn [app].
  assert (E : exists y r, (ls ++ [x])%list = y :: r) by (destruct ls; cbn; eauto). destruct E as (y & r & E).
  specialize (IH x). rewrite E in IH |- *. rewrite text_more, IH. cbn [ended fold_right]. now rewrite !sapp_assoc.
Qed.
Lemma text_ended : forall ls, ls <> [] -> lines_text ls ++ newline = ended ls.
Proof.
  intros ls N. destruct (exists_last N) as (r & x & ->). rewrite text_snoc, ended_app. cbn. now rewrite !sapp_assoc.
Qed.
Lemma pad_line : forall l s bol, clean l = true -> l <> "" \/ bol = false ->
  pad_from bol (l ++ newline ++ s) = (if bol then "    " else "") ++ l ++ newline ++ pad_from true s.
Proof.
  induction l as [|c l IH]; intros s bol C N.
  - destruct N as [N| ->]; [congruence|]. reflexivity.
  - cbn [append pad_from]. cbn in C. apply andb_true_iff in C as [Cc C].
    assert (Ascii.eqb c line_feed = false) as ->.
    { apply Ascii.eqb_neq. intros ->. cbn in Cc. discriminate. }
    rewrite (IH s false C) by auto. reflexivity.
Qed.
Lemma pad_ended : forall ls, Forall line_ok ls -> pad (ended ls) = ended (map indented ls).
Proof.
  unfold pad. intros ls H. induction H as [|l ls [C N] H IH]; [reflexivity|]. cbn [ended fold_right map] in *.
  fold (ended ls). rewrite (pad_line l (ended ls) true C) by auto. unfold indented at 1.
  rewrite IH. now rewrite sapp_assoc.
Qed.

Lemma comma_ok : forall ls, Forall line_ok ls -> Forall line_ok (comma ls).
Proof.
  intros ls H. induction H as [|l ls [C N] H IH]; [constructor|]. destruct ls as [|m ls]; cbn [comma].
  - constructor; [|constructor]. split; [now rewrite clean_app, C|]. destruct l; discriminate.
  - constructor; [now split|exact IH].
Qed.
Lemma keyed_ok : forall k ls, clean k = true -> Forall line_ok ls -> Forall line_ok (keyed k ls).
Proof.
  intros k ls K [|l ls' [C N] H]; [constructor|]. cbn [keyed]. constructor; [|exact H].
  split; [now rewrite !clean_app, K, C|]. destruct k; discriminate.
Qed.
Lemma indented_ok : forall ls, Forall line_ok ls -> Forall line_ok (map indented ls).
Proof.
  intros ls H. induction H as [|l ls [C N] H IH]; [constructor|]. cbn. constructor; [|exact IH].
  split; [exact C|discriminate].
Qed.
Lemma plines_nonempty : forall t, plines t <> [].
Proof. intros [s|n fs|n t]; discriminate. Qed.
Lemma plines_ok : forall t, ok t = true -> Forall line_ok (plines t).
Proof.
  induction t as [s|n fs IH|n t IH] using ptree_rect'; intros O; cbn [ok] in O.
  - apply andb_true_iff in O as [C N]. constructor; [|constructor]. split; [exact C|now destruct s].
  - rewrite !andb_true_iff in O. destruct O as (((C & St) & _) & F). cbn [plines]. constructor.
    { split; [now rewrite clean_app, C|]. destruct n; discriminate. }
    apply Forall_app. split; [|constructor; [split; [reflexivity|discriminate]|constructor]].
    apply indented_ok. apply Forall_flat_map. rewrite Forall_forall in IH |- *. intros [k t] I.
    rewrite forallb_forall in F. specialize (F _ I). rewrite !andb_true_iff in F. cbn [fst snd] in F |- *.
    apply comma_ok, keyed_ok; [tauto|]. apply (IH _ I). tauto.
  - rewrite !andb_true_iff in O. destruct O as (((C & St) & _) & F). cbn [plines]. constructor.
    { split; [now rewrite clean_app, C|]. destruct n; discriminate. }
    apply Forall_app. split; [|constructor; [split; [reflexivity|discriminate]|constructor]].
    apply indented_ok, comma_ok, IH, F.
Qed.
Lemma comma_text : forall ls, ls <> [] -> lines_text (comma ls) = lines_text ls ++ ",".
Proof.
  induction ls as [|l ls IH]; intros N; [congruence|]. destruct ls as [|m ls]; [reflexivity|].
  assert (E : exists y r, comma (m :: ls) = y :: r) by (destruct ls; cbn; eauto). destruct E as (y & r & E).
  specialize (IH ltac:(discriminate)). change (comma (l :: m :: ls)) with (l :: comma (m :: ls)).
  rewrite E in IH |- *. rewrite text_more, IH, text_more. now rewrite !sapp_assoc.
Qed.
Lemma keyed_text : forall k ls, ls <> [] -> lines_text (keyed k ls) = k ++ ": " ++ lines_text ls.
Proof.
  intros k [|l ls] N; [congruence|]. cbn [keyed].
  destruct ls; [reflexivity|]. rewrite !text_more. now rewrite !sapp_assoc.
Qed.
Lemma comma_nonempty : forall ls, ls <> [] -> comma ls <> [].
Proof. intros [|l [|m ls]] N; cbn; congruence. Qed.
Lemma keyed_nonempty : forall k ls, ls <> [] -> keyed k ls <> [].
Proof. intros k [|l ls] N; cbn; congruence. Qed.

Lemma pretty_layout : forall t, ok t = true -> pretty t = lines_text (plines t).
Proof.
  induction t as [s|n fs IH|n t IH] using ptree_rect'; intros O; [reflexivity|..].
  - cbn [pretty plines]. rewrite app_assoc, text_snoc. cbn [app ended fold_right].
    fold (ended (map indented (flat_map (fun kt => comma (keyed (fst kt) (plines (snd kt)))) fs))).
    unfold pretty_struct. rewrite !sapp_assoc. do 3 f_equal.
    cbn [ok] in O. rewrite !andb_true_iff in O. destruct O as (_ & F).
    induction fs as [|[k t] fs IHf]; [reflexivity|]. inversion IH as [|? ? It If]; subst. cbn [forallb] in F.
    apply andb_true_iff in F as [Ft Ff]. cbn [fst snd] in Ft, It. rewrite !andb_true_iff in Ft. destruct Ft as ((K & _) & Ot).
    cbn [map fold_right flat_map fst snd]. rewrite (IHf If Ff), map_app, ended_app, sapp_assoc. f_equal.
    pose proof (plines_nonempty t) as N.
    rewrite <- (pad_ended (comma (keyed k (plines t)))) by (apply comma_ok, keyed_ok; [exact K|now apply plines_ok]).
    rewrite <- text_ended by now apply comma_nonempty, keyed_nonempty.
    rewrite comma_text by now apply keyed_nonempty. rewrite keyed_text by exact N.
    rewrite <- (It Ot). now rewrite !sapp_assoc.
  - cbn [pretty plines]. rewrite app_assoc, text_snoc. cbn [app ended fold_right].
    fold (ended (map indented (comma (plines t)))). cbn [ok] in O. rewrite !andb_true_iff in O. destruct O as (_ & Ot).
    unfold pretty_tuple. cbn [fold_right]. rewrite !sapp_assoc. do 3 f_equal.
    pose proof (plines_nonempty t) as N.
    rewrite <- pad_ended by now apply comma_ok, plines_ok.
    rewrite <- text_ended by now apply comma_nonempty.
    rewrite comma_text by exact N. rewrite <- (IH Ot). now rewrite !sapp_assoc.
Qed.

(** ** Joining the lines *)

Definition blank (p : string) : Prop := forall s q, joined (Some q) (p ++ s) = joined (Some q) s.
Lemma blank_nil : blank "".
Proof. intros s q. reflexivity. Qed.
Lemma blank_four : forall p, blank p -> blank (p ++ "    ").
Proof. intros p B s q. rewrite sapp_assoc, B. reflexivity. Qed.

Lemma breaks_app : forall s r, clean s = true -> s <> "" -> breaks (s ++ r) = false.
Proof.
  intros [|c s] r C N; [congruence|]. cbn in *. apply andb_true_iff in C as [C _]. apply Ascii.eqb_neq.
  intros ->. cbn in C. discriminate.
Qed.
Lemma joined_clean : forall s r, clean s = true -> breaks r = false -> joined None (s ++ r) = s ++ joined None r.
Proof.
  induction s as [|c s IH]; intros r C B; [reflexivity|]. cbn in C. apply andb_true_iff in C as [Cc C].
  cbn [append joined]. assert (breaks (s ++ r) = false) as ->.
  { destruct s as [|d s]; [exact B|]. apply breaks_app; [exact C|discriminate]. }
  cbn [andb]. rewrite (IH r C B). reflexivity.
Qed.
Lemma joined_start : forall p s, starter s = true -> joined (Some p) s =
  (if Ascii.eqb p "," then ", " else if Ascii.eqb p "{" then " " else "") ++ joined None s.
Proof.
  intros p [|c s] H; [discriminate|]. cbn in H. unfold starts in H. rewrite !andb_true_iff, !negb_true_iff in H.
  destruct H as (((H1 & H2) & H3) & H4). cbn [joined]. rewrite H1, H4. cbn [orb]. unfold glue. now rewrite H2, H3.
Qed.
Lemma starter_app : forall a b, starter a = true -> starter (a ++ b) = true.
Proof. intros [|c a] b H; [discriminate|exact H]. Qed.

(** The lines with [p] in front of all but the first. *)
Definition spread (p : string) (ls : list string) : string := String.concat (newline ++ p) ls.
Lemma spread_more : forall p l y r, spread p (l :: y :: r) = l ++ (newline ++ p) ++ spread p (y :: r).
Proof. reflexivity. Qed.
Lemma spread_text : forall ls, lines_text ls = spread "" ls.
Proof. reflexivity. Qed.
Definition spread_by (p : string) (ls : list string) (x : string) : string :=
  fold_right (fun l s => l ++ newline ++ p ++ s) x ls.
Lemma spread_snoc : forall p ls x, spread p (ls ++ [x])%list = spread_by p ls x.
Proof.
  induction ls as [|l ls IH]; intros x; [reflexivity|]. cbn [app].
  assert (E : exists y r, (ls ++ [x])%list = y :: r) by (destruct ls; cbn; eauto). destruct E as (y & r & E).
  specialize (IH x). rewrite E in IH |- *. rewrite spread_more, IH. cbn [spread_by fold_right]. now rewrite !sapp_assoc.
Qed.
Lemma spread_by_app : forall p a b x, spread_by p (a ++ b)%list x = spread_by p a (spread_by p b x).
Proof. intros p a b x. unfold spread_by. apply fold_right_app. Qed.
Lemma spread_indented : forall p ls x, ls <> [] ->
  spread_by p (map indented ls) x = "    " ++ spread (p ++ "    ") ls ++ newline ++ p ++ x.
Proof.
  intros p ls x. induction ls as [|l ls IH]; intros N; [congruence|]. destruct ls as [|m ls].
  - cbn [map spread_by fold_right spread String.concat]. unfold indented. now rewrite !sapp_assoc.
  - rewrite spread_more. change (map indented (l :: m :: ls)) with (indented l :: map indented (m :: ls)).
    change (spread_by p (indented l :: map indented (m :: ls)) x) with
      (indented l ++ newline ++ p ++ spread_by p (map indented (m :: ls)) x).
    rewrite IH by discriminate. unfold indented. now rewrite !sapp_assoc.
Qed.
Lemma comma_spread : forall p ls, ls <> [] -> spread p (comma ls) = spread p ls ++ ",".
Proof.
  induction ls as [|l ls IH]; intros N; [congruence|]. destruct ls as [|m ls]; [reflexivity|].
  assert (E : exists y r, comma (m :: ls) = y :: r) by (destruct ls; cbn; eauto). destruct E as (y & r & E).
  specialize (IH ltac:(discriminate)). change (comma (l :: m :: ls)) with (l :: comma (m :: ls)).
  rewrite E in IH |- *. rewrite spread_more, IH, spread_more. now rewrite !sapp_assoc.
Qed.
Lemma keyed_spread : forall p k ls, ls <> [] -> spread p (keyed k ls) = k ++ ": " ++ spread p ls.
Proof.
  intros p k [|l ls] N; [congruence|]. cbn [keyed].
  destruct ls; [reflexivity|]. rewrite !spread_more. now rewrite !sapp_assoc.
Qed.
Lemma breaks_line : forall p t r, ok t = true -> breaks (spread p (plines t) ++ r) = false.
Proof.
  intros p t r O. pose proof (plines_ok t O) as F. destruct (plines t) as [|l ls] eqn:E; [now apply plines_nonempty in E|].
  inversion F as [|? ? [C N] F']; subst. destruct ls as [|y ls].
  - cbn [spread String.concat]. now apply breaks_app.
  - rewrite spread_more, sapp_assoc. now apply breaks_app.
Qed.
Lemma starter_spread : forall p t r, starter (head_of t) = true -> starter (spread p (plines t) ++ r) = true.
Proof.
  intros p [s|n fs|n t] r H; cbn [head_of] in H.
  - now apply starter_app.
  - cbn [plines app]. destruct (map indented _ ++ ["}"])%list as [|y l] eqn:E; [now apply app_eq_nil in E|].
    rewrite spread_more, !sapp_assoc. now apply starter_app.
  - cbn [plines app]. destruct (map indented _ ++ [")"])%list as [|y l] eqn:E; [now apply app_eq_nil in E|].
    rewrite spread_more, !sapp_assoc. now apply starter_app.
Qed.

Lemma join_fields : forall k (v : string) fs, join ", " (map (fun f => fst f ++ ": " ++ snd f) ((k, v) :: fs)) =
  k ++ ": " ++ v ++ fold_right (fun f s => ", " ++ (fst f ++ ": " ++ snd f) ++ s) "" fs.
Proof.
  intros k v fs. revert k v. induction fs as [|[k' v'] fs IH]; intros k v.
  - cbn [map join fst snd fold_right]. now rewrite sapp_nil_r.
  - cbn [map fst snd] in IH |- *. specialize (IH k' v').
    cbn [fold_right fst snd]. rewrite !sapp_assoc, <- IH.
    cbn [join]. now rewrite !sapp_assoc.
Qed.

Lemma joined_spread : forall t, ok t = true -> forall p r, blank p -> breaks r = false ->
  joined None (spread p (plines t) ++ r) = compact t ++ joined None r.
Proof.
  induction t as [s|n fs IH|n t IH] using ptree_rect'; intros O p r B R; cbn [ok] in O.
  - apply andb_true_iff in O as [C _]. cbn [plines compact spread String.concat]. now apply joined_clean.
  - rewrite !andb_true_iff in O. destruct O as (((C & St) & Nf) & F).
    cbn [plines compact]. rewrite app_assoc, spread_snoc. cbn [app].
    change (spread_by p ((n ++ " {") :: ?l) ?x) with ((n ++ " {") ++ newline ++ p ++ spread_by p l x).
    rewrite !sapp_assoc, joined_clean by (exact C || reflexivity).
    change (joined None (" {" ++ newline ++ ?y)) with (" {" ++ joined (Some "{"%char) y).
    rewrite B. unfold debug_struct.
    assert (X : forall fs, Forall (fun kt => ok (snd kt) = true -> forall p r, blank p -> breaks r = false ->
        joined None (spread p (plines (snd kt)) ++ r) = compact (snd kt) ++ joined None r) fs ->
      forallb (fun kt => clean (fst kt) && starter (fst kt) && ok (snd kt)) fs = true ->
      joined (Some ","%char) (spread_by p (map indented (flat_map (fun kt => comma (keyed (fst kt) (plines (snd kt)))) fs)) "}" ++ r) =
      fold_right (fun f s => ", " ++ (fst f ++ ": " ++ snd f) ++ s) "" (map (fun kt => (fst kt, compact (snd kt))) fs) ++
      " }" ++ joined None r /\
      forall k t fs', fs = (k, t) :: fs' ->
      joined (Some "{"%char) (spread_by p (map indented (flat_map (fun kt => comma (keyed (fst kt) (plines (snd kt)))) fs)) "}" ++ r) =
      " " ++ (k ++ ": " ++ compact t) ++
      fold_right (fun f s => ", " ++ (fst f ++ ": " ++ snd f) ++ s) "" (map (fun kt => (fst kt, compact (snd kt))) fs') ++
      " }" ++ joined None r).
    { clear - B R. induction fs as [|[k t] fs IHf]; intros H F.
      - split; [|discriminate]. cbn [flat_map map spread_by fold_right append].
        cbn [joined]. rewrite R. cbn [andb]. reflexivity.
      - inversion H as [|? ? Ht Hf]; subst. cbn [forallb fst snd] in F, Ht. rewrite !andb_true_iff in F.
        destruct F as (((Ck & Sk) & Ot) & F). destruct (IHf Hf F) as [Y _]. clear IHf.
        set (X := spread_by p (map indented (flat_map (fun kt => comma (keyed (fst kt) (plines (snd kt)))) fs)) "}") in *.
        assert (E : spread_by p (map indented (flat_map (fun kt => comma (keyed (fst kt) (plines (snd kt)))) ((k, t) :: fs))) "}" ++ r =
          "    " ++ k ++ (": " ++ spread (p ++ "    ") (plines t) ++ "," ++ newline ++ p ++ X ++ r)).
        { cbn [flat_map fst snd]. rewrite map_app, spread_by_app. fold X.
          pose proof (plines_nonempty t) as N.
          rewrite spread_indented by now apply comma_nonempty, keyed_nonempty.
          rewrite comma_spread by now apply keyed_nonempty. rewrite keyed_spread by exact N.
          now rewrite !sapp_assoc. }
        assert (V : joined None (k ++ (": " ++ spread (p ++ "    ") (plines t) ++ "," ++ newline ++ p ++ X ++ r)) =
          (k ++ ": " ++ compact t) ++
          fold_right (fun f s => ", " ++ (fst f ++ ": " ++ snd f) ++ s) "" (map (fun kt => (fst kt, compact (snd kt))) fs) ++
          " }" ++ joined None r).
        { rewrite joined_clean by (exact Ck || reflexivity). 
          rewrite (joined_clean ": ") by (reflexivity || now apply breaks_line).
          rewrite (Ht Ot) by (reflexivity || now apply blank_four).
          change (joined None ("," ++ newline ++ ?y)) with (joined (Some ","%char) y).
          rewrite B, Y. now rewrite !sapp_assoc. }
        assert (W : forall q, joined (Some q) ("    " ++ k ++ (": " ++ spread (p ++ "    ") (plines t) ++ "," ++ newline ++ p ++ X ++ r)) =
          (if Ascii.eqb q "," then ", " else if Ascii.eqb q "{" then " " else "") ++
          (k ++ ": " ++ compact t) ++
          fold_right (fun f s => ", " ++ (fst f ++ ": " ++ snd f) ++ s) "" (map (fun kt => (fst kt, compact (snd kt))) fs) ++
          " }" ++ joined None r).
        { intros q. change (joined (Some q) ("    " ++ ?y)) with (joined (Some q) y).
          rewrite joined_start by now apply starter_app. now rewrite V. }
        rewrite E. split.
        + rewrite W. cbn [map fold_right fst snd]. cbn [Ascii.eqb Bool.eqb]. now rewrite !sapp_assoc.
        + intros k' t' fs' Ef. injection Ef as <- <- <-. rewrite W. cbn [Ascii.eqb Bool.eqb]. reflexivity. }
    destruct fs as [|[k t] fs]; [discriminate|]. destruct (X _ IH F) as [_ Y]. rewrite (Y k t fs eq_refl). clear X Y.
    change (map (fun kt => (fst kt, compact (snd kt))) ((k, t) :: fs)) with
      ((k, compact t) :: map (fun kt => (fst kt, compact (snd kt))) fs).
    rewrite join_fields. now rewrite !sapp_assoc.
  - rewrite !andb_true_iff in O. destruct O as (((C & St) & Sh) & Ot).
    cbn [plines compact]. rewrite app_assoc, spread_snoc. cbn [app].
    change (spread_by p ((n ++ "(") :: ?l) ?x) with ((n ++ "(") ++ newline ++ p ++ spread_by p l x).
    rewrite !sapp_assoc, joined_clean by (exact C || reflexivity).
    change (joined None ("(" ++ newline ++ ?y)) with ("(" ++ joined (Some "("%char) y).
    rewrite B. unfold debug_tuple. cbn [join]. pose proof (plines_nonempty t) as N.
    rewrite spread_indented by now apply comma_nonempty. rewrite comma_spread by exact N. rewrite !sapp_assoc.
    change (joined (Some "("%char) ("    " ++ ?y)) with (joined (Some "("%char) y).
    rewrite joined_start by now apply starter_spread.
    cbn [Ascii.eqb Bool.eqb].
    rewrite (IH Ot) by (reflexivity || now apply blank_four).
    change (joined None ("," ++ newline ++ ?y)) with (joined (Some ","%char) y). rewrite B.
    assert (joined (Some ","%char) (")" ++ r) = ")" ++ joined None r) as ->; [|reflexivity].
    cbn [append joined]. rewrite R. cbn [andb]. reflexivity.
Qed.
Lemma joined_pretty : forall t, ok t = true -> joined None (pretty t) = compact t.
Proof.
  intros t O. rewrite pretty_layout, spread_text by exact O.
  rewrite <- (sapp_nil_r (spread "" (plines t))). rewrite joined_spread; [|exact O|exact blank_nil|reflexivity].
  cbn [joined]. apply sapp_nil_r.
Qed.

(** ** The flags of a frame; all of its bits have a name *)

Definition frame_bits (f : frame) : N :=
  match f with
  | FSetup s => sf_flags s
  | FRequestResponse q => rr_flags q
  | FRequestFnf q => fnf_flags q
  | FRequestStream q => rs_flags q
  | FRequestChannel q => rc_flags q
  | FPayload q => pf_flags q
  | _ => 0
  end.
Definition named_bits (f : N) : Prop := forall i, N.testbit f i = true -> In i (map fst bit_names).

(** ** The types of the crate *)

Definition opt_p (o : option bytes) : ptree := match o with Some b => PT "Some" (PL (bytes_debug b)) | None => PL "None" end.
Definition version_p (v : version) : ptree :=
  PS "Version" [ ("major", PL (fmt_dec (v_major v))); ("minor", PL (fmt_dec (v_minor v))) ].
Definition payload_p (p : payload) : ptree :=
  PS "Payload" [ ("metadata", opt_p (p_metadata p)); ("data", opt_p (p_data p)) ].
Definition chunks_p (c : chunks) : ptree :=
  PS "PayloadChunks" [ ("chunk_size", PL (fmt_dec (ch_size c))); ("metadata", opt_p (ch_metadata c));
                       ("data", opt_p (ch_data c)) ].
Definition setup_p (name : string) (s : setup_frame) : ptree :=
  PS name
    [ ("flags", PL (flags_debug (sf_flags s))); ("version", version_p (sf_version s));
      ("keepalive_interval", PL (fmt_dec (sf_keepalive_interval s)));
      ("keepalive_timeout", PL (fmt_dec (sf_keepalive_timeout s)));
      ("resume_token", opt_p (sf_resume_token s));
      ("metadata_mimetype", PL (bytes_debug (sf_metadata_mimetype s)));
      ("data_mimetype", PL (bytes_debug (sf_data_mimetype s))); ("payload", payload_p (sf_payload s)) ].
Definition frame_p (f : frame) : ptree :=
  match f with
  | FSetup s => PT "Setup" (setup_p "SetupFrame" s)
  | FError e => PT "Error" (PS "ErrorFrame"
      [ ("stream_id", PL (fmt_dec (ef_stream_id e))); ("code", PL (fmt_dec (ef_code e))); ("data", opt_p (ef_data e)) ])
  | FLease l => PT "Lease" (PS "LeaseFrame"
      [ ("ttl", PL (fmt_dec (lf_ttl l))); ("number_of_requests", PL (fmt_dec (lf_number_of_requests l)));
        ("metadata", opt_p (lf_metadata l)) ])
  | FKeepalive k => PT "Keepalive" (PS "KeepaliveFrame"
      [ ("respond", PL (bool_debug (kf_respond k))); ("last_received_position", PL (fmt_dec (kf_last_received_position k)));
        ("data", opt_p (kf_data k)) ])
  | FRequestResponse q => PT "RequestResponse" (PS "RequestResponseFrame"
      [ ("stream_id", PL (fmt_dec (rr_stream_id q))); ("flags", PL (flags_debug (rr_flags q))); ("payload", payload_p (rr_payload q)) ])
  | FRequestFnf q => PT "RequestFnf" (PS "RequestFnfFrame"
      [ ("stream_id", PL (fmt_dec (fnf_stream_id q))); ("flags", PL (flags_debug (fnf_flags q))); ("payload", payload_p (fnf_payload q)) ])
  | FRequestStream q => PT "RequestStream" (PS "RequestStreamFrame"
      [ ("stream_id", PL (fmt_dec (rs_stream_id q))); ("flags", PL (flags_debug (rs_flags q)));
        ("initial_request_n", PL (fmt_dec (rs_initial_request_n q))); ("payload", payload_p (rs_payload q)) ])
  | FRequestChannel q => PT "RequestChannel" (PS "RequestChannelFrame"
      [ ("stream_id", PL (fmt_dec (rc_stream_id q))); ("flags", PL (flags_debug (rc_flags q)));
        ("initial_request_n", PL (fmt_dec (rc_initial_request_n q))); ("payload", payload_p (rc_payload q)) ])
  | FRequestN q => PT "RequestN" (PS "RequestNFrame"
      [ ("stream_id", PL (fmt_dec (rn_stream_id q))); ("request_n", PL (fmt_dec (rn_request_n q))) ])
  | FCancel c => PT "Cancel" (PS "CancelFrame" [ ("stream_id", PL (fmt_dec (cf_stream_id c))) ])
  | FPayload q => PT "Payload" (PS "PayloadFrame"
      [ ("stream_id", PL (fmt_dec (pf_stream_id q))); ("flags", PL (flags_debug (pf_flags q))); ("payload", payload_p (pf_payload q)) ])
  | FMetadataPush m => PT "MetadataPush" (PS "MetadataPushFrame" [ ("metadata", PL (bytes_debug (mp_metadata m))) ])
  | FResume r => PT "Resume" (PS "ResumeFrame"
      [ ("version", version_p (rf_version r)); ("resume_token", PL (bytes_debug (rf_resume_token r)));
        ("last_received_server_position", PL (fmt_dec (rf_last_received_server_position r)));
        ("first_available_client_position", PL (fmt_dec (rf_first_available_client_position r))) ])
  | FResumeOk r => PT "ResumeOk" (PS "ResumeOkFrame"
      [ ("last_received_client_position", PL (fmt_dec (ro_last_received_client_position r))) ])
  end.

Lemma opt_compact : forall o, compact (opt_p o) = option_debug bytes_debug o.
Proof. now intros [b|]. Qed.
Lemma opt_pretty : forall o, pretty (opt_p o) = option_pretty bytes_debug o.
Proof. now intros [b|]. Qed.
Lemma version_compact : forall v, compact (version_p v) = version_debug v.
Proof. reflexivity. Qed.
Lemma payload_compact : forall p, compact (payload_p p) = payload_debug p.
Proof. intros p. cbn [payload_p compact map fst snd]. now rewrite !opt_compact. Qed.
Lemma version_prettyp : forall v, pretty (version_p v) = version_pretty v.
Proof. reflexivity. Qed.
Lemma payload_prettyp : forall p, pretty (payload_p p) = payload_pretty p.
Proof. intros p. cbn [payload_p pretty map fst snd]. now rewrite !opt_pretty. Qed.
Lemma chunks_compact : forall p, compact (chunks_p p) = chunks_debug p.
Proof. intros p. cbn [chunks_p compact map fst snd]. now rewrite !opt_compact. Qed.
Lemma chunks_prettyp : forall p, pretty (chunks_p p) = chunks_pretty p.
Proof. intros p. cbn [chunks_p pretty map fst snd]. now rewrite !opt_pretty. Qed.

Lemma flags_named : forall f, named_bits f -> flags_pretty f = flags_debug f.
Proof.
  intros f H. unfold flags_pretty, flags_debug. cbv zeta.
  assert (N.ldiff f fl_all = 0) as ->; [|reflexivity].
  apply N.bits_inj. intros i. rewrite N.ldiff_spec, N.bits_0. destruct (N.testbit f i) eqn:E; [|reflexivity].
  apply H, all_bits in E. now rewrite E.
Qed.

Lemma setup_compact : forall name s, compact (setup_p name s) = debug_struct name (setup_fields s).
Proof.
  intros name s. unfold setup_p, setup_fields. cbn [compact map fst snd].
  now rewrite !opt_compact, payload_compact, version_compact.
Qed.
Lemma setup_prettyp : forall name s, named_bits (sf_flags s) ->
  pretty (setup_p name s) = pretty_struct name (setup_pretty_fields s).
Proof.
  intros name s N. unfold setup_p, setup_pretty_fields. cbn [pretty map fst snd].
  now rewrite !opt_pretty, payload_prettyp, version_prettyp, flags_named.
Qed.
Lemma frame_compact : forall f, compact (frame_p f) = frame_debug f.
Proof.
  intros f. destruct f; cbn [frame_p compact map fst snd];
    rewrite ?setup_compact, ?opt_compact, ?payload_compact, ?version_compact; reflexivity.
Qed.
Lemma frame_prettyp : forall f, named_bits (frame_bits f) -> pretty (frame_p f) = frame_pretty f.
Proof.
  intros f N. destruct f; cbn [frame_p pretty map fst snd frame_bits] in *;
    rewrite ?setup_prettyp, ?opt_pretty, ?payload_prettyp, ?version_prettyp by exact N;
    unfold frame_pretty, setup_pretty, error_frame_pretty, lease_pretty, keepalive_pretty, request_response_pretty,
      request_fnf_pretty, request_stream_pretty, request_channel_pretty, request_n_pretty, cancel_pretty,
      payload_frame_pretty, metadata_push_pretty, resume_pretty, resume_ok_pretty;
    rewrite ?flags_named by exact N; reflexivity.
Qed.

Definition pl_ok (s : string) : Prop := clean s = true /\ s <> "".
Lemma pl : forall s, pl_ok s -> ok (PL s) = true.
Proof. intros s [C N]. cbn [ok]. rewrite C. now destruct s. Qed.
Lemma dec_ok : forall n, ok (PL (fmt_dec n)) = true.
Proof. intros n. apply pl. split; [apply clean_dec|]. apply fmt_dec_numeral. Qed.
Lemma bytes_ok : forall l, ok (PL (bytes_debug l)) = true.
Proof. intros l. apply pl. split; [apply clean_bytes|]. unfold bytes_debug. discriminate. Qed.
Lemma bool_ok : forall b, ok (PL (bool_debug b)) = true.
Proof. now intros [|]. Qed.
Lemma fl_ok : forall f, ok (PL (flags_debug f)) = true.
Proof.
  intros f. apply pl. split; [apply clean_flags|]. rewrite flags_debug_words.
  pose proof (flag_words_wordy f) as W. destruct W as [|w l [N _] _]; [discriminate|].
  destruct w; [congruence|]. destruct l; cbn; discriminate.
Qed.
Lemma opt_ok : forall o, ok (opt_p o) = true.
Proof. intros [b|]; [|reflexivity]. cbn [opt_p]. change (ok (PT "Some" ?t)) with (ok t). apply bytes_ok. Qed.
Ltac oks := change (ok (PT ?n (PL ?s))) with (ok (PL s));
  repeat match goal with
  | |- context [ok (PS ?n ?l)] =>
      change (ok (PS n l)) with (forallb (fun kt => clean (fst kt) && starter (fst kt) && ok (snd kt)) l);
      cbn [forallb fst snd]
  end;
  rewrite ?dec_ok, ?bytes_ok, ?bool_ok, ?fl_ok, ?opt_ok; reflexivity.
Lemma version_ok : forall v, ok (version_p v) = true.
Proof. intros v. unfold version_p. oks. Qed.
Lemma payload_ok : forall p, ok (payload_p p) = true.
Proof. intros v. unfold payload_p. oks. Qed.
Lemma chunks_ok : forall p, ok (chunks_p p) = true.
Proof. intros v. unfold chunks_p. oks. Qed.
Lemma setup_ok : forall name s, clean name = true -> starter name = true -> ok (setup_p name s) = true.
Proof.
  intros name s C S. unfold setup_p.
  match goal with |- context [ok (PS ?n ?l)] =>
    change (ok (PS n l)) with (clean n && starter n && match l with [] => false | _ => true end &&
      forallb (fun kt => clean (fst kt) && starter (fst kt) && ok (snd kt)) l)
  end. cbn [forallb fst snd].
  rewrite C, S, !dec_ok, !bytes_ok, fl_ok, opt_ok, payload_ok, version_ok. reflexivity.
Qed.
Lemma frame_ok : forall f, ok (frame_p f) = true.
Proof.
  intros f. destruct f; cbn [frame_p];
    repeat match goal with
    | |- ok (PT ?n ?t) = true =>
        change (ok (PT n t)) with (clean n && starter n && starter (head_of t) && ok t)
    end; try (rewrite setup_ok by reflexivity; reflexivity);
    match goal with |- context [ok (PS ?n ?l)] =>
      change (ok (PS n l)) with (clean n && starter n && match l with [] => false | _ => true end &&
        forallb (fun kt => clean (fst kt) && starter (fst kt) && ok (snd kt)) l)
    end; cbn [forallb fst snd];
    rewrite ?dec_ok, ?bytes_ok, ?bool_ok, ?fl_ok, ?opt_ok, ?payload_ok, ?version_ok; reflexivity.
Qed.

Lemma frame_joined : forall f, named_bits (frame_bits f) -> joined None (frame_pretty f) = frame_debug f.
Proof. intros f N. rewrite <- frame_prettyp, <- frame_compact by exact N. apply joined_pretty, frame_ok. Qed.
Lemma frame_pretty_inj : forall f g, named_bits (frame_bits f) -> named_bits (frame_bits g) ->
  frame_pretty f = frame_pretty g -> f = g.
Proof.
  intros f g F G E. apply frame_debug_inj. rewrite <- !frame_joined by assumption. now rewrite E.
Qed.

(** ** The lines are those of the specification *)

Fixpoint agrees (t : tree) (q : ptree) : Prop :=
  match t, q with
  | Struct n fs, PS n' gs => n = n' /\
      (fix go (fs : list (string * tree)) (gs : list (string * ptree)) : Prop :=
         match fs, gs with
         | [], [] => True
         | (k, t) :: fs', (k', q) :: gs' => k = k' /\ agrees t q /\ go fs' gs'
         | _, _ => False
         end) fs gs
  | Tuple n t, PT n' q => n = n' /\ agrees t q
  | Number _, PL s | Blob _, PL s | Bits _, PL s | Word _, PL s => shown t s
  | _, _ => False
  end.
Lemma agrees_laid : forall q t, agrees t q -> laid t (plines q).
Proof.
  induction q as [s|n fs IH|n q IH] using ptree_rect'; intros t A; cbn [plines].
  - destruct t; cbn in A; try contradiction; (apply Laid_leaf; [exact I|exact A]).
  - destruct t as [ | | | |m gs|]; try contradiction. destruct A as [-> A]. apply Laid_struct.
    revert gs A. induction IH as [|[k q] fs Hq Hf IHf]; intros [|[k' t] gs] A; try contradiction.
    + constructor.
    + destruct A as (-> & At & Ag). cbn [flat_map fst snd]. apply Laid_cons; [now apply Hq|now apply IHf].
  - destruct t; try contradiction. destruct A as [-> A]. apply Laid_tuple. now apply IH.
Qed.
Lemma opt_agrees : forall o, agrees (maybe o) (opt_p o).
Proof. intros [b|]; [|apply Shown_word]. split; [reflexivity|apply blob_shown]. Qed.
Ltac agree := repeat split; first [apply number_shown|apply flags_shown|apply blob_shown|apply truth_shown|apply opt_agrees|idtac].
Lemma frame_agrees : forall f, agrees (frame_tree f) (frame_p f).
Proof. intros f. destruct f; cbn [frame_tree frame_p setup_tree setup_p payload_tree payload_p version_tree version_p]; agree. Qed.
Lemma frame_laid : forall f, named_bits (frame_bits f) ->
  exists ls, laid (frame_tree f) ls /\ frame_pretty f = lines_text ls.
Proof.
  intros f N. exists (plines (frame_p f)). split; [apply agrees_laid, frame_agrees|].
  rewrite <- frame_prettyp by exact N. apply pretty_layout, frame_ok.
Qed.

(** ** Every frame the types permit *)

Lemma named_ok : forall w, Spec.Wire.flags_ok w -> named_bits w.
Proof.
  intros w [L M] i H. assert (i < 9).
  { destruct (N.lt_ge_cases i 9) as [|G]; [assumption|]. exfalso.
    assert (w mod 2 ^ 9 = w) as E by (apply N.mod_small; exact L). rewrite <- E in H.
    rewrite N.mod_pow2_bits_high in H by exact G. discriminate. }
  assert (4 <= i).
  { destruct (N.lt_ge_cases i 4) as [G|]; [|assumption]. exfalso.
    change 16 with (2 ^ 4) in M. rewrite <- (N.mod_pow2_bits_low w 4 i G), M, N.bits_0 in H. discriminate. }
  assert (i = 4 \/ i = 5 \/ i = 6 \/ i = 7 \/ i = 8) as C by lia. cbn. intuition.
Qed.
Lemma typed_named : forall f, typed f -> named_bits (frame_bits f).
Proof.
  assert (Z : named_bits 0) by (intros i H; now rewrite N.bits_0 in H).
  intros f T. destruct f; cbn [frame_bits typed] in *; try exact Z; apply named_ok; tauto.
Qed.
Lemma typed_laid : forall f, typed f -> exists ls, laid (frame_tree f) ls /\ frame_pretty f = lines_text ls.
Proof. intros f T. now apply frame_laid, typed_named. Qed.
Lemma typed_joined : forall f, typed f -> joined None (frame_pretty f) = frame_debug f.
Proof. intros f T. now apply frame_joined, typed_named. Qed.
Lemma typed_pretty_inj : forall f g, typed f -> typed g -> frame_pretty f = frame_pretty g -> f = g.
Proof. intros f g F G. apply frame_pretty_inj; now apply typed_named. Qed.
Lemma decoded_typed : forall input f rest, decode input = (DOk f, rest) -> typed f.
Proof.
  intros input f rest D. apply decode_ok_iff in D as (pre & r & w & r1 & r2 & _ & _ & _ & _ & _ & [F _] & _).
  now apply in_range_typed.
Qed.

(** ** The parts *)

Lemma parts_laid :
  (forall v, exists ls, laid (version_tree v) ls /\ version_pretty v = lines_text ls) /\
  (forall p, exists ls, laid (payload_tree p) ls /\ payload_pretty p = lines_text ls) /\
  (forall p, exists ls, laid (Tuple "PayloadBuilder" (payload_tree p)) ls /\ payload_builder_pretty p = lines_text ls) /\
  (forall c, exists ls, laid (Struct "PayloadChunks" [ ("chunk_size", Number (ch_size c));
     ("metadata", maybe (ch_metadata c)); ("data", maybe (ch_data c)) ]) ls /\ chunks_pretty c = lines_text ls) /\
  (forall s, Spec.Wire.flags_ok (sf_flags s) ->
     exists ls, laid (setup_tree "SetupFrameBuilder" s) ls /\ setup_builder_pretty s = lines_text ls) /\
  (forall u, exists a b, u24_pretty u = lines_text [ "U24("; "    " ++ a ++ ","; "    " ++ b ++ ","; ")" ] /\
     numeral 10 a (u24_hi u) /\ numeral 10 b (u24_lo u)).
Proof.
  repeat split.
  - intros v. exists (plines (version_p v)). split; [apply agrees_laid; unfold version_p, version_tree; agree|].
    rewrite <- version_prettyp. apply pretty_layout, version_ok.
  - intros v. exists (plines (payload_p v)). split; [apply agrees_laid; unfold payload_p, payload_tree; agree|].
    rewrite <- payload_prettyp. apply pretty_layout, payload_ok.
  - intros v. exists (plines (PT "PayloadBuilder" (payload_p v))).
    split; [apply agrees_laid; unfold payload_p, payload_tree; agree|].
    unfold payload_builder_pretty. rewrite <- payload_prettyp.
    change (pretty_tuple "PayloadBuilder" [pretty (payload_p v)]) with (pretty (PT "PayloadBuilder" (payload_p v))).
    apply pretty_layout. change (ok (PT "PayloadBuilder" (payload_p v))) with (ok (payload_p v)). apply payload_ok.
  - intros v. exists (plines (chunks_p v)). split; [apply agrees_laid; unfold chunks_p; agree|].
    rewrite <- chunks_prettyp. apply pretty_layout, chunks_ok.
  - intros s F. exists (plines (setup_p "SetupFrameBuilder" s)). split.
    + apply agrees_laid. cbn [setup_tree setup_p payload_tree payload_p version_tree version_p]. agree.
    + unfold setup_builder_pretty. rewrite <- setup_prettyp by now apply named_ok.
      apply pretty_layout, setup_ok; reflexivity.
  - intros u. exists (fmt_dec (u24_hi u)), (fmt_dec (u24_lo u)). split; [|split; apply fmt_dec_numeral].
    unfold u24_pretty, pretty_tuple. cbn [fold_right]. unfold pad.
    change (fmt_dec (u24_hi u) ++ "," ++ newline) with (fmt_dec (u24_hi u) ++ "," ++ newline ++ "").
    change (fmt_dec (u24_lo u) ++ "," ++ newline) with (fmt_dec (u24_lo u) ++ "," ++ newline ++ "").
    assert (L : forall n, pad_from true (fmt_dec n ++ "," ++ newline ++ "") = "    " ++ (fmt_dec n ++ ",") ++ newline).
    { intros n. rewrite <- sapp_assoc. rewrite pad_line; [reflexivity| |left; destruct (fmt_dec n); discriminate].
      now rewrite clean_app, clean_dec. }
    rewrite !L, !text_more. rewrite !sapp_assoc. reflexivity.
Qed.
Lemma parts_joined :
  (forall v, joined None (version_pretty v) = version_debug v) /\
  (forall p, joined None (payload_pretty p) = payload_debug p) /\
  (forall p, joined None (payload_builder_pretty p) = payload_builder_debug p) /\
  (forall c, joined None (chunks_pretty c) = chunks_debug c) /\
  (forall s, Spec.Wire.flags_ok (sf_flags s) -> joined None (setup_builder_pretty s) = setup_builder_debug s).
Proof.
  repeat split.
  - intros v. rewrite <- version_prettyp, <- version_compact. apply joined_pretty, version_ok.
  - intros v. rewrite <- payload_prettyp, <- payload_compact. apply joined_pretty, payload_ok.
  - intros v. unfold payload_builder_pretty, payload_builder_debug. rewrite <- payload_prettyp, <- payload_compact.
    change (pretty_tuple "PayloadBuilder" [pretty (payload_p v)]) with (pretty (PT "PayloadBuilder" (payload_p v))).
    change (debug_tuple "PayloadBuilder" [compact (payload_p v)]) with (compact (PT "PayloadBuilder" (payload_p v))).
    apply joined_pretty. change (ok (PT "PayloadBuilder" (payload_p v))) with (ok (payload_p v)). apply payload_ok.
  - intros v. rewrite <- chunks_prettyp, <- chunks_compact. apply joined_pretty, chunks_ok.
  - intros s F. unfold setup_builder_pretty, setup_builder_debug.
    rewrite <- setup_prettyp, <- setup_compact by now apply named_ok. apply joined_pretty, setup_ok; reflexivity.
Qed.

(** ** The other enums *)

Lemma mime_shouted : mime_debug M_UNPARSEABLE = "UNPARSEABLE" /\
  (forall s m, In (s, m) mime_table -> mime_debug m = shouted s) /\
  (forall m m', mime_debug m = mime_debug m' -> m = m').
Proof.
  split; [reflexivity|split].
  - intros s m H. assert (K : forallb (fun x => String.eqb (mime_debug (snd x)) (shouted (fst x))) mime_table = true)
      by (vm_compute; reflexivity).
    rewrite forallb_forall in K. apply String.eqb_eq. apply (K _ H).
  - intros m m' H. destruct m, m'; (reflexivity || discriminate H).
Qed.
Lemma code_named : (forall c, In (c, code_debug c) code_names) /\
  (forall c c', code_debug c = code_debug c' -> c = c').
Proof.
  split; [intros []; cbn; tauto|]. intros c c' H. destruct c, c'; (reflexivity || discriminate H).
Qed.
