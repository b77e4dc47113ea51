(** * Texts of errors over several lines, strings in quotes, signed numbers, derived equality *)

From Coq Require Import Lia ZifyBool Ascii ZArith.
From Verif Require Import Model.ShowM Spec.Mime.
From Verif Require Import Proofs.BuildP Proofs.TextP Proofs.TextsP Proofs.DebugP Proofs.PrettyP.
From Verif Require Import Spec.Show.
Open Scope string_scope.
Open Scope N_scope.

(** ** Reading padded text back *)

(** Ends with a line feed, or is empty at the start of a line. *)
Fixpoint closes (bol : bool) (s : string) : Prop :=
  match s with
  | "" => bol = true
  | String c s' => closes (Ascii.eqb c line_feed) s'
  end.
Lemma closes_newline : forall s bol, closes bol (s ++ newline).
Proof. induction s as [|c s IH]; intros bol; [reflexivity|]. cbn [append closes]. apply IH. Qed.
Lemma closes_app : forall a b bol, closes true b -> b <> "" -> closes bol (a ++ b).
Proof.
  induction a as [|c a IH]; intros b bol H N; cbn [append].
  - destruct b; [congruence|]. cbn [closes] in *. exact H.
  - cbn [closes]. now apply IH.
Qed.
Lemma pad_more : forall a b bol, closes bol a -> pad_from bol a ++ pad_from true b = pad_from bol (a ++ b).
Proof.
  induction a as [|c a IH]; intros b bol H; cbn [closes] in H.
  - subst bol. reflexivity.
  - cbn [pad_from append]. rewrite <- (IH b _ H). now rewrite !sapp_assoc.
Qed.
Lemma four_inv : forall bol a b, (if (bol : bool) then "    " else "") ++ a = (if bol then "    " else "") ++ b -> a = b.
Proof. intros [] a b H; [|exact H]. cbn in H. now injection H. Qed.
Lemma pad_split : forall x a a' bol r r', x <> " "%char -> closes bol a -> closes bol a' ->
  pad_from bol a ++ String x r = pad_from bol a' ++ String x r' -> a = a' /\ r = r'.
Proof.
  intros x a. induction a as [|c a IH]; intros [|c' a'] bol r r' X A A' H; cbn [closes] in A, A'.
  - cbn in H. injection H as H. auto.
  - subst bol. cbn in H. injection H as H _. congruence.
  - subst bol. cbn in H. injection H as H _. congruence.
  - cbn [pad_from] in H. rewrite !sapp_assoc in H. apply four_inv in H. cbn [append] in H. injection H as -> H.
    apply (IH a' _ r r' X A A') in H as [-> ->]. auto.
Qed.
Lemma pad_tuple_split : forall a a' r r',
  pad (a ++ "," ++ newline) ++ ")" ++ r = pad (a' ++ "," ++ newline) ++ ")" ++ r' ->
  a ++ "," ++ newline = a' ++ "," ++ newline /\ r = r'.
Proof.
  intros a a' r r' H. unfold pad in H. cbn [append] in H.
  apply (pad_split ")") in H; [exact H|discriminate|..];
    change (String "," newline) with (("," ++ newline)); rewrite <- sapp_assoc; apply closes_newline.
Qed.

Lemma decode_pretty_split : forall e e' r r',
  decode_error_pretty e ++ "," ++ r = decode_error_pretty e' ++ "," ++ r' -> e = e' /\ r = r'.
Proof.
  intros [|v|x f] [|v'|x' f'] r r' H;
    cbn [decode_error_pretty] in H; unfold pretty_tuple, pretty_struct in H; cbn [fold_right fst snd] in H;
    rewrite ?sapp_assoc in H; try (cbn in H; discriminate H).
  - cbn in H. injection H as H. auto.
  - apply sapp_inv_head in H. do 2 apply sapp_inv_head in H.
    apply pad_tuple_split in H as [H R]. cbn [append] in H. apply dec_split in H as [-> _]; [|reflexivity].
    cbn in R. injection R as R. auto.
  - do 3 apply sapp_inv_head in H.
    assert (Q : forall t s n (u : string), pad (t ++ s ++ "," ++ newline) ++ pad ("found: " ++ n ++ "," ++ newline) ++ u
              = pad (t ++ s ++ "," ++ newline ++ "found: " ++ n ++ "," ++ newline) ++ u).
    { intros t s n u. rewrite <- sapp_assoc. f_equal. unfold pad. rewrite pad_more.
      - now rewrite !sapp_assoc.
      - replace (t ++ s ++ "," ++ newline) with ((t ++ s ++ ",") ++ newline) by now rewrite !sapp_assoc.
        apply closes_newline. }
    change ("found" ++ ": " ++ ?n) with ("found: " ++ n) in H.
    replace (pad ("expected" ++ ": " ++ str_debug x ++ "," ++ newline)) with (pad ("expected: " ++ str_debug x ++ "," ++ newline)) in H by reflexivity.
    replace (pad ("expected" ++ ": " ++ str_debug x' ++ "," ++ newline)) with (pad ("expected: " ++ str_debug x' ++ "," ++ newline)) in H by reflexivity.
    replace (pad ("found" ++ ": " ++ fmt_dec f ++ "," ++ newline)) with (pad ("found: " ++ fmt_dec f ++ "," ++ newline)) in H by reflexivity.
    replace (pad ("found" ++ ": " ++ fmt_dec f' ++ "," ++ newline)) with (pad ("found: " ++ fmt_dec f' ++ "," ++ newline)) in H by reflexivity.
    rewrite !Q in H. unfold pad in H. cbn [append] in H.
    assert (K : forall s n, closes true ("expected: " ++ str_debug s ++ "," ++ newline ++ "found: " ++ fmt_dec n ++ "," ++ newline)).
    { intros s n. replace ("expected: " ++ str_debug s ++ "," ++ newline ++ "found: " ++ fmt_dec n ++ "," ++ newline)
        with (("expected: " ++ str_debug s ++ "," ++ newline ++ "found: " ++ fmt_dec n ++ ",") ++ newline)
        by now rewrite !sapp_assoc. apply closes_newline. }
    apply (pad_split "}") in H as [H R]; [|discriminate|apply (K x f)|apply (K x' f')].
    injection R as ->.
    change (String "e" (String "x" (String "p" (String "e" (String "c" (String "t" (String "e" (String "d" (String ":" (String " " ?u))))))))))
      with ("expected: " ++ u) in H.
    apply sapp_inv_head in H. unfold str_debug, quote in H. rewrite !sapp_assoc in H. cbn [append] in H. injection H as H.
    apply (escape_split x x') in H as [-> H]. unfold newline in H. cbn [append] in H. injection H as H.
    apply dec_split in H as [-> _]; [auto|reflexivity].
Qed.

Lemma kind_pretty_split : forall k k' r r',
  kind_pretty k ++ "," ++ r = kind_pretty k' ++ "," ++ r' -> k = k' /\ r = r'.
Proof.
  intros k k' r r' H.
  destruct k as [e| | | | | | | | | | |], k' as [e'| | | | | | | | | | |]; cbn in H; try discriminate H;
    try (injection H as H; auto; fail).
  injection H as H. rewrite !sapp_assoc in H.
  apply (pad_tuple_split (decode_error_pretty e) (decode_error_pretty e')) in H as [H R].
  apply decode_pretty_split in H as [-> _]. injection R as ->. auto.
Qed.

Lemma error_pretty_text : forall s e, error_pretty s e =
  "binate::Error(" ++ newline ++ pad (kind_pretty (er_kind e) ++ "," ++ newline ++
    match er_source e with Some _ => s ++ "," ++ newline | None => "" end) ++ ")".
Proof.
  intros s [k [x|]]; unfold error_pretty, pretty_tuple; cbn [er_kind er_source fold_right].
  - rewrite <- (sapp_assoc (pad _) (pad _)). unfold pad. rewrite pad_more.
    + now rewrite !sapp_assoc.
    + rewrite <- sapp_assoc. apply closes_newline.
  - reflexivity.
Qed.

Lemma comma_end : forall a b : string, a ++ "," ++ newline = b ++ "," ++ newline -> a = b.
Proof.
  induction a as [|c a IH]; intros [|d b] H; cbn in H; [reflexivity|exfalso|exfalso|].
  - injection H as _ H. destruct b as [|x [|y b]]; cbn in H; discriminate H.
  - injection H as _ H. destruct a as [|x [|y a]]; cbn in H; discriminate H.
  - injection H as -> H. f_equal. auto.
Qed.

Lemma error_pretty_inj : forall s s' e e', error_pretty s e = error_pretty s' e' ->
  er_kind e = er_kind e' /\ (er_source e = None <-> er_source e' = None) /\ (er_source e <> None -> s = s').
Proof.
  intros s s' e e' H. rewrite !error_pretty_text in H. do 2 apply sapp_inv_head in H. unfold pad in H.
  assert (K : forall s e, closes true (kind_pretty (er_kind e) ++ "," ++ newline ++
    match er_source e with Some _ => s ++ "," ++ newline | None => "" end)).
  { clear. intros s [k [x|]]; cbn [er_kind er_source].
    - replace (kind_pretty k ++ "," ++ newline ++ s ++ "," ++ newline)
        with ((kind_pretty k ++ "," ++ newline ++ s ++ ",") ++ newline) by now rewrite !sapp_assoc.
      apply closes_newline.
    - rewrite sapp_nil_r, <- sapp_assoc. apply closes_newline. }
  apply (pad_split ")" _ _ true "" "") in H as [H _]; [|discriminate|apply K..].
  apply kind_pretty_split in H as [-> H]. split; [reflexivity|].
  apply sapp_inv_head in H.
  destruct (er_source e), (er_source e').
  - apply comma_end in H as ->. split; [split; discriminate|auto].
  - exfalso. destruct s; cbn in H; discriminate H.
  - exfalso. destruct s'; cbn in H; discriminate H.
  - split; [tauto|]. intros N. now elim N.
Qed.

(** ** The lines of an error *)

Lemma pad_one : forall l s (bol : bool), one_line l ->
  pad_from bol (l ++ newline ++ s) = (if bol then "    " else "") ++ l ++ newline ++ pad_from true s.
Proof.
  induction l as [|c l IH]; intros s bol C.
  - reflexivity.
  - destruct C as [D C]. cbn [append pad_from].
    assert (Ascii.eqb c line_feed = false) as -> by now apply Ascii.eqb_neq.
    rewrite (IH s false C). reflexivity.
Qed.
Lemma pad_lines : forall ls, Forall one_line ls -> pad (ended ls) = ended (map indented ls).
Proof.
  unfold pad. intros ls H. induction H as [|l ls C H IH]; [reflexivity|]. cbn [ended fold_right map] in *.
  fold (ended ls). rewrite (pad_one l (ended ls) true C). unfold indented at 1.
  rewrite IH. now rewrite sapp_assoc.
Qed.
Lemma one_line_app : forall a b, one_line (a ++ b) <-> one_line a /\ one_line b.
Proof. induction a as [|c a IH]; intros b; cbn; [tauto|]. rewrite IH. tauto. Qed.
Lemma comma_one : forall ls, Forall one_line ls -> Forall one_line (comma ls).
Proof.
  intros ls H. induction H as [|l ls C H IH]; [constructor|]. destruct ls as [|m ls]; cbn [comma].
  - constructor; [|constructor]. apply one_line_app. split; [exact C|]. cbn. split; [discriminate|auto].
  - constructor; [exact C|exact IH].
Qed.
Lemma pad_comma : forall ls, ls <> [] -> Forall one_line ls ->
  pad (lines_text ls ++ "," ++ newline) = ended (map indented (comma ls)).
Proof.
  intros ls N H. rewrite <- sapp_assoc, <- comma_text by exact N.
  rewrite text_ended by now apply comma_nonempty. apply pad_lines. now apply comma_one.
Qed.
Lemma tuple_lines : forall name fs, Forall (fun ls => ls <> [] /\ Forall one_line ls) fs ->
  pretty_tuple name (map lines_text fs) =
  lines_text ([(name ++ "(")%string] ++ concat (map (fun ls => map indented (comma ls)) fs) ++ [")"])%list.
Proof.
  intros name fs H. unfold pretty_tuple. rewrite app_assoc, text_snoc.
  rewrite ended_app. cbn [ended fold_right app]. rewrite !sapp_assoc. do 2 f_equal. f_equal. cbn [append].
  induction H as [|ls fs [N C] H IH]; [reflexivity|].
  cbn [map fold_right concat]. rewrite pad_comma by assumption. rewrite IH, ended_app. now rewrite sapp_assoc.
Qed.

Lemma dec_one : forall n, one_line (fmt_dec n).
Proof.
  intros n. assert (H := fmt_base_has 10 n lf ltac:(lia) eq_refl). unfold fmt_dec.
  induction (fmt_base 10 n) as [|c s IH]; cbn in *; [auto|]. split; [|tauto]. intros ->. tauto.
Qed.
Lemma escape_one : forall s, one_line s -> one_line (escape s).
Proof.
  induction s as [|c s IH]; intros H; [exact H|]. destruct H as [C H]. cbn [escape].
  destruct (_ || _); cbn [one_line]; repeat split; auto; discriminate.
Qed.
Lemma kind_text : forall k, kind_flat k -> exists ls,
  kind_lines k ls /\ kind_pretty k = lines_text ls /\ ls <> [] /\ Forall one_line ls.
Proof.
  intros k F.
  assert (N : forall n, In (k, n) kind_names -> kind_pretty k = n -> exists ls,
    kind_lines k ls /\ kind_pretty k = lines_text ls /\ ls <> [] /\ Forall one_line ls).
  { intros n I E. exists [n]. split; [now constructor|]. split; [exact E|]. split; [discriminate|].
    constructor; [|constructor]. cbn in I.
    repeat (destruct I as [I|I]; [injection I as <- <-; vm_compute; repeat split; discriminate|]). destruct I. }
  destruct k as [e| | | | | | | | | | |]; try (eapply N; [|reflexivity]; unfold kind_names; cbn [In kind_pretty]; tauto).
  clear N. destruct e as [|v|x f].
  - eexists. split; [apply Lines_incomplete|]. split; [reflexivity|]. split; [discriminate|].
    repeat constructor; discriminate.
  - exists [ "Decode("; "    UnrecognizedFrameType("; "        " ++ fmt_dec v ++ ","; "    ),"; ")" ].
    split; [apply Lines_type, fmt_dec_numeral|]. cbn [kind_pretty decode_error_pretty].
    assert (O : Forall one_line [fmt_dec v]) by (constructor; [apply dec_one|constructor]).
    change (fmt_dec v) with (lines_text [fmt_dec v]) at 1.
    change [lines_text [fmt_dec v]] with (map lines_text [[fmt_dec v]]).
    rewrite tuple_lines by (constructor; [split; [discriminate|exact O]|constructor]).
    cbn [map concat app comma].
    match goal with |- pretty_tuple _ [lines_text ?l] = _ /\ _ => change [lines_text l] with (map lines_text [l]) end.
    assert (O2 : Forall one_line ["UnrecognizedFrameType" ++ "("; indented (fmt_dec v ++ ","); ")"]).
    { repeat constructor; try discriminate. cbn. repeat split; try discriminate. apply one_line_app. split; [apply dec_one|].
      cbn. split; [discriminate|auto]. }
    rewrite tuple_lines by (constructor; [split; [discriminate|exact O2]|constructor]).
    split; [reflexivity|]. split; [discriminate|].
    repeat constructor; try discriminate. cbn. repeat split; try discriminate. apply one_line_app. split; [apply dec_one|].
    cbn. split; [discriminate|auto].
  - set (q := quotes (escape x)).
    assert (Oq : one_line q).
    { unfold q, quotes. cbn [one_line]. split; [discriminate|]. apply one_line_app. split; [now apply escape_one|].
      cbn. split; [discriminate|auto]. }
    exists [ "Decode("; "    InvalidStreamId {"; "        expected: " ++ quotes (escape x) ++ ",";
        "        found: " ++ fmt_dec f ++ ","; "    },"; ")" ].
    split; [apply Lines_id; [apply escape_ok|apply fmt_dec_numeral]|]. cbn [kind_pretty decode_error_pretty].
    assert (E : pretty_struct "InvalidStreamId" [("expected", str_debug x); ("found", fmt_dec f)] =
      lines_text [ "InvalidStreamId {"; "    expected: " ++ q ++ ","; "    found: " ++ fmt_dec f ++ ","; "}" ]).
    { unfold pretty_struct. cbn [fold_right fst snd].
      assert (P : forall l, one_line l -> pad (l ++ newline) = "    " ++ l ++ newline).
      { intros l L. unfold pad. replace (l ++ newline) with (l ++ newline ++ "") by now rewrite sapp_nil_r.
        rewrite pad_one by exact L. reflexivity. }
      replace ("expected" ++ ": " ++ str_debug x ++ "," ++ newline) with (("expected: " ++ q ++ ",") ++ newline).
      2:{ cbn [append]. now rewrite !sapp_assoc. }
      replace ("found" ++ ": " ++ fmt_dec f ++ "," ++ newline) with (("found: " ++ fmt_dec f ++ ",") ++ newline).
      2:{ cbn [append]. now rewrite !sapp_assoc. }
      rewrite !P.
      - rewrite !text_more. unfold lines_text. cbn [String.concat]. cbn [append]. now rewrite !sapp_assoc.
      - apply one_line_app. split; [cbn; repeat split; discriminate|]. apply one_line_app. split; [apply dec_one|].
        cbn. split; [discriminate|auto].
      - apply one_line_app. split; [cbn; repeat split; discriminate|]. apply one_line_app. split; [exact Oq|].
        cbn. split; [discriminate|auto]. }
    rewrite E.
    match goal with |- pretty_tuple _ [lines_text ?l] = _ /\ _ => change [lines_text l] with (map lines_text [l]);
      assert (O2 : Forall one_line l) end.
    { constructor; [cbn; repeat split; discriminate|]. constructor.
      { apply one_line_app. split; [cbn; repeat split; discriminate|]. apply one_line_app. split; [exact Oq|].
        cbn. split; [discriminate|auto]. }
      constructor.
      { apply one_line_app. split; [cbn; repeat split; discriminate|]. apply one_line_app. split; [apply dec_one|].
        cbn. split; [discriminate|auto]. }
      constructor; [cbn; split; [discriminate|auto]|constructor]. }
    rewrite tuple_lines by (constructor; [split; [discriminate|exact O2]|constructor]).
    split; [reflexivity|]. split; [discriminate|]. fold q.
    constructor; [cbn; repeat split; discriminate|]. constructor; [cbn; repeat split; discriminate|]. constructor.
    { apply one_line_app. split; [cbn; repeat split; discriminate|]. apply one_line_app. split; [exact Oq|].
      cbn. split; [discriminate|auto]. }
    constructor.
    { apply one_line_app. split; [cbn; repeat split; discriminate|]. apply one_line_app. split; [apply dec_one|].
      cbn. split; [discriminate|auto]. }
    constructor; [cbn; repeat split; discriminate|]. constructor; [cbn; repeat split; discriminate|constructor].
Qed.
Lemma error_laid : forall e sl, kind_flat (er_kind e) -> sl <> [] -> Forall one_line sl ->
  exists kl, kind_lines (er_kind e) kl /\
  error_pretty (lines_text sl) e = lines_text (["binate::Error("] ++ map indented (comma kl) ++
    match er_source e with Some _ => map indented (comma sl) | None => [] end ++ [")"])%list.
Proof.
  intros [k o] sl F N S. cbn [er_kind er_source] in *. destruct (kind_text k F) as (kl & K & E & KN & KO).
  exists kl. split; [exact K|]. unfold error_pretty. cbn [er_kind er_source]. rewrite E.
  destruct o.
  - change [lines_text kl; lines_text sl] with (map lines_text [kl; sl]). rewrite tuple_lines by (repeat constructor; assumption).
    cbn [map concat]. now rewrite app_nil_r, <- app_assoc.
  - change [lines_text kl] with (map lines_text [kl]). rewrite tuple_lines by (repeat constructor; assumption).
    cbn [map concat]. now rewrite app_nil_r.
Qed.

(** ** Strings in quotes *)

Lemma chars_points : forall s, chars s = code_points s.
Proof. reflexivity. Qed.
Lemma points_app : forall a b, code_points (a ++ b) = (code_points a ++ code_points b)%list.
Proof. induction a as [|c a IH]; intros b; [reflexivity|]. cbn. f_equal. apply IH. Qed.
Lemma points_inj : forall a b, code_points a = code_points b -> a = b.
Proof.
  induction a as [|c a IH]; intros [|d b] H; try discriminate H; [reflexivity|]. injection H as C H.
  apply (f_equal ascii_of_N) in C. rewrite !ascii_N_embedding in C. subst d. f_equal. now apply IH.
Qed.
Lemma points_has : forall n s, In n (code_points s) -> has (ascii_of_N n) s.
Proof.
  induction s as [|c s IH]; intros H; [destruct H|]. destruct H as [H|H]; [left|right; now apply IH].
  subst n. now rewrite ascii_N_embedding.
Qed.
Lemma list_split : forall (x : N) a b r r', ~ In x a -> ~ In x b ->
  (a ++ x :: r = b ++ x :: r')%list -> a = b /\ r = r'.
Proof.
  induction a as [|c a IH]; intros [|d b] r r' A B H; cbn in H.
  - injection H as H. auto.
  - injection H as -> _. elim B. now left.
  - injection H as -> _. elim A. now left.
  - injection H as -> H. apply IH in H as [-> ->]; [auto|intros I; apply A; now right|intros I; apply B; now right].
Qed.
Lemma numeral_closed : forall d n, numeral 16 d n -> ~ In 125 (code_points d).
Proof.
  intros d n [[_ R] _] I. apply points_has in I. now apply (reads_has _ _ _ _ _ R) in I.
Qed.
Lemma numeral_value : forall b d n m, numeral b d n -> numeral b d m -> n = m.
Proof. intros b d n m [[_ A] _] [[_ B] _]. congruence. Qed.

Lemma piece_split : forall c c' p p' r r', piece c p -> piece c' p' -> (p ++ r = p' ++ r')%list -> c = c' /\ r = r'.
Proof.
  intros c c' p p' r r' P P' H.
  destruct P as [c l I| |c N|c d N D], P' as [c' l' I'| |c' N'|c' d' N' D']; cbn in H.
  - injection H as -> ->. cbn in I, I'.
    repeat (destruct I as [I|I]; [injection I as <- <-; repeat (destruct I' as [I'|I']; [injection I' as <-; auto; discriminate|]); destruct I'|]).
    destruct I.
  - injection H as -> _. cbn in I. intuition congruence.
  - injection H as <- _. elim N'. cbn. tauto.
  - injection H as -> _. cbn in I. intuition congruence.
  - injection H as <- _. cbn in I'. intuition congruence.
  - injection H as H. auto.
  - injection H as <- _. elim N'. cbn. tauto.
  - discriminate H.
  - injection H as -> _. elim N. cbn. tauto.
  - injection H as -> _. elim N. cbn. tauto.
  - injection H as -> H. auto.
  - injection H as -> _. elim N. cbn. tauto.
  - injection H as <- _. cbn in I'. intuition congruence.
  - discriminate H.
  - injection H as <- _. elim N'. cbn. tauto.
  - injection H as H. rewrite <- !app_assoc in H. cbn [app] in H.
    apply list_split in H as [H ->]; [|now apply (numeral_closed d c)|now apply (numeral_closed d' c')].
    apply points_inj in H as ->. split; [|reflexivity]. now apply (numeral_value 16 d').
Qed.
Lemma piece_head : forall c p, piece c p -> exists x q, p = x :: q /\ x <> 34.
Proof.
  intros c p [c' l I| |c' N|c' d N D]; eexists _, _; (split; [reflexivity|]); try discriminate.
  intros ->. apply N. cbn. tauto.
Qed.
Lemma pieces_split : forall cs ps cs' ps' r r', Forall2 piece cs ps -> Forall2 piece cs' ps' ->
  (concat ps ++ 34 :: r = concat ps' ++ 34 :: r')%list -> cs = cs' /\ r = r'.
Proof.
  intros cs ps cs' ps' r r' P. revert cs' ps'. induction P as [|c p cs ps P F IH]; intros cs' ps' P' H.
  - destruct P' as [|c' p' cs' ps' P' F']; cbn in H.
    + injection H as H. auto.
    + exfalso. destruct (piece_head _ _ P') as (x & q & -> & X). cbn in H. injection H as H _. congruence.
  - destruct P' as [|c' p' cs' ps' P' F']; cbn in H.
    + exfalso. destruct (piece_head _ _ P) as (x & q & -> & X). cbn in H. injection H as H _. congruence.
    + rewrite <- !app_assoc in H. apply (piece_split c c') in H as [-> H]; [|assumption..].
      apply (IH cs' ps' F') in H as [-> ->]. auto.
Qed.
Lemma quoted_split : forall s s' t t' r r', quoted s t -> quoted s' t' -> (t ++ r = t' ++ r')%list -> s = s' /\ r = r'.
Proof.
  intros s s' t t' r r' (ps & P & ->) (ps' & P' & ->) H. cbn in H. injection H as H. rewrite <- !app_assoc in H.
  now apply (pieces_split s ps s' ps').
Qed.

Lemma char_piece : forall nul table c, piece c (char_debug nul table c).
Proof.
  intros nul table c. unfold char_debug.
  destruct ((c =? 0) && nul) eqn:Z. { assert (c = 0) by lia. subst c. apply Piece_nul. }
  destruct (c =? 9) eqn:A. { assert (c = 9) by lia. subst c. apply (Piece_short 9 116). cbn. tauto. }
  destruct (c =? 13) eqn:B. { assert (c = 13) by lia. subst c. apply (Piece_short 13 114). cbn. tauto. }
  destruct (c =? 10) eqn:C. { assert (c = 10) by lia. subst c. apply (Piece_short 10 110). cbn. tauto. }
  destruct ((c =? 92) || (c =? 34)) eqn:D.
  { apply Piece_short. cbn. assert (c = 92 \/ c = 34) as [->| ->] by lia; tauto. }
  assert (N : ~ In c (map fst specials)) by (cbn; lia).
  destruct (table c); [now apply Piece_self|].
  apply (Piece_number c (fmt_base 16 c) N). apply fmt_base_numeral. lia.
Qed.
Lemma text_quoted : forall nul table s, quoted s (text_debug nul table s).
Proof.
  intros nul table s. exists (map (char_debug nul table) s). split.
  - induction s; constructor; [apply char_piece|exact IHs].
  - unfold text_debug. now rewrite flat_map_concat_map.
Qed.
Lemma text_reads_back : forall nul table nul' table' s s' r r',
  (text_debug nul table s ++ r = text_debug nul' table' s' ++ r')%list -> s = s' /\ r = r'.
Proof. intros nul table nul' table' s s' r r'. apply quoted_split; apply text_quoted. Qed.

Lemma hex_range : forall n x, In x (code_points (fmt_base 16 n)) -> 32 <= x <= 126.
Proof.
  intros n x I. apply points_has in I as H.
  assert (B : x < 256).
  { unfold code_points in I. apply in_map_iff in I as (a & <- & _). apply N_ascii_bounded. }
  destruct (digit_value (ascii_of_N x)) as [v|] eqn:D.
  - unfold digit_value in D. rewrite N_ascii_embedding in D by exact B.
    destruct ((48 <=? x) && (x <=? 57)) eqn:E; [lia|]. destruct ((97 <=? x) && (x <=? 102)) eqn:F; [lia|discriminate].
  - now elim (fmt_base_has 16 n (ascii_of_N x) ltac:(lia) D).
Qed.
Lemma char_visible : forall nul table c x, In x (char_debug nul table c) -> 32 <= x <= 126 \/ (x = c /\ table c = true).
Proof.
  intros nul table c x. unfold char_debug.
  destruct ((c =? 0) && nul). { cbn. intros [<-|[<-|[]]]; lia. }
  destruct (c =? 9). { cbn. intros [<-|[<-|[]]]; lia. }
  destruct (c =? 13). { cbn. intros [<-|[<-|[]]]; lia. }
  destruct (c =? 10). { cbn. intros [<-|[<-|[]]]; lia. }
  destruct ((c =? 92) || (c =? 34)) eqn:D. { cbn. intros [<-|[<-|[]]]; lia. }
  destruct (table c) eqn:T. { cbn. intros [<-|[]]. auto. }
  intros I. left. apply in_app_or in I as [I|I]; [|apply in_app_or in I as [I|I]].
  - cbn in I. destruct I as [<-|[<-|[<-|[]]]]; lia.
  - now apply (hex_range c).
  - cbn in I. destruct I as [<-|[]]; lia.
Qed.
Lemma char_no_break : forall nul table c, ~ In 10 (char_debug nul table c) .
Proof.
  intros nul table c I. destruct (char_visible _ _ _ _ I) as [H|[H _]]; [lia|]. subst c.
  unfold char_debug in I. cbn in I. destruct I as [I|[I|[]]]; discriminate.
Qed.
Lemma text_visible : forall nul table s x, In x (text_debug nul table s) ->
  x <> 10 /\ (32 <= x <= 126 \/ (In x s /\ table x = true)).
Proof.
  intros nul table s x I. unfold text_debug in I. destruct I as [<-|I]; [lia|].
  apply in_app_or in I as [I|[<-|[]]]; [|lia]. apply in_flat_map in I as (c & C & I). split.
  - intros ->. now apply char_no_break in I.
  - destruct (char_visible _ _ _ _ I) as [H|[-> T]]; auto.
Qed.

Lemma escape_chars : forall nul table s, (forall c, 32 <= c <= 126 -> table c = true) -> printable s ->
  code_points (escape s) = flat_map (char_debug nul table) (code_points s).
Proof.
  intros nul table s T. induction s as [|c s IH]; intros P'; [reflexivity|].
  assert (C := P' O c eq_refl). assert (P : printable s) by (intros i x H; now apply (P' (S i) x)). clear P'.
  change (code_points (String c s)) with (N_of_ascii c :: code_points s). cbn [escape flat_map].
  rewrite <- (IH P). unfold char_debug at 1. remember (N_of_ascii c) as n eqn:En.
  assert (n =? 0 = false) as -> by lia. assert (n =? 9 = false) as -> by lia. assert (n =? 13 = false) as -> by lia.
  assert (n =? 10 = false) as -> by lia. cbn [andb]. rewrite (orb_comm (n =? 92)).
  destruct ((n =? 34) || (n =? 92)).
  - rewrite En. reflexivity.
  - rewrite T by lia. rewrite En. reflexivity.
Qed.
Lemma str_debug_chars : forall nul table s, (forall c, 32 <= c <= 126 -> table c = true) -> printable s ->
  code_points (str_debug s) = text_debug nul table (code_points s).
Proof.
  intros nul table s T P. unfold str_debug. rewrite !points_app, (escape_chars nul table s T P). reflexivity.
Qed.

(** ** Connection statuses *)

Definition status_names : list (status * string) :=
  [ (SUnconnected, "Unconnected"); (SConnecting, "Connecting"); (SConnected, "Connected"); (SClosed, "Closed") ].
Lemma status_text : forall nul table s,
  (exists n, In (s, n) status_names /\ status_debug nul table s = code_points n /\
             status_pretty nul table s = code_points n) \/
  exists r q, s = SError r /\ quoted r q /\
    status_debug nul table s = (code_points "Error(" ++ q ++ code_points ")")%list /\
    status_pretty nul table s = (code_points "Error(" ++ [10] ++ code_points "    " ++ q ++ code_points "," ++ [10] ++ code_points ")")%list.
Proof.
  intros nul table s. destruct s as [| | | |r]; [left; eexists; split; [unfold status_names; cbn [In]; tauto|split; reflexivity]..|].
  right. exists r, (text_debug nul table r). split; [reflexivity|]. split; [apply text_quoted|].
  split; [reflexivity|]. cbn [status_pretty].
  assert (P : forall l r, ~ In 10 l -> forall bol, (l <> [] \/ bol = false) ->
    pad_chars bol (l ++ 10 :: r) = ((if bol then chars "    " else []) ++ l ++ 10 :: pad_chars true r)%list).
  { clear. induction l as [|c l IH]; intros r N bol B.
    - destruct B as [B| ->]; [congruence|]. reflexivity.
    - cbn [app pad_chars]. assert (c =? 10 = false) as -> by (apply N.eqb_neq; intros ->; apply N; now left).
      rewrite (IH r); [reflexivity|intros I; apply N; now right|auto]. }
  rewrite (app_assoc (text_debug nul table r)), (P _ [] ).
  - cbn [pad_chars]. rewrite <- !app_assoc. reflexivity.
  - intros I. apply in_app_or in I as [I|I].
    + now apply text_visible in I.
    + cbn in I. destruct I as [I|[]]. discriminate.
  - left. discriminate.
Qed.
Lemma status_inj : forall nul table nul' table' s s',
  (status_debug nul table s = status_debug nul' table' s' -> s = s') /\
  (status_pretty nul table s = status_pretty nul' table' s' -> s = s').
Proof.
  intros nul table nul' table' s s'.
  destruct (status_text nul table s) as [(n & I & D & P)|(r & q & -> & Q & D & P)];
  destruct (status_text nul' table' s') as [(n' & I' & D' & P')|(r' & q' & -> & Q' & D' & P')]; rewrite D, D', P, P'.
  - assert (E : n = n' -> s = s').
    { intros <-. cbn in I, I'.
      repeat (destruct I as [I|I]; [injection I as <- <-;
        repeat (destruct I' as [I'|I']; [injection I' as <-; (reflexivity || discriminate)|]); destruct I'|]). destruct I. }
    split; intros H; apply points_inj in H; auto.
  - cbn in I. split; intros H; exfalso;
    repeat (destruct I as [I|I]; [injection I as <- <-; cbn in H; discriminate H|]); destruct I.
  - cbn in I'. split; intros H; exfalso;
    repeat (destruct I' as [I'|I']; [injection I' as <- <-; cbn in H; discriminate H|]); destruct I'.
  - split; intros H.
    + apply app_inv_head in H. apply (quoted_split r r') in H as [-> _]; auto.
    + do 3 apply app_inv_head in H. apply (quoted_split r r') in H as [-> _]; auto.
Qed.

(** ** Counters *)

Lemma int_signed : forall z, signed (fmt_int z) z.
Proof.
  intros z. unfold fmt_int. destruct (z <? 0)%Z eqn:E.
  - replace z with (- Z.of_N (Z.abs_N z))%Z at 2 by lia. constructor; [apply fmt_dec_numeral|lia].
  - replace z with (Z.of_N (Z.abs_N z)) at 2 by lia. constructor. apply fmt_dec_numeral.
Qed.
Lemma dec_no_sign : forall n s, fmt_dec n <> String "-" s.
Proof.
  intros n s H. apply (fmt_base_has 10 n "-" ltac:(lia) eq_refl). unfold fmt_dec in H. rewrite H. now left.
Qed.
Lemma signed_sign : forall d n, numeral 10 d n -> forall s, d <> String "-" s.
Proof. intros d n [[_ R] _] s ->. cbn in R. discriminate R. Qed.
Lemma signed_value : forall t z z', signed t z -> signed t z' -> z = z'.
Proof.
  intros t z z' [d n N|d n N L] H.
  - inversion H as [d' n' N' E|d' n' N' L' E]; subst.
    + f_equal. now apply (numeral_value 10 d).
    + exfalso. now apply (signed_sign _ _ N d').
  - inversion H as [d' n' N' E|d' n' N' L' E]; subst.
    + exfalso. now apply (signed_sign _ _ N' d).
    + do 2 f_equal. now apply (numeral_value 10 d).
Qed.
Lemma int_one : forall z, one_line (fmt_int z).
Proof. intros z. unfold fmt_int. destruct (z <? 0)%Z; [|apply dec_one]. cbn. split; [discriminate|apply dec_one]. Qed.
Lemma int_tuple : forall name z, exists d, signed d z /\
  debug_tuple name [fmt_int z] = name ++ "(" ++ d ++ ")" /\
  pretty_tuple name [fmt_int z] = lines_text [ name ++ "("; "    " ++ d ++ ","; ")" ].
Proof.
  intros name z. exists (fmt_int z). split; [apply int_signed|]. split; [reflexivity|].
  change [fmt_int z] with (map lines_text [[fmt_int z]]).
  rewrite tuple_lines; [reflexivity|]. repeat constructor; [discriminate|apply int_one].
Qed.
Lemma counters_text : forall z,
  (exists d, signed d z /\ provider_debug z = "StreamIdProvider(" ++ d ++ ")" /\
             provider_pretty z = lines_text [ "StreamIdProvider("; "    " ++ d ++ ","; ")" ]) /\
  (exists d, signed d z /\ counter_debug z = "RequestCounter(" ++ d ++ ")" /\
             counter_pretty z = lines_text [ "RequestCounter("; "    " ++ d ++ ","; ")" ]).
Proof. intros z. split; [apply (int_tuple "StreamIdProvider")|apply (int_tuple "RequestCounter")]. Qed.
Lemma end_inv : forall (x : ascii) a b, a ++ String x "" = b ++ String x "" -> a = b.
Proof.
  intros x. induction a as [|c a IH]; intros [|d b] H; cbn in H; [reflexivity|exfalso|exfalso|].
  - injection H as _ H. destruct b; discriminate H.
  - injection H as _ H. destruct a; discriminate H.
  - injection H as -> H. f_equal. auto.
Qed.
Lemma counters_inj : forall z z',
  (provider_debug z = provider_debug z' \/ provider_pretty z = provider_pretty z' \/
   counter_debug z = counter_debug z' \/ counter_pretty z = counter_pretty z') -> z = z'.
Proof.
  intros z z' H.
  destruct (counters_text z) as [(a & A & AD & AP) (b & B & BD & BP)].
  destruct (counters_text z') as [(a' & A' & AD' & AP') (b' & B' & BD' & BP')].
  rewrite AD, AD', AP, AP', BD, BD', BP, BP' in H. rewrite !text_more in H. unfold lines_text in H. cbn [String.concat] in H.
  assert (X : forall a b : string, (a ++ ",") ++ newline ++ ")" = (b ++ ",") ++ newline ++ ")" -> a = b).
  { clear. intros a b H. rewrite <- !(sapp_assoc _ newline ")") in H. apply (end_inv ")") in H.
    apply (end_inv line_feed) in H. now apply (end_inv ",") in H. }
  destruct H as [H|[H|[H|H]]].
  - apply sapp_inv_head in H. apply (end_inv ")") in H. subst a'. now apply (signed_value a).
  - do 2 apply sapp_inv_head in H. rewrite !(sapp_assoc "    ") in H. apply sapp_inv_head, X in H. subst a'. now apply (signed_value a).
  - apply sapp_inv_head in H. apply (end_inv ")") in H. subst b'. now apply (signed_value b).
  - do 2 apply sapp_inv_head in H. rewrite !(sapp_assoc "    ") in H. apply sapp_inv_head, X in H. subst b'. now apply (signed_value b).
Qed.

(** ** Derived equality *)

Lemma str_eq_ok : forall a b, str_eq a b = true <-> a = b.
Proof.
  induction a as [|x a IH]; intros [|y b]; cbn [str_eq]; try (split; [discriminate|discriminate]); [tauto|].
  rewrite andb_true_iff, N.eqb_eq, IH. split.
  - intros [E ->]. apply (f_equal ascii_of_N) in E. rewrite !ascii_N_embedding in E. now subst.
  - intros E. injection E as -> ->. auto.
Qed.
Lemma decode_error_eq_ok : forall a b, decode_error_eq a b = true <-> a = b.
Proof.
  intros [|v|x n] [|w|y m]; cbn [decode_error_eq]; try (split; discriminate); [tauto| |].
  - rewrite N.eqb_eq. split; [now intros ->|now injection 1].
  - rewrite andb_true_iff, str_eq_ok, N.eqb_eq. split; [now intros [-> ->]|injection 1; auto].
Qed.
Lemma kind_eq_ok : forall a b, kind_eq a b = true <-> a = b.
Proof.
  intros a b. unfold kind_eq. split.
  - destruct a, b; cbn; intros H; try discriminate H; try reflexivity. apply decode_error_eq_ok in H. now subst.
  - intros <-. destruct a; try reflexivity. cbn. now apply decode_error_eq_ok.
Qed.
Lemma status_eq_ok : forall a b, status_eq a b = true <-> a = b.
Proof.
  intros a b. unfold status_eq. split.
  - destruct a, b; cbn; intros H; try discriminate H; try reflexivity. apply str_eq_ok in H. now subst.
  - intros <-. destruct a; try reflexivity. cbn. now apply str_eq_ok.
Qed.
Lemma frame_type_eq_ok : forall a b, frame_type_eq a b = true <-> a = b.
Proof. intros a b. split; [destruct a, b; cbn; intros H; try discriminate H; reflexivity|intros <-; destruct a; reflexivity]. Qed.
Lemma mime_eq_ok : forall a b, mime_eq a b = true <-> a = b.
Proof.
  intros a b. split; [|intros <-; apply N.eqb_refl]. unfold mime_eq. intros H. apply N.eqb_eq in H.
  assert (K : exists g : N -> mime, forall m, g (mime_tag m) = m).
  { exists (fun n => nth (N.to_nat n) [M_UNPARSEABLE; M_APPLICATION_AVRO; M_APPLICATION_CBOR; M_APPLICATION_GRAPHQL;
      M_APPLICATION_GZIP; M_APPLICATION_JAVASCRIPT; M_APPLICATION_JSON; M_APPLICATION_OCTET_STREAM; M_APPLICATION_PDF;
      M_APPLICATION_VND_APACHE_THRIFT_BINARY; M_APPLICATION_VND_GOOGLE_PROTOBUF; M_APPLICATION_XML; M_APPLICATION_ZIP;
      M_AUDIO_AAC; M_AUDIO_MP3; M_AUDIO_MP4; M_AUDIO_MPEG3; M_AUDIO_MPEG; M_AUDIO_OGG; M_AUDIO_OPUS; M_AUDIO_VORBIS;
      M_IMAGE_BMP; M_IMAGE_GIF; M_IMAGE_HEIC_SEQUENCE; M_IMAGE_HEIC; M_IMAGE_HEIF_SEQUENCE; M_IMAGE_HEIF; M_IMAGE_JPEG;
      M_IMAGE_PNG; M_IMAGE_TIFF; M_MULTIPART_MIXED; M_TEXT_CSS; M_TEXT_CSV; M_TEXT_HTML; M_TEXT_PLAIN; M_TEXT_XML;
      M_VIDEO_H264; M_VIDEO_H265; M_VIDEO_VP8; M_APPLICATION_X_HESSIAN; M_APPLICATION_X_JAVA_OBJECT;
      M_APPLICATION_CLOUDEVENTS_JSON; M_MESSAGE_X_RSOCKET_MIME_TYPE_V0; M_MESSAGE_X_RSOCKET_ACCEPT_TIME_TYPES_V0;
      M_MESSAGE_X_RSOCKET_AUTHENTICATION_V0; M_MESSAGE_X_RSOCKET_TRACING_ZIPKIN_V0; M_MESSAGE_X_RSOCKET_ROUTING_V0;
      M_MESSAGE_X_RSOCKET_COMPOSITE_METADATA_V0] M_UNPARSEABLE). intros []; reflexivity. }
  destruct K as (g & K). rewrite <- (K a), <- (K b). now f_equal.
Qed.
Lemma code_eq_ok : forall a b, code_eq a b = true <-> a = b.
Proof. intros a b. split; [destruct a, b; cbn; intros H; try discriminate H; reflexivity|intros <-; destruct a; reflexivity]. Qed.
Lemma role_eq_ok : forall a b, role_eq a b = true <-> a = b.
Proof. intros [] []; cbn; split; congruence. Qed.
Lemma u24_eq_ok : forall a b, u24_eq a b = true <-> a = b.
Proof.
  intros [h l] [h' l']. unfold u24_eq. cbn. rewrite andb_true_iff, !N.eqb_eq. split; [now intros [-> ->]|injection 1; auto].
Qed.

Lemma frame_type_codes : forall a b, frame_type_eq a b = true <-> ft_value a = ft_value b.
Proof. intros a b. rewrite frame_type_eq_ok. split; [now intros ->|]. destruct a, b; cbn; intros H; try discriminate H; reflexivity. Qed.
Lemma mime_strings : forall v w, mime_eq (mime_from v) (mime_from w) = true <->
  v = w \/ (~ In v (map fst mime_table) /\ ~ In w (map fst mime_table)).
Proof.
  intros v w. rewrite mime_eq_ok. split.
  - intros E. destruct (mime_eq_dec (mime_from v) M_UNPARSEABLE) as [U|U].
    + right. split; apply mime_unparseable_iff; congruence.
    + left. now apply mime_from_inj.
  - intros [->|[V W]]; [reflexivity|]. apply mime_unparseable_iff in V, W. congruence.
Qed.
Lemma decode_errors_shown : forall a b, decode_error_eq a b = true <-> decode_error_display a = decode_error_display b.
Proof. intros a b. rewrite decode_error_eq_ok. split; [now intros ->|apply decode_error_display_inj]. Qed.
Lemma kinds_shown : forall a b, (kind_eq a b = true <-> kind_debug a = kind_debug b) /\
  (kind_eq a b = true <-> kind_pretty a = kind_pretty b).
Proof.
  intros a b. rewrite kind_eq_ok. split; (split; [now intros ->|]); intros H.
  - apply (f_equal (fun s => s ++ ")")) in H. now apply kind_debug_split in H as [H _]; [|left; eauto..].
  - apply (f_equal (fun s => s ++ "," ++ "")) in H. now apply kind_pretty_split in H as [H _].
Qed.
Lemma u24_numbers : forall v w a b, u24_from_u32 v = Ret a -> u24_from_u32 w = Ret b -> (u24_eq a b = true <-> v = w).
Proof.
  assert (X : forall v a, u24_from_u32 v = Ret a -> u24_into_u32 a = v).
  { intros v a A. destruct (N.lt_ge_cases v (2 ^ 24)) as [L|L].
    - destruct (u24_spec v L) as (u & U & _ & I & _). congruence.
    - apply u24_from_u32_panic in L. congruence. }
  intros v w a b A B. rewrite u24_eq_ok. split; [|intros ->; congruence].
  intros <-. rewrite <- (X v a A). now apply X.
Qed.
