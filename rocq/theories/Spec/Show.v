(** * Specification of the texts of errors over several lines, of strings in quotes, and of numbers
    with a sign

    Independent of the model: uses only its data types. *)

From Coq Require Import Ascii ZArith.
From Verif Require Export Spec.Pretty.
Open Scope string_scope.
Open Scope N_scope.

(** ** Errors *)

Definition quotes (s : string) : string := String (ascii_of_N 34) (s ++ String (ascii_of_N 34) "").
(** The lines of a kind. *)
Inductive kind_lines : kind -> list string -> Prop :=
| Lines_name : forall k n, In (k, n) kind_names -> kind_lines k [n]
| Lines_incomplete : kind_lines (KDecode InComplete) [ "Decode("; "    InComplete,"; ")" ]
| Lines_type : forall v d, numeral 10 d v ->
    kind_lines (KDecode (UnrecognizedFrameType v))
      [ "Decode("; "    UnrecognizedFrameType("; "        " ++ d ++ ","; "    ),"; ")" ]
| Lines_id : forall x q f d, escaped x q -> numeral 10 d f ->
    kind_lines (KDecode (InvalidStreamId x f))
      [ "Decode("; "    InvalidStreamId {"; "        expected: " ++ quotes q ++ ",";
        "        found: " ++ d ++ ","; "    },"; ")" ].
(** No line feed inside. *)
Fixpoint one_line (s : string) : Prop :=
  match s with
  | "" => True
  | String c s' => c <> lf /\ one_line s'
  end.
Definition kind_flat (k : kind) : Prop :=
  match k with KDecode (InvalidStreamId x _) => one_line x | _ => True end.

(** ** Strings *)

Definition code_points (s : string) : list N := map N_of_ascii (list_ascii_of_string s).
(** How a character may stand between quotes. *)
Definition specials : list (N * N) := [ (9, 116); (10, 110); (13, 114); (34, 34); (92, 92) ].
Inductive piece : N -> list N -> Prop :=
| Piece_short : forall c l, In (c, l) specials -> piece c [92; l]
| Piece_nul : piece 0 [92; 48]
| Piece_self : forall c, ~ In c (map fst specials) -> piece c [c]
| Piece_number : forall c d, ~ In c (map fst specials) -> numeral 16 d c ->
    piece c ([92; 117; 123] ++ code_points d ++ [125]).
Definition quoted (cs t : list N) : Prop :=
  exists ps, Forall2 piece cs ps /\ t = ([34] ++ concat ps ++ [34])%list.

(** ** Numbers with a sign *)

Inductive signed : string -> Z -> Prop :=
| Signed_pos : forall d n, numeral 10 d n -> signed d (Z.of_N n)
| Signed_neg : forall d n, numeral 10 d n -> 0 < n -> signed ("-" ++ d) (- Z.of_N n).
