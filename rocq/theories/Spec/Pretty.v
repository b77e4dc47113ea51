(** * Specification of the debug texts over several lines

    Independent of the model: uses only its data types. *)

From Coq Require Import Ascii.
From Verif Require Export Spec.Debug.
Open Scope string_scope.
Open Scope N_scope.

Definition lf : ascii := ascii_of_N 10.

(** ** The lines *)

Definition indented (l : string) : string := "    " ++ l.
(** A comma after the last line; a name before the first. *)
Fixpoint comma (ls : list string) : list string :=
  match ls with
  | [] => []
  | [l] => [l ++ ","]
  | l :: ls' => l :: comma ls'
  end.
Definition keyed (k : string) (ls : list string) : list string :=
  match ls with
  | [] => []
  | l :: ls' => (k ++ ": " ++ l) :: ls'
  end.
(** What has no parts is on one line, as in the compact text; each part of something is on lines of
    its own, indented by four, with a comma. *)
Definition leaf (t : tree) : Prop :=
  match t with Struct _ _ | Tuple _ _ => False | _ => True end.
Inductive laid : tree -> list string -> Prop :=
| Laid_leaf : forall t s, leaf t -> shown t s -> laid t [s]
| Laid_struct : forall name fs ls, fields_laid fs ls ->
    laid (Struct name fs) ([(name ++ " {")%string] ++ map indented ls ++ ["}"])%list
| Laid_tuple : forall name t ls, laid t ls ->
    laid (Tuple name t) ([(name ++ "(")%string] ++ map indented (comma ls) ++ [")"])%list
with fields_laid : list (string * tree) -> list string -> Prop :=
| Laid_nil : fields_laid [] []
| Laid_cons : forall k t ls fs r, laid t ls -> fields_laid fs r ->
    fields_laid ((k, t) :: fs) (comma (keyed k ls) ++ r)%list.
(** The lines as one text. *)
Definition lines_text (ls : list string) : string := String.concat (String lf "") ls.

(** ** Joining the lines *)

(** What stands in the compact text between [p], the last character of a line, and [c], the first
    one of the next. *)
Definition glue (p c : ascii) : string :=
  if Ascii.eqb p "," then (if Ascii.eqb c "}" then " " else if Ascii.eqb c ")" then "" else ", ")
  else if Ascii.eqb p "{" then " "
  else "".
Definition breaks (s : string) : bool :=
  match s with String c _ => Ascii.eqb c lf | "" => false end.
(** Without line feeds, indentation and the commas at the ends of lines; [st] is the last character
    of the line before while at the start of a line. *)
Fixpoint joined (st : option ascii) (s : string) : string :=
  match s with
  | "" => ""
  | String c s' =>
    let on := (if (breaks s' && Ascii.eqb c ",")%bool then "" else String c "") ++
              joined (if breaks s' then Some c else None) s' in
    match st with
    | None => on
    | Some p => if (Ascii.eqb c " " || Ascii.eqb c lf)%bool then joined st s' else glue p c ++ on
    end
  end.

(** ** The names of the other enums *)

(** Capitals, and underscores for what is neither a letter nor a digit. *)
Definition shouted_char (c : ascii) : ascii :=
  let n := N_of_ascii c in
  if (97 <=? n) && (n <=? 122) then ascii_of_N (n - 32)
  else if (65 <=? n) && (n <=? 90) || (48 <=? n) && (n <=? 57) then c
  else "_".
Fixpoint shouted (s : string) : string :=
  match s with
  | "" => ""
  | String c s' => String (shouted_char c) (shouted s')
  end.

Definition code_names : list (code * string) :=
  [ (CInvalidSetup, "InvalidSetup"); (CUnsupportedSetup, "UnsupportedSetup"); (CRejectedSetup, "RejectedSetup");
    (CRejectedResume, "RejectedResume"); (CConnectionError, "ConnectionError");
    (CConnectionClose, "ConnectionClose"); (CApplicationError, "ApplicationError"); (CRejected, "Rejected");
    (CCanceled, "Canceled"); (CInvalid, "Invalid") ].
