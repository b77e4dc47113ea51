(** * Specification of what the error of a text accessor says

    Independent of the model: uses only its data types. *)

From Verif Require Export Spec.Text.
Local Open Scope string_scope.

(** The bytes [l] are a text up to index [i]; from there [n] bytes are no part of one. *)
Definition broken_at (l : bytes) (i n : nat) : Prop :=
  longest utf8 l i /\ ~ completable l /\ exists k, longest completable l k /\ n = Nat.max 1 (k - i).
(** The bytes [l] are a text up to index [i]; there a character begins that does not end. *)
Definition cut_at (l : bytes) (i : nat) : Prop := ~ utf8 l /\ longest utf8 l i /\ completable l.

(** The sentence about [l], and the value shown by [{:?}]. *)
Inductive sentence (l : bytes) : string -> Prop :=
| Sentence_broken : forall i n a b, broken_at l i n -> numeral 10 a (N.of_nat n) -> numeral 10 b (N.of_nat i) ->
    sentence l ("invalid utf-8 sequence of " ++ a ++ " bytes from index " ++ b)
| Sentence_cut : forall i b, cut_at l i -> numeral 10 b (N.of_nat i) ->
    sentence l ("incomplete utf-8 byte sequence from index " ++ b).
Inductive value (l : bytes) : string -> Prop :=
| Value_broken : forall i n a b, broken_at l i n -> numeral 10 a (N.of_nat n) -> numeral 10 b (N.of_nat i) ->
    value l ("Utf8Error { valid_up_to: " ++ b ++ ", error_len: Some(" ++ a ++ ") }")
| Value_cut : forall i b, cut_at l i -> numeral 10 b (N.of_nat i) ->
    value l ("Utf8Error { valid_up_to: " ++ b ++ ", error_len: None }").
