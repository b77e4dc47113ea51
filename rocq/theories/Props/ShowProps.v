(** * Errors over several lines, statuses, counters, derived equality: C95, C96, C97 *)

From Coq Require Import Ascii ZArith.
From Verif Require Import Model.ShowM Model.FlagsM Spec.Mime.
From Verif Require Import Proofs.ShowP.
From Verif Require Import Spec.Show.
Open Scope string_scope.
Open Scope N_scope.

(** ** C95: [{:#?}] of errors *)

(** The lines of the kind and then those of the source, whatever they are, four further in and with
    a comma. *)
Theorem C95_laid : forall e sl, kind_flat (er_kind e) -> sl <> [] -> Forall one_line sl ->
  exists kl, kind_lines (er_kind e) kl /\
  error_pretty (lines_text sl) e = lines_text (["binate::Error("] ++ map indented (comma kl) ++
    match er_source e with Some _ => map indented (comma sl) | None => [] end ++ [")"])%list.
Proof. exact error_laid. Qed.
Print Assumptions C95_laid.

(** For any texts of the sources. *)
Theorem C95_determines : forall s s' e e', error_pretty s e = error_pretty s' e' ->
  er_kind e = er_kind e' /\ (er_source e = None <-> er_source e' = None) /\ (er_source e <> None -> s = s').
Proof. exact error_pretty_inj. Qed.
Print Assumptions C95_determines.

(** The error made from a decode error whose [Debug] text is on several lines itself. *)
Definition px_error : error := error_from_decode (InvalidStreamId "0" 7).
Example C95_example : kind_flat (er_kind px_error) /\
  error_pretty (decode_error_pretty (InvalidStreamId "0" 7)) px_error = lines_text
    [ "binate::Error("; "    Decode("; "        InvalidStreamId {";
      "            expected: " ++ quotes "0" ++ ","; "            found: 7,"; "        },"; "    ),";
      "    InvalidStreamId {"; "        expected: " ++ quotes "0" ++ ","; "        found: 7,"; "    },"; ")" ] /\
  error_pretty "" (err_new KRejected None) = lines_text [ "binate::Error("; "    Rejected,"; ")" ] /\
  error_pretty "Timeout" (err_new KIo (Some "")) = lines_text [ "binate::Error("; "    Io,"; "    Timeout,"; ")" ].
Proof. split; [cbn; split; [discriminate|exact Logic.I]|]. repeat split. Qed.

(** ** C96: [Debug] of strings, connection statuses and counters *)

(** Whatever version of Unicode is at hand. *)
Theorem C96_quoted : forall nul table s, quoted s (text_debug nul table s) /\
  forall x, In x (text_debug nul table s) -> x <> 10 /\ (32 <= x <= 126 \/ (In x s /\ table x = true)).
Proof. intros nul table s. split; [apply text_quoted|apply text_visible]. Qed.
Print Assumptions C96_quoted.

(** Even across two versions, and whatever follows. *)
Theorem C96_reads_back : forall nul table nul' table' s s' r r',
  (text_debug nul table s ++ r = text_debug nul' table' s' ++ r')%list -> s = s' /\ r = r'.
Proof. exact text_reads_back. Qed.
Print Assumptions C96_reads_back.

(** On printable ASCII it is the text used for the strings in errors. *)
Theorem C96_ascii : forall nul table s, (forall c, 32 <= c <= 126 -> table c = true) -> printable s ->
  code_points (str_debug s) = text_debug nul table (code_points s).
Proof. exact str_debug_chars. Qed.
Print Assumptions C96_ascii.

Theorem C96_status : forall nul table s,
  (exists n, In (s, n) [ (SUnconnected, "Unconnected"); (SConnecting, "Connecting");
                         (SConnected, "Connected"); (SClosed, "Closed") ] /\
     status_debug nul table s = code_points n /\ status_pretty nul table s = code_points n) \/
  exists r q, s = SError r /\ quoted r q /\
    status_debug nul table s = (code_points "Error(" ++ q ++ code_points ")")%list /\
    status_pretty nul table s =
      (code_points "Error(" ++ [10] ++ code_points "    " ++ q ++ code_points "," ++ [10] ++ code_points ")")%list.
Proof. exact status_text. Qed.
Print Assumptions C96_status.

Theorem C96_status_determines : forall nul table nul' table' s s',
  (status_debug nul table s = status_debug nul' table' s' -> s = s') /\
  (status_pretty nul table s = status_pretty nul' table' s' -> s = s').
Proof. exact status_inj. Qed.
Print Assumptions C96_status_determines.

Theorem C96_counters : forall z,
  (exists d, signed d z /\ provider_debug z = "StreamIdProvider(" ++ d ++ ")" /\
             provider_pretty z = lines_text [ "StreamIdProvider("; "    " ++ d ++ ","; ")" ]) /\
  (exists d, signed d z /\ counter_debug z = "RequestCounter(" ++ d ++ ")" /\
             counter_pretty z = lines_text [ "RequestCounter("; "    " ++ d ++ ","; ")" ]).
Proof. exact counters_text. Qed.
Print Assumptions C96_counters.

Theorem C96_counters_determine : forall z z',
  (provider_debug z = provider_debug z' \/ provider_pretty z = provider_pretty z' \/
   counter_debug z = counter_debug z' \/ counter_pretty z = counter_pretty z') -> z = z'.
Proof. exact counters_inj. Qed.
Print Assumptions C96_counters_determine.

(** A reason with a quote, a line feed, a NUL, a letter outside ASCII that is printable and a
    separator that is not; a counter that was exhausted by a call too many. *)
Definition px_table (c : N) : bool := (32 <=? c) && (c <=? 126) || (c =? 0xE9).
Example C96_example :
  status_debug true px_table (SError [34; 10; 0; 0xE9; 0x2028]) =
    (code_points "Error(" ++ [34; 92; 34; 92; 110; 92; 48; 0xE9] ++ code_points "\u{2028}" ++ [34] ++ code_points ")")%list /\
  text_debug false px_table [0] = ([34] ++ code_points "\u{0}" ++ [34])%list /\
  (forall c, 32 <= c <= 126 -> px_table c = true) /\ printable "a\b" /\
  counter_debug (snd (counter_run [CtDec; CtDec] (counter_new 1))) = "RequestCounter(-1)" /\
  provider_pretty sid_new_for_server = lines_text [ "StreamIdProvider("; "    2,"; ")" ].
Proof.
  split; [reflexivity|]. split; [reflexivity|]. split.
  { intros c [A B]. unfold px_table. apply N.leb_le in A, B. now rewrite A, B. }
  split.
  { intros i c H. destruct i as [|[|[|i]]]; cbn in H; try discriminate H; injection H as <-; split; reflexivity || discriminate. }
  split; reflexivity.
Qed.

(** ** C97: derived equality *)

Theorem C97_equal :
  (forall a b, frame_type_eq a b = true <-> a = b) /\
  (forall a b, mime_eq a b = true <-> a = b) /\
  (forall a b, code_eq a b = true <-> a = b) /\
  (forall a b, role_eq a b = true <-> a = b) /\
  (forall a b, u24_eq a b = true <-> a = b) /\
  (forall a b, decode_error_eq a b = true <-> a = b) /\
  (forall a b, kind_eq a b = true <-> a = b) /\
  (forall a b, status_eq a b = true <-> a = b).
Proof.
  exact (conj frame_type_eq_ok (conj mime_eq_ok (conj code_eq_ok (conj role_eq_ok (conj u24_eq_ok
    (conj decode_error_eq_ok (conj kind_eq_ok status_eq_ok))))))).
Qed.
Print Assumptions C97_equal.

(** What equality means to a caller: the same code on the wire, the same MIME string or two unknown
    ones, the same number, the same message. *)
Theorem C97_means :
  (forall a b, frame_type_eq a b = true <-> ft_value a = ft_value b) /\
  (forall v w, mime_eq (mime_from v) (mime_from w) = true <->
     v = w \/ (~ In v (map fst mime_table) /\ ~ In w (map fst mime_table))) /\
  (forall v w a b, u24_from_u32 v = Ret a -> u24_from_u32 w = Ret b -> (u24_eq a b = true <-> v = w)) /\
  (forall a b, decode_error_eq a b = true <-> decode_error_display a = decode_error_display b) /\
  (forall a b, (kind_eq a b = true <-> kind_debug a = kind_debug b) /\
               (kind_eq a b = true <-> kind_pretty a = kind_pretty b)).
Proof.
  exact (conj frame_type_codes (conj mime_strings (conj u24_numbers (conj decode_errors_shown kinds_shown)))).
Qed.
Print Assumptions C97_means.

Example C97_example :
  mime_eq (mime_from "text/css") (mime_from "text/csv") = false /\
  mime_eq (mime_from "text/unknown") (mime_from "") = true /\
  kind_eq (KDecode (InvalidStreamId "0" 1)) (KDecode (InvalidStreamId "0" 2)) = false /\
  kind_eq KRejected KRejectedSetup = false /\
  status_eq (StatusError "a") (StatusError "ab") = false /\
  u24_from_u32 70000 = Ret (U24 1 4464) /\ u24_eq (U24 1 4464) (U24 1 4464) = true.
Proof. repeat split. Qed.
