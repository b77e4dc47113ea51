(** * Texts of [core::str::Utf8Error], the error of the text accessors

    [Payload::data_utf8] and [Payload::metadata_utf8], payload.rs:71-87, return it.  The texts are those of [core]
    (library/core/src/str/error.rs), to our knowledge; its sources were not at hand. *)

From Verif Require Export Model.DebugM Model.Utf8M.

(** [Display]: the length of the fault first, then the place. *)
Definition utf8_error_display (e : utf8_error) : string :=
  match ue_error_len e with
  | Some n => "invalid utf-8 sequence of " ++ fmt_dec (N.of_nat n) ++ " bytes from index " ++ fmt_dec (N.of_nat (ue_valid_up_to e))
  | None => "incomplete utf-8 byte sequence from index " ++ fmt_dec (N.of_nat (ue_valid_up_to e))
  end.
(** [derive(Debug)]: [valid_up_to: usize], [error_len: Option<u8>]. *)
Definition utf8_error_debug (e : utf8_error) : string :=
  debug_struct "Utf8Error"
    [ ("valid_up_to", fmt_dec (N.of_nat (ue_valid_up_to e)));
      ("error_len", option_debug (fun n => fmt_dec (N.of_nat n)) (ue_error_len e)) ].
