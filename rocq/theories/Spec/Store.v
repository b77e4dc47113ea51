(** * Specification of the storage of an encoded frame

    Independent of the model: uses only the data types of [Model/Types.v]. *)

From Verif Require Export Model.Types Spec.Wire.

(** SETUP frames without a resume token. *)
Definition without_token (f : frame) : bool :=
  match f with FSetup s => negb (present (sf_resume_token s)) | _ => false end.
