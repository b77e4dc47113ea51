(** * Frames as the diagrams of the protocol draw them

    The diagrams stand in the comments of binate/src/frame/flags.rs:70-76 and
    binate/src/frame/codec/*.rs.  Independent of the model: uses only its data types. *)

From Verif Require Export Spec.Build Spec.Codec.

Definition raised (k : N) (b : bool) : N := if b then 2 ^ k else 0.

(** The flag word with every flag of [w] where it is drawn.  In a value of the
    library's flag type bit 8 is [I], 7 [M], 6 [F] or [R], 5 [C] or [L], 4 [N]. *)
Definition drawn_word (w : flags) : N :=
  raised drawn_ignore (N.testbit w 8) + raised drawn_metadata (N.testbit w 7) +
  raised drawn_follows (N.testbit w 6) + raised drawn_complete (N.testbit w 5) +
  raised drawn_next (N.testbit w 4).

(** The fields of a frame as the protocol prescribes them: flags as drawn, and a
    metadata length only in front of metadata. *)
Definition prescribed (f : frame) : list field :=
  let l := wire 0 (drawn_word (flag_word f)) 0 0 f in
  match payload_of f with
  | Some p =>
      firstn (length l - 3) l ++
      match p_metadata p with Some m => [Bits 24 (size m); Raw m] | None => [] end ++
      [Raw (part (p_data p))]
  | None => l
  end.

(** The flags say whether there is metadata; so it is in every frame built by a
    constructor or the builder of the library (C17, C48). *)
Definition announces (f : frame) : Prop :=
  forall p, payload_of f = Some p -> N.testbit (flag_word f) 7 = present (p_metadata p).

(** The frames the library writes as prescribed. *)
Definition written_as_drawn (f : frame) : Prop :=
  match f with
  | FRequestN _ | FCancel _ | FError _ | FResume _ | FResumeOk _ => True
  | FKeepalive k => kf_respond k = false
  | FLease l => lf_metadata l = None
  | FMetadataPush _ => False
  | FSetup _ | FRequestResponse _ | FRequestFnf _ | FRequestStream _ | FRequestChannel _
  | FPayload _ => False
  end.

(** The frames the library understands when they arrive as prescribed. *)
Definition read_as_drawn (f : frame) : Prop :=
  match f with
  | FLease _ | FMetadataPush _ => True
  | _ => written_as_drawn f
  end.
