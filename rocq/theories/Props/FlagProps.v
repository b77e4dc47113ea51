(** * Flags as sets: C101 *)

From Verif Require Import Model.FlagOpsM Model.FrameM Spec.FlagSets Spec.Build Proofs.FlagOpsP.

(** ** C101 *)

(** However a value of [Flags] is made, it is one of the 32 sets of flags, and the one the
    operations of sets give. *)
Theorem C101_sets : forall e w, words16 e -> flags_eval e = Ret w -> flags_ok w /\ forall x, has w x = holds e x.
Proof. exact eval_ret. Qed.
Print Assumptions C101_sets.

Theorem C101_reached : forall w, flags_ok w <-> exists e, words16 e /\ flags_eval e = Ret w.
Proof. exact all_reached. Qed.
Print Assumptions C101_reached.

(** Nothing panics but the [unwrap] of a [from_bits] of a word with other bits. *)
Theorem C101_panic_iff : forall e, words16 e ->
  (flags_eval e = Panic <-> exists w, In w (taken e) /\ ~ flags_ok w) /\ flags_eval e <> Loop.
Proof. exact eval_panic_iff. Qed.
Print Assumptions C101_panic_iff.

Theorem C101_from_bits : forall w f, w < 2 ^ 16 -> (fl_from_bits w = Some f <-> f = w /\ flags_ok w).
Proof. exact from_bits_iff. Qed.
Print Assumptions C101_from_bits.

(** [extend] with, and [collect] of, any number of values. *)
Theorem C101_extend : forall l a, flags_ok a -> Forall flags_ok l ->
  flags_ok (fl_extend a l) /\ forall x, has (fl_extend a l) x = has a x || existsb (fun b => has b x) l.
Proof. exact extend_sets. Qed.
Print Assumptions C101_extend.

(** [contains], [intersects], [is_empty], [is_all], [==]. *)
Theorem C101_questions : forall a b, flags_ok a -> flags_ok b ->
  (fl_contains a b = true <-> forall x, has b x = true -> has a x = true) /\
  (fl_intersects a b = true <-> exists x, has a x = true /\ has b x = true) /\
  (fl_is_empty a = true <-> forall x, has a x = false) /\
  (fl_is_all a = true <-> forall x, has a x = true) /\
  (a = b <-> forall x, has a x = has b x).
Proof. exact questions. Qed.
Print Assumptions C101_questions.

(** [Ord]: whoever has the highest flag on which the two differ is greater. *)
Theorem C101_order : forall a b, flags_ok a -> flags_ok b ->
  (fl_cmp a b = Gt <-> outranks a b) /\ (fl_cmp a b = Lt <-> outranks b a) /\ (fl_cmp a b = Eq <-> a = b).
Proof. exact order. Qed.
Print Assumptions C101_order.

(** The methods of flags.rs:178-215 on whatever was made: three names for one flag, two for another. *)
Theorem C101_queries : forall e w, words16 e -> flags_eval e = Ret w ->
  fl_is_ignore w = holds e F_ignore /\ fl_is_metadata w = holds e F_metadata /\
  fl_is_follows w = holds e F_follows /\ fl_is_resume w = holds e F_follows /\ fl_is_respond w = holds e F_follows /\
  fl_is_complete w = holds e F_complete /\ fl_is_lease w = holds e F_complete /\ fl_is_next w = holds e F_next.
Proof. exact eval_queries. Qed.
Print Assumptions C101_queries.

(** What becomes of the flags given to [PayloadFrame::new], the only function that takes some. *)
Theorem C101_payload : forall bd sid e w p, words16 e -> flags_eval e = Ret w -> sid < 2 ^ 31 ->
  exists f, payload_frame_new bd sid w p = Ret f /\
  payload_frame_is_follows f = holds e F_follows /\ payload_frame_is_complete f = holds e F_complete /\
  payload_frame_is_next f = holds e F_next /\
  (forall x, has (pf_flags f) x = match x with
     | F_ignore => false | F_metadata => present (p_metadata p)
     | F_follows | F_complete | F_next => holds e x end).
Proof. exact eval_payload. Qed.
Print Assumptions C101_payload.

(** LEASE set and COMPLETE removed, so neither; a complement; a word with other bits, cut and refused;
    RESUME and NEXT given to a PAYLOAD frame. *)
Example C101_example :
  flags_eval (ERemove (EInsert (EConst NLease) (EConst NNext)) (EConst NComplete)) = Ret 0x10 /\
  holds (ERemove (EInsert (EConst NLease) (EConst NNext)) (EConst NComplete)) F_complete = false /\
  flags_eval (ENot (EOr (EConst NIgnore) (EConst NNext))) = Ret 0xE0 /\
  flags_eval (ETruncate 0xFFFF) = Ret 0x1F0 /\ flags_eval (EXor (EFromBits 0x200) ENone) = Panic /\
  ~ flags_ok 0x200 /\ In 0x200 (taken (EXor (EFromBits 0x200) ENone)) /\ words16 (EXor (EFromBits 0x200) ENone) /\
  flags_eval (EExtend (EConst NNext) (EConst NRespond) (EConst NFollows)) = Ret 0x50 /\
  flags_eval (ESet EAll (EConst NMetadata) false) = Ret 0x170 /\
  flags_ok 0x90 /\ flags_ok 0x70 /\ outranks 0x90 0x70 /\ fl_cmp 0x90 0x70 = Gt /\
  payload_frame_new Debug 1 0x150 (Payload None None) = Ret (PayloadFrame 1 0x50 (Payload None None)).
Proof.
  repeat match goal with |- _ /\ _ => split end; try reflexivity.
  - intros [H _]. discriminate H.
  - left. reflexivity.
  - split; [reflexivity|exact Logic.I].
  - split; reflexivity.
  - split; reflexivity.
  - exists F_metadata. split; [reflexivity|]. split; [reflexivity|]. intros []; cbn; intro H; try discriminate H; reflexivity.
Qed.
