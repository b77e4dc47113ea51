(** * The rules of the documentation, application error codes: C99, C100 *)

From Coq Require Import String.
From Verif Require Import Model.RuleM Spec.Rules Spec.Codec Proofs.RuleP.
From Verif Require Import Props.CodecProps.

(** ** C99 *)

(** Arguments that keep the rules give a frame that keeps them, in both builds. *)
Theorem C99_lawful : forall bd c, lawful_arguments c -> exists f, new_run bd c = Ret f /\ obeys f.
Proof. exact lawful_built. Qed.
Print Assumptions C99_lawful.

(** The constructors let frames through that break the rules, a build with debug assertions too. *)
Theorem C99_built_refuted : forall bd, ~ (forall c f, new_run bd c = Ret f -> obeys f).
Proof.
  intros bd H.
  assert (E : new_run bd (NewPayload 1 0 (Payload None None)) =
    Ret (FPayload (PayloadFrame 1 0 (Payload None None)))) by (destruct bd; reflexivity).
  apply H in E. cbn in E. destruct E as [_ [E|E]]; discriminate E.
Qed.
Print Assumptions C99_built_refuted.

(** Exactly which, said of the arguments. *)
Theorem C99_built_iff : forall bd c f, new_run bd c = Ret f -> (obeys f <-> careful c).
Proof. exact built_iff. Qed.
Print Assumptions C99_built_iff.

(** The decoder accepts frames that break them. *)
Theorem C99_received_refuted : ~ (forall input f rest, decode input = (DOk f, rest) -> obeys f).
Proof.
  intro H.
  assert (E : decode (map n2b [0;0;0;7; 32;0; 0;0;0;0]) = (DOk (FRequestN (RequestNFrame 7 0)), [])) by reflexivity.
  apply H in E. cbn in E. destruct E as (_ & E & _). discriminate E.
Qed.
Print Assumptions C99_received_refuted.

(** But only by a number that is 0, or by a PAYLOAD frame with neither COMPLETE nor NEXT. *)
Theorem C99_received_iff : forall input f rest, decode input = (DOk f, rest) -> (obeys f <-> nothing_missing f).
Proof. exact received_iff. Qed.
Print Assumptions C99_received_iff.

(** Arguments that keep the rules; a timeout of 0 that a later call repairs; rules broken in a build
    with debug assertions: SETUP, ERROR, RESUME; frames received that keep a rule and break one. *)
Example C99_example :
  lawful_arguments (NewSetup [SetKeepaliveInterval 1; SetResumeToken [n2b 7]; SetMetadataMimetype []]) /\
  lawful_arguments (NewError 3 0x201 None) /\ lawful_arguments (NewPayload 1 0x20 (Payload None None)) /\
  careful (NewSetup [SetKeepaliveTimeout 0; SetKeepaliveTimeout 9]) /\
  ~ lawful_arguments (NewSetup [SetKeepaliveTimeout 0; SetKeepaliveTimeout 9]) /\
  (exists s, new_run Debug (NewSetup [SetKeepaliveInterval 0]) = Ret (FSetup s) /\ sf_keepalive_interval s = 0) /\
  (exists f, new_run Debug (NewError 3 0x001 None) = Ret f /\ ~ obeys f) /\
  (exists f, new_run Debug (NewResume (Version 1 0) (repeat (n2b 0) (N.to_nat 65536)) 0 0) = Ret f /\ ~ obeys f) /\
  new_run Debug (NewRequestN 1 0) = Panic /\
  new_run Release (NewRequestN 1 (2 ^ 31)) = Ret (FRequestN (RequestNFrame 1 0)) /\
  (let f := FPayload (PayloadFrame 1 0x20 (Payload None (Some [n2b 9]))) in
   decode (map n2b [0;0;0;1; 40;32; 0;0;0; 9]) = (DOk f, []) /\ nothing_missing f) /\
  (let f := FPayload (PayloadFrame 1 0 (Payload None (Some [n2b 9]))) in
   decode (map n2b [0;0;0;1; 40;0; 0;0;0; 9]) = (DOk f, []) /\ ~ nothing_missing f).
Proof.
  repeat match goal with |- _ /\ _ => split end.
  - cbn [lawful_arguments]. repeat match goal with |- _ /\ _ => split end.
    + intros n [E|[E|[E|[]]]]; try discriminate. injection E as <-. split; reflexivity.
    + intros n [E|[E|[E|[]]]]; discriminate.
    + intros n [E|[E|[E|[]]]]; try discriminate. injection E as <-. discriminate.
    + intros m [[E|[E|[E|[]]]]|[E|[E|[E|[]]]]]; try discriminate. injection E as <-. discriminate.
  - cbn [lawful_arguments]. unfold right_stream, connection_code. repeat split; try reflexivity; try lia; discriminate.
  - split; [reflexivity|left; reflexivity].
  - cbn [careful]. split.
    + exists 30000. split; [|discriminate]. right. split; [|reflexivity]. intros c [<-|[<-|[]]]; reflexivity.
    + exists 9. split; [|discriminate]. left. exists [SetKeepaliveTimeout 0], (SetKeepaliveTimeout 9), [].
      split; [reflexivity|]. split; [reflexivity|]. intros c [].
  - intros (_ & H & _). destruct (H 0 (or_introl eq_refl)) as [X _]. discriminate X.
  - eexists. split; reflexivity.
  - eexists. split; [reflexivity|]. cbn. intros (_ & X & _). specialize (X (or_introl eq_refl)). discriminate X.
  - eexists. split; [reflexivity|]. cbn [obeys rf_resume_token]. intros (X & _). apply X. vm_compute. reflexivity.
  - reflexivity.
  - reflexivity.
  - split; [reflexivity|left; reflexivity].
  - split; [reflexivity|]. intros [X|X]; discriminate X.
Qed.

(** ** C100 *)

(** Not every code that the constants leave to applications can be put in an ERROR frame. *)
Theorem C100_refuted : forall bd, ~ (forall sid c d, sid < 2 ^ 31 -> application_code c ->
  exists f, error_new bd sid c d = Ret f /\ error_error_code f = c).
Proof.
  intros bd H. destruct (H 1 0xFFFFFFFE None) as (f & E & C); [reflexivity|split; discriminate|].
  destruct bd; [discriminate E|]. injection E as <-. discriminate C.
Qed.
Print Assumptions C100_refuted.

(** Exactly those below 2^31 can; the others panic, or lose their highest bit. *)
Theorem C100_usable_iff : forall bd sid c d, sid < 2 ^ 31 -> application_code c ->
  ((exists f, error_new bd sid c d = Ret f /\ error_error_code f = c) <-> c < 2 ^ 31) /\
  (2 ^ 31 <= c -> error_new bd sid c d =
     match bd with Debug => Panic | Release => Ret (ErrorFrame sid (c - 2 ^ 31) d) end).
Proof. exact application_usable. Qed.
Print Assumptions C100_usable_iff.

(** What the peer of a build without debug assertions makes of an application error on a stream. *)
Theorem C100_sent : forall sid c d, 0 < sid < 2 ^ 31 -> application_code c -> solid d -> exists f bs,
  error_new Release sid c d = Ret f /\ frame_encode (FError f) [] = EOk bs /\
  (connection_code (c mod 2 ^ 31) -> fst (decode bs) = DErr (InvalidStreamId "0" sid)) /\
  (~ connection_code (c mod 2 ^ 31) -> decode bs = (DOk (FError (ErrorFrame sid (c mod 2 ^ 31) d)), [])).
Proof. exact application_sent. Qed.
Print Assumptions C100_sent.

(** The wire carries all of them: a peer that sends one is understood. *)
Theorem C100_carried : forall sid c d, sid < 2 ^ 31 -> application_code c -> solid d -> exists bs,
  frame_encode (FError (ErrorFrame sid c d)) [] = EOk bs /\ decode bs = (DOk (FError (ErrorFrame sid c d)), []).
Proof. exact application_carried. Qed.
Print Assumptions C100_carried.

(** A code that is kept; one that arrives as REJECTED_SETUP and is refused; one that arrives as the
    stream error CANCELED; the highest one, received. *)
Example C100_example :
  application_code 0x301 /\ application_code 0x7FFFFFFF /\ application_code 0x80000003 /\ application_code 0x80000203 /\
  application_code 0xFFFFFFFE /\ ~ application_code 0xFFFFFFFF /\ solid (Some [n2b 1]) /\
  error_new Debug 5 0x7FFFFFFF None = Ret (ErrorFrame 5 0x7FFFFFFF None) /\
  connection_code (0x80000003 mod 2 ^ 31) /\ ~ connection_code (0x80000203 mod 2 ^ 31) /\
  (exists f bs, error_new Release 5 0x80000003 None = Ret f /\ frame_to_bytes (FError f) = Ret bs /\
     fst (decode bs) = DErr (InvalidStreamId "0" 5)) /\
  (exists f bs, error_new Release 5 0x80000203 None = Ret f /\ frame_to_bytes (FError f) = Ret bs /\
     decode bs = (DOk (FError (ErrorFrame 5 0x203 None)), [])) /\
  decode (map n2b [0;0;0;5; 44;0; 255;255;255;254]) = (DOk (FError (ErrorFrame 5 0xFFFFFFFE None)), []).
Proof.
  unfold application_code, connection_code. repeat match goal with |- _ /\ _ => split end;
    try discriminate; try reflexivity; try lia.
  - cbn. right. right. left. reflexivity.
  - cbn. lia.
  - do 2 eexists. repeat split; reflexivity.
  - do 2 eexists. repeat split; reflexivity.
Qed.
