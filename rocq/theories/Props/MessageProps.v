(** * Properties of what panics say: C109 *)

From Verif Require Import Model.MessageM Spec.Message.
From Verif Require Import Proofs.MessageP.
Local Open Scope string_scope.

(** ** C109: a panic names the argument and the rule *)

(** A call has a message exactly if it panics. *)
Theorem C109_iff : forall bd c, message bd c <> None <-> call_panics bd c = true.
Proof. exact message_iff. Qed.
Print Assumptions C109_iff.

(** A constructor, or the builder of SETUP, names the first of its arguments that breaks a limit, and the limit. *)
Theorem C109_argument : forall bd c m, limited c <> [] ->
  (message bd c = Some m <-> bd = Debug /\ exists arg x, first_broken c arg x /\ m = limit_text arg x).
Proof. exact argument_named. Qed.
Print Assumptions C109_argument.

(** What the other calls say, and when. *)
Theorem C109_other : forall bd c m, limited c = [] -> (message bd c = Some m <-> complains bd c m).
Proof. exact others. Qed.
Print Assumptions C109_other.

(** Whoever reads the message of a limited argument knows its name and the limit. *)
Theorem C109_tells : forall bd bd' c c' m, limited c <> [] -> message bd c = Some m -> message bd' c' = Some m ->
  exists arg x, first_broken c arg x /\ first_broken c' arg x /\ m = limit_text arg x.
Proof. exact message_tells. Qed.
Print Assumptions C109_tells.
Theorem C109_limit : forall a b x y, identifier a -> identifier b -> limit_text a x = limit_text b y -> a = b /\ x = y.
Proof. exact limit_text_inj. Qed.
Print Assumptions C109_limit.

(** A chain of builder calls that panics says what the first refused call says. *)
Theorem C109_chain : forall bd b cs, setup_apply_all bd b cs = Panic ->
  exists pre c post b' m, cs = (pre ++ c :: post)%list /\ setup_apply_all bd b pre = Ret b' /\ message bd (BuildSetup b' c) = Some m.
Proof. exact chain_message. Qed.
Print Assumptions C109_chain.

Definition nx_payload : payload := Payload None (Some (map n2b [1; 2]%N)).
Example C109_example :
  message Debug (NewRequestStream 2147483648 true 0 nx_payload) = Some "stream_id MUST be <= MAX_U31 (0x7FFFFFFF)" /\
  message Debug (NewRequestStream 7 true 0 nx_payload) = Some "initial_request_n MUST be non-zero" /\
  message Release (NewRequestStream 7 true 0 nx_payload) = None /\
  message Debug (NewRequestStream 7 true 1 nx_payload) = None /\
  message Debug (NewResume (Version 1 0) [] 0 (2 ^ 63)) = Some "first_available_client_position MUST be <= MAX_U63 (0x7FFF_FFFF_FFFF_FFFF)" /\
  message Release (PayloadChunks nx_payload 0) = Some "assertion failed: chunk_size != 0" /\
  message Release (ListCopy [map n2b [1; 2]%N; map n2b [3]%N] 4) = Some "`len` greater than remaining" /\
  message Debug (FrameDecode (map n2b [0; 0; 0; 1; 252; 0]%N)) = Some "not implemented" /\
  identifier "stream_id".
Proof.
  repeat match goal with |- _ /\ _ => split end; try reflexivity. apply spaceless_identifier. reflexivity.
Qed.
Example C109_example_broken : first_broken (NewRequestStream 7 true 0 nx_payload) "initial_request_n" NotZero /\
  complains Debug (BuildSetup (SetupFrame 0 (Version 1 0) 1 1 None [] [] nx_payload) (SetMetadataMimetype (repeat (n2b 97) 257)))
    "assertion failed: mimetype.len() <= 256" /\
  exists cs, setup_run Debug cs = Panic /\ setup_run Release cs <> Panic.
Proof.
  split; [|split].
  - exists [("stream_id", 7%N, Below31); ("initial_request_n", 0%N, Below31)], 0%N, []. split; [reflexivity|].
    split; [reflexivity|]. repeat constructor; cbn; lia.
  - constructor. vm_compute. reflexivity.
  - exists [SetKeepaliveInterval (2 ^ 31)%N]. split; [reflexivity|discriminate].
Qed.
