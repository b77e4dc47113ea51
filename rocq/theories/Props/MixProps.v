(** * Properties of whose fragments a payload is put together from: C107 *)

From Verif Require Import Model.BufM Spec.Mix.
From Verif Require Import Proofs.MixP.

Definition mx (l : list N) : bytes := map n2b l.

(** ** C107: a payload is put together from the fragments of one request *)

(** The claim: what converts is one request of the protocol, and converts to its payload. *)
Definition only_requests : Prop := forall l p, bl_try_into flat 0 l = DOk p ->
  exists sid fs, Forall2 (fun v f => fst (decode v) = DOk f) l fs /\ whole_request sid fs /\ p = without_empty (joined fs).

(** It is false: two complete requests of different streams and kinds become one payload. *)
Definition mx_two : list bytes :=
  [mx [0;0;0;1; 0x15;0; 0;0;1; 65; 97];                 (* REQUEST_FNF on stream 1 *)
   mx [0;0;0;3; 0x11;0; 0;0;1; 66; 98]].                (* REQUEST_RESPONSE on stream 3 *)
Theorem C107_refuted : ~ only_requests.
Proof.
  intros H. destruct (H mx_two (Payload (Some (mx [65; 66])) (Some (mx [97; 98]))) eq_refl) as (sid & fs & D & W & _).
  inversion D as [|v f l gs D1 D2]; subst. inversion D2 as [|v' f' l' gs' D3 D4]; subst. inversion D4; subst.
  vm_compute in D1, D3. injection D1 as <-. injection D3 as <-.
  inversion W as [|f fs O C]; subst. inversion O.
Qed.
Print Assumptions C107_refuted.

(** The half of it that holds: the fragments of one request convert to its payload. *)
Theorem C107_request_partial : forall sid l fs,
  Forall2 (fun v f => fst (decode v) = DOk f) l fs -> whole_request sid fs ->
  bl_try_into flat 0 l = DOk (without_empty (joined fs)).
Proof. exact request_payload. Qed.
Print Assumptions C107_request_partial.

(** Of a fire-and-forget request, to the payload the receiver of C91 hands on. *)
Theorem C107_handed : forall r sid l fs,
  Forall2 (fun v f => fst (decode v) = DOk f) l fs -> one_request sid fs ->
  exists p, handed_on r fs = [(sid, p)] /\ bl_try_into flat 0 l = DOk (without_empty p).
Proof. exact request_handed. Qed.
Print Assumptions C107_handed.

(** Why the other half fails: stream ids and flags, FOLLOWS among them, make no difference. *)
Theorem C107_blind : forall l l', Forall2 relabelled l l' ->
  Forall (fun v => exists f, fst (decode v) = DOk f /\ contributes f <> None) l ->
  bl_try_into flat 0 l' = bl_try_into flat 0 l.
Proof. exact relabelled_all. Qed.
Print Assumptions C107_blind.

(** Fragments of two requests, however they come in between each other, are not told apart: none is refused and
    none is left out. *)
Theorem C107_mixed : forall l fs gs hs, mixed fs gs hs ->
  Forall2 (fun v f => fst (decode v) = DOk f) l hs ->
  exists p, bl_try_into flat 0 l = DOk p /\
    length (part (p_metadata p)) = (length (part (p_metadata (assembled fs))) + length (part (p_metadata (assembled gs))))%nat /\
    length (part (p_data p)) = (length (part (p_data (assembled fs))) + length (part (p_data (assembled gs))))%nat.
Proof. exact mixed_accepted. Qed.
Print Assumptions C107_mixed.

(** A request in two fragments, and the same bytes with the second on another stream and FOLLOWS swapped. *)
Definition mx_request : list frame :=
  [FRequestFnf (RequestFnfFrame 1 0x140 (Payload (Some (mx [65])) (Some (mx [97]))));
   FPayload (PayloadFrame 1 0x020 (Payload None (Some (mx [98; 99]))))].
Definition mx_bytes : list bytes := [mx [0;0;0;1; 0x15;0x40; 0;0;1; 65; 97]; mx [0;0;0;1; 0x28;0x20; 0;0;0; 98; 99]].
Definition mx_other : list bytes := [mx [0;0;0;1; 0x15;0x00; 0;0;1; 65; 97]; mx [0;0;0;9; 0x28;0x60; 0;0;0; 98; 99]].
Example C107_example :
  Forall2 (fun v f => fst (decode v) = DOk f) mx_bytes mx_request /\ one_request 1 mx_request /\
  whole_request 1 mx_request /\ handed_on false mx_request = [(1, joined mx_request)] /\
  bl_try_into flat 0 mx_bytes = DOk (Payload (Some (mx [65])) (Some (mx [97; 98; 99]))) /\
  Forall2 relabelled mx_bytes mx_other /\
  bl_try_into flat 0 mx_other = DOk (Payload (Some (mx [65])) (Some (mx [97; 98; 99]))) /\
  bl_try_into flat 0 [] = DOk (Payload None None).
Proof.
  split; [repeat constructor|]. split.
  { apply One_parts; [reflexivity|reflexivity|]. apply Cont_last; reflexivity. }
  split. { apply Whole_parts; [reflexivity|]. apply Cont_last; reflexivity. }
  split; [reflexivity|]. split; [reflexivity|]. split; [|split; reflexivity].
  constructor; [|constructor; [|constructor]].
  - exists (mx [0;0;0;1; 0x15;0x40]), (mx [0;0;0;1; 0x15;0x00]), (mx [0;0;1; 65; 97]), 5, 0, 1, 0x140, 0, 1, 0x100.
    repeat split; reflexivity.
  - exists (mx [0;0;0;1; 0x28;0x20]), (mx [0;0;0;9; 0x28;0x60]), (mx [0;0;0; 98; 99]), 10, 0, 1, 0x020, 0, 9, 0x060.
    repeat split; reflexivity.
Qed.

(** The fragments of two requests in between each other. *)
Definition mx_second : list frame := [FRequestResponse (RequestResponseFrame 3 0 (Payload (Some (mx [66])) (Some (mx [100]))))].
Example C107_example_mixed :
  let l := [mx [0;0;0;1; 0x15;0x40; 0;0;1; 65; 97]; mx [0;0;0;3; 0x10;0; 0;0;1; 66; 100]; mx [0;0;0;1; 0x28;0x20; 0;0;0; 98; 99]] in
  exists hs, mixed mx_request mx_second hs /\ Forall2 (fun v f => fst (decode v) = DOk f) l hs /\
    bl_try_into flat 0 l = DOk (Payload (Some (mx [65; 66])) (Some (mx [97; 100; 98; 99]))).
Proof.
  cbv zeta. eexists. split; [|split; [repeat constructor|reflexivity]].
  apply Mix_left, Mix_right, Mix_left, Mix_none.
Qed.
