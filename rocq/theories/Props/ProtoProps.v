(** * Properties of fragmented requests in the RSocket protocol: C91 *)

From Verif Require Import Model.SocketM Spec.Proto.
From Verif Require Import Proofs.ProtoP.

Definition exr (l : list N) : bytes := map n2b l.
(** A connection that counts the frames, and a machine that sends at most [n] bytes of each part at a time. *)
Definition rx_send (s : nat) (f : frame) : nat * option unit := (S s, None).
Definition rx_machine (chunk : option N) : rsocket_machine := RSocketMachine Client 1 (fun k => k =? 1) chunk.
Definition rx_payload : payload := Payload (Some (exr [1; 2; 3])) (Some (exr [4; 5; 6; 7; 8])).

(** ** C91: the frames of a call are one request of the protocol *)

(** The claim. *)
Definition fragments_by_protocol : Prop :=
  forall (S E : Type) (send : S -> frame -> S * option E) fuel bd m p conn gs c' conn',
  fire_and_forget send fuel bd m p conn = Ret (None, gs, c', conn') -> exists sid, one_request sid gs.

(** It is false: the fragments after the first are REQUEST_FNF frames too. *)
Theorem C91_refuted : ~ fragments_by_protocol.
Proof.
  intros H.
  specialize (H nat unit rx_send 5%nat Debug (rx_machine (Some 2)) rx_payload 0%nat
    (marked 3 (fragments (Some 2) rx_payload)) 5%Z 3%nat eq_refl).
  destruct H as (sid & H). inversion H as [|v fs _ _ C]; subst. inversion C.
Qed.
Print Assumptions C91_refuted.

(** It holds exactly of the calls whose payload is not split: without a chunk size, or with bytes in the payload and
    no part longer than a chunk. *)
Theorem C91_iff_partial : forall (S E : Type) (send : S -> frame -> S * option E) fuel bd m p conn gs c' conn',
  fire_and_forget send fuel bd m p conn = Ret (None, gs, c', conn') ->
  (forall n, rm_chunk_payload m = Some n -> n <= usize_max) ->
  ((exists sid, one_request sid gs) <->
   (forall n, rm_chunk_payload m = Some n -> (part (p_metadata p) <> [] \/ part (p_data p) <> []) /\
      size (part (p_metadata p)) <= n /\ size (part (p_data p)) <= n)).
Proof. exact (@fnf_one_request). Qed.
Print Assumptions C91_iff_partial.

(** What that does to a receiver that follows the protocol: a payload that is split never arrives.  The receiver hands on
    nothing, or the last fragment alone if it lets a second request on a stream replace the first. *)
Theorem C91_lost : forall (S E : Type) (send : S -> frame -> S * option E) fuel bd m n p conn gs c' conn',
  fire_and_forget send fuel bd m p conn = Ret (None, gs, c', conn') ->
  rm_chunk_payload m = Some n -> n <= usize_max ->
  p_metadata p <> Some [] -> p_data p <> Some [] ->
  size (part (p_metadata p)) <= 2 ^ 24 -> size (part (p_data p)) <= 2 ^ 24 ->
  n < size (part (p_metadata p)) \/ n < size (part (p_data p)) ->
  exists sid, next_stream_id fuel (rm_receivers m) (rm_stream_id m) = Ret (sid, c') /\
    handed_on false gs = [] /\
    handed_on true gs = [(sid, chunk_at n (pieces_of n p - 1) p)] /\
    chunk_at n (pieces_of n p - 1) p <> p.
Proof. exact (@fnf_handed). Qed.
Print Assumptions C91_lost.

(** A call in three fragments; the same fragments as the protocol has them, which arrive; a call that is not
    split, which arrives too. *)
Definition rx_protocol : list frame :=
  [fnf_frame 3 true (chunk_at 2 0 rx_payload); FPayload (PayloadFrame 3 192 (chunk_at 2 1 rx_payload));
   FPayload (PayloadFrame 3 32 (chunk_at 2 2 rx_payload))].
Example C91_example :
  (exists gs, fire_and_forget rx_send 5 Debug (rx_machine (Some 2)) rx_payload 0%nat = Ret (None, gs, 5%Z, 3%nat) /\
     handed_on false gs = [] /\ handed_on true gs = [(3, Payload None (Some (exr [8])))]) /\
  one_request 3 rx_protocol /\
  handed_on false rx_protocol = [(3, rx_payload)] /\ handed_on true rx_protocol = [(3, rx_payload)] /\
  (exists gs, fire_and_forget rx_send 5 Debug (rx_machine (Some 5)) rx_payload 0%nat = Ret (None, gs, 5%Z, 1%nat) /\
     one_request 3 gs /\ handed_on false gs = [(3, rx_payload)]).
Proof.
  split; [eexists; split; [reflexivity|split; reflexivity]|]. split.
  - apply One_parts; [reflexivity|reflexivity|]. apply Cont_more; [reflexivity|reflexivity|]. apply Cont_last; reflexivity.
  - split; [reflexivity|]. split; [reflexivity|]. eexists. split; [reflexivity|]. split; [|reflexivity].
    apply One_whole; reflexivity.
Qed.
