(** * Which parts of a decoded frame and of a chunked payload share storage: C102 *)

From Verif Require Import Model.ShareM Spec.Share Proofs.ShareP.

(** ** C102 *)

(** Decoding from one [Bytes] copies nothing: the strings of the frame are, in their order, pieces
    of the storage of the [Bytes], at their position. *)
Theorem C102_one : forall h fuel f r, h_at h <> None ->
  frame_decode one_reader_ops fuel (OneReader h []) = (DOk f, r) ->
  map (fun e => h_bytes (snd e)) (or_out r) = strings f /\ Forall (from_one h) (or_out r) /\ in_order (or_out r).
Proof. exact one_shares. Qed.
Print Assumptions C102_one.

(** Decoding from a [BufList<Bytes>] copies a string exactly if it does not lie within one member of
    the list, each time into a block of its own; the others are pieces of the member they lie in. *)
Theorem C102_list : forall l next fuel f r, proper l next ->
  frame_decode (list_reader_ops fuel) fuel (ListReader l next []) = (DOk f, r) ->
  map (fun e => h_bytes (snd e)) (lr_out r) = strings f /\ Forall (from_list l next (lr_next r)) (lr_out r) /\
  in_order (lr_out r) /\ (next <= lr_next r)%nat /\ new_blocks next (lr_out r) = seq next (lr_next r - next).
Proof. exact list_shares. Qed.
Print Assumptions C102_list.

(** The storage changes nothing about the frame decoded. *)
Theorem C102_same :
  (forall fuel h, (8 <= fuel)%nat -> fst (frame_decode one_reader_ops fuel (OneReader h [])) = fst (decode (h_bytes h))) /\
  (forall fuel l next, Forall (fun h => h_bytes h <> []) l -> (8 + length (content l) <= fuel)%nat ->
     fst (frame_decode (list_reader_ops fuel) fuel (ListReader l next [])) = fst (decode (content l))).
Proof. exact readers_same. Qed.
Print Assumptions C102_same.

(** Chunking copies nothing: the [i]th item has the [i]th pieces of the parts, in the storage of the
    parts. *)
Theorem C102_chunks : forall p n c j i r, held_payload_chunks p n = Ret c ->
  nth_error (fst (held_calls j c)) i = Some r ->
  let piece (whole o : option handle) :=
    match whole with Some h => nth_piece (N.to_nat n) i h o | None => o = None end in
  match r with
  | Some q => piece (hp_metadata p) (hp_metadata q) /\ piece (hp_data p) (hp_data q)
  | None => piece (hp_metadata p) None /\ piece (hp_data p) None
  end.
Proof. exact chunks_share. Qed.
Print Assumptions C102_chunks.
Theorem C102_chunks_same : forall c, hc_size c <> 0 ->
  (let (o, c') := held_next c in (option_map seen_payload o, seen_chunks c')) = chunks_next (seen_chunks c).
Proof. exact chunks_seen. Qed.
Print Assumptions C102_chunks_same.

(** A SETUP frame with empty MIME types, a REQUEST_STREAM frame in one [Bytes] and in three. *)
Definition sh_setup : bytes := map n2b [0;0;0;0; 4;0; 0;1;0;0; 0;0;117;48; 0;0;234;96; 0; 0; 0;0;1; 65; 66;67].
Definition sh_stream : bytes := map n2b [0;0;0;9; 25;0; 0;0;1;0; 0;0;2; 65;66; 67;68;69].
Definition sh_list : list handle :=
  [Handle (firstn 12 sh_stream) (Some (7, 100)%nat); Handle (firstn 4 (skipn 12 sh_stream)) (Some (3, 0)%nat);
   Handle (skipn 16 sh_stream) (Some (7, 200)%nat)].
Example C102_example :
  let one := frame_decode one_reader_ops 9 (OneReader (Handle sh_setup (Some (5, 1000)%nat)) []) in
  or_out (snd one) = [(7%nat, h_new); (6%nat, h_new); (3%nat, Handle [n2b 65] (Some (5, 1023)%nat));
                      (2%nat, Handle (map n2b [66; 67]) (Some (5, 1024)%nat))] /\
  proper sh_list 8 /\ content sh_list = sh_stream /\
  frame_decode (list_reader_ops 30) 30 (ListReader sh_list 8 []) =
    (DOk (FRequestStream (RequestStreamFrame 9 256 256 (Payload (Some (map n2b [65; 66])) (Some (map n2b [67; 68; 69]))))),
     ListReader [] 9 [(5%nat, Handle (map n2b [65; 66]) (Some (3, 1)%nat)); (3%nat, Handle (map n2b [67; 68; 69]) (Some (8, 0)%nat))]) /\
  lies_in sh_list 13 2 (Handle (firstn 4 (skipn 12 sh_stream)) (Some (3, 0)%nat)) 1.
Proof.
  split; [vm_compute; reflexivity|]. split; [|split; [reflexivity|split; [vm_compute; reflexivity|]]].
  - repeat constructor; try discriminate; cbn; eexists; eexists; (split; [reflexivity|repeat constructor]).
  - exists [Handle (firstn 12 sh_stream) (Some (7, 100)%nat)], [Handle (skipn 16 sh_stream) (Some (7, 200)%nat)].
    vm_compute. repeat split; repeat constructor.
Qed.
(** Metadata of five bytes and an empty data part, in chunks of two. *)
Example C102_chunks_example :
  let m := map n2b [1; 2; 3; 4; 5] in
  exists c, held_payload_chunks (HeldPayload (Some (Handle m (Some (4, 10)%nat))) (Some (Handle [] None))) 2 = Ret c /\
  fst (held_calls 4 c) =
    [Some (HeldPayload (Some (Handle (map n2b [1; 2]) (Some (4, 10)%nat))) (Some (Handle [] None)));
     Some (HeldPayload (Some (Handle (map n2b [3; 4]) (Some (4, 12)%nat))) None);
     Some (HeldPayload (Some (Handle [n2b 5] (Some (4, 14)%nat))) None); None].
Proof. eexists. split; [reflexivity|]. vm_compute. reflexivity. Qed.
