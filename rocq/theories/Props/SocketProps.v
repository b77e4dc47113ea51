(** * Properties of the socket: C32-C43, C52, C53, C59, C60, C62, C66-C69, C73, C75, C81, C83 *)

From Coq Require Import String.
From Verif Require Import Model.SocketM Model.BufM Spec.Socket.
From Verif Require Import Proofs.StableP Proofs.ChunkP Proofs.SidP Proofs.PermitP Proofs.SocketP Proofs.TraceP Proofs.ProgressP Proofs.AloneP Proofs.WaitP Proofs.DeliverP Proofs.ReplayP Proofs.MissingP Proofs.ScheduleP.
From Coq Require Import Permutation.

Definition exs (l : list N) : bytes := map n2b l.

(** A connection that accepts [s] frames and then refuses with the number of the frame. *)
Definition ex_send (s : nat * nat) (f : frame) : (nat * nat) * option nat :=
  let (left, k) := s in
  match left with
  | O => ((O, S k), Some k)
  | S l => ((l, S k), None)
  end.
Definition ex_conn : connection (nat * nat) nat := Connection ex_send ex_send (fun s => (O, snd s)).
Definition ex_machine (chunk : option N) : rsocket_machine :=
  RSocketMachine Client 1 (fun k => (k =? 1) || (k =? 3)) chunk.
Definition ex_payload : payload := Payload (Some (exs [1; 2; 3])) (Some (exs [4; 5; 6; 7; 8])).
Definition ex_sent : list frame :=
  [fnf_frame 5 true (Payload (Some (exs [1; 2])) (Some (exs [4; 5])));
   fnf_frame 5 true (Payload (Some (exs [3])) (Some (exs [6; 7])));
   fnf_frame 5 false (Payload None (Some (exs [8])))].

(** ** C32: fragmentation end to end *)

(** A call that succeeds has handed over frames which, once encoded, reassemble
    to the payload. *)
Theorem C32_end_to_end : forall (S E : Type) (send : S -> frame -> S * option E) fuel bd m p conn gs c' conn' l,
  fire_and_forget send fuel bd m p conn = Ret (None, gs, c', conn') ->
  Forall2 (fun f v => frame_encode f [] = EOk v) gs l ->
  bl_try_into flat 0 l = DOk (drop_empty_payload p).
Proof. exact (@fnf_end_to_end). Qed.
Print Assumptions C32_end_to_end.

(** They can be encoded unless a fragment has [2 ^ 24] bytes of metadata or more. *)
Theorem C32_encodes : forall (S E : Type) (send : S -> frame -> S * option E) fuel bd m p conn gs c' conn',
  fire_and_forget send fuel bd m p conn = Ret (None, gs, c', conn') ->
  size (part (p_metadata p)) < 2 ^ 24 \/ (exists n, rm_chunk_payload m = Some n /\ n < 2 ^ 24) ->
  exists l, Forall2 (fun f v => frame_encode f [] = EOk v) gs l.
Proof. exact (@fnf_encodes). Qed.
Print Assumptions C32_encodes.

Example C32_example :
  fire_and_forget ex_send 5 Debug (ex_machine (Some 2)) ex_payload (9, 0)%nat = Ret (None, ex_sent, 7%Z, (6, 3)%nat) /\
  exists l, Forall2 (fun f v => frame_encode f [] = EOk v) ex_sent l /\ bl_try_into flat 0 l = DOk ex_payload.
Proof.
  split; [reflexivity|]. eexists. split; [repeat (constructor; [reflexivity|]); constructor|]. vm_compute. reflexivity.
Qed.

(** ** C33: FOLLOWS *)

Theorem C33_follows : forall (S E : Type) (send : S -> frame -> S * option E) fuel bd m p conn gs c' conn',
  fire_and_forget send fuel bd m p conn = Ret (None, gs, c', conn') ->
  (forall n, rm_chunk_payload m = Some n -> n <= usize_max) ->
  p_metadata p <> Some [] -> p_data p <> Some [] ->
  size (part (p_metadata p)) <= 2 ^ 24 -> size (part (p_data p)) <= 2 ^ 24 ->
  exists sid, next_stream_id fuel (rm_receivers m) (rm_stream_id m) = Ret (sid, c') /\
    gs = marked sid (fragments (rm_chunk_payload m) p).
Proof. exact (@fnf_marked). Qed.
Print Assumptions C33_follows.

(** Up to [2 ^ 24] bytes, exactly the payloads with present parts but no byte at all go wrong. *)
Theorem C33_exact : forall (S E : Type) (send : S -> frame -> S * option E) fuel bd m n p conn gs c' conn',
  fire_and_forget send fuel bd m p conn = Ret (None, gs, c', conn') ->
  rm_chunk_payload m = Some n -> n <= usize_max ->
  size (part (p_metadata p)) <= 2 ^ 24 -> size (part (p_data p)) <= 2 ^ 24 ->
  ((exists sid, gs = marked sid (fragments (Some n) p)) <->
   p = Payload None None \/ part (p_metadata p) <> [] \/ part (p_data p) <> []).
Proof. exact (@fnf_marked_iff). Qed.
Print Assumptions C33_exact.

(** Those are sent as one frame that announces another. *)
Theorem C33_empty_part : forall (S E : Type) (send : S -> frame -> S * option E) fuel bd m n p conn gs c' conn',
  fire_and_forget send fuel bd m p conn = Ret (None, gs, c', conn') ->
  rm_chunk_payload m = Some n -> n <= usize_max ->
  part (p_metadata p) = [] -> part (p_data p) = [] -> p <> Payload None None ->
  exists sid, gs = [fnf_frame sid true p].
Proof. exact (@fnf_empty_part). Qed.
Print Assumptions C33_empty_part.

(** [2 ^ 24 + 1] bytes: the last frame but one ends the request, the last one announces another. *)
Theorem C33_long : forall (S E : Type) (send : S -> frame -> S * option E) fuel bd m d conn gs c' conn',
  fire_and_forget send fuel bd m (Payload None (Some d)) conn = Ret (None, gs, c', conn') ->
  rm_chunk_payload m = Some (2 ^ 16) -> size d = 2 ^ 24 + 1 ->
  exists sid, List.length gs = 257%nat /\
    nth_error gs 255 = Some (fnf_frame sid false (Payload None (Some (slice (2 ^ 16) 255 d)))) /\
    nth_error gs 256 = Some (fnf_frame sid true (Payload None (Some (slice (2 ^ 16) 256 d)))).
Proof. exact (@fnf_long). Qed.
Print Assumptions C33_long.

Example C33_example :
  fire_and_forget ex_send 5 Debug (ex_machine (Some 2)) ex_payload (9, 0)%nat =
    Ret (None, marked 5 (fragments (Some 2) ex_payload), 7%Z, (6, 3)%nat) /\
  marked 5 (fragments (Some 2) ex_payload) = ex_sent /\
  fire_and_forget ex_send 5 Release (ex_machine (Some 2)) (Payload None (Some [])) (9, 0)%nat =
    Ret (None, [fnf_frame 5 true (Payload None (Some []))], 7%Z, (8, 1)%nat).
Proof. repeat split; reflexivity. Qed.
(** Such a long payload exists, and the call on it ends. *)
Example C33_long_example : exists d fuel x, size d = 2 ^ 24 + 1 /\
  fire_and_forget (fun (s : unit) _ => (s, @None unit)) fuel Debug (ex_machine (Some (2 ^ 16))) (Payload None (Some d)) tt = Ret x /\
  fst (fst (fst x)) = None.
Proof.
  exists (repeat (n2b 7) (N.to_nat (2 ^ 24 + 1))).
  destruct (fnf_total (fun (s : unit) _ => (s, @None unit)) Debug (ex_machine (Some (2 ^ 16)))
              (Payload None (Some (repeat (n2b 7) (N.to_nat (2 ^ 24 + 1))))) tt) as [_ T]; [discriminate|].
  destruct T as (fuel & [[[r gs] c'] s'] & H).
  { exists 5. split; [split; reflexivity|reflexivity]. }
  exists fuel, (r, gs, c', s'). split; [|split; [exact H|]].
  - unfold size. rewrite repeat_length. apply N2Nat.id.
  - cbn [fst]. apply fnf_outcome in H as (sid & all & _ & _ & _ & R). apply R. exists tt.
    clear. induction all as [|f all IH]; econstructor; [reflexivity|exact IH].
Qed.

(** A payload that fits in one fragment is sent as one frame that announces no other, whatever its size. *)
Theorem C33_one_piece : forall (S E : Type) (send : S -> frame -> S * option E) fuel bd m n p conn gs c' conn',
  fire_and_forget send fuel bd m p conn = Ret (None, gs, c', conn') ->
  rm_chunk_payload m = Some n -> n <= usize_max ->
  part (p_metadata p) <> [] \/ part (p_data p) <> [] ->
  size (part (p_metadata p)) <= n -> size (part (p_data p)) <= n ->
  exists sid, next_stream_id fuel (rm_receivers m) (rm_stream_id m) = Ret (sid, c') /\
    gs = [fnf_frame sid false p].
Proof. exact (@fnf_one_piece). Qed.
Print Assumptions C33_one_piece.

Example C33_one_piece_example :
  fire_and_forget ex_send 5 Debug (ex_machine (Some usize_max)) ex_payload (9, 0)%nat =
    Ret (None, [fnf_frame 5 false ex_payload], 7%Z, (8, 1)%nat).
Proof. reflexivity. Qed.

(** ** C34: something is sent *)

(** A successful call has sent REQUEST_FNF frames and at least one, except that
    with fragmentation an absent/absent payload sends none. *)
Theorem C34_sends : forall (S E : Type) (send : S -> frame -> S * option E) fuel bd m p conn gs c' conn',
  fire_and_forget send fuel bd m p conn = Ret (None, gs, c', conn') ->
  (gs = [] <-> rm_chunk_payload m <> None /\ p = Payload None None) /\
  Forall (fun f => exists q, f = FRequestFnf q) gs.
Proof. exact (@fnf_sends). Qed.
Print Assumptions C34_sends.

Example C34_example :
  fire_and_forget ex_send 5 Debug (ex_machine (Some 2)) (Payload None None) (9, 0)%nat = Ret (None, [], 7%Z, (9, 0)%nat) /\
  fire_and_forget ex_send 5 Debug (ex_machine None) (Payload None None) (9, 0)%nat =
    Ret (None, [fnf_frame 5 false (Payload None None)], 7%Z, (8, 1)%nat).
Proof. split; reflexivity. Qed.

(** ** C35: first send error *)

(** The frames of a call all carry its stream id and the pieces in order; they are
    handed over up to the first one refused, and that answer is the result. *)
Theorem C35_outcome : forall (S E : Type) (send : S -> frame -> S * option E) fuel bd m p conn r gs c' conn',
  fire_and_forget send fuel bd m p conn = Ret (r, gs, c', conn') ->
  exists sid all, next_stream_id fuel (rm_receivers m) (rm_stream_id m) = Ret (sid, c') /\
    carries sid (fragments (rm_chunk_payload m) p) all /\
    delivers send conn all r gs conn' /\
    (r = None <-> exists conn2, accepts send conn all conn2).
Proof. exact (@fnf_outcome). Qed.
Print Assumptions C35_outcome.

(** What is handed over is determined by the connection's answers. *)
Theorem C35_determined : forall (S E : Type) (send : S -> frame -> S * option E) s fs r gs s',
  delivers send s fs r gs s' -> forall r2 gs2 s2, delivers send s fs r2 gs2 s2 -> r = r2 /\ gs = gs2 /\ s' = s2.
Proof. exact (@delivers_det). Qed.
Print Assumptions C35_determined.

(** A call comes back iff an id is free; a chunk size of 0 panics instead. *)
Theorem C35_returns : forall (S E : Type) (send : S -> frame -> S * option E) bd m p conn,
  rm_chunk_payload m <> Some 0 ->
  ((exists fuel x, fire_and_forget send fuel bd m p conn = Ret x) <->
   exists sid, in_class (rm_stream_id m) sid /\ rm_receivers m sid = false).
Proof. exact (@fnf_total). Qed.
Print Assumptions C35_returns.
Theorem C35_zero_chunk : forall (S E : Type) (send : S -> frame -> S * option E) bd m p conn sid c' f1,
  rm_chunk_payload m = Some 0 ->
  next_stream_id f1 (rm_receivers m) (rm_stream_id m) = Ret (sid, c') ->
  fire_and_forget send f1 bd m p conn = Panic.
Proof. exact (@fnf_zero_chunk). Qed.
Print Assumptions C35_zero_chunk.

Example C35_example :
  fire_and_forget ex_send 5 Debug (ex_machine (Some 2)) ex_payload (1, 0)%nat =
    Ret (Some 1%nat, firstn 2 ex_sent, 7%Z, (0, 2)%nat) /\
  delivers ex_send (1, 0)%nat ex_sent (Some 1%nat) (firstn 2 ex_sent) (0, 2)%nat /\
  fire_and_forget ex_send 5 Debug (ex_machine (Some 0)) ex_payload (1, 0)%nat = Panic.
Proof.
  split; [reflexivity|]. split; [|reflexivity].
  apply (Del_stop ex_send (1, 0)%nat (firstn 1 ex_sent) (0, 1)%nat (nth 1 ex_sent (fnf_frame 0 false ex_payload)) (0, 2)%nat 1%nat (skipn 2 ex_sent)).
  - econstructor; [reflexivity|constructor].
  - reflexivity.
Qed.

(** ** C36: parity, range, availability *)

(** In any execution of any number of threads, an id handed out is below [2 ^ 31],
    has the parity of the provider and was not in the store when it was checked. *)
Theorem C36_available : forall (S E : Type) (cn : connection S E) bd chunk init st0 conn0
    acts tr1 t sid p tr2,
  fst (exec cn bd chunk acts (config_init init st0 conn0)) = tr1 ++ EvAlloc t sid p :: tr2 ->
  in_class init sid /\
  exists a1 a2, acts = a1 ++ Run t :: a2 /\
    fst (exec cn bd chunk a1 (config_init init st0 conn0)) = tr1 /\ store_after st0 a1 sid = false.
Proof. exact (@alloc_origin). Qed.
Print Assumptions C36_available.

Theorem C36_parity : forall r sid, in_class (rm_stream_id (machine_new r)) sid ->
  sid <= 2 ^ 31 - 1 /\ N.odd sid = match r with Client => true | Server => false end.
Proof. intros [|] sid H; exact (role_class _ _ H). Qed.
Print Assumptions C36_parity.

(** A client and another thread: thread 1's first id is taken when checked. *)
Definition ex_acts : list action :=
  [Call 1 ex_payload; Insert 1; Call 2 ex_payload; Run 1; Run 2; Run 1; Remove 1; Run 2; Run 1; Run 1;
   Run 2; Run 1; Run 2; Run 1; Run 1; Run 2; Run 2; Run 1].
Definition ex_run := exec ex_conn Debug (Some 2) ex_acts (config_init 1 (fun _ => false) (9, 0)%nat).
Example C36_example : drawn (fst ex_run) = [1; 3; 5] /\ alloc_ids (fst ex_run) = [3; 5] /\
  nth_error (fst ex_run) 4 = Some (EvDraw 1 5) /\ nth_error (fst ex_run) 5 = Some (EvAlloc 1 5 ex_payload) /\
  nth_error (fst ex_run) 2 = Some (EvBusy 1 1).
Proof. repeat split; reflexivity. Qed.

(** ** C37: stream id 0 *)

(** The [k]-th draw (from 0), in any execution. *)
Theorem C37_draws : forall (S E : Type) (cn : connection S E) bd chunk init st0 conn0 acts k sid,
  nth_error (drawn (fst (exec cn bd chunk acts (config_init init st0 conn0)))) k = Some sid ->
  sid = id_after init (N.of_nat k).
Proof. exact (@nth_draw). Qed.
Print Assumptions C37_draws.
(** A client never draws 0. *)
Theorem C37_client : forall (S E : Type) (cn : connection S E) bd chunk st0 conn0 acts,
  ~ In 0 (drawn (fst (exec cn bd chunk acts (config_init (rm_stream_id (machine_new Client)) st0 conn0)))).
Proof. exact (@client_draws). Qed.
Print Assumptions C37_client.
(** A server draws 0 exactly at draw number [2 ^ 30 - 1] (from 0) and every [2 ^ 30] later. *)
Theorem C37_server : forall (S E : Type) (cn : connection S E) bd chunk st0 conn0 acts k sid,
  nth_error (drawn (fst (exec cn bd chunk acts (config_init (rm_stream_id (machine_new Server)) st0 conn0)))) k = Some sid ->
  (sid = 0 <-> (N.of_nat k + 1) mod 2 ^ 30 = 0).
Proof. exact (@server_draws). Qed.
Print Assumptions C37_server.
(** The [k]-th draw is handed out when its id is free: in particular 0 to a server. *)
Theorem C37_handed_out : forall (S E : Type) (cn : connection S E) bd chunk init st0 conn0 p k,
  chunk <> Some 0 -> st0 (id_after init (N.of_nat k)) = false ->
  exists acts tr, fst (exec cn bd chunk acts (config_init init st0 conn0)) =
      tr ++ [EvAlloc k (id_after init (N.of_nat k)) p] /\ List.length (drawn tr) = Datatypes.S k.
Proof. exact (@nth_call_allocates). Qed.
Print Assumptions C37_handed_out.

Example C37_example : next_stream_id 1 (fun _ => false) (wrap_i32 (2 + 2 * (2 ^ 30 - 1))) = Ret (0, (2 - 2 ^ 31)%Z) /\
  exists (acts : list action) tr (t : nat), fst (exec ex_conn Debug None acts (config_init 2 (fun _ => false) (9, 0)%nat)) = tr ++ [EvAlloc t 0 ex_payload].
Proof.
  split; [reflexivity|].
  destruct (C37_handed_out _ _ ex_conn Debug None 2%Z (fun _ => false) (9, 0)%nat ex_payload (N.to_nat (2 ^ 30 - 1))) as (acts & tr & H & _);
    [discriminate|reflexivity|].
  rewrite N2Nat.id in H. exists acts, tr. eexists.
  replace (id_after 2 (2 ^ 30 - 1)) with 0 in H by (symmetry; apply server_zero_iff; reflexivity). exact H.
Qed.

(** ** C38: distinct ids *)

Theorem C38_distinct : forall (S E : Type) (cn : connection S E) bd chunk init st0 conn0 acts,
  let tr := fst (exec cn bd chunk acts (config_init init st0 conn0)) in
  N.of_nat (List.length (drawn tr)) <= 2 ^ 30 -> NoDup (alloc_ids tr).
Proof. exact (@alloc_distinct). Qed.
Print Assumptions C38_distinct.
(** The bound is sharp: with one draw more, two calls can hold the same id. *)
Theorem C38_sharp : forall (S E : Type) (cn : connection S E) bd chunk init st0 conn0 k,
  chunk <> Some 0 -> N.of_nat k = 2 ^ 30 -> st0 (id_after init 0) = false ->
  exists acts, let tr := fst (exec cn bd chunk acts (config_init init st0 conn0)) in
    List.length (drawn tr) = Datatypes.S k /\ ~ NoDup (alloc_ids tr).
Proof. intros. now apply (repeated cn bd chunk init st0 conn0 (Payload None None)). Qed.
Print Assumptions C38_sharp.
Example C38_example : alloc_ids (fst ex_run) = [3; 5] /\
  N.of_nat (List.length (drawn (fst ex_run))) <= 2 ^ 30.
Proof. split; [reflexivity|vm_compute; discriminate]. Qed.

(** ** C39: termination of the search *)

Theorem C39_first_free : forall fuel st c sid c',
  next_stream_id fuel st c = Ret (sid, c') <->
  exists k, k < N.of_nat fuel /\ sid = id_after c k /\ st sid = false /\
    (forall j, j < k -> st (id_after c j) = true) /\ c' = wrap_i32 (c + 2 * (Z.of_N k + 1)).
Proof. exact next_first_free. Qed.
Print Assumptions C39_first_free.
Theorem C39_returns_iff : forall st c,
  (exists fuel r, next_stream_id fuel st c = Ret r) <-> (exists sid, in_class c sid /\ st sid = false).
Proof. exact next_terminates. Qed.
Print Assumptions C39_returns_iff.
Theorem C39_bound : forall st c fuel r, next_stream_id fuel st c = Ret r ->
  exists k, k < 2 ^ 30 /\ fst r = id_after c k /\ next_stream_id (S (N.to_nat k)) st c = Ret r.
Proof. exact next_bound. Qed.
Print Assumptions C39_bound.
Theorem C39_diverges : forall st c, (forall sid, in_class c sid -> st sid = true) ->
  forall fuel, next_stream_id fuel st c = Loop.
Proof. exact next_never. Qed.
Print Assumptions C39_diverges.
Example C39_example :
  next_stream_id 4 (fun k => k <? 3) (2 ^ 31 - 1) = Ret (2 ^ 31 - 1, (1 - 2 ^ 31)%Z) /\
  next_stream_id 4 (fun k => (k <? 3) || (k =? 2 ^ 31 - 1)) (2 ^ 31 - 1) = Ret (3, (5 - 2 ^ 31)%Z) /\
  (forall fuel, next_stream_id fuel N.odd 1 = Loop) /\ next_stream_id 1 N.odd 2 = Ret (2, 4%Z).
Proof.
  split; [reflexivity|]. split; [reflexivity|]. split; [|reflexivity].
  apply C39_diverges. intros sid H. exact (odd_class _ _ H).
Qed.

(** ** C40: request counter *)

Theorem C40_schedule : forall n ps ops, interleaved ps ops ->
  is_i32 (balance (Z.of_N (n mod 2 ^ 31)) (concat ps)) (snd (counter_run ops (counter_new n))).
Proof. exact schedule_independent. Qed.
Print Assumptions C40_schedule.
(** Every answer is computed from the value just before. *)
Theorem C40_answers : forall n pre o post,
  exists v, is_i32 (balance (Z.of_N (n mod 2 ^ 31)) pre) v /\
    nth_error (fst (counter_run (pre ++ o :: post) (counter_new n))) (List.length pre) =
    Some (match o with
          | CtDec | CtLoad => CtCount v
          | CtAdd _ => CtUnit
          | CtIsZero => CtBool (v =? 0)%Z
          end).
Proof. exact counter_result. Qed.
Print Assumptions C40_answers.
Theorem C40_unique : forall z v w, is_i32 z v -> is_i32 z w -> v = w.
Proof. intros z v w A B. now rewrite (i32_unique _ _ A), (i32_unique _ _ B). Qed.
Print Assumptions C40_unique.

Definition ex_ops : list counter_op := [CtDec; CtAdd 7; CtDec; CtLoad; CtDec; CtIsZero].
Example C40_example :
  interleaved [[CtDec; CtDec; CtIsZero]; [CtAdd 7; CtLoad]; [CtDec]] ex_ops /\
  counter_run ex_ops (counter_new (2 ^ 31 + 1)) =
    ([CtCount 1; CtUnit; CtCount 7; CtCount 6; CtCount 6; CtBool false], 5)%Z /\
  snd (counter_run [CtAdd (2 ^ 32 - 1); CtAdd (2 ^ 31)] (counter_new 5)) = (4 - 2 ^ 31)%Z.
Proof.
  split; [|split; reflexivity]. unfold ex_ops.
  apply (Int_step []). apply (Int_step [_]). apply (Int_step []). apply (Int_step [_]).
  apply (Int_step [_; _]). apply (Int_step []). constructor. repeat constructor.
Qed.

(** ** C41: permits *)

Theorem C41_bounded : forall ops z, fits_i32 z ops ->
  (successes ops (fst (counter_run ops z)) <= Z.max 0 (z + granted ops) /\
   successes ops (fst (counter_run ops z)) <= taken ops /\
   0 <= successes ops (fst (counter_run ops z)))%Z.
Proof. exact permits. Qed.
Print Assumptions C41_bounded.
Theorem C41_exact : forall ops z, fits_i32 z ops -> granted ops = 0%Z -> (0 <= z)%Z ->
  successes ops (fst (counter_run ops z)) = Z.min (taken ops) z.
Proof. exact permits_exact. Qed.
Print Assumptions C41_exact.
(** The counter does go below zero, and then [is_zero] is false. *)
Theorem C41_negative : forall ops z, fits_i32 z ops -> (z + granted ops < taken ops)%Z ->
  (snd (counter_run ops z) < 0)%Z /\ counter_is_zero (snd (counter_run ops z)) = false.
Proof. exact goes_negative. Qed.
Print Assumptions C41_negative.
Example C41_example : fits_i32 2 [CtDec; CtDec; CtDec; CtAdd 3; CtDec; CtDec] /\
  counter_run [CtDec; CtDec; CtDec; CtAdd 3; CtDec; CtDec] (counter_new 2) =
    ([CtCount 2; CtCount 1; CtCount 0; CtUnit; CtCount 2; CtCount 1], 0)%Z /\
  successes [CtDec; CtDec; CtDec; CtAdd 3; CtDec; CtDec] [CtCount 2; CtCount 1; CtCount 0; CtUnit; CtCount 2; CtCount 1] = 4%Z /\
  counter_run [CtDec; CtIsZero] (counter_new 0) = ([CtCount 0; CtBool false], -1)%Z.
Proof.
  split; [|repeat split; reflexivity]. intros pre post E.
  do 7 (destruct pre as [|? pre]; [cbn in E; vm_compute; intuition congruence|]; try (injection E as <- E)).
  destruct pre; discriminate.
Qed.

(** ** C81: permits beyond 32 bits *)

(** [dec] answers the number of permits granted and not taken exactly if that fits 32 bits. *)
Theorem C81_exact_iff : forall n pre post,
  let b := balance (Z.of_N (n mod 2 ^ 31)) pre in
  nth_error (fst (counter_run (pre ++ CtDec :: post) (counter_new n))) (List.length pre) = Some (CtCount b) <->
  (- 2 ^ 31 <= b < 2 ^ 31)%Z.
Proof. exact exact_count. Qed.
Print Assumptions C81_exact_iff.
(** From [2 ^ 31] permits on it answers a negative number: they are lost.  Two grants a
    REQUEST_N frame can carry are enough. *)
Theorem C81_lost : forall n pre post,
  let b := balance (Z.of_N (n mod 2 ^ 31)) pre in
  (2 ^ 31 <= b < 2 ^ 32)%Z ->
  exists v, (v < 0)%Z /\
  nth_error (fst (counter_run (pre ++ CtDec :: post) (counter_new n))) (List.length pre) = Some (CtCount v).
Proof. exact permits_lost. Qed.
Print Assumptions C81_lost.
Theorem C81_lost_by_two : forall a b post, a < 2 ^ 31 -> b < 2 ^ 31 -> 2 ^ 31 <= a + b ->
  exists v, (v < 0)%Z /\ nth_error (fst (counter_run (CtAdd a :: CtAdd b :: CtDec :: post) (counter_new 0))) 2 = Some (CtCount v).
Proof. exact permits_lost_two. Qed.
Print Assumptions C81_lost_by_two.
(** Without any grant: once [2 ^ 31] more have been taken than there were, the next [2 ^ 31 - 1]
    calls of [dec] succeed. *)
Theorem C81_invented : forall n m j, (j < m)%nat ->
  let i := Z.of_N (n mod 2 ^ 31) in
  (i + 2 ^ 31 < Z.of_nat j < i + 2 ^ 32)%Z ->
  nth_error (fst (counter_run (repeat CtDec m) (counter_new n))) j = Some (CtCount (i + 2 ^ 32 - Z.of_nat j)) /\
  (0 < i + 2 ^ 32 - Z.of_nat j)%Z.
Proof. exact permits_invented. Qed.
Print Assumptions C81_invented.

Example C81_example :
  counter_run [CtAdd (2 ^ 31 - 1); CtDec; CtAdd (2 ^ 31 - 1); CtDec; CtIsZero] (counter_new 0) =
    ([CtUnit; CtCount (2 ^ 31 - 1); CtUnit; CtCount (-3); CtBool false], -4)%Z /\
  balance 0 [CtAdd (2 ^ 31 - 1); CtDec; CtAdd (2 ^ 31 - 1)] = (2 ^ 32 - 3)%Z /\
  counter_run [CtDec; CtDec] (- 2 ^ 31)%Z = ([CtCount (- 2 ^ 31); CtCount (2 ^ 31 - 1)], 2 ^ 31 - 2)%Z.
Proof. repeat split; reflexivity. Qed.

(** ** C42: keepalive watchdog *)

(** It closes at the second wake-up at the latest, whatever arrives. *)
Theorem C42_closes : forall timeout last now d1 d2 delays, last <= now -> 0 < timeout ->
  timeout <= d1 -> timeout <= d2 -> exists t,
  watchdog timeout last now (d1 :: d2 :: delays) = ([Logged "connection keepalive timed out"; ConnClose], Some t) /\
  last + timeout < t /\ (t = now + d1 \/ t = now + d1 + d2).
Proof. exact watchdog_two. Qed.
Print Assumptions C42_closes.
(** It closes at the first wake-up more than one period after creation, and never before. *)
Theorem C42_when : forall timeout last delays now t, watchdog timeout last now delays =
    ([Logged "connection keepalive timed out"; ConnClose], Some t) <->
  exists k, (k < List.length delays)%nat /\ t = wakeup now delays (S k) /\ timeout < t - last /\
    forall j, (j < k)%nat -> wakeup now delays (S j) - last <= timeout.
Proof. exact watchdog_spec. Qed.
Print Assumptions C42_when.
Theorem C42_otherwise : forall timeout last delays now,
  (forall t, snd (watchdog timeout last now delays) <> Some t) ->
  watchdog timeout last now delays = ([], None).
Proof. exact watchdog_runs. Qed.
Print Assumptions C42_otherwise.
Example C42_example :
  watchdog 10 100 100 [10; 10; 10] = ([Logged "connection keepalive timed out"; ConnClose], Some 120) /\
  watchdog 10 100 101 [10; 10] = ([Logged "connection keepalive timed out"; ConnClose], Some 111) /\
  watchdog 10 100 100 [10] = ([], None).
Proof. repeat split; reflexivity. Qed.

(** ** C43: status listener *)

Theorem C43_reports : forall h, status_listener (map Some h) = (lines h, false).
Proof. exact listener_spec. Qed.
Print Assumptions C43_reports.
(** It ends exactly when a status stream ends without an item. *)
Theorem C43_ends : forall h rest, status_listener (map Some h ++ None :: rest) = (lines h, true).
Proof. exact listener_ends. Qed.
Print Assumptions C43_ends.
Example C43_example :
  status_listener (map Some [Connecting; Connected; Closed; Closed; StatusError "reset"; Closed]) =
  ([Logged "connection was closed"; Logged "connection was closed"; Logged "reset"; Logged "connection was closed"], false).
Proof. reflexivity. Qed.

(** ** C52: concurrent requests do not mix *)

Theorem C52_no_mixing : forall (S E : Type) (cn : connection S E) bd chunk init st0 conn0,
  chunk <> Some 0 -> forall acts,
  let tr := fst (exec cn bd chunk acts (config_init init st0 conn0)) in
  N.of_nat (List.length (drawn tr)) <= 2 ^ 30 ->
  forall t sid p, In (EvAlloc t sid p) tr ->
  exists all rest, carries sid (fragments chunk p) all /\
    all = received sid tr ++ rest /\ (In (EvReturn t sid) tr -> rest = []).
Proof. exact (@no_mixing). Qed.
Print Assumptions C52_no_mixing.
(** The same of the frames the connection has taken; after a refusal some are missing. *)
Theorem C52_accepted : forall (S E : Type) (cn : connection S E) bd chunk init st0 conn0,
  chunk <> Some 0 -> forall acts,
  let tr := fst (exec cn bd chunk acts (config_init init st0 conn0)) in
  N.of_nat (List.length (drawn tr)) <= 2 ^ 30 ->
  forall t sid p, In (EvAlloc t sid p) tr ->
  exists all rest, carries sid (fragments chunk p) all /\ all = accepted sid tr ++ rest /\
    (In (EvReturn t sid) tr -> rest = []) /\
    (forall f e, In (EvSend t f (Some e)) tr -> carries_id sid f = true -> rest <> []).
Proof. exact (@no_mixing_accepted). Qed.
Print Assumptions C52_accepted.
(** Nothing else is sent, and only by the call that owns the id. *)
Theorem C52_only_calls : forall (S E : Type) (cn : connection S E) bd chunk init st0 conn0,
  chunk <> Some 0 -> forall acts,
  let tr := fst (exec cn bd chunk acts (config_init init st0 conn0)) in
  N.of_nat (List.length (drawn tr)) <= 2 ^ 30 ->
  forall t f r, In (EvSend t f r) tr -> exists q p, f = FRequestFnf q /\ In (EvAlloc t (fnf_stream_id q) p) tr.
Proof. exact (@only_calls). Qed.
Print Assumptions C52_only_calls.
(** A metadata push is handed over as one METADATA_PUSH frame, by the thread that made it. *)
Theorem C52_pushes : forall (S E : Type) (cn : connection S E) bd chunk init st0 conn0 acts t f r,
  In (EvPush t f r) (fst (exec cn bd chunk acts (config_init init st0 conn0))) ->
  exists md, f = FMetadataPush (MetadataPushFrame md) /\ In (Push t md) acts.
Proof. exact (@push_events). Qed.
Print Assumptions C52_pushes.
Example C52_example : received 3 (fst ex_run) = marked 3 (fragments (Some 2) ex_payload) /\
  received 5 (fst ex_run) = marked 5 (fragments (Some 2) ex_payload) /\
  In (EvReturn 1 5) (fst ex_run) /\ In (EvReturn 2 3) (fst ex_run) /\ drawn (fst ex_run) = [1; 3; 5].
Proof. split; [vm_compute; reflexivity|]. split; [vm_compute; reflexivity|]. vm_compute. intuition. Qed.

(** ** C53: metadata push *)

Theorem C53_one_frame : forall (S E : Type) (send : S -> frame -> S * option E) metadata conn,
  let f := FMetadataPush (MetadataPushFrame metadata) in
  metadata_push send metadata conn = ([f], send conn f) /\
  exists bs, frame_encode f [] = EOk bs /\ decode bs = (DOk f, []).
Proof. exact (@push_frame). Qed.
Print Assumptions C53_one_frame.
Example C53_example :
  metadata_push ex_send (exs [1; 2]) (1, 0)%nat = ([FMetadataPush (MetadataPushFrame (exs [1; 2]))], ((0, 1)%nat, None)) /\
  metadata_push ex_send [] (0, 0)%nat = ([FMetadataPush (MetadataPushFrame [])], ((0, 1)%nat, Some 0%nat)).
Proof. split; reflexivity. Qed.

(** A push while another thread sends, and a close after which everything is refused. *)
Example C52_push_example :
  fst (exec ex_conn Debug None [Call 1 ex_payload; Run 1; Push 2 (exs [9]); Run 1; Run 1; Run 1; Call 1 ex_payload; Close; Run 1; Run 1; Run 1]
         (config_init 1 (fun _ => false) (9, 0)%nat)) =
  [EvDraw 1 1; EvPush 2 (FMetadataPush (MetadataPushFrame (exs [9]))) None; EvAlloc 1 1 ex_payload;
   EvSend 1 (fnf_frame 1 false ex_payload) None; EvReturn 1 1; EvClose; EvDraw 1 3; EvAlloc 1 3 ex_payload;
   EvSend 1 (fnf_frame 3 false ex_payload) (Some 2%nat)].
Proof. reflexivity. Qed.

(** ** C59: allocation makes progress *)

(** From any reachable state, with any schedule: while at most [2 ^ 30] ids are drawn and only
    [keys] are in use, all draws but as many as there are keys and threads obtain their id. *)
Theorem C59_progress : forall (S E : Type) (cn : connection S E) bd chunk init st0 conn0 before,
  chunk <> Some 0 -> forall during keys threads,
  let tr := fst (exec cn bd chunk during (snd (exec cn bd chunk before (config_init init st0 conn0)))) in
  N.of_nat (List.length (drawn tr)) <= 2 ^ 30 -> kept_within st0 before during keys ->
  (forall t, In (Run t) during -> In t threads) ->
  (List.length (drawn tr) <= List.length (alloc_ids tr) + List.length keys + List.length threads)%nat.
Proof. exact (@progress). Qed.
Print Assumptions C59_progress.
(** No call draws more than one id per key in use, and one. *)
Theorem C59_call : forall (S E : Type) (cn : connection S E) bd chunk init st0 conn0 before t during keys,
  let tr := fst (exec cn bd chunk during (snd (exec cn bd chunk before (config_init init st0 conn0)))) in
  N.of_nat (List.length (drawn tr)) <= 2 ^ 30 -> kept_within st0 before during keys ->
  (forall sid p, ~ In (EvAlloc t sid p) tr) ->
  (List.length (drawn_by t tr) <= List.length keys + 1)%nat.
Proof. exact (@call_progress). Qed.
Print Assumptions C59_call.

(** Two ids in use, two threads: the bound of five draws for one allocation is met, ... *)
Definition ex_busy (k : N) : bool := (k =? 1) || (k =? 3).
Definition ex_race : list action :=
  [Run 1; Run 2; Run 1; Run 1; Run 1; Run 2; Run 2; Run 1; Run 1; Call 1 ex_payload; Run 1].
Example C59_example :
  let c := snd (exec ex_conn Debug None [Call 1 ex_payload; Call 2 ex_payload] (config_init 1 ex_busy (9, 0)%nat)) in
  fst (exec ex_conn Debug None ex_race c) =
    [EvDraw 1 1; EvDraw 2 3; EvBusy 1 1; EvDraw 1 5; EvAlloc 1 5 ex_payload; EvBusy 2 3; EvDraw 2 7;
     EvSend 1 (fnf_frame 5 false ex_payload) None; EvReturn 1 5; EvDraw 1 9] /\
  kept_within ex_busy [Call 1 ex_payload; Call 2 ex_payload] ex_race [1; 3] /\
  (forall t, In (Run t) ex_race -> In t [1; 2]%nat).
Proof.
  split; [reflexivity|]. split.
  - intros w1 w2 k E H.
    assert (X : store_after ex_busy ([Call 1 ex_payload; Call 2 ex_payload] ++ w1) k = ex_busy k).
    { clear H. cbn [app store_after]. unfold ex_race in E.
      do 12 (destruct w1 as [|? w1]; [reflexivity|]; try (injection E as <- E; cbn [store_after])). discriminate. }
    rewrite X in H. unfold ex_busy in H. apply orb_prop in H as [H|H]; apply N.eqb_eq in H; subst k; cbn; auto.
  - intros t H. unfold ex_race in H. cbn in H. cbn. intuition congruence.
Qed.
(** ... and so is that of three draws for one call without an id. *)
Example C59_call_example :
  let c := snd (exec ex_conn Debug None [Call 1 ex_payload] (config_init 1 ex_busy (9, 0)%nat)) in
  drawn_by 1 (fst (exec ex_conn Debug None [Run 1; Run 1; Run 1; Run 1; Run 1] c)) = [1; 3; 5] /\
  alloc_ids (fst (exec ex_conn Debug None [Run 1; Run 1; Run 1; Run 1; Run 1] c)) = [].
Proof. split; reflexivity. Qed.

(** ** C60: a call that is not disturbed *)

(** A thread of the interleaving model running a call by itself does what [fire_and_forget] does,
    from any state of the other threads. *)
Theorem C60_alone : forall (S E : Type) (cn : connection S E) fuel bd m p conn r gs c' conn' t th,
  fire_and_forget (cn_send_and_forget cn) fuel bd m p conn = Ret (r, gs, c', conn') -> th t = Idle ->
  exists sid k tr c, next_stream_id fuel (rm_receivers m) (rm_stream_id m) = Ret (sid, c') /\
    exec cn bd (rm_chunk_payload m) (Call t p :: repeat (Run t) k)
      (Config (rm_stream_id m) (rm_receivers m) conn th) = (tr, c) /\
    sent tr = gs /\
    match r with
    | None => exists tr0, tr = tr0 ++ [EvReturn t sid]
    | Some e => exists tr0 f, tr = tr0 ++ [EvSend t f (Some e)]
    end /\
    cf_counter c = c' /\ cf_conn c = conn' /\ cf_store c = rm_receivers m /\ forall u, cf_threads c u = th u.
Proof. exact alone_call. Qed.
Print Assumptions C60_alone.

Example C60_example : let th u := if Nat.eqb u 1 then Checking ex_payload 9 else Idle in
  fire_and_forget ex_send 5 Debug (ex_machine (Some 2)) ex_payload (1, 0)%nat =
    Ret (Some 1%nat, firstn 2 ex_sent, 7%Z, (0, 2)%nat) /\ th 2%nat = Idle /\
  let x := exec ex_conn Debug (Some 2) (Call 2 ex_payload :: repeat (Run 2) 8)
             (Config 1 (rm_receivers (ex_machine None)) (1, 0)%nat th) in
  sent (fst x) = firstn 2 ex_sent /\ cf_threads (snd x) 1%nat = Checking ex_payload 9 /\ cf_conn (snd x) = (0, 2)%nat.
Proof. repeat split; reflexivity. Qed.

(** ** C83: a call ends after a bounded number of its own steps *)

(** Whatever the other threads do, as long as at most [2 ^ 30] ids are drawn meanwhile and only
    [keys] are in use, a call has ended once its thread has been run two times per key, two times
    more, once per fragment and once more. *)
Theorem C83_wait_free : forall (S E : Type) (cn : connection S E) bd chunk init st0 conn0, chunk <> Some 0 ->
  forall before t p during keys,
  let c := snd (exec cn bd chunk before (config_init init st0 conn0)) in
  let tr := fst (exec cn bd chunk (Call t p :: during) c) in
  cf_threads c t = Idle -> N.of_nat (List.length (drawn tr)) <= 2 ^ 30 ->
  kept_within st0 before (Call t p :: during) keys ->
  (2 * (List.length keys + 1) + List.length (fragments chunk p) < runs_of t during)%nat ->
  exists e, In e tr /\ ends_call t e = true.
Proof. exact (@wait_free). Qed.
Print Assumptions C83_wait_free.

(** Two ids in use, three fragments, another thread in between: nine steps are not enough, ten are. *)
Definition ex_slow (k : nat) : list action :=
  [Call 2 ex_payload] ++ repeat (Run 1) 5 ++ [Push 3 []] ++ repeat (Run 1) (k - 5) ++ [Run 2].
Example C83_example :
  let c := config_init (S := nat * nat) 1 ex_busy (9, 0)%nat in
  let tr k := fst (exec ex_conn Debug (Some 2) (Call 1 ex_payload :: ex_slow k) c) in
  kept_within ex_busy [] (Call 1 ex_payload :: ex_slow 10) [1; 3] /\
  (2 * (2 + 1) + List.length (fragments (Some 2%N) ex_payload) = 9)%nat /\
  runs_of 1 (ex_slow 9) = 9%nat /\ existsb (ends_call 1) (tr 9%nat) = false /\
  runs_of 1 (ex_slow 10) = 10%nat /\ existsb (ends_call 1) (tr 10%nat) = true.
Proof.
  split; [|vm_compute; auto 10]. intros w1 w2 k E H. cbn [app] in H.
  assert (X : forall acts st, (forall j, ~ In (Insert j) acts /\ ~ In (Remove j) acts) -> store_after st acts = st).
  { induction acts as [|[u q|u|u md| |j0|j0|u] acts IH]; intros st F; cbn [store_after]; auto; try (apply IH; intros j; split; intros I; [apply (proj1 (F j))|apply (proj2 (F j))]; now right).
    - destruct (F j0) as [F' _]. destruct F'. now left.
    - destruct (F j0) as [_ F']. destruct F'. now left. }
  rewrite X in H.
  - unfold ex_busy in H. apply orb_prop in H as [H|H]; apply N.eqb_eq in H; subst k; cbn; auto.
  - intros j. assert (A : forall a, In a w1 -> In a (Call 1 ex_payload :: ex_slow 10)).
    { intros a I. rewrite E. apply in_or_app. now left. }
    split; intros I; apply A in I; cbn in I; intuition discriminate.
Qed.

(** ** C62: bytes on the wire *)

(** The frames of a successful call take nine bytes each and the payload once. *)
Theorem C62_total : forall (S E : Type) (send : S -> frame -> S * option E) fuel bd m p conn gs c' conn' l,
  fire_and_forget send fuel bd m p conn = Ret (None, gs, c', conn') ->
  Forall2 (fun f v => frame_encode f [] = EOk v) gs l ->
  size (concat l) = size (part (p_metadata p)) + size (part (p_data p)) + 9 * N.of_nat (List.length gs).
Proof. exact (@fnf_wire_total). Qed.
Print Assumptions C62_total.

(** With chunk size [n], no frame takes more than [9 + 2 * n] bytes. *)
Theorem C62_each : forall (S E : Type) (send : S -> frame -> S * option E) fuel bd m n p conn gs c' conn' l,
  fire_and_forget send fuel bd m p conn = Ret (None, gs, c', conn') ->
  rm_chunk_payload m = Some n ->
  Forall2 (fun f v => frame_encode f [] = EOk v) gs l ->
  Forall (fun v => size v <= 9 + 2 * n) l.
Proof. exact (@fnf_wire_each). Qed.
Print Assumptions C62_each.

Example C62_example :
  fire_and_forget ex_send 5 Debug (ex_machine (Some 2)) ex_payload (9, 0)%nat = Ret (None, ex_sent, 7%Z, (6, 3)%nat) /\
  exists l, Forall2 (fun f v => frame_encode f [] = EOk v) ex_sent l /\ map (fun v => size v) l = [13; 12; 10].
Proof.
  split; [reflexivity|]. eexists. split; [repeat (constructor; [reflexivity|]); constructor|]. vm_compute. reflexivity.
Qed.

(** ** C66: concurrent calls, demultiplexed and reassembled *)

(** The messages are the encodings of the frames the connection has taken, in order. *)
Theorem C66_deliveries : forall (S E : Type) (cn : connection S E) bd chunk init st0 conn0,
  chunk <> Some 0 -> (forall n, chunk = Some n -> n <= usize_max) -> forall acts l,
  let tr := fst (exec cn bd chunk acts (config_init init st0 conn0)) in
  N.of_nat (List.length (drawn tr)) <= 2 ^ 30 ->
  (forall t sid p, In (EvAlloc t sid p) tr -> deliverable p) ->
  Forall2 (fun f v => frame_encode f [] = EOk v) (accepted_all tr) l ->
  let ds := deliveries (fun _ => []) l in
  NoDup (map fst ds) /\
  (forall sid g, In (sid, g) ds -> exists t p, In (EvAlloc t sid p) tr /\ bl_try_into flat 0 g = DOk p) /\
  (forall t sid p, In (EvAlloc t sid p) tr -> In (EvReturn t sid) tr ->
     exists g, In (sid, g) ds /\ bl_try_into flat 0 g = DOk p) /\
  (forall t sid p f e g, In (EvAlloc t sid p) tr -> In (EvSend t f (Some e)) tr -> carries_id sid f = true ->
     ~ In (sid, g) ds).
Proof. exact (@delivered). Qed.
Print Assumptions C66_deliveries.

(** A payload whose parts are present but empty is lost, although the call ends well. *)
Theorem C66_lost : forall (S E : Type) (send : S -> frame -> S * option E) fuel bd m n p conn gs c' conn' l,
  fire_and_forget send fuel bd m p conn = Ret (None, gs, c', conn') ->
  rm_chunk_payload m = Some n -> n <= usize_max ->
  part (p_metadata p) = [] -> part (p_data p) = [] -> p <> Payload None None ->
  Forall2 (fun f v => frame_encode f [] = EOk v) gs l ->
  deliveries (fun _ => []) l = [].
Proof. exact lost. Qed.
Print Assumptions C66_lost.

(** Two calls and a push interleaved; the connection then refuses the second frame of a third call. *)
Definition ex_mix := exec ex_conn Debug (Some 2)
  (ex_acts ++ [Push 3 (exs [9]); Call 1 ex_payload; Run 1; Run 1; Run 1; Run 1])
  (config_init 1 (fun _ => false) (8, 0)%nat).
Definition ex_wire : list bytes :=
  flat_map (fun f => match frame_encode f [] with EOk v => [v] | EPanic _ => [] end) (accepted_all (fst ex_mix)).
Example C66_example :
  deliverable ex_payload /\ allocs (fst ex_mix) = [(2%nat, 3, ex_payload); (1%nat, 5, ex_payload); (1%nat, 7, ex_payload)] /\
  Forall2 (fun f v => frame_encode f [] = EOk v) (accepted_all (fst ex_mix)) ex_wire /\
  map stream_of ex_wire = [3; 5; 3; 5; 5; 3; 0; 7] /\ map type_of ex_wire = [5; 5; 5; 5; 5; 5; 12; 5] /\
  map (fun x => (fst x, bl_try_into flat 0 (snd x))) (deliveries (fun _ => []) ex_wire) =
    [(5, DOk ex_payload); (3, DOk ex_payload)].
Proof.
  split; [split; [discriminate|]; split; [discriminate|]; split; [|split]; vm_compute; discriminate|].
  split; [reflexivity|]. split.
  - let a := eval vm_compute in (accepted_all (fst ex_mix)) in change (accepted_all (fst ex_mix)) with a.
    let a := eval vm_compute in ex_wire in change ex_wire with a.
    repeat (constructor; [vm_compute; reflexivity|]); constructor.
  - repeat split; vm_compute; reflexivity.
Qed.
Example C66_lost_example :
  fire_and_forget ex_send 5 Debug (ex_machine (Some 2)) (Payload None (Some [])) (9, 0)%nat =
    Ret (None, [fnf_frame 5 true (Payload None (Some []))], 7%Z, (8, 1)%nat).
Proof. reflexivity. Qed.

(** ** C67: what the connection goes through *)

(** In every interleaving the connection goes exactly through the frames and closes of the
    trace, each by the method meant for it, and each answer in the trace is its answer. *)
Theorem C67_replays : forall (S E : Type) (cn : connection S E) bd chunk init st0 conn0 acts,
  let run := exec cn bd chunk acts (config_init init st0 conn0) in
  replays cn conn0 (fst run) (cf_conn (snd run)).
Proof. exact (@replayed). Qed.
Print Assumptions C67_replays.

(** It is closed once for each time that is asked. *)
Theorem C67_closes : forall (S E : Type) (cn : connection S E) bd chunk acts (c : @config S),
  length (filter (fun e => match e with EvClose => true | _ => false end) (fst (exec cn bd chunk acts c))) =
  length (filter (fun a => match a with Close => true | _ => false end) acts).
Proof. exact (@closes). Qed.
Print Assumptions C67_closes.

(** The two methods do different things: [send] counts in hundreds. *)
Definition ex_two : connection nat nat :=
  Connection (fun s _ => ((s + 1)%nat, if Nat.leb 300 s then Some s else None))
    (fun s _ => ((s + 100)%nat, if Nat.leb 300 s then Some s else None)) (fun _ => 300%nat).
Definition ex_story : list action :=
  [Call 0 ex_payload; Run 0; Call 1 ex_payload; Run 1; Run 0; Push 2 (exs [7]); Run 1; Run 0; Close; Run 0; Push 2 []; Run 1; Run 1].
Example C67_example :
  let run := exec ex_two Debug (Some 5) ex_story (config_init 1 (fun k => k =? 3) 0%nat) in
  fst run =
    [EvDraw 0 1; EvDraw 1 3; EvAlloc 0 1 ex_payload; EvPush 2 (FMetadataPush (MetadataPushFrame (exs [7]))) None;
     EvBusy 1 3; EvSend 0 (fnf_frame 1 false ex_payload) None; EvClose; EvReturn 0 1;
     EvPush 2 (FMetadataPush (MetadataPushFrame [])) (Some 300%nat); EvDraw 1 5; EvAlloc 1 5 ex_payload] /\
  cf_conn (snd run) = 400%nat.
Proof. vm_compute. auto. Qed.

(** ** C68: what each thread does *)

(** In every interleaving, whatever the other threads and the other users of the store do and
    however many ids have been drawn, a thread takes up requests in the order they were made;
    for a call it draws ids until one is free, hands over the frames of the payload of this very
    call with that id in order, stops at the first refusal and otherwise returns. *)
Theorem C68_behaves : forall (S E : Type) (cn : connection S E) bd chunk init st0 conn0 t acts,
  exists rs ph, some_of rs (asked t acts) /\
    behaves chunk t rs Outside (fst (exec cn bd chunk acts (config_init init st0 conn0))) ph.
Proof. exact (@behaviour). Qed.
Print Assumptions C68_behaves.

(** No thread panics, unless the chunk size is zero. *)
Theorem C68_no_panic : forall (S E : Type) (cn : connection S E) bd chunk init st0 conn0, chunk <> Some 0 ->
  forall acts t, ~ In (EvPanic t) (fst (exec cn bd chunk acts (config_init init st0 conn0))).
Proof. exact (@no_panic). Qed.
Print Assumptions C68_no_panic.

Example C68_example :
  let tr := fst (exec ex_two Debug (Some 5) ex_story (config_init 1 (fun k => k =? 3) 0%nat)) in
  asked 1 ex_story = [AskCall ex_payload] /\
  behaves (Some 5) 1 [AskCall ex_payload] Outside tr (Inside 5 [fnf_frame 5 false ex_payload]) /\
  asked 2 ex_story = [AskPush (exs [7]); AskPush []] /\
  behaves (Some 5) 2 [AskPush (exs [7]); AskPush []] Outside tr Outside /\
  fst (exec ex_two Debug (Some 0) [Call 0 ex_payload; Run 0; Run 0] (config_init 1 (fun _ => false) 0%nat)) =
    [EvDraw 0 1; EvPanic 0].
Proof.
  cbv zeta. set (tr := fst _). vm_compute in tr. subst tr. split; [reflexivity|]. split; [|split; [reflexivity|split; [|reflexivity]]].
  - eapply (Be_cons _ _ []); [apply Do_other; reflexivity|].
    eapply (Be_cons _ _ [_] _ _ _ []); [apply Do_first|].
    do 2 (eapply (Be_cons _ _ [] _ _ _ []); [apply Do_other; reflexivity|]).
    eapply (Be_cons _ _ [] _ _ _ []); [apply Do_busy|].
    do 4 (eapply (Be_cons _ _ [] _ _ _ []); [apply Do_other; reflexivity|]).
    eapply (Be_cons _ _ [] _ _ _ []); [apply Do_again|].
    eapply (Be_cons _ _ [] _ _ _ []); [apply Do_alloc|apply Be_nil].
    vm_compute. constructor; [|constructor]. exists false. reflexivity.
  - do 3 (eapply (Be_cons _ _ []); [apply Do_other; reflexivity|]).
    eapply (Be_cons _ _ [_] _ _ _ [_]); [apply (Do_push _ _ (exs [7]))|].
    do 4 (eapply (Be_cons _ _ []); [apply Do_other; reflexivity|]).
    eapply (Be_cons _ _ [_] _ _ _ []); [apply (Do_push _ _ [])|].
    do 2 (eapply (Be_cons _ _ [] _ _ _ []); [apply Do_other; reflexivity|]). apply Be_nil.
Qed.

(** ** C69: a new machine *)

(** The first call on a new machine hands over one frame with the whole payload, on stream 1
    for a client and 2 for a server, and gives the connection's answer. *)
Theorem C69_first : forall (S E : Type) (send : S -> frame -> S * option E) fuel bd r p conn, (2 <= fuel)%nat ->
  let f := fnf_frame (match r with Client => 1 | Server => 2 end) false p in
  fire_and_forget send fuel bd (machine_new r) p conn =
  Ret (snd (send conn f), [f], (match r with Client => 3 | Server => 4 end)%Z, fst (send conn f)).
Proof. exact (@fresh_call). Qed.
Print Assumptions C69_first.

(** As long as nothing else uses the store, every id drawn is free and every frame is the
    whole payload of its call. *)
Theorem C69_calls : forall (S E : Type) (cn : connection S E) bd r conn0 acts, (forall k, ~ In (Insert k) acts) ->
  let m := machine_new r in
  let tr := fst (exec cn bd (rm_chunk_payload m) acts (config_init (rm_stream_id m) (rm_receivers m) conn0)) in
  (forall t sid, ~ In (EvBusy t sid) tr) /\
  (forall t f a, In (EvSend t f a) tr -> exists sid p, f = fnf_frame sid false p /\ In (EvAlloc t sid p) tr).
Proof. exact (@fresh_machine). Qed.
Print Assumptions C69_calls.

Example C69_example :
  fire_and_forget ex_send 2 Debug (machine_new Client) ex_payload (1, 0)%nat =
    Ret (None, [fnf_frame 1 false ex_payload], 3%Z, (0, 1)%nat) /\
  fire_and_forget ex_send 2 Release (machine_new Server) ex_payload (0, 6)%nat =
    Ret (Some 6%nat, [fnf_frame 2 false ex_payload], 4%Z, (0, 7)%nat) /\
  fst (exec ex_two Debug (rm_chunk_payload (machine_new Server)) ex_story
         (config_init (rm_stream_id (machine_new Server)) (rm_receivers (machine_new Server)) 0%nat)) =
    [EvDraw 0 2; EvDraw 1 4; EvAlloc 0 2 ex_payload; EvPush 2 (FMetadataPush (MetadataPushFrame (exs [7]))) None;
     EvAlloc 1 4 ex_payload; EvSend 0 (fnf_frame 2 false ex_payload) None; EvClose; EvReturn 0 2;
     EvPush 2 (FMetadataPush (MetadataPushFrame [])) (Some 300%nat);
     EvSend 1 (fnf_frame 4 false ex_payload) (Some 400%nat)].
Proof. vm_compute. auto. Qed.

(** ** C73: the ids obtained do not depend on the schedule *)

(** With nothing else changing the store and no call in the middle of its search, the ids obtained
    are the free ones among the first [k], [k] being the number of draws, and the last of these is free. *)
Theorem C73_first_free : forall (S E : Type) (cn : connection S E) bd chunk init st0 conn0, chunk <> Some 0 ->
  forall acts, store_fixed acts ->
  let tr := fst (exec cn bd chunk acts (config_init init st0 conn0)) in
  (forall t, searching t tr = false) ->
  Permutation (alloc_ids tr) (free_ids st0 init (List.length (drawn tr))) /\
  (drawn tr = [] \/ exists k, List.length (drawn tr) = Datatypes.S k /\ st0 (id_after init (N.of_nat k)) = false).
Proof. exact (@settled). Qed.
Print Assumptions C73_first_free.

(** Two executions that have served as many calls have drawn the same ids, obtained the same ids
    and leave the same provider, whatever the schedules, the connections and the chunk sizes. *)
Theorem C73_same : forall (S1 E1 S2 E2 : Type) (cn1 : connection S1 E1) (cn2 : connection S2 E2) bd1 bd2 chunk1 chunk2
    init st0 conn1 conn2 acts1 acts2,
  chunk1 <> Some 0 -> chunk2 <> Some 0 -> store_fixed acts1 -> store_fixed acts2 ->
  let r1 := exec cn1 bd1 chunk1 acts1 (config_init init st0 conn1) in
  let r2 := exec cn2 bd2 chunk2 acts2 (config_init init st0 conn2) in
  (forall t, searching t (fst r1) = false) -> (forall t, searching t (fst r2) = false) ->
  List.length (alloc_ids (fst r1)) = List.length (alloc_ids (fst r2)) ->
  drawn (fst r1) = drawn (fst r2) /\ Permutation (alloc_ids (fst r1)) (alloc_ids (fst r2)) /\
  cf_counter (snd r1) = cf_counter (snd r2).
Proof. exact (@schedule_free). Qed.
Print Assumptions C73_same.

(** Ids 4 and 8 in use: one call after the other, and three at once. *)
Definition ex_used (k : N) : bool := (k =? 4) || (k =? 8).
Definition ex_turns : list action :=
  [Call 0 ex_payload; Run 0; Run 0; Run 0; Run 0; Call 0 ex_payload; Run 0; Run 0; Run 0; Run 0;
   Run 0; Run 0; Call 0 ex_payload; Run 0; Run 0; Run 0; Run 0].
Definition ex_crowd : list action :=
  [Call 0 ex_payload; Call 1 ex_payload; Call 2 ex_payload; Run 0; Run 1; Run 2; Run 2; Run 1; Run 1; Run 0; Run 1; Run 1; Run 1].
Example C73_example :
  let one := exec ex_conn Debug None ex_turns (config_init 2 ex_used (9, 0)%nat) in
  let all := exec ex_conn Release (Some 2) ex_crowd (config_init 2 ex_used (9, 0)%nat) in
  store_fixed ex_turns /\ store_fixed ex_crowd /\
  (forall t, searching t (fst one) = false) /\ (forall t, searching t (fst all) = false) /\
  alloc_ids (fst one) = [2; 6; 10] /\ alloc_ids (fst all) = [6; 2; 10] /\
  drawn (fst one) = [2; 4; 6; 8; 10] /\ drawn (fst all) = [2; 4; 6; 8; 10] /\
  cf_counter (snd one) = 12%Z /\ cf_counter (snd all) = 12%Z.
Proof.
  cbv zeta. repeat apply conj.
  - intros k. split; cbn; intuition discriminate.
  - intros k. split; cbn; intuition discriminate.
  - intros [|t]; (vm_compute; reflexivity).
  - intros [|[|[|t]]]; (vm_compute; reflexivity).
  - vm_compute; reflexivity.
  - vm_compute; reflexivity.
  - vm_compute; reflexivity.
  - vm_compute; reflexivity.
  - vm_compute; reflexivity.
  - vm_compute; reflexivity.
Qed.

(** ** C75: the methods that are not implemented *)

(** [request_response], [request_stream] and [request_channel] panic in the calling thread and do nothing
    else: the ids, the store, the connection and the other threads go on as if it had made no further
    request. *)
Theorem C75_missing : forall (S E : Type) (cn : connection S E) bd chunk init st0 conn0 t acts acts',
  let run := fun l => exec cn bd chunk l (config_init init st0 conn0) in
  cf_threads (snd (run acts)) t = Idle ->
  let r1 := run (acts ++ Request t :: acts') in
  let r2 := run (acts ++ without t acts') in
  exists rest,
    fst r1 = fst (run acts) ++ EvMissing t :: rest /\ fst r2 = fst (run acts) ++ rest /\
    Forall (fun e => by_thread t e = false) rest /\
    cf_counter (snd r1) = cf_counter (snd r2) /\ cf_store (snd r1) = cf_store (snd r2) /\
    cf_conn (snd r1) = cf_conn (snd r2) /\
    cf_threads (snd r1) t = Panicked /\ forall u, u <> t -> cf_threads (snd r1) u = cf_threads (snd r2) u.
Proof. intros S E cn bd chunk init st0 conn0 t acts acts'. exact (missing cn bd chunk t acts acts' (config_init init st0 conn0)). Qed.
Print Assumptions C75_missing.

Example C75_example :
  let run := fun l => exec ex_two Debug None l (config_init 1 (fun _ => false) 0%nat) in
  let acts := [Call 0 ex_payload; Run 0; Push 2 []] in
  let acts' := [Call 2 ex_payload; Run 0; Run 2; Push 2 []; Run 0; Insert 5; Run 0] in
  cf_threads (snd (run acts)) 2%nat = Idle /\
  without 2 acts' = [Run 0; Run 0; Insert 5; Run 0] /\
  fst (run (acts ++ Request 2 :: acts')) =
    [EvDraw 0 1; EvPush 2 (FMetadataPush (MetadataPushFrame [])) None; EvMissing 2;
     EvAlloc 0 1 ex_payload; EvSend 0 (fnf_frame 1 false ex_payload) None; EvReturn 0 1] /\
  fst (run (acts ++ acts')) =
    [EvDraw 0 1; EvPush 2 (FMetadataPush (MetadataPushFrame [])) None;
     EvAlloc 0 1 ex_payload; EvDraw 2 3; EvSend 0 (fnf_frame 1 false ex_payload) None; EvReturn 0 1].
Proof. vm_compute. auto. Qed.
