(** * What reaches a receiver through a connection whose operations take time: C106 *)

From Coq Require Import String.
From Verif Require Import Model.SlowM Model.BufM Spec.Slow.
From Verif Require Import Proofs.ReachP.

(** Whenever during an operation its frame reaches the wire: the frames of a call are there in order, from the first
    on, and all of them if the call returns. *)
Theorem C106_order : forall (S E : Type) (sc : slow_connection S E) bd chunk init st conn,
  chunk <> Some 0 -> forall acts w fs,
  let tr := fst (slow_exec sc bd chunk acts (slow_init init st conn)) in
  N.of_nat (List.length (drawn (at_ends tr))) <= 2 ^ 30 -> reaches tr w fs ->
  forall t sid p, In (SlAlloc t sid p) tr -> exists all rest,
  carries sid (fragments chunk p) all /\ all = (filter (carries_id sid) fs ++ rest)%list /\ (In (SlReturn t sid) tr -> rest = []).
Proof. exact (@reach_order). Qed.
Print Assumptions C106_order.

(** And nothing else is there but pushed metadata. *)
Theorem C106_only : forall (S E : Type) (sc : slow_connection S E) bd chunk init st conn,
  chunk <> Some 0 -> forall acts w fs,
  let tr := fst (slow_exec sc bd chunk acts (slow_init init st conn)) in
  N.of_nat (List.length (drawn (at_ends tr))) <= 2 ^ 30 -> reaches tr w fs ->
  forall f, In f fs -> (exists md, f = FMetadataPush (MetadataPushFrame md)) \/
    (exists t q p, f = FRequestFnf q /\ In (SlAlloc t (fnf_stream_id q) p) tr).
Proof. exact (@reach_ids). Qed.
Print Assumptions C106_only.

(** So a receiver that collects the frames of each stream gets every payload whose call returned, whole, and none twice; what
    it gets are payloads of calls.  If a call failed at a frame that is not its last, its payload does not arrive;
    if at its last, it may have. *)
Theorem C106_delivered : forall (S E : Type) (sc : slow_connection S E) bd chunk init st conn,
  chunk <> Some 0 -> (forall n, chunk = Some n -> n <= usize_max) -> forall acts w fs l,
  let tr := fst (slow_exec sc bd chunk acts (slow_init init st conn)) in
  N.of_nat (List.length (drawn (at_ends tr))) <= 2 ^ 30 ->
  (forall t sid p, In (SlAlloc t sid p) tr -> deliverable p) -> reaches tr w fs ->
  Forall2 (fun f v => frame_encode f [] = EOk v) fs l ->
  let ds := deliveries (fun _ => []) l in
  NoDup (map fst ds) /\
  (forall sid g, In (sid, g) ds -> exists t p, In (SlAlloc t sid p) tr /\ bl_try_into flat 0 g = DOk p) /\
  (forall t sid p, In (SlAlloc t sid p) tr -> In (SlReturn t sid) tr -> exists g, In (sid, g) ds /\ bl_try_into flat 0 g = DOk p) /\
  (forall t sid p q a g, In (SlAlloc t sid p) tr -> In (SlEnd t (OpForget (fnf_frame sid true q)) a) tr -> a <> Returned None ->
     ~ In (sid, g) ds).
Proof. exact (@reach_delivered). Qed.
Print Assumptions C106_delivered.

(** A connection that needs one step for each operation; it refuses what ends after it was closed. *)
Definition rcx_conn : slow_connection bool string :=
  SlowConnection (fun s _ op => match op with OpClose => true | _ => s end)
    (fun s _ => (s, Some (Returned (if s then Some "closed"%string else None)))) (fun s _ => s).
Definition rcx_payload (a b : N) : payload := Payload None (Some [n2b a; n2b b]).
Definition rcx_frame (sid : N) (follows : bool) (i : N) : frame := fnf_frame sid follows (Payload None (Some [n2b i])).
(** Threads 1, 2 and 3 call; 2 fails at its second and last frame, 3 at its first. *)
Definition rcx_run := fst (slow_exec rcx_conn Debug (Some 1)
  [SlCall 1 (rcx_payload 1 2); SlCall 2 (rcx_payload 3 4); SlCall 3 (rcx_payload 5 6); SlRun 1; SlRun 1; SlRun 2; SlRun 2; SlRun 3; SlRun 3;
   SlRun 1; SlRun 2; SlRun 1; SlRun 2; SlRun 1; SlRun 2; SlRun 3; SlRun 1; SlRun 1; SlClose 4; SlRun 2; SlRun 3]
  (slow_init 1 (fun _ => false) false)).
Definition rcx_wire : list frame :=
  [rcx_frame 3 true 3; rcx_frame 1 true 1; rcx_frame 3 false 4; rcx_frame 1 false 2; rcx_frame 5 true 5].
Definition rcx_bytes : list bytes := flat_map (fun f => match frame_encode f [] with EOk v => [v] | EPanic _ => [] end) rcx_wire.
Definition rcx_trace : list (slow_event string) :=
  [SlDraw 1 1; SlAlloc 1 1 (rcx_payload 1 2); SlDraw 2 3; SlAlloc 2 3 (rcx_payload 3 4); SlDraw 3 5; SlAlloc 3 5 (rcx_payload 5 6);
   SlBegin 1 (OpForget (rcx_frame 1 true 1)); SlBegin 2 (OpForget (rcx_frame 3 true 3));
   SlEnd 1 (OpForget (rcx_frame 1 true 1)) (Returned None); SlEnd 2 (OpForget (rcx_frame 3 true 3)) (Returned None);
   SlBegin 1 (OpForget (rcx_frame 1 false 2)); SlBegin 2 (OpForget (rcx_frame 3 false 4)); SlBegin 3 (OpForget (rcx_frame 5 true 5));
   SlEnd 1 (OpForget (rcx_frame 1 false 2)) (Returned None); SlReturn 1 1; SlBegin 4 OpClose;
   SlEnd 2 (OpForget (rcx_frame 3 false 4)) (Returned (Some "closed"%string));
   SlEnd 3 (OpForget (rcx_frame 5 true 5)) (Returned (Some "closed"%string))].
Example C106_example :
  rcx_run = rcx_trace /\ deliverable (rcx_payload 1 2) /\ deliverable (rcx_payload 3 4) /\ deliverable (rcx_payload 5 6) /\
  drawn (at_ends rcx_run) = [1; 3; 5] /\
  Forall2 (fun f v => frame_encode f [] = EOk v) rcx_wire rcx_bytes /\
  map (fun x => (fst x, bl_try_into flat 0 (snd x))) (deliveries (fun _ => []) rcx_bytes) =
    [(3, DOk (rcx_payload 3 4)); (1, DOk (rcx_payload 1 2))].
Proof.
  split; [vm_compute; reflexivity|].
  split; [split; [discriminate|]; split; [discriminate|]; split; [|split]; vm_compute; discriminate|].
  split; [split; [discriminate|]; split; [discriminate|]; split; [|split]; vm_compute; discriminate|].
  split; [split; [discriminate|]; split; [discriminate|]; split; [|split]; vm_compute; discriminate|].
  split; [reflexivity|]. split; [|vm_compute; reflexivity].
  let a := eval vm_compute in rcx_bytes in change rcx_bytes with a.
  repeat (constructor; [vm_compute; reflexivity|]). constructor.
Qed.
(** The wire has them in another order than that of their beginnings, and than that of their ends. *)
Example C106_example_reaches : exists w, reaches rcx_trace w rcx_wire.
Proof.
  assert (O : forall tr w fs (e : slow_event string), borders e = false -> reaches tr w fs -> reaches (tr ++ [e]) w fs)
    by (intros; now apply Rs_other).
  pose proof (@Rs_start string) as H.
  do 6 (eapply O in H; [|shelve]).
  apply (fun h => Rs_begin _ _ _ 1%nat (OpForget (rcx_frame 1 true 1)) h) in H.
  apply (fun h => Rs_begin _ _ _ 2%nat (OpForget (rcx_frame 3 true 3)) h) in H.
  apply (fun h => Rs_put _ _ _ 2%nat (rcx_frame 3 true 3) h eq_refl) in H.
  apply (fun h => Rs_put _ _ _ 1%nat (rcx_frame 1 true 1) h eq_refl) in H.
  apply (fun h => Rs_end _ _ _ 1%nat (OpForget (rcx_frame 1 true 1)) (Returned None) h (fun _ _ _ => eq_refl)) in H.
  apply (fun h => Rs_end _ _ _ 2%nat (OpForget (rcx_frame 3 true 3)) (Returned None) h (fun _ _ _ => eq_refl)) in H.
  apply (fun h => Rs_begin _ _ _ 1%nat (OpForget (rcx_frame 1 false 2)) h) in H.
  apply (fun h => Rs_begin _ _ _ 2%nat (OpForget (rcx_frame 3 false 4)) h) in H.
  apply (fun h => Rs_begin _ _ _ 3%nat (OpForget (rcx_frame 5 true 5)) h) in H.
  apply (fun h => Rs_put _ _ _ 2%nat (rcx_frame 3 false 4) h eq_refl) in H.
  apply (fun h => Rs_put _ _ _ 1%nat (rcx_frame 1 false 2) h eq_refl) in H.
  apply (fun h => Rs_put _ _ _ 3%nat (rcx_frame 5 true 5) h eq_refl) in H.
  apply (fun h => Rs_end _ _ _ 1%nat (OpForget (rcx_frame 1 false 2)) (Returned None) h (fun _ _ _ => eq_refl)) in H.
  eapply O in H; [|shelve].
  apply (fun h => Rs_begin _ _ _ 4%nat OpClose h) in H.
  apply (fun h => Rs_end _ _ _ 2%nat (OpForget (rcx_frame 3 false 4)) (Returned (Some "closed"%string)) h (fun _ _ _ => eq_refl)) in H.
  apply (fun h => Rs_end _ _ _ 3%nat (OpForget (rcx_frame 5 true 5)) (Returned (Some "closed"%string)) h (fun _ _ _ => eq_refl)) in H.
  eexists. exact H.
  Unshelve. all: reflexivity.
Qed.
