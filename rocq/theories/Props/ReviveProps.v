(** * Properties of threads that catch their panics: C115 *)

From Verif Require Import Model.ReviveM Model.BufM Spec.Revive.
From Verif Require Import Proofs.ReviveP.

(** ** C115: going on after a panic *)

(** A thread that goes on after a panic is as good as another thread: with some names for the threads, of which those in
    use here are what [r] makes, the same actions without the catching have the same effects and leave the same ids,
    receivers and connection. *)
Theorem C115_as_others : forall (S E : Type) (cn : connection S E) bd chunk init st0 conn0 acts,
  let run := revive_exec cn bd chunk acts (config_init init st0 conn0) in
  exists r acts', let run' := exec cn bd chunk acts' (config_init init st0 conn0) in
  map (renamed r) acts' = plain_acts acts /\ map (event_renamed r) (fst run') = plain (fst run) /\
  cf_counter (snd run') = cf_counter (snd run) /\ cf_store (snd run') = cf_store (snd run) /\
  cf_conn (snd run') = cf_conn (snd run).
Proof. exact (@as_others). Qed.
Print Assumptions C115_as_others.

(** A thread can catch a panic if it has panicked, once; otherwise there is nothing to catch and nothing changes. *)
Theorem C115_who_catches : forall (S E : Type) (cn : connection S E) bd chunk init st0 conn0 acts t acts',
  let run l := revive_exec cn bd chunk l (config_init init st0 conn0) in
  (uncaught t (fst (run acts)) = true -> fst (run (acts ++ [Catch t])) = fst (run acts) ++ [Caught t]) /\
  (uncaught t (fst (run acts)) = false -> run (acts ++ Catch t :: acts') = run (acts ++ acts')).
Proof. exact (@who_catches). Qed.
Print Assumptions C115_who_catches.

(** Until it catches the panic it does nothing. *)
Theorem C115_silent : forall (S E : Type) (cn : connection S E) bd chunk acts c t pre p mid e post,
  fst (revive_exec cn bd chunk acts c) = pre ++ ReviveSees p :: mid ++ ReviveSees e :: post ->
  p = EvPanic t \/ p = EvMissing t -> by_thread t e = true -> In (Caught t) mid.
Proof. exact (@silent). Qed.
Print Assumptions C115_silent.

(** However many panics are caught, ids are handed out once .. *)
Theorem C115_distinct : forall (S E : Type) (cn : connection S E) bd chunk init st0 conn0 acts,
  let tr := plain (fst (revive_exec cn bd chunk acts (config_init init st0 conn0))) in
  N.of_nat (List.length (drawn tr)) <= 2 ^ 30 -> NoDup (alloc_ids tr).
Proof. exact (@revive_distinct). Qed.
Print Assumptions C115_distinct.

(** .. and payloads are delivered whole and once. *)
Theorem C115_deliveries : forall (S E : Type) (cn : connection S E) bd chunk init st0 conn0,
  chunk <> Some 0 -> (forall n, chunk = Some n -> n <= usize_max) -> forall acts l,
  let tr := plain (fst (revive_exec cn bd chunk acts (config_init init st0 conn0))) in
  N.of_nat (List.length (drawn tr)) <= 2 ^ 30 ->
  (forall t sid p, In (EvAlloc t sid p) tr -> deliverable p) ->
  Forall2 (fun f v => frame_encode f [] = EOk v) (accepted_all tr) l ->
  let ds := deliveries (fun _ => []) l in
  NoDup (map fst ds) /\
  (forall sid g, In (sid, g) ds -> exists t p, In (EvAlloc t sid p) tr /\ bl_try_into flat 0 g = DOk p) /\
  (forall t sid p, In (EvAlloc t sid p) tr -> In (EvReturn t sid) tr ->
     exists g, In (sid, g) ds /\ bl_try_into flat 0 g = DOk p) /\
  (forall t sid p f e g, In (EvAlloc t sid p) tr -> In (EvSend t f (Some e)) tr -> carries_id sid f = true ->
     ~ In (sid, g) ds).
Proof. exact (@revive_delivered). Qed.
Print Assumptions C115_deliveries.

Definition rv_conn : connection nat nat := Connection (fun s _ => (S s, None)) (fun s _ => (S s, None)) (fun s => s).
Definition rv_payload : payload := Payload None (Some (map n2b [1; 2; 3])).
(** A thread panics in a method that is not implemented while another is in the middle of a call, is deaf until it catches
    the panic, and then makes a call that goes as any other. *)
Definition rv_acts : list revive_action :=
  [ReviveAct (Call 1 rv_payload); ReviveAct (Run 1); ReviveAct (Request 0); ReviveAct (Call 0 rv_payload); ReviveAct (Run 0); Catch 1; Catch 0;
   ReviveAct (Call 0 rv_payload); ReviveAct (Run 0); ReviveAct (Run 1); ReviveAct (Run 0); ReviveAct (Run 0); ReviveAct (Run 1); ReviveAct (Run 0);
   ReviveAct (Run 1)].
Definition rv_run := revive_exec rv_conn Debug None rv_acts (config_init 1 (fun _ => false) 0%nat).
Definition rv_wire : list bytes :=
  map (fun f => match frame_encode f [] with EOk v => v | _ => [] end) (accepted_all (plain (fst rv_run))).
Example C115_example :
  fst rv_run =
    [ReviveSees (EvDraw 1 1); ReviveSees (EvMissing 0); Caught 0; ReviveSees (EvDraw 0 3); ReviveSees (EvAlloc 1 1 rv_payload);
     ReviveSees (EvAlloc 0 3 rv_payload); ReviveSees (EvSend 0 (fnf_frame 3 false rv_payload) None);
     ReviveSees (EvSend 1 (fnf_frame 1 false rv_payload) None); ReviveSees (EvReturn 0 3); ReviveSees (EvReturn 1 1)] /\
  uncaught 0 (firstn 2 (fst rv_run)) = true /\ uncaught 1 (firstn 2 (fst rv_run)) = false /\ uncaught 0 (fst rv_run) = false /\
  deliverable rv_payload /\
  Forall2 (fun f v => frame_encode f [] = EOk v) (accepted_all (plain (fst rv_run))) rv_wire /\
  map (fun x => (fst x, bl_try_into flat 0 (snd x))) (deliveries (fun _ => []) rv_wire) = [(3, DOk rv_payload); (1, DOk rv_payload)].
Proof.
  split; [vm_compute; reflexivity|]. split; [reflexivity|]. split; [reflexivity|]. split; [reflexivity|].
  split; [split; [discriminate|]; split; [discriminate|]; split; [|split]; vm_compute; discriminate|]. split.
  - let a := eval vm_compute in (accepted_all (plain (fst rv_run))) in change (accepted_all (plain (fst rv_run))) with a.
    let a := eval vm_compute in rv_wire in change rv_wire with a.
    repeat (constructor; [vm_compute; reflexivity|]); constructor.
  - vm_compute. reflexivity.
Qed.

(** With chunks of size 0 every call panics and takes an id with it. *)
Example C115_zero_example :
  fst (revive_exec rv_conn Release (Some 0)
    [ReviveAct (Call 0 rv_payload); ReviveAct (Run 0); ReviveAct (Run 0); Catch 0; ReviveAct (Call 0 rv_payload); ReviveAct (Run 0); ReviveAct (Run 0); ReviveAct (Run 0);
     Catch 0; ReviveAct (Push 0 [])] (config_init 2 (fun _ => false) 0%nat)) =
  [ReviveSees (EvDraw 0 2); ReviveSees (EvPanic 0); Caught 0; ReviveSees (EvDraw 0 4); ReviveSees (EvPanic 0); Caught 0;
   ReviveSees (EvPush 0 (FMetadataPush (MetadataPushFrame [])) None)].
Proof. reflexivity. Qed.
