(** * Properties of who keeps the connection of a machine alive: C90 *)

From Coq Require Import String.
From Verif Require Import Model.LifeM Spec.Life.
From Verif Require Import Proofs.LifeP.

Definition exl (l : list N) : bytes := map n2b l.
Definition lx_payload : payload := Payload None (Some (exl [1; 2; 3])).

(** A connection that takes frames until it is closed and then refuses them; its state is the number of frames
    taken and whether it is closed. *)
Definition lx_send (s : nat * bool) (f : frame) : (nat * bool) * option string :=
  if snd s then (s, Some "closed"%string) else ((S (fst s), false), None).
Definition lx_conn : connection (nat * bool) string := Connection lx_send lx_send (fun s => (fst s, true)).
(** Once it is closed its status streams end at once; or they go on telling that it is closed. *)
Definition lx_ends (s : nat * bool) : option connection_status := if snd s then None else Some Connected.
Definition lx_tells (s : nat * bool) : option connection_status := Some (if snd s then Closed else Connected).
Definition lx_acts : list life_action :=
  [LifeListen; LifeClone 0 1; LifeUse 0 (Call 0 lx_payload); LifeDrop 0; LifeWatch; LifeUse 0 (Run 0); LifeUse 0 (Run 0);
   LifeUse 2 (Call 2 lx_payload); LifeUse 0 (Run 0); LifeUse 0 (Run 0); LifeDrop 0; LifeUse 0 (Call 0 lx_payload); LifeElapse 20; LifeWatch;
   LifeUse 1 (Push 1 (exl [7])); LifeListen; LifeWatch; LifeDrop 1; LifeListen].
Definition lx_run (status : nat * bool -> option connection_status) (acts : list life_action) :=
  life_exec lx_conn status Debug None 10 acts (life_init 1 (fun _ => false) (0%nat, false) 100).
Definition lx_events : list (life_event string) :=
  [LifeSys (SysStatus (Some Connected)); LifeCloned 0 1; LifeSys (SysEv (EvDraw 0 1)); LifeSys (SysEv (EvAlloc 0 1 lx_payload));
   LifeSys (SysEv (EvSend 0 (fnf_frame 1 false lx_payload) None)); LifeSys (SysEv (EvReturn 0 1)); LifeDropped 0;
   LifeSys (SysWatchLog "connection keepalive timed out");
   LifeSys (SysEv (EvPush 1 (FMetadataPush (MetadataPushFrame (exl [7]))) None)); LifeSys SysWatchClose; LifeDropped 1].

(** ** C90: the connection lives as long as somebody holds a machine, and the tasks are somebody *)

(** The connection is dropped exactly when the last machine is. *)
Theorem C90_freed : forall (S E : Type) (cn : connection S E) status bd chunk timeout init st0 conn0 now acts,
  let tr := fst (life_exec cn status bd chunk timeout acts (life_init init st0 conn0 now)) in
  In LifeFreed tr <-> holders tr = [].
Proof. exact (@life_freed). Qed.
Print Assumptions C90_freed.

(** That happens at once, once, and nothing happens afterwards. *)
Theorem C90_last : forall (S E : Type) (cn : connection S E) status bd chunk timeout init st0 conn0 now acts pre e post,
  fst (life_exec cn status bd chunk timeout acts (life_init init st0 conn0 now)) = pre ++ e :: post ->
  (holders pre = [] -> e = LifeFreed) /\ (e = LifeFreed -> post = []).
Proof.
  intros. split; [exact (life_at_once _ _ _ _ _ _ _ _ _ _ _ _ _ H)|].
  intros ->. exact (life_last _ _ _ _ _ _ _ _ _ _ _ _ H).
Qed.
Print Assumptions C90_last.

(** Whoever does something has a machine at that time: nothing reaches a connection that has been dropped. *)
Theorem C90_entitled : forall (S E : Type) (cn : connection S E) status bd chunk timeout init st0 conn0 now acts pre e post,
  fst (life_exec cn status bd chunk timeout acts (life_init init st0 conn0 now)) = pre ++ e :: post ->
  entitled (holders pre) e.
Proof. exact (@life_entitled). Qed.
Print Assumptions C90_entitled.

(** Apart from that the machine behaves as in C70. *)
Theorem C90_system : forall (S E : Type) (cn : connection S E) status bd chunk timeout init st0 conn0 now acts,
  let run := life_exec cn status bd chunk timeout acts (life_init init st0 conn0 now) in
  exists acts', some_of acts' (flat_map system_action acts) /\ elapsed acts' = life_elapsed acts /\
    sys_exec cn status bd chunk timeout acts' (system_init init st0 conn0 now) = (of_system (fst run), lf_sys (snd run)).
Proof. exact (@life_system). Qed.
Print Assumptions C90_system.

(** If the status streams of a connection always begin with a status, then dropping every machine does not
    drop the connection: only a runtime that drops the listener does. *)
Theorem C90_kept : forall (S E : Type) (cn : connection S E) status bd chunk timeout init st0 conn0 now,
  (forall s, status s <> None) -> forall acts,
  let tr := fst (life_exec cn status bd chunk timeout acts (life_init init st0 conn0 now)) in
  In LifeFreed tr -> In LifeListenCancelled tr.
Proof. exact (@life_kept). Qed.
Print Assumptions C90_kept.

(** Whatever the connection, it is not dropped before the watchdog has closed it, which is more than
    a timeout after its creation, unless the runtime drops the watchdog. *)
Theorem C90_closed_first : forall (S E : Type) (cn : connection S E) status bd chunk timeout init st0 conn0 now acts,
  let tr := fst (life_exec cn status bd chunk timeout acts (life_init init st0 conn0 now)) in
  In LifeFreed tr ->
  In LifeWatchCancelled tr \/ (timeout < life_elapsed acts /\ In (LifeSys SysWatchClose) tr).
Proof. exact (@life_closed_first). Qed.
Print Assumptions C90_closed_first.

(** It does go when the listener is the only holder and finds the status stream ended, and when a thread
    is the only holder and drops its machine. *)
Theorem C90_frees : forall (S E : Type) (cn : connection S E) status bd chunk timeout init st0 conn0 now acts,
  let run := fun l => life_exec cn status bd chunk timeout l (life_init init st0 conn0 now) in
  (holders (fst (run acts)) = [Listener] -> status (cf_conn (sy_config (lf_sys (snd (run acts))))) = None ->
   In LifeFreed (fst (run (acts ++ [LifeListen; LifeListen])))) /\
  (forall t, holders (fst (run acts)) = [User t] -> cf_threads (sy_config (lf_sys (snd (run acts)))) t = Idle ->
   fst (run (acts ++ [LifeDrop t])) = fst (run acts) ++ [LifeDropped t; LifeFreed]).
Proof. intros. split; [apply life_frees|apply life_drop_frees]. Qed.
Print Assumptions C90_frees.

(** A call in progress keeps the machine it is made on: a thread that has begun a [fire_and_forget] and not
    ended it is a holder. *)
Theorem C90_in_call : forall (S E : Type) (cn : connection S E) status bd chunk timeout init st0 conn0 now acts t,
  let run := life_exec cn status bd chunk timeout acts (life_init init st0 conn0 now) in
  cf_threads (sy_config (lf_sys (snd run))) t <> Idle -> cf_threads (sy_config (lf_sys (snd run))) t <> Panicked ->
  In (User t) (holders (fst run)).
Proof. exact (@life_in_call). Qed.
Print Assumptions C90_in_call.

(** A runtime drops a task only where it awaits: a watchdog that is dropped has logged nothing and closed nothing, in
    particular it is not dropped between the log and the close; a listener that is dropped has logged the lines
    of all the statuses it was given. *)
Theorem C90_cancelled : forall (S E : Type) (cn : connection S E) status bd chunk timeout init st0 conn0 now acts,
  let tr := fst (life_exec cn status bd chunk timeout acts (life_init init st0 conn0 now)) in
  (In LifeWatchCancelled tr -> watched (of_system tr) = []) /\
  (In LifeListenCancelled tr ->
   exists h, statuses (of_system tr) = map Some h /\ listened (of_system tr) = lines h).
Proof. intros. split; [apply life_watch_cancelled|apply life_listen_cancelled]. Qed.
Print Assumptions C90_cancelled.

(** Thread 0 gives thread 1 a machine and sends a payload; it cannot drop its machine in the middle of the call nor use it
    afterwards, and thread 2 has none.  The watchdog logs, thread 1 pushes metadata, the listener reports that
    the connection is up, the watchdog closes, thread 1 drops the last machine.  Then it depends on
    the status stream. *)
Example C90_example :
  (fst (lx_run lx_ends lx_acts) = lx_events ++ [LifeSys (SysStatus None); LifeFreed]) /\
  holders lx_events = [Listener] /\
  (fst (lx_run lx_tells lx_acts) = lx_events ++ [LifeSys (SysStatus (Some Closed))]) /\
  (forall s, lx_tells s <> None).
Proof. repeat split; try (vm_compute; reflexivity). intros s. discriminate. Qed.

(** The hypotheses of the first part of [C90_frees] after all but the last action, those of the second
    on a runtime that is shut down. *)
Example C90_frees_example :
  (let run := lx_run lx_ends (removelast lx_acts) in
   holders (fst run) = [Listener] /\ lx_ends (cf_conn (sy_config (lf_sys (snd run)))) = None) /\
  (let run := lx_run lx_tells [LifeClone 0 3; LifeCancelWatch; LifeDrop 0; LifeCancelListen] in
   holders (fst run) = [User 3] /\ cf_threads (sy_config (lf_sys (snd run))) 3%nat = Idle).
Proof. vm_compute. auto. Qed.

(** Thread 0 in each of the three stages of a call: it cannot drop its machine. *)
Example C90_in_call_example :
  let run := fun n => lx_run lx_tells (LifeUse 0 (Call 0 lx_payload) :: repeat (LifeUse 0 (Run 0)) n ++ [LifeDrop 0]) in
  (forall n, (n < 3)%nat -> cf_threads (sy_config (lf_sys (snd (run n)))) 0%nat <> Idle /\
     cf_threads (sy_config (lf_sys (snd (run n)))) 0%nat <> Panicked) /\
  holders (fst (run 2%nat)) = [Listener; Watchdog; User 0] /\
  cf_threads (sy_config (lf_sys (snd (run 4%nat)))) 0%nat = Idle /\ holders (fst (run 4%nat)) = [Listener; Watchdog].
Proof.
  cbv zeta. split; [|vm_compute; auto].
  intros [|[|[|n]]] H; [split; vm_compute; discriminate..|exfalso; lia].
Qed.

(** A connection whose statuses are errors: the listener is given one, is not dropped before it has logged it, and
    then is; the watchdog is dropped while it sleeps. *)
Example C90_cancelled_example :
  let run := fun acts => fst (lx_run (fun _ => Some (StatusError "down"%string)) acts) in
  let told := [LifeSys (SysStatus (Some (StatusError "down"%string))); LifeWatchCancelled; LifeSys (SysListenLog "down"%string); LifeListenCancelled] in
  run [LifeWatch; LifeElapse 3; LifeListen; LifeCancelListen; LifeCancelWatch; LifeListen; LifeCancelListen; LifeElapse 50; LifeWatch; LifeListen] = told /\
  listened (of_system told) = lines [StatusError "down"%string] /\ listened (of_system told) <> [].
Proof. vm_compute. repeat split. discriminate. Qed.
