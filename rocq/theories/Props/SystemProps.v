(** * Properties of a machine with its two tasks: C70-C72, C79 *)

From Coq Require Import String.
From Verif Require Import Model.SystemM Spec.System.
From Verif Require Import Proofs.SystemP Proofs.FloodP.

Definition exy (l : list N) : bytes := map n2b l.
Definition sx_payload : payload := Payload None (Some (exy [1; 2; 3])).

(** A connection that takes frames until it is closed and then refuses them; its state is
    the number of frames taken and whether it is closed. *)
Definition sx_send (s : nat * bool) (f : frame) : (nat * bool) * option string :=
  if snd s then (s, Some "closed"%string) else ((S (fst s), false), None).
Definition sx_conn : connection (nat * bool) string := Connection sx_send sx_send (fun s => (fst s, true)).
Definition sx_status (s : nat * bool) : option connection_status := Some (if snd s then Closed else Connected).
Definition sx_acts : list sys_action :=
  [SysListen; SysAct (Call 0 sx_payload); SysAct (Run 0); SysWatch; SysAct (Run 0); SysListen; SysElapse 10; SysAct (Run 0);
   SysWatch; SysElapse 10; SysWatch; SysListen; SysAct (Call 1 sx_payload); SysAct (Run 1); SysWatch; SysListen; SysListen;
   SysAct (Run 1); SysAct (Run 0); SysAct (Run 1); SysListen].
Definition sx_run := sys_exec sx_conn sx_status Debug (Some 2) 10 sx_acts (system_init 1 (fun _ => false) (0%nat, false) 100).

(** ** C70: the whole machine *)

(** The threads and the connection behave as without the tasks, up to one close by the watchdog
    after it has logged: all that holds of executions of threads holds of those of the machine. *)
Theorem C70_threads : forall (S E : Type) (cn : connection S E) status bd chunk timeout init st0 conn0 now acts,
  let run := sys_exec cn status bd chunk timeout acts (system_init init st0 conn0 now) in
  exists pre post, of_threads acts = pre ++ post /\
    ((watched (fst run) = [Logged "connection keepalive timed out"; ConnClose] /\
      exec cn bd chunk (pre ++ Close :: post) (config_init init st0 conn0) = (seen (fst run), sy_config (snd run))) \/
     (~ In ConnClose (watched (fst run)) /\
      exec cn bd chunk (pre ++ post) (config_init init st0 conn0) = (seen (fst run), sy_config (snd run)))).
Proof. exact (@threads_in_system). Qed.
Print Assumptions C70_threads.

(** The connection goes through exactly the observed events; each status the listener is given is
    the one the connection had then. *)
Theorem C70_replays : forall (S E : Type) (cn : connection S E) status bd chunk timeout init st0 conn0 now acts,
  let run := sys_exec cn status bd chunk timeout acts (system_init init st0 conn0 now) in
  sys_replays cn status conn0 (fst run) (cf_conn (sy_config (snd run))).
Proof. exact (@sys_replayed). Qed.
Print Assumptions C70_replays.

(** The watchdog does nothing until more than a timeout after creation, and then it logs once
    and closes once. *)
Theorem C70_watch : forall (S E : Type) (cn : connection S E) status bd chunk timeout init st0 conn0 now acts,
  let tr := fst (sys_exec cn status bd chunk timeout acts (system_init init st0 conn0 now)) in
  watched tr = [] \/
  (timeout < elapsed acts /\
   (watched tr = [Logged "connection keepalive timed out"] \/
    watched tr = [Logged "connection keepalive timed out"; ConnClose])).
Proof. exact (@watch_safe). Qed.
Print Assumptions C70_watch.

(** It has closed the connection once it has run, run again at least a timeout later and at least
    two timeouts after creation, and run once more - whatever else happens in between. *)
Theorem C70_watch_closes : forall (S E : Type) (cn : connection S E) status bd chunk timeout init st0 conn0 now
  a0 a1 a2 a3, 0 < timeout -> timeout <= elapsed a1 -> 2 * timeout <= elapsed a0 + elapsed a1 ->
  watched (fst (sys_exec cn status bd chunk timeout
    (a0 ++ [SysWatch] ++ a1 ++ [SysWatch] ++ a2 ++ [SysWatch] ++ a3) (system_init init st0 conn0 now))) =
  [Logged "connection keepalive timed out"; ConnClose].
Proof. exact (@watch_live). Qed.
Print Assumptions C70_watch_closes.

(** Exactly what it does, from the times at which it is run. *)
Theorem C70_watch_exact : forall (S E : Type) (cn : connection S E) status bd chunk timeout init st0 conn0 now acts,
  watched (fst (sys_exec cn status bd chunk timeout acts (system_init init st0 conn0 now))) =
  match watch_runs 0 acts with [] => [] | t0 :: ts => asleep_since timeout t0 ts end.
Proof. exact (@watch_exact). Qed.
Print Assumptions C70_watch_exact.

(** A watchdog first run late sleeps a timeout all the same, and one that looks exactly a timeout
    after creation sleeps another. *)
Example C70_watch_exact_example :
  watch_runs 0 sx_acts = [0; 10; 20; 20] /\
  asleep_since 10 0 [10; 20; 20] = [Logged "connection keepalive timed out"; ConnClose] /\
  asleep_since 10 25 [25; 34] = [] /\ asleep_since 10 25 [34; 35] = [Logged "connection keepalive timed out"] /\
  asleep_since 10 0 [10; 11; 19] = [].
Proof. vm_compute. auto. Qed.

(** Each time it is run the listener asks for a status or logs the line of the last one, if it has
    one; it does nothing more once a stream has ended without a status. *)
Theorem C70_listener : forall (S E : Type) (cn : connection S E) status bd chunk timeout init st0 conn0 now acts,
  let tr := fst (sys_exec cn status bd chunk timeout acts (system_init init st0 conn0 now)) in
  exists h last, listened tr = lines h /\ statuses tr = map Some h ++ last /\
    ((last = [] /\ turns acts = (2 * List.length h)%nat) \/
     ((exists s, last = [Some s]) /\ turns acts = (2 * List.length h + 1)%nat) \/ last = [None]).
Proof. exact (@listener_in_system). Qed.
Print Assumptions C70_listener.

Example C70_example :
  fst sx_run =
    [SysStatus (Some Connected); SysEv (EvDraw 0 1); SysEv (EvAlloc 0 1 sx_payload);
     SysEv (EvSend 0 (fnf_frame 1 true (Payload None (Some (exy [1; 2])))) None);
     SysWatchLog "connection keepalive timed out"; SysStatus (Some Connected);
     SysEv (EvDraw 1 3); SysWatchClose; SysStatus (Some Closed);
     SysEv (EvAlloc 1 3 sx_payload);
     SysEv (EvSend 0 (fnf_frame 1 false (Payload None (Some (exy [3])))) (Some "closed"%string));
     SysEv (EvSend 1 (fnf_frame 3 true (Payload None (Some (exy [1; 2])))) (Some "closed"%string));
     SysListenLog "connection was closed"] /\
  watched (fst sx_run) = [Logged "connection keepalive timed out"; ConnClose] /\ elapsed sx_acts = 20 /\
  statuses (fst sx_run) = map Some [Connected; Connected; Closed] /\
  turns sx_acts = 6%nat /\
  listened (fst sx_run) = [Logged "connection was closed"].
Proof. vm_compute. auto 10. Qed.

(** The hypotheses of [C70_watch_closes] on this schedule. *)
Example C70_watch_closes_example : exists a0 a1 a2 a3,
  sx_acts = a0 ++ [SysWatch] ++ a1 ++ [SysWatch] ++ a2 ++ [SysWatch] ++ a3 /\ 0 < 10 /\ 10 <= elapsed a1 /\
  2 * 10 <= elapsed a0 + elapsed a1.
Proof.
  exists (firstn 3 sx_acts), (firstn 6 (skipn 4 sx_acts)), (firstn 3 (skipn 11 sx_acts)), (skipn 15 sx_acts).
  repeat split; vm_compute; discriminate.
Qed.

(** ** C71: after a close *)

(** On a connection that once closed stays closed and takes no frame: after the close - by the
    watchdog or by anybody - every frame of a call is refused, and a call that obtains its id
    after the close and has something to send does not return [Ok]. *)
Theorem C71_after_close : forall (S E : Type) (cn : connection S E) status bd chunk timeout init st0 conn0 now closed,
  closes_for_good cn closed -> forall acts tr1 tr2,
  seen (fst (sys_exec cn status bd chunk timeout acts (system_init init st0 conn0 now))) = tr1 ++ EvClose :: tr2 ->
  (forall t f r, In (EvSend t f r) tr2 -> r <> None) /\
  (forall t sid p u1 u2 sid' u3, tr2 = u1 ++ EvAlloc t sid p :: u2 ++ EvReturn t sid' :: u3 ->
     fragments chunk p <> [] -> exists s q, In (EvAlloc t s q) u2).
Proof. exact (@closed_calls). Qed.
Print Assumptions C71_after_close.

Example C71_example : closes_for_good sx_conn (fun s => snd s = true) /\
  exists tr1, seen (fst sx_run) = tr1 ++ EvClose ::
    [EvAlloc 1 3 sx_payload;
     EvSend 0 (fnf_frame 1 false (Payload None (Some (exy [3])))) (Some "closed"%string);
     EvSend 1 (fnf_frame 3 true (Payload None (Some (exy [1; 2])))) (Some "closed"%string)].
Proof.
  split.
  - repeat split; intros; cbn in *; unfold sx_send; rewrite H; [exact H|exact H|discriminate].
  - exists (firstn 4 (seen (fst sx_run))). vm_compute. reflexivity.
Qed.

(** ** C72: the two ends of a connection *)

(** A client machine and a server machine never use the same stream id, whatever they do and for
    however long. *)
Theorem C72_disjoint : forall (S E S' E' : Type) (cn : connection S E) (cn' : connection S' E')
  bd bd' chunk chunk' st st' conn conn' acts acts' sid,
  In sid (alloc_ids (fst (exec cn bd chunk acts (config_init (rm_stream_id (machine_new Client)) st conn)))) ->
  In sid (alloc_ids (fst (exec cn' bd' chunk' acts' (config_init (rm_stream_id (machine_new Server)) st' conn')))) -> False.
Proof. exact (@ends_disjoint). Qed.
Print Assumptions C72_disjoint.

Example C72_example :
  let calls := [Call 0 sx_payload; Run 0; Run 0; Call 1 sx_payload; Run 1; Run 1] in
  alloc_ids (fst (exec sx_conn Debug None calls (config_init (rm_stream_id (machine_new Client)) (fun _ => false) (0%nat, false)))) = [1; 3] /\
  alloc_ids (fst (exec sx_conn Debug None calls (config_init (rm_stream_id (machine_new Server)) (fun _ => false) (0%nat, false)))) = [2; 4].
Proof. split; reflexivity. Qed.

(** ** C79: a closed connection is reported without end *)

(** On a connection that once closed stays closed and says so: after a close - by the watchdog or
    by anybody, or by what the connection did with a frame - the listener logs at most one line
    for a status it was given before, and then the same line again in every second of its turns. *)
Theorem C79_repeats : forall (S E : Type) (cn : connection S E) status bd chunk timeout init st0 conn0 now closed,
  stays_closed cn closed -> tells status closed -> forall acts acts',
  let run := sys_exec cn status bd chunk timeout acts (system_init init st0 conn0 now) in
  (In EvClose (seen (fst run)) \/ closed (cf_conn (sy_config (snd run)))) ->
  exists first n,
    listened (fst (sys_exec cn status bd chunk timeout acts' (snd run))) = first ++ repeat (Logged "connection was closed") n /\
    (List.length first <= 1)%nat /\ (2 * n <= turns acts' <= 2 * n + 2)%nat.
Proof. exact (@repeats_after_close). Qed.
Print Assumptions C79_repeats.

(** One close is enough for any number of lines, with no time passing and nothing else happening. *)
Theorem C79_unbounded : forall (S E : Type) (cn : connection S E) status bd chunk timeout init st0 conn0 now closed,
  stays_closed cn closed -> tells status closed -> forall n, exists acts,
  let tr := fst (sys_exec cn status bd chunk timeout acts (system_init init st0 conn0 now)) in
  seen tr = [EvClose] /\ elapsed acts = 0 /\ listened tr = repeat (Logged "connection was closed") n.
Proof. exact (@one_close_only). Qed.
Print Assumptions C79_unbounded.

(** The run of C70, in which the watchdog closes the connection, and eleven more actions. *)
Definition sx_more : list sys_action :=
  [SysListen; SysListen; SysAct (Call 2 sx_payload); SysListen; SysAct (Run 2); SysListen; SysWatch; SysListen; SysElapse 1; SysListen; SysListen].
Example C79_example : stays_closed sx_conn (fun s => snd s = true) /\ tells sx_status (fun s => snd s = true) /\
  In EvClose (seen (fst sx_run)) /\ turns sx_more = 7%nat /\
  listened (fst (sys_exec sx_conn sx_status Debug (Some 2) 10 sx_more (snd sx_run))) =
    repeat (Logged "connection was closed") 3.
Proof.
  split; [|split; [|split; [|split]]].
  - repeat split; intros; cbn in *; unfold sx_send; rewrite H; exact H.
  - split; intros s; unfold sx_status; [discriminate|]. now intros ->.
  - vm_compute. auto 10.
  - reflexivity.
  - vm_compute. reflexivity.
Qed.
