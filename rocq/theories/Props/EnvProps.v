(** * Properties of a machine whose connection also changes by itself: C114 *)

From Coq Require Import String.
From Verif Require Import Model.EnvM Spec.Env.
From Verif Require Import Proofs.EnvP.

(** ** C114: whatever the connection does by itself *)

(** Threads and watchdog do what they do with a connection that never changes by itself and gives the same answers to
    the same calls: they learn of changes from answers only. *)
Theorem C114_same : forall (S E M : Type) (cn : connection S E) status (move : M -> S -> S) bd chunk timeout
  init st conn now acts, exists rs,
  but_listener (fst (sys_exec (@scripted E) (fun _ => None) bd chunk timeout (steps_of acts) (system_init init st rs now))) =
  but_listener (sights (fst (env_exec cn status move bd chunk timeout acts (system_init init st conn now)))).
Proof. exact (@same_but_listener). Qed.
Print Assumptions C114_same.

(** The watchdog logs and closes at the same of its runs as ever: no change of the connection hurries or stops it. *)
Theorem C114_watch : forall (S E M : Type) (cn : connection S E) status (move : M -> S -> S) bd chunk timeout
  init st conn now acts,
  watched (sights (fst (env_exec cn status move bd chunk timeout acts (system_init init st conn now)))) =
  match watch_runs 0 (steps_of acts) with [] => [] | t0 :: ts => asleep_since timeout t0 ts end.
Proof. exact (@watch_env). Qed.
Print Assumptions C114_watch.

(** The listener logs the line of each status it is given, in order, and what it is given.. *)
Theorem C114_listener : forall (S E M : Type) (cn : connection S E) status (move : M -> S -> S) bd chunk timeout
  init st conn now acts,
  let tr := sights (fst (env_exec cn status move bd chunk timeout acts (system_init init st conn now))) in
  exists h last, listened tr = lines h /\ statuses tr = map Some h ++ last /\
    ((last = [] /\ turns (steps_of acts) = (2 * List.length h)%nat) \/
     ((exists s, last = [Some s]) /\ turns (steps_of acts) = (2 * List.length h + 1)%nat) \/ last = [None]).
Proof. exact (@listener_env). Qed.
Print Assumptions C114_listener.

(** .. is the status the connection has when it is asked, after all calls and all changes so far and no others. *)
Theorem C114_replays : forall (S E M : Type) (cn : connection S E) status (move : M -> S -> S) bd chunk timeout
  init st conn now acts,
  let run := env_exec cn status move bd chunk timeout acts (system_init init st conn now) in
  env_replays cn status move conn (fst run) (cf_conn (sy_config (snd run))).
Proof. exact (@env_replayed). Qed.
Print Assumptions C114_replays.

(** Of a connection that stays closed, once it is closed, by a user, by the watchdog or by itself, no frame of a request is
    accepted any more. *)
Theorem C114_after_close : forall (S E M : Type) (cn : connection S E) status (move : M -> S -> S) bd chunk timeout
  init st conn now closed, closes_for_good cn closed -> (forall m s, closed s -> closed (move m s)) ->
  forall acts pre e post,
  fst (env_exec cn status move bd chunk timeout acts (system_init init st conn now)) = pre ++ e :: post ->
  (e = EnvSees (SysEv EvClose) \/ e = EnvSees SysWatchClose \/ exists m, e = EnvMoved m /\ forall s, closed (move m s)) ->
  forall t f r, In (EnvSees (SysEv (EvSend t f r))) post -> r <> None.
Proof. exact (@env_after_close). Qed.
Print Assumptions C114_after_close.

(** A connection that is being established, then there, and then lost: it refuses frames at first and at last. *)
Definition ev_conn : connection connection_status string :=
  Connection (fun s f => (s, match s with Connected => None | _ => Some "not connected"%string end))
             (fun s f => (s, match s with Connected => None | _ => Some "not connected"%string end)) (fun _ => Closed).
Definition ev_move (m s : connection_status) : connection_status := match s with Closed => Closed | _ => m end.
Definition ev_payload : payload := Payload None (Some (map n2b [1; 2; 3])).
Definition ev_acts : list (env_action connection_status) :=
  [EnvSys SysListen; EnvSys (SysAct (Call 0 ev_payload)); EnvSys (SysAct (Run 0)); EnvSys (SysAct (Run 0)); EnvSys (SysAct (Run 0));
   EnvMove Connected; EnvSys SysListen; EnvSys (SysAct (Call 0 ev_payload)); EnvSys (SysAct (Run 0)); EnvSys (SysAct (Run 0));
   EnvSys (SysAct (Run 0)); EnvMove Closed; EnvSys SysListen; EnvSys SysListen; EnvSys (SysAct (Run 0))].
Definition ev_run := env_exec ev_conn Some ev_move Debug (Some 2) 10 ev_acts (system_init 1 (fun _ => false) Connecting 0).
Example C114_example :
  fst ev_run =
    [EnvSees (SysStatus (Some Connecting)); EnvSees (SysEv (EvDraw 0 1)); EnvSees (SysEv (EvAlloc 0 1 ev_payload));
     EnvSees (SysEv (EvSend 0 (fnf_frame 1 true (Payload None (Some (map n2b [1; 2])))) (Some "not connected"%string)));
     EnvMoved Connected; EnvSees (SysEv (EvDraw 0 3)); EnvSees (SysEv (EvAlloc 0 3 ev_payload));
     EnvSees (SysEv (EvSend 0 (fnf_frame 3 true (Payload None (Some (map n2b [1; 2])))) None));
     EnvMoved Closed; EnvSees (SysStatus (Some Closed)); EnvSees (SysListenLog "connection was closed");
     EnvSees (SysEv (EvSend 0 (fnf_frame 3 false (Payload None (Some (map n2b [3])))) (Some "not connected"%string)))] /\
  closes_for_good ev_conn (fun s => s = Closed) /\ (forall m s, s = Closed -> ev_move m s = Closed) /\
  (forall s, ev_move Closed s = Closed) /\ listened (sights (fst ev_run)) = [Logged "connection was closed"].
Proof.
  split; [vm_compute; reflexivity|]. split; [|split; [|split]].
  - split; [|split]; cbn; intros; subst; [reflexivity|reflexivity|split; [reflexivity|discriminate]].
  - intros m s ->. reflexivity.
  - now intros [].
  - vm_compute. reflexivity.
Qed.

(** A connection lost and found again between two looks of the listener: nothing is logged. *)
Example C114_missed_example :
  listened (sights (fst (env_exec ev_conn Some (fun m _ => m) Debug None 10
    [EnvSys SysListen; EnvSys SysListen; EnvMove Closed; EnvMove Connected; EnvSys SysListen; EnvSys SysListen]
    (system_init 1 (fun _ => false) Connected 0)))) = [].
Proof. reflexivity. Qed.
