(** * Properties of how late the watchdog closes: C112 *)

From Verif Require Import Model.SystemM Spec.Prompt.
From Verif Require Import Proofs.SystemP Proofs.PromptP.

(** ** C112: when the watchdog has closed the connection *)

(** If the watchdog is never kept waiting for more than [delay], it has closed the connection once more than
    [longest_wait] has passed since creation, whatever else happens. *)
Theorem C112_closes : forall (S E : Type) (cn : connection S E) status bd chunk timeout init st conn now delay acts,
  let run a := sys_exec cn status bd chunk timeout a (system_init init st conn now) in
  prompt (fun a => snd (run a)) delay acts -> longest_wait timeout delay < elapsed acts ->
  watched (fst (run acts)) = [Logged "connection keepalive timed out"; ConnClose].
Proof.
  exact (fun S E cn status bd chunk timeout init st conn now delay => prompt_closes cn status bd chunk timeout init st conn now delay).
Qed.
Print Assumptions C112_closes.

(** No bound below [longest_wait] would do: some run in which it is never kept waiting for longer takes that long
    without it having closed the connection. *)
Theorem C112_tight : forall (S E : Type) (cn : connection S E) status bd chunk timeout init st conn now delay,
  let run a := sys_exec cn status bd chunk timeout a (system_init init st conn now) in
  exists acts, prompt (fun a => snd (run a)) delay acts /\ elapsed acts = longest_wait timeout delay /\
    ~ In ConnClose (watched (fst (run acts))).
Proof.
  exact (fun S E cn status bd chunk timeout init st conn now delay => tight cn status bd chunk timeout init st conn now delay).
Qed.
Print Assumptions C112_tight.

(** It never closes it before more than [timeout] has passed, kept waiting or not. *)
Theorem C112_not_before : forall (S E : Type) (cn : connection S E) status bd chunk timeout init st conn now acts,
  In ConnClose (watched (fst (sys_exec cn status bd chunk timeout acts (system_init init st conn now)))) ->
  timeout < elapsed acts.
Proof.
  exact (fun S E cn status bd chunk timeout init st conn now => not_before cn status bd chunk timeout init st conn now).
Qed.
Print Assumptions C112_not_before.

(** A connection of which calls are made, with a timeout of 10. *)
Definition qx_conn : connection bool string := Connection (fun s _ => (s, None)) (fun s _ => (s, None)) (fun _ => true).
Definition qx_run (timeout : N) (acts : list sys_action) : list (sys_event string) * @system bool :=
  sys_exec qx_conn (fun s => Some (if s then Closed else Connected)) Debug None timeout acts (system_init 1 (fun _ => false) false 100).
(** It is kept waiting for up to 3, and closes at 25, of at most 26. *)
Definition qx_acts : list sys_action :=
  [SysWatch; SysListen; SysElapse 10; SysAct (Call 0 (Payload None (Some []))); SysWatch; SysElapse 5; SysAct (Run 0); SysElapse 8;
   SysWatch; SysElapse 2; SysListen].
Example C112_example :
  prompt (fun a => snd (qx_run 10 a)) 3 (qx_acts ++ [SysWatch; SysElapse 3]) /\ longest_wait 10 3 < elapsed (qx_acts ++ [SysWatch; SysElapse 3]) /\
  watched (fst (qx_run 10 qx_acts)) = [Logged "connection keepalive timed out"] /\
  In ConnClose (watched (fst (qx_run 10 (qx_acts ++ [SysWatch])))).
Proof.
  split; [apply prompt_all_sound; vm_compute; reflexivity|]. split; [vm_compute; reflexivity|]. split; [vm_compute; reflexivity|].
  vm_compute. auto.
Qed.
(** With delays longer than the timeout the other of the two bounds counts. *)
Example C112_example_late :
  let acts := [SysElapse 5; SysWatch; SysElapse 7; SysWatch; SysElapse 5] in
  prompt (fun a => snd (qx_run 2 a)) 5 acts /\ longest_wait 2 5 = elapsed acts /\ 2 * 2 + 2 * 5 < elapsed acts /\
  watched (fst (qx_run 2 acts)) = [Logged "connection keepalive timed out"].
Proof.
  split; [apply prompt_all_sound; vm_compute; reflexivity|]. split; [vm_compute; reflexivity|]. split; vm_compute; reflexivity.
Qed.
(** Kept waiting for longer, it may not have closed after any time. *)
Example C112_example_waits : forall n, watched (fst (qx_run 10 [SysWatch; SysElapse 10; SysWatch; SysElapse n])) = [] /\
  ~ prompt (fun a => snd (qx_run 10 a)) 3 [SysElapse 4; SysWatch].
Proof.
  intros n. split; [reflexivity|]. intros P. specialize (P [] [SysElapse 4] [SysWatch] eq_refl). cbn in P.
  apply P; [|reflexivity]. intros [X|[]]. discriminate.
Qed.
