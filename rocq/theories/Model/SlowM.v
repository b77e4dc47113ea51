(** * binate/src/connection/socket.rs:104-174 on connections whose operations take time

    [Model/SocketM.v] takes each operation of the connection for one step.  Here a thread enters the
    operation, is inside for any number of steps, in which other threads run, enter operations and leave
    them, and leaves it when the connection says so ([DuplexConnection] is [Sync], conn.rs:9: its operations take
    [&self] and may run at the same time); an operation may also panic, or never end.
    The increment of the provider and the look at the store are one step each, as there. *)

From Verif Require Export Model.SocketM Model.SlowTypes.

(** [SlInside]: in an operation; with what is left of the [fire_and_forget] that called it ([None]: it was called by
    [metadata_push] or [close]). *)
Inductive slow_thread : Type :=
| SlIdle
| SlDrawing (p : payload)
| SlChecking (p : payload) (sid : N)
| SlSending (p : payload) (sid : N) (st : fnf_state)
| SlInside (op : conn_op) (back : option (payload * N * fnf_state))
| SlPanicked.

Section Slow.
  Context {S E : Type} (sc : slow_connection S E).

  Record slow_config : Type := SlowConfig {
    sl_counter : Z;
    sl_store : store;
    sl_conn : S;
    sl_threads : nat -> slow_thread }.

  Definition sl_set (c : slow_config) (t : nat) (x : slow_thread) : slow_config :=
    SlowConfig (sl_counter c) (sl_store c) (sl_conn c) (fun u => if Nat.eqb u t then x else sl_threads c u).

  (** Entering an operation. *)
  Definition sl_enter (c : slow_config) (t : nat) (op : conn_op) (back : option (payload * N * fnf_state))
    : list (slow_event E) * slow_config :=
    let c' := sl_set c t (SlInside op back) in
    ([SlBegin t op],
     SlowConfig (sl_counter c') (sl_store c') (sc_enter sc (sl_conn c') t op) (sl_threads c')).

  (** Where a thread goes on when its operation has ended: behind the [?] of socket.rs:159,166, or out of
      [metadata_push] (173) or [close] (106). *)
  Definition sl_after (a : op_end E) (back : option (payload * N * fnf_state)) : slow_thread :=
    match a, back with
    | Unwound, _ => SlPanicked
    | Returned None, Some (p, sid, st) => SlSending p sid st
    | Returned _, _ => SlIdle
    end.

  (** One step of a thread. *)
  Definition sl_run (bd : build) (chunk : option N) (t : nat) (c : slow_config) : list (slow_event E) * slow_config :=
    match sl_threads c t with
    | SlIdle | SlPanicked => ([], c)
    | SlDrawing p =>
      let (sid, k) := sid_draw (sl_counter c) in
      ([SlDraw t sid], sl_set (SlowConfig k (sl_store c) (sl_conn c) (sl_threads c)) t (SlChecking p sid))
    | SlChecking p sid =>
      if sl_store c sid then ([SlBusy t sid], sl_set c t (SlDrawing p))
      else
        match fnf_start chunk sid p with
        | Ret st => ([SlAlloc t sid p], sl_set c t (SlSending p sid st))
        | _ => ([SlPanic t], sl_set c t SlPanicked)
        end
    | SlSending p sid st =>
      match fnf_next bd st with
      | Ret None => ([SlReturn t sid], sl_set c t SlIdle)
      | Ret (Some (f, st')) => sl_enter c t (OpForget f) (Some (p, sid, st'))
      | _ => ([SlPanic t], sl_set c t SlPanicked)
      end
    | SlInside op back =>
      let (conn, o) := sc_go sc (sl_conn c) t in
      let c' := SlowConfig (sl_counter c) (sl_store c) conn (sl_threads c) in
      match o with
      | Some a => ([SlEnd t op a], sl_set c' t (sl_after a back))
      | None => ([], c')
      end
    end.

  Definition slow_step (bd : build) (chunk : option N) (a : slow_action) (c : slow_config)
    : list (slow_event E) * slow_config :=
    let idle t (x : list (slow_event E) * slow_config) := match sl_threads c t with SlIdle => x | _ => ([], c) end in
    match a with
    | SlCall t p => idle t ([], sl_set c t (SlDrawing p))
    | SlPush t metadata => idle t (sl_enter c t (OpSend (FMetadataPush (metadata_push_new metadata))) None)
    | SlClose t => idle t (sl_enter c t OpClose None)
    | SlRequest t => idle t ([SlMissing t], sl_set c t SlPanicked)
    | SlRun t => sl_run bd chunk t c
    | SlInsert k => ([], SlowConfig (sl_counter c) (set_store (sl_store c) k true) (sl_conn c) (sl_threads c))
    | SlRemove k => ([], SlowConfig (sl_counter c) (set_store (sl_store c) k false) (sl_conn c) (sl_threads c))
    | SlAlone n => ([], SlowConfig (sl_counter c) (sl_store c) (sc_alone sc (sl_conn c) n) (sl_threads c))
    end.

  Fixpoint slow_exec (bd : build) (chunk : option N) (acts : list slow_action) (c : slow_config)
    : list (slow_event E) * slow_config :=
    match acts with
    | [] => ([], c)
    | a :: acts' =>
      let (ev, c') := slow_step bd chunk a c in
      let (evs, c'') := slow_exec bd chunk acts' c' in
      (ev ++ evs, c'')
    end.

  Definition slow_init (c : Z) (st : store) (conn : S) : slow_config := SlowConfig c st conn (fun _ => SlIdle).
End Slow.
