(** * binate/src/connection/socket.rs: [RSocketMachine]

    The connection is an arbitrary state machine, a [connection] of [Model/Types.v]:
    [send s f] is the effect of handing frame [f] over in state [s] and the result, [None]
    for [Ok(())] and [Some e] for [Err(e)] ([DuplexConnection], conn.rs:9-36).
    The request handler, the subscriptions and the request counter of the struct
    are never used by the code and are left out. *)

From Verif Require Export Model.ChunkM Model.StreamIdM Model.FrameM.

(** The fields of [RSocketMachine] that have an effect, socket.rs:31-42;
    [receivers] is its set of keys. *)
Record rsocket_machine : Type := RSocketMachine {
  rm_role : role;
  rm_stream_id : Z;
  rm_receivers : store;
  rm_chunk_payload : option N }.

(** [RSocketMachine::new], socket.rs:45-69 (the two tasks of 71-100 are below). *)
Definition machine_new (r : role) : rsocket_machine :=
  RSocketMachine r
    (match r with Server => sid_new_for_server | Client => sid_new_for_client end)
    (fun _ => false) None.

(** ** [fire_and_forget], socket.rs:148-169 *)

(** Where a call is after the stream id has been allocated: before the single
    [send_and_forget] (163-166), at the head of the [for] loop (154), at [Ok(())] (169). *)
Inductive fnf_state : Set :=
| FnfSingle (sid : N) (p : payload)
| FnfLoop (sid idx chunks_len : N) (it : chunks)
| FnfReturn.

(** socket.rs:151-153: the branch on [chunk_payload]. *)
Definition fnf_start (chunk_payload : option N) (sid : N) (p : payload) : oc fnf_state :=
  match chunk_payload with
  | Some chunk_size =>
    match payload_chunks p chunk_size with
    | Ret it => Ret (FnfLoop sid 0 (chunks_len it) it)
    | Panic => Panic
    | Loop => Loop
    end
  | None => Ret (FnfSingle sid p)
  end.

(** Up to the next [send_and_forget]: the frame handed over and the state when
    that succeeds; [None] when the call returns [Ok(())].  socket.rs:154-160,163-166. *)
Definition fnf_next (bd : build) (s : fnf_state) : oc (option (frame * fnf_state)) :=
  match s with
  | FnfSingle sid p =>
    match request_fnf_new bd sid false p with
    | Ret f => Ret (Some (FRequestFnf f, FnfReturn))
    | Panic => Panic
    | Loop => Loop
    end
  | FnfLoop sid idx len it =>
    match chunks_next it with
    | (Some chunked, it') =>
      let follows := negb (idx + 1 =? len) in
      match request_fnf_new bd sid follows chunked with
      | Ret f => Ret (Some (FRequestFnf f, FnfLoop sid (idx + 1) len it'))
      | Panic => Panic
      | Loop => Loop
      end
    | (None, _) => Ret None
    end
  | FnfReturn => Ret None
  end.

Section Connection.
  Context {S E : Type} (send : S -> frame -> S * option E).

  (** The rest of a call: its result, the frames handed over, the connection after. *)
  Fixpoint fnf_finish (fuel : nat) (bd : build) (st : fnf_state) (conn : S)
    : oc (option E * list frame * S) :=
    match fuel with
    | O => Loop
    | Datatypes.S fuel' =>
      match fnf_next bd st with
      | Ret None => Ret (None, [], conn)
      | Ret (Some (f, st')) =>
        let (conn', r) := send conn f in
        match r with
        | Some e => Ret (Some e, [f], conn')      (* the [?] operator *)
        | None =>
          match fnf_finish fuel' bd st' conn' with
          | Ret (r', fs, conn'') => Ret (r', f :: fs, conn'')
          | Panic => Panic
          | Loop => Loop
          end
        end
      | Panic => Panic
      | Loop => Loop
      end
    end.

  (** [fire_and_forget] with nobody else running: result, frames handed over, the
      provider and the connection afterwards. *)
  Definition fire_and_forget (fuel : nat) (bd : build) (m : rsocket_machine) (p : payload) (conn : S)
    : oc (option E * list frame * Z * S) :=
    match next_stream_id fuel (rm_receivers m) (rm_stream_id m) with
    | Ret (sid, c') =>
      match fnf_start (rm_chunk_payload m) sid p with
      | Ret st =>
        match fnf_finish fuel bd st conn with
        | Ret (r, fs, conn') => Ret (r, fs, c', conn')
        | Panic => Panic
        | Loop => Loop
        end
      | Panic => Panic
      | Loop => Loop
      end
    | Panic => Panic
    | Loop => Loop
    end.

  (** [metadata_push], socket.rs:171-174, on a connection whose [send] is [send]: its future is
      the result; awaiting it gives the connection's answer. *)
  Definition metadata_push (metadata : bytes) (conn : S) : list frame * (S * option E) :=
    let f := FMetadataPush (metadata_push_new metadata) in
    ([f], send conn f).
End Connection.

Section Threads.
  Context {S E : Type} (cn : connection S E).

  (** ** Any number of threads sharing one machine

      A thread runs [fire_and_forget] calls.  Its atomic steps are: the
      [fetch_add], the [contains_key], each [send_and_forget], the return.  Between them it may
      call [metadata_push], one step: the frame is handed over when [send] is called.
      [close] is called by the watchdog (socket.rs:93-98, 111-114) or through
      [RSocketMachine::close] (105-107), at any time.
      [Relaxed] ordering on the single atomic still gives its increments a total
      order, and [Model/WeakM.v] shows that this suffices (C93); the store and the connection are
      taken to be linearisable.
      [request_response], [request_stream] and [request_channel] are [unimplemented!()]
      (socket.rs:133-146) and differ in nothing: the calling thread panics at once. *)
  Inductive thread : Type :=
  | Idle
  | Drawing (p : payload)
  | Checking (p : payload) (sid : N)
  | Sending (p : payload) (sid : N) (st : fnf_state)
  | Panicked.

  Record config : Type := Config {
    cf_counter : Z;
    cf_store : store;
    cf_conn : S;
    cf_threads : nat -> thread }.

  Definition set_thread (th : nat -> thread) (t : nat) (x : thread) : nat -> thread :=
    fun u => if Nat.eqb u t then x else th u.
  Definition set_store (st : store) (k : N) (b : bool) : store :=
    fun j => if j =? k then b else st j.

  Definition step (bd : build) (chunk : option N) (a : action) (c : config) : list (event E) * config :=
    match a with
    | Call t p =>
      match cf_threads c t with
      | Idle => ([], Config (cf_counter c) (cf_store c) (cf_conn c) (set_thread (cf_threads c) t (Drawing p)))
      | _ => ([], c)
      end
    | Push t metadata =>
      match cf_threads c t with
      | Idle =>
        let (fs, r) := metadata_push (cn_send cn) metadata (cf_conn c) in
        (map (fun f => EvPush t f (snd r)) fs, Config (cf_counter c) (cf_store c) (fst r) (cf_threads c))
      | _ => ([], c)
      end
    | Close => ([EvClose], Config (cf_counter c) (cf_store c) (cn_close cn (cf_conn c)) (cf_threads c))
    | Insert k => ([], Config (cf_counter c) (set_store (cf_store c) k true) (cf_conn c) (cf_threads c))
    | Remove k => ([], Config (cf_counter c) (set_store (cf_store c) k false) (cf_conn c) (cf_threads c))
    | Request t =>
      match cf_threads c t with
      | Idle => ([EvMissing t], Config (cf_counter c) (cf_store c) (cf_conn c) (set_thread (cf_threads c) t Panicked))
      | _ => ([], c)
      end
    | Run t =>
      match cf_threads c t with
      | Idle | Panicked => ([], c)
      | Drawing p =>
        let (sid, k) := sid_draw (cf_counter c) in
        ([EvDraw t sid],
         Config k (cf_store c) (cf_conn c) (set_thread (cf_threads c) t (Checking p sid)))
      | Checking p sid =>
        if cf_store c sid then
          ([EvBusy t sid],
           Config (cf_counter c) (cf_store c) (cf_conn c) (set_thread (cf_threads c) t (Drawing p)))
        else
          match fnf_start chunk sid p with
          | Ret st =>
            ([EvAlloc t sid p],
             Config (cf_counter c) (cf_store c) (cf_conn c) (set_thread (cf_threads c) t (Sending p sid st)))
          | _ =>
            ([EvPanic t],
             Config (cf_counter c) (cf_store c) (cf_conn c) (set_thread (cf_threads c) t Panicked))
          end
      | Sending p sid st =>
        match fnf_next bd st with
        | Ret None =>
          ([EvReturn t sid],
           Config (cf_counter c) (cf_store c) (cf_conn c) (set_thread (cf_threads c) t Idle))
        | Ret (Some (f, st')) =>
          let (conn', r) := cn_send_and_forget cn (cf_conn c) f in
          ([EvSend t f r],
           Config (cf_counter c) (cf_store c) conn'
             (set_thread (cf_threads c) t
                (match r with None => Sending p sid st' | Some _ => Idle end)))
        | _ =>
          ([EvPanic t],
           Config (cf_counter c) (cf_store c) (cf_conn c) (set_thread (cf_threads c) t Panicked))
        end
      end
    end.

  Fixpoint exec (bd : build) (chunk : option N) (acts : list action) (c : config) : list (event E) * config :=
    match acts with
    | [] => ([], c)
    | a :: acts' =>
      let (ev, c') := step bd chunk a c in
      let (evs, c'') := exec bd chunk acts' c' in
      (ev ++ evs, c'')
    end.

  (** All threads idle, on a machine whose provider holds [c]. *)
  Definition config_init (c : Z) (st : store) (conn : S) : config :=
    Config c st conn (fun _ => Idle).
End Threads.

(** ** The background tasks of [RSocketMachine::new] *)

(** [RSocketMachine::handle_error], socket.rs:116-118; the argument is the displayed text. *)
Definition handle_error (text : string) : list effect := [Logged text].
(** [RSocketMachine::handle_connection_error], socket.rs:111-114. *)
Definition handle_connection_error (text : string) : list effect :=
  handle_error text ++ [ConnClose].
(** [RSocketMachine::handle_transport_close], socket.rs:120-122. *)
Definition handle_transport_close : list effect := handle_error "connection was closed".
(** [Display for Timeout], error.rs:50-54. *)
Definition timeout_display : string := "connection keepalive timed out".
(** [RSocketMachine::close], socket.rs:105-107. *)
Definition machine_close : list effect := [ConnClose].

(** The keepalive watchdog, socket.rs:88-100.  Time is a number of ticks; [last] is
    [keepalive_last_received], copied by [clone] (it is a plain [Instant]) and
    written nowhere, so arrivals do not appear.
    [delays] are the durations the successive sleeps really take, so the clock
    reads [now] before and [now + delay] after each.  The result is what the task
    has done, and the time at which it ended, [None] while it runs. *)
Fixpoint watchdog (timeout last now : N) (delays : list N) : list effect * option N :=
  match delays with
  | [] => ([], None)
  | d :: delays' =>
    let now' := now + d in
    if timeout <? now' - last then (handle_connection_error timeout_display, Some now')
    else watchdog timeout last now' delays'
  end.

(** What the status listener does with one status, socket.rs:76-84. *)
Definition status_report (s : connection_status) : list effect :=
  match s with
  | Closed => handle_transport_close
  | StatusError err => handle_error err
  | _ => []
  end.
(** The status listener, socket.rs:71-86.  Each turn asks for a new status stream and
    takes its first item, [None] if the stream ends without one.  The result is
    what the task has done and whether it has ended. *)
Fixpoint status_listener (polls : list (option connection_status)) : list effect * bool :=
  match polls with
  | [] => ([], false)
  | None :: _ => ([], true)
  | Some s :: polls' =>
    let (log, ended) := status_listener polls' in
    (status_report s ++ log, ended)
  end.
