(** * binate/src/connection/socket.rs: [RequestHanlder]

    The lock is [tokio::sync::RwLock] 1.8.0.  Nobody reads the handler, so all its users are
    writers and all its permits go together: [hs_free].  The lock is fair: whoever does not
    get it at once is put at the end of a queue, and whoever gives it back hands it to the
    first of the queue, if any. *)

From Verif Require Export Model.HandlerTypes.

(** The future of a call: [set_request_handler] is an [async fn] with one [await]. *)
Inductive call_state : Type :=
| CAbsent                    (* not made *)
| CFresh                     (* never polled *)
| CQueued (granted : bool)   (* at [write().await]; whether the lock has been given to it *)
| CHolding                   (* being polled, with the guard *)
| CAssigned                  (* being polled, handler in place, guard not yet dropped *)
| CGone.                     (* returned or dropped *)

Record handler_state : Type := HandlerState {
  hs_free : bool;                  (* nobody has the lock *)
  hs_queue : list nat;             (* who waits for it, first come first *)
  hs_current : nat;                (* the handler in place *)
  hs_calls : nat -> call_state }.

(** [RwLock::new(Box::new(DummyRSocket))], socket.rs:59-61. *)
Definition handler_init : handler_state := HandlerState true [] 0 (fun _ => CAbsent).

Definition set_call (cs : nat -> call_state) (k : nat) (s : call_state) : nat -> call_state :=
  fun j => if Nat.eqb j k then s else cs j.
Definition drop_from (k : nat) (q : list nat) : list nat := filter (fun j => negb (Nat.eqb j k)) q.

(** Giving the lock back ([batch_semaphore] of tokio). *)
Definition hand_over (s : handler_state) : list handler_event * handler_state :=
  match hs_queue s with
  | [] => ([], HandlerState true [] (hs_current s) (hs_calls s))
  | j :: q => ([HvWake j], HandlerState false q (hs_current s) (set_call (hs_calls s) j (CQueued true)))
  end.

(** [set_request_handler], socket.rs:126-129.  Dropping a handler is taken to return. *)
Definition handler_step (a : handler_action) (s : handler_state) : list handler_event * handler_state :=
  match a with
  | HStart k =>
    match k, hs_calls s k with
    | S _, CAbsent => ([], HandlerState (hs_free s) (hs_queue s) (hs_current s) (set_call (hs_calls s) k CFresh))
    | _, _ => ([], s)
    end
  | HPoll k =>                                  (* self.0.write().await *)
    match hs_calls s k with
    | CFresh =>
      if hs_free s then
        ([HvArrive k], HandlerState false (hs_queue s) (hs_current s) (set_call (hs_calls s) k CHolding))
      else
        ([HvArrive k], HandlerState false (hs_queue s ++ [k]) (hs_current s) (set_call (hs_calls s) k (CQueued false)))
    | CQueued true =>
      ([], HandlerState (hs_free s) (hs_queue s) (hs_current s) (set_call (hs_calls s) k CHolding))
    | _ => ([], s)                              (* Pending, or not the owner's to poll *)
    end
  | HRun k =>
    match hs_calls s k with
    | CHolding =>                               (* *wtr = handler: the old one is dropped *)
      ([HvDrop (hs_current s); HvSet k],
       HandlerState (hs_free s) (hs_queue s) k (set_call (hs_calls s) k CAssigned))
    | CAssigned =>                              (* the guard is dropped *)
      let (ev, s') := hand_over s in
      (ev ++ [HvReturn k],
       HandlerState (hs_free s') (hs_queue s') (hs_current s') (set_call (hs_calls s') k CGone))
    | _ => ([], s)
    end
  | HCancel k =>
    match hs_calls s k with
    | CFresh =>
      ([HvDrop k; HvCancel k], HandlerState (hs_free s) (hs_queue s) (hs_current s) (set_call (hs_calls s) k CGone))
    | CQueued false =>
      ([HvDrop k; HvCancel k],
       HandlerState (hs_free s) (drop_from k (hs_queue s)) (hs_current s) (set_call (hs_calls s) k CGone))
    | CQueued true =>                           (* it gives the lock on *)
      let (ev, s') := hand_over s in
      (ev ++ [HvDrop k; HvCancel k],
       HandlerState (hs_free s') (hs_queue s') (hs_current s') (set_call (hs_calls s') k CGone))
    | _ => ([], s)
    end
  end.

Fixpoint handler_exec (acts : list handler_action) (s : handler_state) : list handler_event * handler_state :=
  match acts with
  | [] => ([], s)
  | a :: acts' =>
    let (ev, s') := handler_step a s in
    let (evs, s'') := handler_exec acts' s' in
    (ev ++ evs, s'')
  end.
