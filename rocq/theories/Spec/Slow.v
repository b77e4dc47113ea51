(** * Specification of connections whose operations take time

    Independent of the model: uses only its data types. *)

From Verif Require Export Spec.Socket Model.SlowTypes.

(** A connection that answers at once: its [n]-th [send_and_forget] with [ans n]. *)
Definition answering {X : Type} (ans : nat -> option X) : connection nat X :=
  Connection (fun n _ => (S n, ans n)) (fun n _ => (n, None)) (fun n => n).

(** A connection that answers at once as one whose operations take time: entering an operation is all it takes, and the
    answer is kept until the thread asks for it. *)
Definition instant {S E : Type} (cn : connection S E) : slow_connection (S * (nat -> option E)) E :=
  SlowConnection
    (fun s t op =>
       match op with
       | OpForget f => (fst (cn_send_and_forget cn (fst s) f),
                        fun u => if Nat.eqb u t then snd (cn_send_and_forget cn (fst s) f) else snd s u)
       | OpSend f => (fst (cn_send cn (fst s) f), snd s)
       | OpClose => (cn_close cn (fst s), snd s)
       end)
    (fun s t => (s, Some (Returned (snd s t))))
    (fun s _ => s).

Section Slow.
  Context {E : Type}.

  (** The answer a thread gets; [Some None] stands for a panic. *)
  Definition answer (a : op_end E) : option (option E) :=
    match a with Returned None => None | Returned (Some e) => Some (Some e) | Unwound => Some None end.
  (** The events if every operation happened when it ends. *)
  Definition at_end (e : slow_event E) : list (event (option E)) :=
    match e with
    | SlDraw t sid => [EvDraw t sid]
    | SlAlloc t sid p => [EvAlloc t sid p]
    | SlBusy t sid => [EvBusy t sid]
    | SlBegin _ _ => []
    | SlEnd t (OpForget f) a => [EvSend t f (answer a)]
    | SlEnd t (OpSend f) _ => [EvPush t f None]
    | SlEnd t OpClose _ => [EvClose]
    | SlReturn t sid => [EvReturn t sid]
    | SlPanic t => [EvPanic t]
    | SlMissing t => [EvMissing t]
    end.
  Definition at_ends (tr : list (slow_event E)) : list (event (option E)) := flat_map at_end tr.

  (** The same events, without what the future of a [send] gives. *)
  Definition unpushed (e : event E) : event (option E) :=
    match e with
    | EvDraw t sid => EvDraw t sid
    | EvAlloc t sid p => EvAlloc t sid p
    | EvBusy t sid => EvBusy t sid
    | EvSend t f r => EvSend t f (option_map Some r)
    | EvReturn t sid => EvReturn t sid
    | EvPanic t => EvPanic t
    | EvPush t f _ => EvPush t f None
    | EvClose => EvClose
    | EvMissing t => EvMissing t
    end.

  (** What a thread does in one step at most, when operations take one step. *)
  Definition stands_for (a : slow_action) (l : list action) : Prop :=
    match a with
    | SlCall t p => l = [] \/ l = [Call t p]
    | SlPush _ _ | SlClose _ | SlAlone _ => l = []
    | SlRequest t => l = [] \/ l = [Request t]
    | SlRun t => l = [] \/ l = [Run t] \/ l = [Close] \/ exists md, l = [Push t md]
    | SlInsert k => l = [Insert k]
    | SlRemove k => l = [Remove k]
    end.

  Definition whose (e : slow_event E) : nat :=
    match e with
    | SlDraw t _ | SlAlloc t _ _ | SlBusy t _ | SlBegin t _ | SlEnd t _ _ | SlReturn t _ | SlPanic t | SlMissing t => t
    end.
  Definition borders (e : slow_event E) : bool := match e with SlBegin _ _ | SlEnd _ _ _ => true | _ => false end.
  (** A thread is in one operation at a time, and does nothing else meanwhile; after one that panics, nothing at all. *)
  Inductive in_turn (t : nat) : option conn_op -> list (slow_event E) -> option conn_op -> Prop :=
  | It_nil : forall o, in_turn t o [] o
  | It_other : forall e o tr o', whose e <> t -> in_turn t o tr o' -> in_turn t o (e :: tr) o'
  | It_own : forall e tr o', whose e = t -> borders e = false -> in_turn t None tr o' -> in_turn t None (e :: tr) o'
  | It_begin : forall op tr o', in_turn t (Some op) tr o' -> in_turn t None (SlBegin t op :: tr) o'
  | It_end : forall op r tr o', in_turn t None tr o' -> in_turn t (Some op) (SlEnd t op (Returned r) :: tr) o'
  | It_unwound : forall op tr, Forall (fun e => whose e <> t) tr -> in_turn t (Some op) (SlEnd t op Unwound :: tr) None.

  (** The frames of stream [sid] that thread [t] has begun to hand over. *)
  Definition begun (t : nat) (sid : N) (tr : list (slow_event E)) : list frame :=
    flat_map (fun e => match e with
                       | SlBegin u (OpForget f) => if Nat.eqb u t && carries_id sid f then [f] else []
                       | _ => [] end) tr.

  (** ** What reaches the wire

      The frame of an operation reaches the wire (or a queue before it) at most once, at some time while the operation is under
      way; that of a [send_and_forget] that returns [Ok(())], once.  In flight are, for each thread, the frames
      that have not been put there yet. *)
  Definition op_frame (op : conn_op) : option frame :=
    match op with OpForget f | OpSend f => Some f | OpClose => None end.
  Definition flight : Type := nat -> option frame.
  Definition fl_set (w : flight) (t : nat) (o : option frame) : flight := fun u => if Nat.eqb u t then o else w u.
  Inductive reaches : list (slow_event E) -> flight -> list frame -> Prop :=
  | Rs_start : reaches [] (fun _ => None) []
  | Rs_put : forall tr w fs t f, reaches tr w fs -> w t = Some f -> reaches tr (fl_set w t None) (fs ++ [f])
  | Rs_begin : forall tr w fs t op, reaches tr w fs -> reaches (tr ++ [SlBegin t op]) (fl_set w t (op_frame op)) fs
  | Rs_end : forall tr w fs t op a, reaches tr w fs -> (forall f, op = OpForget f -> a = Returned None -> w t = None) ->
      reaches (tr ++ [SlEnd t op a]) (fl_set w t None) fs
  | Rs_other : forall tr w fs e, reaches tr w fs -> borders e = false -> reaches (tr ++ [e]) w fs.
End Slow.
