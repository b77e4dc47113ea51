(** * Specification of the socket: fire-and-forget, background tasks

    Independent of the model: uses only its data types. *)

From Verif Require Export Spec.Buf Spec.Build Spec.Chunk Spec.Ids.

(** ** Frames of one call *)

(** The payloads a call must send, in order. *)
Definition fragments (chunk : option N) (p : payload) : list payload :=
  match chunk with
  | None => [p]
  | Some n => chunk_list n p
  end.
(** The REQUEST_FNF frame with these contents: METADATA is bit 7, FOLLOWS bit 6. *)
Definition fnf_frame (sid : N) (follows : bool) (p : payload) : frame :=
  FRequestFnf (RequestFnfFrame sid
    ((if present (p_metadata p) then 128 else 0) + (if follows then 64 else 0)) p).
(** Every frame but the last announces another one. *)
Fixpoint marked (sid : N) (ps : list payload) : list frame :=
  match ps with
  | [] => []
  | [q] => [fnf_frame sid false q]
  | q :: ps' => fnf_frame sid true q :: marked sid ps'
  end.
(** The frames carry these payloads in order, whatever their FOLLOWS flags. *)
Definition carries (sid : N) (ps : list payload) (fs : list frame) : Prop :=
  Forall2 (fun q f => exists follows, f = fnf_frame sid follows q) ps fs.

(** ** Handing frames over *)

Section Connection.
  Context {S E : Type} (send : S -> frame -> S * option E).
  (** The connection accepts these frames in this order. *)
  Inductive accepts : S -> list frame -> S -> Prop :=
  | Acc_nil : forall s, accepts s [] s
  | Acc_cons : forall s f s1 fs s2, send s f = (s1, None) -> accepts s1 fs s2 -> accepts s (f :: fs) s2.
  (** Handing over [fs] until the first refusal: what was handed over, the answer. *)
  Inductive delivers : S -> list frame -> option E -> list frame -> S -> Prop :=
  | Del_all : forall s fs s', accepts s fs s' -> delivers s fs None fs s'
  | Del_stop : forall s fs1 s1 f s2 e fs2, accepts s fs1 s1 -> send s1 f = (s2, Some e) ->
      delivers s (fs1 ++ f :: fs2) (Some e) (fs1 ++ [f]) s2.
End Connection.

(** ** Traces *)

Section Traces.
  Context {E : Type}.
  Definition drawn (tr : list (event E)) : list N :=
    flat_map (fun e => match e with EvDraw _ sid => [sid] | _ => [] end) tr.
  Definition drawn_by (t : nat) (tr : list (event E)) : list N :=
    flat_map (fun e => match e with EvDraw u sid => if Nat.eqb u t then [sid] else [] | _ => [] end) tr.
  (** The calls that have obtained their id: thread, id, payload. *)
  Definition allocs (tr : list (event E)) : list (nat * N * payload) :=
    flat_map (fun e => match e with EvAlloc t sid p => [(t, sid, p)] | _ => [] end) tr.
  Definition alloc_ids (tr : list (event E)) : list N := map (fun x => snd (fst x)) (allocs tr).
  (** Thread [t] has drawn ids and its call has not obtained one of them yet. *)
  Definition searching (t : nat) (tr : list (event E)) : bool :=
    fold_left (fun b e => match e with
                          | EvDraw u _ => if Nat.eqb u t then true else b
                          | EvAlloc u _ _ | EvPanic u => if Nat.eqb u t then false else b
                          | _ => b end) tr false.
  (** The frames of [fire_and_forget] calls handed to the connection, in order. *)
  Definition sent (tr : list (event E)) : list frame :=
    flat_map (fun e => match e with EvSend _ f _ => [f] | _ => [] end) tr.
  Definition carries_id (sid : N) (f : frame) : bool :=
    match f with FRequestFnf q => fnf_stream_id q =? sid | _ => false end.
  (** The frames with stream id [sid] handed to the connection, in order. *)
  Definition received (sid : N) (tr : list (event E)) : list frame :=
    flat_map (fun e => match e with
                       | EvSend _ f _ | EvPush _ f _ => if carries_id sid f then [f] else []
                       | _ => [] end) tr.
  (** The frames the connection has taken, with stream id [sid] and all of them. *)
  Definition accepted (sid : N) (tr : list (event E)) : list frame :=
    flat_map (fun e => match e with
                       | EvSend _ f None | EvPush _ f None => if carries_id sid f then [f] else []
                       | _ => [] end) tr.
  Definition accepted_all (tr : list (event E)) : list frame :=
    flat_map (fun e => match e with EvSend _ f None | EvPush _ f None => [f] | _ => [] end) tr.
End Traces.

(** ** What one thread does *)

(** What the user asks of a thread, in order. *)
Inductive request : Type :=
| AskCall (p : payload)
| AskPush (metadata : bytes)
| AskOther.
Definition asked (t : nat) (acts : list action) : list request :=
  flat_map (fun a => match a with
                     | Call u p => if Nat.eqb u t then [AskCall p] else []
                     | Push u md => if Nat.eqb u t then [AskPush md] else []
                     | Request u => if Nat.eqb u t then [AskOther] else []
                     | _ => [] end) acts.
(** What is left when thread [t] does nothing. *)
Definition without (t : nat) (acts : list action) : list action :=
  filter (fun a => match a with
                   | Call u _ | Run u | Push u _ | Request u => negb (Nat.eqb u t)
                   | Close | Insert _ | Remove _ => true end) acts.
(** Some of the elements, in the same order. *)
Inductive some_of {A : Type} : list A -> list A -> Prop :=
| So_nil : forall l, some_of [] l
| So_skip : forall l x m, some_of l m -> some_of l (x :: m)
| So_take : forall l x m, some_of l m -> some_of (x :: l) (x :: m).

(** Where a thread is: in no call, looking for an id, with an id to look up, with an id of its
    own and these frames left to hand over, gone. *)
Inductive phase : Type :=
| Outside
| Looking (p : payload)
| Drawn (p : payload) (sid : N)
| Inside (sid : N) (rest : list frame)
| Gone.

Section Behaviour.
  Context {E : Type} (chunk : option N) (t : nat).
  Definition by_thread (e : event E) : bool :=
    match e with
    | EvDraw u _ | EvAlloc u _ _ | EvBusy u _ | EvSend u _ _ | EvReturn u _ | EvPanic u | EvPush u _ _
    | EvMissing u => Nat.eqb u t
    | EvClose => false
    end.
  (** What a thread may do in each phase, and the request it takes up with it. *)
  Inductive does : list request -> phase -> event E -> phase -> Prop :=
  | Do_other : forall a e, by_thread e = false -> does [] a e a
  | Do_first : forall p sid, does [AskCall p] Outside (EvDraw t sid) (Drawn p sid)
  | Do_again : forall p sid, does [] (Looking p) (EvDraw t sid) (Drawn p sid)
  | Do_busy : forall p sid, does [] (Drawn p sid) (EvBusy t sid) (Looking p)
  | Do_alloc : forall p sid fs, carries sid (fragments chunk p) fs ->
      does [] (Drawn p sid) (EvAlloc t sid p) (Inside sid fs)
  | Do_send : forall sid f fs, does [] (Inside sid (f :: fs)) (EvSend t f None) (Inside sid fs)
  | Do_refused : forall sid f fs e, does [] (Inside sid (f :: fs)) (EvSend t f (Some e)) Outside
  | Do_return : forall sid, does [] (Inside sid []) (EvReturn t sid) Outside
  | Do_push : forall md r, does [AskPush md] Outside (EvPush t (FMetadataPush (MetadataPushFrame md)) r) Outside
  | Do_panic : forall p sid, chunk = Some 0 -> does [] (Drawn p sid) (EvPanic t) Gone
  | Do_missing : does [AskOther] Outside (EvMissing t) Gone.
  Inductive behaves : list request -> phase -> list (event E) -> phase -> Prop :=
  | Be_nil : forall a, behaves [] a [] a
  | Be_cons : forall rs a e b rs' tr c, does rs a e b -> behaves rs' b tr c ->
      behaves (rs ++ rs') a (e :: tr) c.
End Behaviour.

(** ** What the connection goes through *)

Section Replay.
  Context {S E : Type} (cn : connection S E).
  Definition undergoes (s : S) (e : event E) (s' : S) : Prop :=
    match e with
    | EvSend _ f r => cn_send_and_forget cn s f = (s', r)
    | EvPush _ f r => cn_send cn s f = (s', r)
    | EvClose => s' = cn_close cn s
    | _ => s' = s
    end.
  Inductive replays : S -> list (event E) -> S -> Prop :=
  | Re_nil : forall s, replays s [] s
  | Re_cons : forall s e s1 tr s', undergoes s e s1 -> replays s1 tr s' -> replays s (e :: tr) s'.
End Replay.

(** ** A receiver of fire-and-forget requests *)

(** Something to send, no part present but empty, sizes the chunk count is exact for. *)
Definition deliverable (p : payload) : Prop :=
  p_metadata p <> Some [] /\ p_data p <> Some [] /\
  size (part (p_metadata p)) <= 2 ^ 24 /\ size (part (p_data p)) <= 2 ^ 24 /\ p <> Payload None None.

(** Header fields of a message: stream id, frame type, FOLLOWS (bit 6 of the flags). *)
Definition stream_of (v : bytes) : N := number (firstn 4 v) mod 2 ^ 31.
Definition type_of (v : bytes) : N := number (firstn 2 (skipn 4 v)) / 2 ^ 10.
Definition follows_of (v : bytes) : bool := N.testbit (number (firstn 2 (skipn 4 v))) 6.
(** It collects the REQUEST_FNF messages (type 5) of each stream, and hands the collection on at
    the first message without FOLLOWS; [pending] are the messages collected so far. *)
Fixpoint deliveries (pending : N -> list bytes) (l : list bytes) : list (N * list bytes) :=
  match l with
  | [] => []
  | v :: l' =>
    if type_of v =? 5 then
      let group := pending (stream_of v) ++ [v] in
      let next g := fun k => if k =? stream_of v then g else pending k in
      if follows_of v then deliveries (next group) l'
      else (stream_of v, group) :: deliveries (next []) l'
    else deliveries pending l'
  end.

(** The keys of the store after other code has inserted and removed some. *)
Fixpoint store_after (st : N -> bool) (acts : list action) : N -> bool :=
  match acts with
  | [] => st
  | Insert k :: acts' => store_after (fun j => if j =? k then true else st j) acts'
  | Remove k :: acts' => store_after (fun j => if j =? k then false else st j) acts'
  | _ :: acts' => store_after st acts'
  end.

(** Nothing inserts into the store or removes from it. *)
Definition store_fixed (acts : list action) : Prop := forall k, ~ In (Insert k) acts /\ ~ In (Remove k) acts.
(** The first [k] ids of a provider started at [init], those of them not in the store. *)
Definition first_ids (init : Z) (k : nat) : list N := map (fun i => id_after init (N.of_nat i)) (seq 0 k).
Definition free_ids (st : N -> bool) (init : Z) (k : nat) : list N := filter (fun sid => negb (st sid)) (first_ids init k).

(** While [during] happens after [before], no key but [keys] is in the store. *)
Definition kept_within (st : N -> bool) (before during : list action) (keys : list N) : Prop :=
  forall w1 w2 k, during = w1 ++ w2 -> store_after st (before ++ w1) k = true -> In k keys.

(** The end of a call of thread [t]: it returns, or a frame is refused. *)
Definition ends_call {E : Type} (t : nat) (e : event E) : bool :=
  match e with
  | EvReturn u _ | EvSend u _ (Some _) => Nat.eqb u t
  | _ => false
  end.
(** How many times thread [t] is run. *)
Definition runs_of (t : nat) (acts : list action) : nat :=
  length (filter (fun a => match a with Run u => Nat.eqb u t | _ => false end) acts).

(** ** Background tasks *)

(** The reading of the clock after the first [k] sleeps. *)
Definition wakeup (now : N) (delays : list N) (k : nat) : N := now + fold_right N.add 0 (firstn k delays).
(** The line to log for a status. *)
Definition status_line (s : connection_status) : option string :=
  match s with
  | Closed => Some "connection was closed"%string
  | StatusError m => Some m
  | _ => None
  end.
Definition lines (h : list connection_status) : list effect :=
  flat_map (fun s => match status_line s with Some t => [Logged t] | None => [] end) h.
