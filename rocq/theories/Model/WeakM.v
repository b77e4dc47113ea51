(** * Executions in which no global order of the steps is given

    [Model/SocketM.v] runs the threads of a machine one step after the other.  Here the steps
    are ordered only as far as Rust's memory model orders them: the single [AtomicI32] of the
    provider is incremented with [Ordering::Relaxed] (stream_id.rs:32), which orders
    nothing but the increments themselves.  What synchronises is the program order of each
    thread, the shard lock of the [DashMap] (socket.rs:36, stream_id.rs:35) and whatever the connection
    does inside itself (socket.rs:150-174).  Non-atomic data is not shared: the locals of a
    call belong to its thread. *)

From Verif Require Export Model.SocketM.

(** The places a step can read or write: the atomic integer, the entry of the store for one
    key, the connection, the locals of one thread. *)
Inductive place : Type :=
| PCounter
| PKey (k : N)
| PConn
| PThread (t : nat).

Section Weak.
  Context {S E : Type} (cn : connection S E) (bd : build) (chunk : option N).

  (** What an action does in view [v], place by place:
      - [Call], the requests that are [unimplemented!()] (socket.rs:133-146): locals only;
      - [Push], socket.rs:171-174: the connection too;
      - [Run]: [fetch_add] (stream_id.rs:32), [contains_key] (stream_id.rs:35),
        [send_and_forget] (socket.rs:159, 165), or locals only;
      - [Close], socket.rs:105-107 and 111-114: the connection;
      - [Insert], [Remove]: the entry of the key. *)
  Definition touches (a : action) (v : config (S := S)) (l : place) : Prop :=
    match a with
    | Call t _ | Request t => l = PThread t
    | Push t _ => l = PThread t \/ (cf_threads v t = Idle /\ l = PConn)
    | Close => l = PConn
    | Insert k | Remove k => l = PKey k
    | Run t =>
      l = PThread t \/
      match cf_threads v t with
      | Drawing _ => l = PCounter
      | Checking _ sid => l = PKey sid
      | Sending _ _ st =>
        match fnf_next bd st with
        | Ret (Some _) => l = PConn
        | _ => False
        end
      | Idle | Panicked => False
      end
    end.

  (** Of these, only [contains_key] leaves the place as it is (it takes the read lock of the
      shard); [fetch_add] writes, and a call on the connection may change it. *)
  Definition alters (a : action) (v : config (S := S)) (l : place) : Prop :=
    touches a v l /\
    match a, l with
    | Run _, PKey _ => False
    | _, _ => True
    end.

  (** The same value at place [l]. *)
  Definition agree (c d : config (S := S)) (l : place) : Prop :=
    match l with
    | PCounter => cf_counter c = cf_counter d
    | PKey k => cf_store c k = cf_store d k
    | PConn => cf_conn c = cf_conn d
    | PThread t => cf_threads c t = cf_threads d t
    end.

  (** [wk_size] events, numbered from 0.  Event [i] is one step: it performs [wk_act i] on the
      values it finds, [wk_view i]; only the places it touches matter.
      [wk_hb] is happens-before, [wk_mo] the modification order of the atomic integer. *)
  Record weak : Type := Weak {
    wk_size : nat;
    wk_act : nat -> action;
    wk_view : nat -> config (S := S);
    wk_hb : nat -> nat -> bool;
    wk_mo : nat -> nat -> bool }.

  Definition wk_touches (x : weak) (i : nat) (l : place) : Prop :=
    (i < wk_size x)%nat /\ touches (wk_act x i) (wk_view x i) l.
  Definition wk_alters (x : weak) (i : nat) (l : place) : Prop :=
    (i < wk_size x)%nat /\ alters (wk_act x i) (wk_view x i) l.
  Definition wk_out (x : weak) (i : nat) : list (event E) :=
    fst (step cn bd chunk (wk_act x i) (wk_view x i)).
  Definition wk_after (x : weak) (i : nat) : config :=
    snd (step cn bd chunk (wk_act x i) (wk_view x i)).

  (** The order in which the values of a place follow each other. *)
  Definition wk_before (x : weak) (l : place) (i j : nat) : Prop :=
    match l with
    | PCounter => wk_mo x i j = true
    | _ => wk_hb x i j = true
    end.

  (** The executions the memory model allows from [c0]:
      - happens-before is a strict order, and so is the modification order;
      - two accesses of one place, one of them a write, are ordered: those of the atomic integer
        by its modification order, those of any other place by happens-before (no data race);
      - each access finds what the last write before it left there, or the initial value; *)
  Record race_free (x : weak) (c0 : config (S := S)) : Prop := RaceFree {
    al_hb_irrefl : forall i, wk_hb x i i = false;
    al_hb_trans : forall i j k, wk_hb x i j = true -> wk_hb x j k = true -> wk_hb x i k = true;
    al_mo_irrefl : forall i, wk_mo x i i = false;
    al_mo_trans : forall i j k, wk_mo x i j = true -> wk_mo x j k = true -> wk_mo x i k = true;
    al_ordered : forall l i j, wk_touches x i l -> wk_alters x j l -> i <> j ->
      wk_before x l i j \/ wk_before x l j i;
    al_reads : forall i l, wk_touches x i l ->
      (exists j, wk_alters x j l /\ wk_before x l j i /\
         (forall k, wk_alters x k l -> wk_before x l k i -> k = j \/ wk_before x l k j) /\
         agree (wk_view x i) (wk_after x j) l) \/
      ((forall k, wk_alters x k l -> ~ wk_before x l k i) /\ agree (wk_view x i) c0 l) }.
  (** - coherence: the modification order does not contradict happens-before. *)
  Definition mo_coherent (x : weak) : Prop :=
    forall i j, wk_touches x i PCounter -> wk_touches x j PCounter ->
      wk_hb x i j = true -> wk_mo x i j = true.
  Definition allowed (x : weak) (c0 : config (S := S)) : Prop := race_free x c0 /\ mo_coherent x.
End Weak.
