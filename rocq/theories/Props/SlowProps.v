(** * Properties of machines on connections whose operations take time: C105 *)

From Coq Require Import String.
From Verif Require Import Model.SlowM Spec.Slow.
From Verif Require Import Proofs.SlowP.

(** Whatever the connection does inside its operations, while other threads run and enter them as well: the calls do what they
    do on some connection that answers at once, with the operations when they end.  So everything that is
    proved of the executions of [Model/SocketM.v] for all connections holds of these ones.  Step by step: [ls] has for
    each action what it stands for, and the two agree after each.  A frame under way is the one
    that would be sent next. *)
Theorem C105_simulated : forall (S E : Type) (sc : slow_connection S E) bd chunk init st conn acts,
  exists ans ls, Forall2 stands_for acts ls /\ forall n,
    let run := slow_exec sc bd chunk (firstn n acts) (slow_init init st conn) in
    let l := concat (firstn n ls) in
    let run' := exec (answering ans) bd chunk l (config_init init st 0%nat) in
    fst run' = at_ends (fst run) /\ cf_counter (snd run') = sl_counter (snd run) /\ cf_store (snd run') = sl_store (snd run) /\
    forall t f, in_turn t None (fst run) (Some (OpForget f)) -> exists r,
      fst (exec (answering ans) bd chunk (l ++ [Run t]) (config_init init st 0%nat)) = (at_ends (fst run) ++ [EvSend t f r])%list.
Proof. exact (@simulated). Qed.
Print Assumptions C105_simulated.

(** And none is missing: what can happen on a connection that answers at once happens on the same connection seen as one
    whose operations take time. *)
Theorem C105_all : forall (S E : Type) (cn : connection S E) bd chunk init st conn acts, exists acts',
  let run := slow_exec (instant cn) bd chunk acts' (slow_init init st (conn, fun _ => None)) in
  let run' := exec cn bd chunk acts (config_init init st conn) in
  at_ends (fst run) = map unpushed (fst run') /\ sl_counter (snd run) = cf_counter (snd run') /\
  sl_store (snd run) = cf_store (snd run') /\ fst (sl_conn (snd run)) = cf_conn (snd run').
Proof. exact (@none_missing). Qed.
Print Assumptions C105_all.

(** A connection that takes one frame and refuses the next. *)
Example C105_all_example :
  let cn := Connection (fun (b : bool) (_ : frame) => (true, if b then Some 7 else None)) (fun b _ => (b, None)) (fun b => b) in
  let p := Payload None (Some [n2b 1; n2b 2]) in
  let run := exec cn Debug (Some 1) [Call 1 p; Run 1; Run 1; Run 1; Close; Push 2 []; Run 1; Run 1] (config_init 1 (fun _ => false) false) in
  let run' := slow_exec (instant cn) Debug (Some 1)
    [SlCall 1 p; SlRun 1; SlRun 1; SlRun 1; SlRun 1; SlClose 3; SlRun 3; SlPush 2 []; SlRun 2; SlRun 1; SlRun 1; SlRun 1]
    (slow_init 1 (fun _ => false) (false, fun _ => None)) in
  List.length (fst run) = 6%nat /\ at_ends (fst run') = map unpushed (fst run).
Proof. vm_compute. split; reflexivity. Qed.

(** A thread is in one operation at a time and does nothing else meanwhile; if the operation panics, so does the
    call, and the thread is gone. *)
Theorem C105_in_turn : forall (S E : Type) (sc : slow_connection S E) bd chunk init st conn acts t,
  exists o, in_turn t None (fst (slow_exec sc bd chunk acts (slow_init init st conn))) o.
Proof. exact (@turn_each). Qed.
Print Assumptions C105_in_turn.

(** So the frames of a call are begun in order, each after the one before has ended well, and all of them if the
    call returns; up to 2^30 draws. *)
Theorem C105_in_order : forall (S E : Type) (sc : slow_connection S E) bd chunk init st conn,
  chunk <> Some 0 -> forall acts,
  let tr := fst (slow_exec sc bd chunk acts (slow_init init st conn)) in
  N.of_nat (List.length (drawn (at_ends tr))) <= 2 ^ 30 ->
  forall t sid p, In (SlAlloc t sid p) tr ->
  exists all rest, carries sid (fragments chunk p) all /\ all = (begun t sid tr ++ rest)%list /\ (In (SlReturn t sid) tr -> rest = []).
Proof. exact (@begun_in_order). Qed.
Print Assumptions C105_in_order.

(** And by nobody else: the ids are distinct, and a frame is begun by the call that has its id. *)
Theorem C105_owned : forall (S E : Type) (sc : slow_connection S E) bd chunk init st conn,
  chunk <> Some 0 -> forall acts,
  let tr := fst (slow_exec sc bd chunk acts (slow_init init st conn)) in
  N.of_nat (List.length (drawn (at_ends tr))) <= 2 ^ 30 ->
  NoDup (alloc_ids (at_ends tr)) /\
  forall t f, In (SlBegin t (OpForget f)) tr -> exists q p, f = FRequestFnf q /\ In (SlAlloc t (fnf_stream_id q) p) tr.
Proof. exact (@begun_by_calls). Qed.
Print Assumptions C105_owned.

(** A connection that needs two steps for each operation, and refuses what it ends when it has been closed; the
    operations of thread 9 panic. *)
Definition slx_conn : slow_connection ((nat -> nat) * bool) string :=
  SlowConnection
    (fun s t op => (fun u => if Nat.eqb u t then 1%nat else fst s u, match op with OpClose => true | _ => snd s end))
    (fun s t => match fst s t with
                | O => (s, Some (if Nat.eqb t 9 then Unwound else Returned (if snd s then Some "closed"%string else None)))
                | _ => ((fun u => if Nat.eqb u t then 0%nat else fst s u, snd s), None)
                end)
    (fun s _ => s).
Definition slx_payload : payload := Payload None (Some [n2b 1; n2b 2]).
Definition slx_piece (sid : N) (i : N) (follows : bool) : frame := fnf_frame sid follows (Payload None (Some [n2b i])).
Definition slx_run := fst (slow_exec slx_conn Debug (Some 1)
  [SlCall 1 slx_payload; SlCall 2 slx_payload; SlRun 1; SlRun 2; SlRun 1; SlRun 2; SlRun 1; SlRun 2; SlAlone 7; SlRun 2; SlRun 1; SlRun 1; SlRun 1;
   SlClose 3; SlRun 1; SlRun 1; SlRun 3; SlRun 3; SlRun 1; SlRun 2; SlRun 2; SlCall 9 slx_payload; SlRun 9; SlRun 9; SlRun 9; SlRun 9; SlRun 9;
   SlCall 9 slx_payload; SlRun 9; SlPush 4 [n2b 5]] (slow_init 1 (fun _ => false) (fun _ => 0%nat, false))).
(** Two calls overlap in the connection; a close comes between the two frames of the first, whose second is
    refused; the first frame of the second call is refused as well; a third call panics; a push has begun. *)
Example C105_example :
  slx_run =
    [SlDraw 1 1; SlDraw 2 3; SlAlloc 1 1 slx_payload; SlAlloc 2 3 slx_payload; SlBegin 1 (OpForget (slx_piece 1 1 true));
     SlBegin 2 (OpForget (slx_piece 3 1 true)); SlEnd 1 (OpForget (slx_piece 1 1 true)) (Returned None);
     SlBegin 1 (OpForget (slx_piece 1 2 false)); SlBegin 3 OpClose;
     SlEnd 1 (OpForget (slx_piece 1 2 false)) (Returned (Some "closed"%string)); SlEnd 3 OpClose (Returned (Some "closed"%string));
     SlEnd 2 (OpForget (slx_piece 3 1 true)) (Returned (Some "closed"%string));
     SlDraw 9 5; SlAlloc 9 5 slx_payload; SlBegin 9 (OpForget (slx_piece 5 1 true)); SlEnd 9 (OpForget (slx_piece 5 1 true)) Unwound;
     SlBegin 4 (OpSend (FMetadataPush (MetadataPushFrame [n2b 5])))] /\
  in_turn 4 None slx_run (Some (OpSend (FMetadataPush (MetadataPushFrame [n2b 5])))) /\
  begun 1 1 slx_run = marked 1 (fragments (Some 1) slx_payload) /\ begun 2 3 slx_run = [slx_piece 3 1 true] /\
  drawn (at_ends slx_run) = [1; 3; 5].
Proof.
  vm_compute. split; [reflexivity|]. split; [|repeat split].
  repeat (apply It_other; [discriminate|]). apply It_begin. apply It_nil.
Qed.
(** A connection that is lost while a thread is inside, and says so. *)
Definition slx_lost : slow_connection bool string :=
  SlowConnection (fun s _ _ => s) (fun (s : bool) _ => (s, if s then Some (Returned (Some "lost"%string)) else None)) (fun _ _ => true).
Example C105_example_lost :
  fst (slow_exec slx_lost Debug None [SlCall 1 slx_payload; SlRun 1; SlRun 1; SlRun 1; SlRun 1; SlRun 1; SlAlone 0; SlRun 1; SlRun 1; SlRun 1]
    (slow_init 1 (fun _ => false) false)) =
    [SlDraw 1 1; SlAlloc 1 1 slx_payload; SlBegin 1 (OpForget (fnf_frame 1 false slx_payload));
     SlEnd 1 (OpForget (fnf_frame 1 false slx_payload)) (Returned (Some "lost"%string))].
Proof. vm_compute. reflexivity. Qed.
(** And a call that returns, while another thread is inside the connection. *)
Definition slx_run2 := fst (slow_exec slx_conn Debug (Some 1)
  [SlPush 4 [n2b 5]; SlCall 1 slx_payload; SlRun 1; SlRun 1; SlRun 1; SlRun 1; SlRun 1; SlRun 1; SlRun 1; SlRun 1; SlRun 1; SlRun 4; SlRun 4]
  (slow_init 1 (fun _ => false) (fun _ => 0%nat, false))).
Example C105_example_return :
  slx_run2 =
    [SlBegin 4 (OpSend (FMetadataPush (MetadataPushFrame [n2b 5]))); SlDraw 1 1; SlAlloc 1 1 slx_payload;
     SlBegin 1 (OpForget (slx_piece 1 1 true)); SlEnd 1 (OpForget (slx_piece 1 1 true)) (Returned None);
     SlBegin 1 (OpForget (slx_piece 1 2 false)); SlEnd 1 (OpForget (slx_piece 1 2 false)) (Returned None); SlReturn 1 1;
     SlEnd 4 (OpSend (FMetadataPush (MetadataPushFrame [n2b 5]))) (Returned None)] /\
  begun 1 1 slx_run2 = [slx_piece 1 1 true; slx_piece 1 2 false].
Proof. vm_compute. split; reflexivity. Qed.
