(** * binate/src/connection/socket.rs: threads that catch their panics

    In Model/SocketM.v a thread stops when it panics: in a method that is not implemented (socket.rs:133-146) or in
    [fire_and_forget] with chunks of size 0 (socket.rs:152; the assertion is in payload.rs:114).  The machine holds no
    lock and no guard at these places, so that unwinding does nothing to it; here the thread may go on.  (The machine is not [UnwindSafe] for the trait objects in
    it, so that a caller has to assert that it is; a task of [tokio] is caught without.) *)

From Verif Require Export Model.SocketM Model.ReviveTypes.

Section Revive.
  Context {S E : Type} (cn : connection S E).

  (** The steps of socket.rs:132-175 as in Model/SocketM.v, and the catching. *)
  Definition revive_step (bd : build) (chunk : option N) (a : revive_action) (c : @config S)
    : list (revive_event E) * @config S :=
    match a with
    | ReviveAct a' => let (ev, c') := step cn bd chunk a' c in (map ReviveSees ev, c')
    | Catch t =>
      match cf_threads c t with
      | Panicked => ([Caught t], Config (cf_counter c) (cf_store c) (cf_conn c) (set_thread (cf_threads c) t Idle))
      | _ => ([], c)
      end
    end.

  Fixpoint revive_exec (bd : build) (chunk : option N) (acts : list revive_action) (c : @config S)
    : list (revive_event E) * @config S :=
    match acts with
    | [] => ([], c)
    | a :: acts' =>
      let (ev, c') := revive_step bd chunk a c in
      let (evs, c'') := revive_exec bd chunk acts' c' in
      (ev ++ evs, c'')
    end.
End Revive.
