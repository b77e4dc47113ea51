(** * binate/src/connection/buf.rs: [BufList]

    [BufList<T>] for any [T: Buf], given by its operations.  The sum in [remaining] is
    not bounded ([WordM.v] has it in [usize]). *)

From Verif Require Export Model.FrameM.

Section BufList.
  Context {T : Type} (ops : buf_ops T).

  (** [BufList<T>], buf.rs:12-14: the [VecDeque], front first. *)
  Definition buf_list : Type := list T.

  (** [BufList::new], buf.rs:17-19. *)
  Definition bl_new : buf_list := [].
  (** [BufList::push], buf.rs:22-25. *)
  Definition bl_push (bd : build) (buf : T) (l : buf_list) : oc buf_list :=
    match bd, b_remaining ops buf with
    | Debug, O => Panic                       (* debug_assert!(buf.has_remaining()) *)
    | _, _ => Ret (l ++ [buf])
    end.
  (** [BufList::len], buf.rs:28-30. *)
  Definition bl_len (l : buf_list) : nat := length l.

  (** [Buf::remaining], buf.rs:66-68. *)
  Definition bl_remaining (l : buf_list) : nat := fold_right (fun b n => b_remaining ops b + n)%nat O l.
  (** [Buf::chunk], buf.rs:71-73. *)
  Definition bl_chunk (l : buf_list) : bytes := match l with b :: _ => b_chunk ops b | [] => [] end.

  (** [Buf::advance], buf.rs:76-89.  Each turn of the loop drops the front buffer or
      is the last one.  What is left of the list after a panic is in [CaughtM.v]. *)
  Fixpoint bl_advance (cnt : nat) (l : buf_list) : oc buf_list :=
    match cnt with
    | O => Ret l
    | S _ =>
      match l with
      | [] => Panic                           (* self.bufs[0] *)
      | front :: rest =>
        let rem := b_remaining ops front in
        if Nat.ltb cnt rem then
          match b_advance ops cnt front with
          | Ret front' => Ret (front' :: rest)
          | Panic => Panic
          | Loop => Loop
          end
        else
          match b_advance ops rem front with
          | Ret _ => bl_advance (cnt - rem) rest      (* pop_front *)
          | Panic => Panic
          | Loop => Loop
          end
      end
    end.

  (** [Buf::chunks_vectored], buf.rs:92-105, with [slots = dst.len() - vecs]; the
      result is the list of the slices written. *)
  Fixpoint bl_vectored_loop (slots : nat) (l : buf_list) : list bytes :=
    match l with
    | [] => []
    | b :: rest =>
      let w := b_vectored ops slots b in
      let slots' := (slots - length w)%nat in
      match slots' with
      | O => w                                (* break *)
      | S _ => w ++ bl_vectored_loop slots' rest
      end
    end.
  Definition bl_vectored (slots : nat) (l : buf_list) : list bytes :=
    match slots with O => [] | S _ => bl_vectored_loop slots l end.

  (** [Buf::copy_to_bytes], buf.rs:108-128.  The first part, the last arm of the [match],
      uses the three methods above only. *)
  Definition bl_copy_slow (fuel len : nat) (l : buf_list) : oc (bytes * buf_list) :=
    if Nat.leb len (bl_remaining l) then
      put_take (BufOps bl_remaining bl_chunk bl_advance (fun _ _ => Panic) bl_vectored) fuel len [] l
    else Panic.                               (* assert!(len <= self.remaining()) *)
  Definition bl_copy_to_bytes (fuel len : nat) (l : buf_list) : oc (bytes * buf_list) :=
    match l with
    | front :: rest =>
      if Nat.eqb (b_remaining ops front) len then
        match b_copy_to_bytes ops len front with
        | Ret (b, _) => Ret (b, rest)         (* pop_front *)
        | Panic => Panic
        | Loop => Loop
        end
      else if Nat.ltb len (b_remaining ops front) then
        match b_copy_to_bytes ops len front with
        | Ret (b, front') => Ret (b, front' :: rest)
        | Panic => Panic
        | Loop => Loop
        end
      else bl_copy_slow fuel len l
    | [] => bl_copy_slow fuel len l
    end.

  (** [impl Buf for BufList], as an instance of the trait. *)
  Definition buf_list_ops (fuel : nat) : buf_ops buf_list := {|
    b_remaining := bl_remaining;
    b_chunk := bl_chunk;
    b_advance := bl_advance;
    b_copy_to_bytes := bl_copy_to_bytes fuel;
    b_vectored := bl_vectored |}.
End BufList.
Arguments buf_list : clear implicits.

(** The parts taken from one decoded frame, buf.rs:41-48. *)
Definition fragment_parts (f : frame) : option bytes * option bytes :=
  match f with
  | FRequestResponse v => payload_split (rr_payload v)
  | FRequestFnf v => payload_split (fnf_payload v)
  | FRequestStream v => payload_split (rs_payload v)
  | FRequestChannel v => payload_split (rc_payload v)
  | FPayload v => payload_split (pf_payload v)
  | _ => (None, None)
  end.
Definition put_opt (acc : bytes) (o : option bytes) : bytes :=
  match o with Some b => acc ++ b | None => acc end.

Section Reassembly.
  Context {T : Type} (ops : buf_ops T).

  (** [TryInto<Payload> for BufList], buf.rs:36-61; [meta] and [data] are the two
      [BytesMut]. *)
  Fixpoint bl_try_into_loop (fuel : nat) (l : buf_list T) (meta data : bytes) : dres payload :=
    match l with
    | [] =>
      DOk (payload_new (match meta with [] => None | _ => Some meta end)
                       (match data with [] => None | _ => Some data end))
    | v :: rest =>
      match fst (frame_decode ops fuel v) with
      | DOk f =>
        let (m, d) := fragment_parts f in
        bl_try_into_loop fuel rest (put_opt meta m) (put_opt data d)
      | DErr e => DErr e
      | DPanic => DPanic
      | DLoop => DLoop
      end
    end.
  Definition bl_try_into (fuel : nat) (l : buf_list T) : dres payload := bl_try_into_loop fuel l [] [].

  (** A caller's history on one [BufList]: the results of the operations, up to the
      first panic. *)
  Fixpoint bl_run (bd : build) (fuel : nat) (h : list (buf_op T)) (l : buf_list T) : list buf_res * buf_list T :=
    match h with
    | [] => ([], l)
    | OpPush b :: h' =>
      match bl_push ops bd b l with
      | Ret l' => let (r, l'') := bl_run bd fuel h' l' in (ResUnit :: r, l'')
      | Panic => ([ResPanic], l)
      | Loop => ([ResLoop], l)
      end
    | OpRemaining :: h' =>
      let (r, l'') := bl_run bd fuel h' l in (ResNum (bl_remaining ops l) :: r, l'')
    | OpAdvance n :: h' =>
      match bl_advance ops n l with
      | Ret l' => let (r, l'') := bl_run bd fuel h' l' in (ResUnit :: r, l'')
      | Panic => ([ResPanic], l)
      | Loop => ([ResLoop], l)
      end
    | OpCopy n :: h' =>
      match bl_copy_to_bytes ops fuel n l with
      | Ret (b, l') => let (r, l'') := bl_run bd fuel h' l' in (ResBytes b :: r, l'')
      | Panic => ([ResPanic], l)
      | Loop => ([ResLoop], l)
      end
    end.
End Reassembly.
