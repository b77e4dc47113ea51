(** * binate/src/connection/buf.rs: what the operations of [BufList] leave behind when they panic

    A caller that holds the list outside and catches the panic (std::panic::catch_unwind) goes on with the
    list as the unwinding left it.  [BufM.v] has the same operations without that. *)

From Verif Require Export Model.BufM.

Section Caught.
  Context {T : Type} (ops : buf_ops T).
  (** What [advance] and [copy_to_bytes] of an inner buffer leave of it when they panic themselves. *)
  Context (hurt_advance hurt_copy : nat -> T -> T).

  (** [BufList::push], buf.rs:22-25: the assertion comes before [push_back]; [buf] is dropped. *)
  Definition bc_push (bd : build) (buf : T) (l : buf_list T) : oc unit * buf_list T :=
    match bd, b_remaining ops buf with
    | Debug, O => (Panic, l)
    | _, _ => (Ret tt, l ++ [buf])
    end.

  (** [Buf::advance], buf.rs:76-89: the buffers already gone over are popped. *)
  Fixpoint bc_advance (cnt : nat) (l : buf_list T) : oc unit * buf_list T :=
    match cnt with
    | O => (Ret tt, l)
    | S _ =>
      match l with
      | [] => (Panic, [])                     (* self.bufs[0] *)
      | front :: rest =>
        let rem := b_remaining ops front in
        if Nat.ltb cnt rem then
          match b_advance ops cnt front with
          | Ret front' => (Ret tt, front' :: rest)
          | Panic => (Panic, hurt_advance cnt front :: rest)
          | Loop => (Loop, front :: rest)
          end
        else
          match b_advance ops rem front with
          | Ret _ => bc_advance (cnt - rem) rest      (* pop_front *)
          | Panic => (Panic, hurt_advance rem front :: rest)
          | Loop => (Loop, front :: rest)
          end
      end
    end.

  (** [bm.put(self.take(len))], buf.rs:124: the loop of [put_take] in [Base.v] over the methods above; the [BytesMut] is
      dropped with what it has. *)
  Fixpoint bc_put_take (fuel limit : nat) (acc : bytes) (l : buf_list T) : oc bytes * buf_list T :=
    match Nat.min (bl_remaining ops l) limit with
    | O => (Ret acc, l)
    | S _ =>
      match fuel with
      | O => (Loop, l)
      | S fuel' =>
        let s := firstn (Nat.min (length (bl_chunk ops l)) limit) (bl_chunk ops l) in
        match bc_advance (length s) l with
        | (Ret _, l') => bc_put_take fuel' (limit - length s) (acc ++ s) l'
        | (Panic, l') => (Panic, l')
        | (Loop, l') => (Loop, l')
        end
      end
    end.

  (** [Buf::copy_to_bytes], buf.rs:108-128: the assertion comes before anything is taken. *)
  Definition bc_copy_slow (fuel len : nat) (l : buf_list T) : oc bytes * buf_list T :=
    if Nat.leb len (bl_remaining ops l) then bc_put_take fuel len [] l else (Panic, l).
  Definition bc_copy_to_bytes (fuel len : nat) (l : buf_list T) : oc bytes * buf_list T :=
    match l with
    | front :: rest =>
      if Nat.eqb (b_remaining ops front) len then
        match b_copy_to_bytes ops len front with
        | Ret (b, _) => (Ret b, rest)         (* pop_front *)
        | Panic => (Panic, hurt_copy len front :: rest)
        | Loop => (Loop, l)
        end
      else if Nat.ltb len (b_remaining ops front) then
        match b_copy_to_bytes ops len front with
        | Ret (b, front') => (Ret b, front' :: rest)
        | Panic => (Panic, hurt_copy len front :: rest)
        | Loop => (Loop, l)
        end
      else bc_copy_slow fuel len l
    | [] => bc_copy_slow fuel len l
    end.

  (** One operation of a caller, and a history in which every panic is caught. *)
  Definition res_unit (x : oc unit) : buf_res := match x with Ret _ => ResUnit | Panic => ResPanic | Loop => ResLoop end.
  Definition res_bytes (x : oc bytes) : buf_res := match x with Ret b => ResBytes b | Panic => ResPanic | Loop => ResLoop end.
  Definition bc_step (bd : build) (fuel : nat) (o : buf_op T) (l : buf_list T) : buf_res * buf_list T :=
    match o with
    | OpPush b => let (x, l') := bc_push bd b l in (res_unit x, l')
    | OpRemaining => (ResNum (bl_remaining ops l), l)
    | OpAdvance n => let (x, l') := bc_advance n l in (res_unit x, l')
    | OpCopy n => let (x, l') := bc_copy_to_bytes fuel n l in (res_bytes x, l')
    end.
  Fixpoint bc_run (bd : build) (fuel : nat) (h : list (buf_op T)) (l : buf_list T) : list buf_res * buf_list T :=
    match h with
    | [] => ([], l)
    | o :: h' =>
      match bc_step bd fuel o l with
      | (ResLoop, l') => ([ResLoop], l')      (* never returns *)
      | (a, l') => let (r, l'') := bc_run bd fuel h' l' in (a :: r, l'')
      end
    end.
End Caught.
