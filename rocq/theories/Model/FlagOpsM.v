(** * What [bitflags!] generates for [Flags] (binate/src/frame/flags.rs:154-173)

    After the documentation of bitflags 1.2.1; [Model/FlagsM.v] has the part the crate uses. *)

From Verif Require Export Model.FlagsM Model.FlagOpsTypes.

(** flags.rs:158-172 *)
Definition fl_const (c : flag_name) : flags :=
  match c with
  | NIgnore => FL_IGNORE | NMetadata => FL_METADATA | NFollows => FL_FOLLOWS | NResume => FL_RESUME
  | NRespond => FL_RESPOND | NComplete => FL_COMPLETE | NLease => FL_LEASE | NNext => FL_NEXT
  end.

(** [!w] of [u16]. *)
Definition u16_not (w : N) : N := N.lxor w 0xFFFF.
(** [from_bits]: [None] if a bit that no constant has is set. *)
Definition fl_from_bits (w : N) : option flags :=
  if N.land w (u16_not fl_all) =? 0 then Some w else None.
Definition fl_is_empty (a : flags) : bool := a =? fl_empty.
Definition fl_is_all (a : flags) : bool := a =? fl_all.
Definition fl_intersects (a b : flags) : bool := negb (fl_is_empty (N.land a b)).
Definition fl_xor (a b : flags) : flags := N.lxor a b.
Definition fl_sub (a b : flags) : flags := N.land a (u16_not b).
Definition fl_not (a : flags) : flags := fl_from_bits_truncate (u16_not a).
Definition fl_insert (a b : flags) : flags := N.lor a b.
Definition fl_remove (a b : flags) : flags := N.land a (u16_not b).
Definition fl_toggle (a b : flags) : flags := N.lxor a b.
Definition fl_set (a b : flags) (v : bool) : flags := if v then fl_insert a b else fl_remove a b.
(** [Extend::extend]: [insert] one after the other. *)
Definition fl_extend (a : flags) (l : list flags) : flags := fold_left fl_insert l a.
(** Derived [Ord]: the order of the words. *)
Definition fl_cmp (a b : flags) : comparison := N.compare a b.

Fixpoint flags_eval (e : flags_expr) : oc flags :=
  let two f a b := match flags_eval a with
                   | Ret x => match flags_eval b with Ret y => Ret (f x y) | o => o end
                   | o => o end in
  match e with
  | ENone => Ret fl_empty
  | EAll => Ret fl_all
  | EConst c => Ret (fl_const c)
  | ETruncate w => Ret (fl_from_bits_truncate w)
  | EFromBits w => match fl_from_bits w with Some f => Ret f | None => Panic end
  | EOr a b => two fl_union a b
  | EAnd a b => two fl_inter a b
  | EXor a b => two fl_xor a b
  | ESub a b => two fl_sub a b
  | ENot a => match flags_eval a with Ret x => Ret (fl_not x) | o => o end
  | EInsert a b => two fl_insert a b
  | ERemove a b => two fl_remove a b
  | EToggle a b => two fl_toggle a b
  | ESet a b v => two (fun x y => fl_set x y v) a b
  | EExtend a b c =>
    match flags_eval a with
    | Ret x => match flags_eval b with
               | Ret y => match flags_eval c with Ret z => Ret (fl_extend x [y; z]) | o => o end
               | o => o end
    | o => o
    end
  end.
