(** * Expressions over [Flags], as data *)

From Verif Require Export Model.Types.

(** The constants of flags.rs:158-172. *)
Inductive flag_name : Set :=
| NIgnore | NMetadata | NFollows | NResume | NRespond | NComplete | NLease | NNext.

(** The ways safe code has to make a value of [Flags]: what [bitflags!] (1.2.1) generates for
    flags.rs:154-173.  ([from_bits_unchecked] is unsafe.) *)
Inductive flags_expr : Set :=
| ENone                                     (* [Flags::empty()] *)
| EAll                                      (* [Flags::all()] *)
| EConst (c : flag_name)                    (* [Flags::IGNORE] ... *)
| ETruncate (w : N)                         (* [Flags::from_bits_truncate(w)] *)
| EFromBits (w : N)                         (* [Flags::from_bits(w).unwrap()] *)
| EOr (a b : flags_expr)                    (* [a | b], [a |= b] *)
| EAnd (a b : flags_expr)                   (* [a & b], [a &= b] *)
| EXor (a b : flags_expr)                   (* [a ^ b], [a ^= b] *)
| ESub (a b : flags_expr)                   (* [a - b], [a -= b] *)
| ENot (a : flags_expr)                     (* [!a] *)
| EInsert (a b : flags_expr)                (* [a.insert(b)] *)
| ERemove (a b : flags_expr)                (* [a.remove(b)] *)
| EToggle (a b : flags_expr)                (* [a.toggle(b)] *)
| ESet (a b : flags_expr) (v : bool)        (* [a.set(b, v)] *)
| EExtend (a b c : flags_expr).             (* [a.extend(vec![b, c])] *)
