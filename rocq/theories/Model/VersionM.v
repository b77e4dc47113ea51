(** * Comparing versions with the methods that [Ord] and [PartialOrd] provide

    binate/src/frame/version.rs:41-55 defines [cmp] and [partial_cmp] only; the operators and [max], [min] and [clamp]
    are those that core::cmp derives from them.  core's own text is not in /repo: what it documents is written here. *)

From Verif Require Export Model.U24M.

(** The operators [<], [<=], [>] and [>=], by [partial_cmp] (version.rs:51-55). *)
Definition version_lt (a b : version) : bool :=
  match version_partial_cmp a b with Some Lt => true | _ => false end.
Definition version_le (a b : version) : bool :=
  match version_partial_cmp a b with Some Lt | Some Eq => true | _ => false end.
Definition version_gt (a b : version) : bool :=
  match version_partial_cmp a b with Some Gt => true | _ => false end.
Definition version_ge (a b : version) : bool :=
  match version_partial_cmp a b with Some Gt | Some Eq => true | _ => false end.

(** [==], derived: version.rs:6. *)
Definition version_eq (a b : version) : bool :=
  (v_major a =? v_major b) && (v_minor a =? v_minor b).

(** [Ord::max] and [Ord::min], by [cmp] (version.rs:41-49): of equal ones [max] returns the second and [min] the first. *)
Definition version_max (a b : version) : version :=
  match version_cmp a b with Gt => a | _ => b end.
Definition version_min (a b : version) : version :=
  match version_cmp a b with Gt => b | _ => a end.

(** [Ord::clamp]: [assert!(min <= max)], then the value or the bound that it passes. *)
Definition version_clamp (v lo hi : version) : oc version :=
  if version_le lo hi then
    Ret (if version_lt v lo then lo else if version_gt v hi then hi else v)
  else Panic.
