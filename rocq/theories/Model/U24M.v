(** * binate/src/frame/u24.rs and binate/src/frame/version.rs *)

From Verif Require Export Model.FlagsM.

(** [U24::MAX = u32::MAX >> 8], u24.rs:11; [U24::MIN], u24.rs:14. *)
Definition U24_MAX : N := N.shiftr 0xFFFFFFFF 8.
Definition U24_MIN : N := 0.

(** [U24::new], u24.rs:17-19. *)
Definition u24_new (higher_bits lower_bits : N) : u24 := U24 higher_bits lower_bits.

(** [U24::from_u32], u24.rs:26-29. *)
Definition u24_from_u32 (val : N) : oc u24 :=
  if val <=? U24_MAX then Ret (U24 (as_u8 (N.shiftr val 16)) (as_u16 val))
  else Panic.

(** [U24::from_usize], u24.rs:36-39. *)
Definition u24_from_usize (val : N) : oc u24 :=
  if val <=? U24_MAX then
    Ret (U24 (as_u8 (N.shiftr (as_u32 val) 16)) (as_u16 (as_u32 val)))
  else Panic.

(** [U24::into_u32], u24.rs:42-44; [U24::into_usize], u24.rs:47-49. *)
Definition u24_into_u32 (u : u24) : N := N.lor (N.shiftl (u24_hi u) 16) (u24_lo u).
Definition u24_into_usize (u : u24) : N := N.lor (N.shiftl (u24_hi u) 16) (u24_lo u).

(** [Encode for U24], u24.rs:52-61. *)
Definition u24_len (u : u24) : N := 3.
Definition u24_encode (u : u24) : enc := (put_u8 (u24_hi u) ;; put_u16 (u24_lo u))%enc.

(** [Version], version.rs:13-28,30-39. *)
Definition version_new (major minor : N) : version := Version major minor.
Definition version_major (v : version) : N := v_major v.
Definition version_minor (v : version) : N := v_minor v.
Definition version_encode (v : version) : enc :=
  (put_u16 (v_major v) ;; put_u16 (v_minor v))%enc.
Definition version_len (v : version) : N := 4.

(** [Ord for Version], version.rs:41-49 ([Ordering] is Coq's [comparison]). *)
Definition version_cmp (a b : version) : comparison :=
  let cmp_major := v_major a ?= v_major b in
  match cmp_major with
  | Eq => v_minor a ?= v_minor b
  | _ => cmp_major
  end.
(** [PartialOrd for Version], version.rs:51-55. *)
Definition version_partial_cmp (a b : version) : option comparison :=
  Some (version_cmp a b).
(** [Default for Version], version.rs:63-67. *)
Definition version_default : version := version_new 1 0.
