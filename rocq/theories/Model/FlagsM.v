(** * binate/src/frame/flags.rs *)

From Verif Require Export Model.Base.

(** [FrameType::from_value], flags.rs:44-63. *)
Definition ft_from_value (val : N) : option frame_type :=
  match val with
  | 0x01 => Some FT_SETUP
  | 0x02 => Some FT_LEASE
  | 0x03 => Some FT_KEEPALIVE
  | 0x04 => Some FT_REQUEST_RESPONSE
  | 0x05 => Some FT_REQUEST_FNF
  | 0x06 => Some FT_REQUEST_STREAM
  | 0x07 => Some FT_REQUEST_CHANNEL
  | 0x08 => Some FT_REQUEST_N
  | 0x09 => Some FT_CANCEL
  | 0x0A => Some FT_PAYLOAD
  | 0x0B => Some FT_ERROR
  | 0x0C => Some FT_METADATA_PUSH
  | 0x0D => Some FT_RESUME
  | 0x0E => Some FT_RESUME_OK
  | 0x3F => Some FT_EXT
  | _ => None
  end.

(** [FrameType::from_bits], flags.rs:77-96 (a second copy of the table). *)
Definition ft_from_bits (bits : N) : option frame_type :=
  match N.shiftr bits 10 with
  | 0x01 => Some FT_SETUP
  | 0x02 => Some FT_LEASE
  | 0x03 => Some FT_KEEPALIVE
  | 0x04 => Some FT_REQUEST_RESPONSE
  | 0x05 => Some FT_REQUEST_FNF
  | 0x06 => Some FT_REQUEST_STREAM
  | 0x07 => Some FT_REQUEST_CHANNEL
  | 0x08 => Some FT_REQUEST_N
  | 0x09 => Some FT_CANCEL
  | 0x0A => Some FT_PAYLOAD
  | 0x0B => Some FT_ERROR
  | 0x0C => Some FT_METADATA_PUSH
  | 0x0D => Some FT_RESUME
  | 0x0E => Some FT_RESUME_OK
  | 0x3F => Some FT_EXT
  | _ => None
  end.

(** [FrameType::value], flags.rs:102-120. *)
Definition ft_value (t : frame_type) : N :=
  match t with
  | FT_SETUP => 0x01
  | FT_LEASE => 0x02
  | FT_KEEPALIVE => 0x03
  | FT_REQUEST_RESPONSE => 0x04
  | FT_REQUEST_FNF => 0x05
  | FT_REQUEST_STREAM => 0x06
  | FT_REQUEST_CHANNEL => 0x07
  | FT_REQUEST_N => 0x08
  | FT_CANCEL => 0x09
  | FT_PAYLOAD => 0x0A
  | FT_ERROR => 0x0B
  | FT_METADATA_PUSH => 0x0C
  | FT_RESUME => 0x0D
  | FT_RESUME_OK => 0x0E
  | FT_EXT => 0x3F
  end.

(** [FrameType::bits], flags.rs:132-151.  [val << 10] on [u16] (truncating). *)
Definition ft_bits (t : frame_type) : N :=
  let val :=
    match t with
    | FT_SETUP => 0x01
    | FT_LEASE => 0x02
    | FT_KEEPALIVE => 0x03
    | FT_REQUEST_RESPONSE => 0x04
    | FT_REQUEST_FNF => 0x05
    | FT_REQUEST_STREAM => 0x06
    | FT_REQUEST_CHANNEL => 0x07
    | FT_REQUEST_N => 0x08
    | FT_CANCEL => 0x09
    | FT_PAYLOAD => 0x0A
    | FT_ERROR => 0x0B
    | FT_METADATA_PUSH => 0x0C
    | FT_RESUME => 0x0D
    | FT_RESUME_OK => 0x0E
    | FT_EXT => 0x3F
    end in
  as_u16 (N.shiftl val 10).

(** Flag constants, flags.rs:158-172 (binary literals of the source in hex). *)
Definition FL_IGNORE : flags := 0x100.    (* 0b01_0000_0000 *)
Definition FL_METADATA : flags := 0x080.  (* 0b00_1000_0000 *)
Definition FL_FOLLOWS : flags := 0x040.   (* 0b00_0100_0000 *)
Definition FL_RESUME : flags := 0x040.    (* 0b00_0100_0000 *)
Definition FL_RESPOND : flags := 0x040.   (* 0b00_0100_0000 *)
Definition FL_COMPLETE : flags := 0x020.  (* 0b00_0010_0000 *)
Definition FL_LEASE : flags := 0x020.     (* 0b00_0010_0000 *)
Definition FL_NEXT : flags := 0x010.      (* 0b00_0001_0000 *)

(** Methods generated by [bitflags!] (1.2.1): [empty], [all], [contains],
    [BitOr], [BitAnd], [from_bits_truncate]. *)
Definition fl_empty : flags := 0.
Definition fl_union (a b : flags) : flags := N.lor a b.
Definition fl_inter (a b : flags) : flags := N.land a b.
Definition fl_contains (a b : flags) : bool := N.land a b =? b.
Definition fl_all : flags :=
  fl_union FL_IGNORE (fl_union FL_METADATA (fl_union FL_FOLLOWS
    (fl_union FL_RESUME (fl_union FL_RESPOND (fl_union FL_COMPLETE
      (fl_union FL_LEASE FL_NEXT)))))).
Definition fl_from_bits_truncate (bits : N) : flags := N.land bits fl_all.

(** [Flags::is_*], flags.rs:178-215. *)
Definition fl_is_ignore (f : flags) : bool := fl_contains f FL_IGNORE.
Definition fl_is_metadata (f : flags) : bool := fl_contains f FL_METADATA.
Definition fl_is_follows (f : flags) : bool := fl_contains f FL_FOLLOWS.
Definition fl_is_resume (f : flags) : bool := fl_contains f FL_RESUME.
Definition fl_is_respond (f : flags) : bool := fl_contains f FL_RESPOND.
Definition fl_is_complete (f : flags) : bool := fl_contains f FL_COMPLETE.
Definition fl_is_lease (f : flags) : bool := fl_contains f FL_LEASE.
Definition fl_is_next (f : flags) : bool := fl_contains f FL_NEXT.

(** [MAX_U31], [MAX_U63], binate/src/frame/mod.rs:24,27. *)
Definition MAX_U31 : N := 0x7FFFFFFF.
Definition MAX_U63 : N := 0x7FFFFFFFFFFFFFFF.
