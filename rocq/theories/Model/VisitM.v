(** * binate/src/frame/visit.rs: the [eat_*] readers, generic in the [Buf] *)

From Verif Require Export Model.PayloadM.

Section Visit.
  Context {B : Type} (ops : buf_ops B) (fuel : nat).

  (** [incomplete_if_less_than!($buf, $len)], visit.rs:6-12. *)
  Definition need (len : nat) : dec B unit := fun b =>
    if Nat.ltb (b_remaining ops b) len then (DErr InComplete, b) else (DOk tt, b).
  (** [buf.remaining()] as a decoder step. *)
  Definition d_remaining : dec B nat := fun b => (DOk (b_remaining ops b), b).

  (** [eat_stream_id], visit.rs:14-19. *)
  Definition eat_stream_id : dec B N :=
    let! _ := need 4 in
    let! stream_id := d_lift (get_be ops fuel 4) in
    d_ret (N.land stream_id MAX_U31).

  (** [eat_flags], visit.rs:21-33. *)
  Definition eat_flags : dec B (frame_type * flags) :=
    let! _ := need 2 in
    let! flags := d_lift (get_be ops fuel 2) in
    let ft := N.shiftr flags 10 in
    match ft_from_bits flags with
    | Some frame_type => d_ret (frame_type, fl_from_bits_truncate flags)
    | None => d_err (UnrecognizedFrameType ft)
    end.

  (** [eat_version], visit.rs:35-41. *)
  Definition eat_version : dec B version :=
    let! _ := need 4 in
    let! major := d_lift (get_be ops fuel 2) in
    let! minor := d_lift (get_be ops fuel 2) in
    d_ret (version_new major minor).

  (** [eat_u8], visit.rs:43-47 (checks for two bytes, reads one). *)
  Definition eat_u8 : dec B N :=
    let! _ := need 2 in
    d_lift (get_u8 ops).

  (** [eat_u16], visit.rs:49-53. *)
  Definition eat_u16 : dec B N :=
    let! _ := need 2 in
    d_lift (get_be ops fuel 2).

  (** [eat_u24], visit.rs:55-59. *)
  Definition eat_u24 : dec B u24 :=
    let! high := eat_u8 in
    let! low := eat_u16 in
    d_ret (u24_new high low).

  (** [eat_u31], visit.rs:61-65. *)
  Definition eat_u31 : dec B N :=
    let! _ := need 4 in
    let! v := d_lift (get_be ops fuel 4) in
    d_ret (N.land v MAX_U31).

  (** [eat_u32], visit.rs:67-71. *)
  Definition eat_u32 : dec B N :=
    let! _ := need 4 in
    d_lift (get_be ops fuel 4).

  (** [eat_u63], visit.rs:73-77. *)
  Definition eat_u63 : dec B N :=
    let! _ := need 8 in
    let! v := d_lift (get_be ops fuel 8) in
    d_ret (N.land v MAX_U63).

  (** [eat_bytes], visit.rs:79-83. *)
  Definition eat_bytes (len : nat) : dec B bytes :=
    let! _ := need len in
    d_lift (b_copy_to_bytes ops len).

  (** [match buf.remaining() { 0 => None, len => Some(eat_bytes(buf, len)?) }],
      visit.rs:96-99, error.rs:180-183, lease.rs:114-117, keepalive.rs:114-117. *)
  Definition eat_rest : dec B (option bytes) :=
    let! len := d_remaining in
    match len with
    | O => d_ret None
    | _ => let! l := eat_bytes len in d_ret (Some l)
    end.

  (** [eat_payload], visit.rs:85-101. *)
  Definition eat_payload (can_have_data : bool) : dec B payload :=
    let! metadata_len :=
      (if can_have_data
       then (let! u := eat_u24 in d_ret (u24_into_usize u))
       else d_ret 0) in
    let! metadata :=
      (if 0 <? metadata_len
       then (let! l := eat_bytes (N.to_nat metadata_len) in d_ret (Some l))
       else d_ret None) in
    let! data := eat_rest in
    d_ret (payload_new metadata data).

  (** [eat_resume_token], visit.rs:103-114. *)
  Definition eat_resume_token (fl : flags) : dec B (option bytes) :=
    if fl_contains fl FL_RESUME then
      let! token_len := eat_u16 in
      let! l := eat_bytes (N.to_nat token_len) in
      d_ret (Some l)
    else d_ret None.
End Visit.
