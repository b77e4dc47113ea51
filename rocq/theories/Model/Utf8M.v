(** * Text accessors: payload.rs, codec/error.rs, codec/setup.rs

    A Rust [str] is its bytes. *)

From Verif Require Export Model.PayloadM Model.CodecM.

(** ** [std::str::from_utf8]

    [run_utf8_validation] of [core::str::validations]: the width of a sequence comes
    from its first byte, the second byte has a range that depends on the first,
    the others are continuation bytes. *)

(** [b as i8 < -64]. *)
Definition is_cont (b : byte) : bool := (128 <=? b2n b) && (b2n b <? 192).
(** [utf8_char_width]; 1 is for the bytes below 128. *)
Definition char_width (x : N) : N :=
  if x <? 128 then 1
  else if (194 <=? x) && (x <=? 223) then 2
  else if (224 <=? x) && (x <=? 239) then 3
  else if (240 <=? x) && (x <=? 244) then 4
  else 0.
(** The match on the first two bytes of a sequence of three. *)
Definition second_of_3 (x y : N) : bool :=
  (x =? 0xE0) && (0xA0 <=? y) && (y <=? 0xBF)
  || (0xE1 <=? x) && (x <=? 0xEC) && (0x80 <=? y) && (y <=? 0xBF)
  || (x =? 0xED) && (0x80 <=? y) && (y <=? 0x9F)
  || (0xEE <=? x) && (x <=? 0xEF) && (0x80 <=? y) && (y <=? 0xBF).
(** And of four. *)
Definition second_of_4 (x y : N) : bool :=
  (x =? 0xF0) && (0x90 <=? y) && (y <=? 0xBF)
  || (0xF1 <=? x) && (x <=? 0xF3) && (0x80 <=? y) && (y <=? 0xBF)
  || (x =? 0xF4) && (0x80 <=? y) && (y <=? 0x8F).

(** The loop, [offset] bytes into the input; [None] is [Ok(())].  The fast path for ASCII
    is not modelled: it skips bytes that the loop accepts one by one. *)
Fixpoint utf8_check (offset : nat) (l : bytes) : option utf8_error :=
  match l with
  | [] => None
  | b1 :: r1 =>
    let err n := Some (Utf8Error offset n) in
    let w := char_width (b2n b1) in
    if w =? 1 then utf8_check (offset + 1) r1
    else if w =? 2 then
      match r1 with
      | [] => err None
      | b2 :: r2 => if is_cont b2 then utf8_check (offset + 2) r2 else err (Some 1%nat)
      end
    else if w =? 3 then
      match r1 with
      | [] => err None
      | b2 :: r2 =>
        if second_of_3 (b2n b1) (b2n b2) then
          match r2 with
          | [] => err None
          | b3 :: r3 => if is_cont b3 then utf8_check (offset + 3) r3 else err (Some 2%nat)
          end
        else err (Some 1%nat)
      end
    else if w =? 4 then
      match r1 with
      | [] => err None
      | b2 :: r2 =>
        if second_of_4 (b2n b1) (b2n b2) then
          match r2 with
          | [] => err None
          | b3 :: r3 =>
            if is_cont b3 then
              match r3 with
              | [] => err None
              | b4 :: r4 => if is_cont b4 then utf8_check (offset + 4) r4 else err (Some 3%nat)
              end
            else err (Some 2%nat)
          end
        else err (Some 1%nat)
      end
    else err (Some 1%nat)
  end.
(** [from_utf8(v)]: [inr] is [Err]. *)
Definition from_utf8 (v : bytes) : bytes + utf8_error :=
  match utf8_check 0 v with None => inl v | Some e => inr e end.
(** [Result::ok]. *)
Definition ok {A E : Type} (r : A + E) : option A := match r with inl a => Some a | inr _ => None end.

(** [str::is_ascii]. *)
Definition is_ascii (s : bytes) : bool := forallb (fun b => b2n b <? 128) s.

(** ** Accessors *)

(** [Payload::data_utf8], payload.rs:72-78; [Payload::metadata_utf8], payload.rs:81-87. *)
Definition payload_data_utf8 (p : payload) : bytes + utf8_error :=
  match p_data p with Some data => from_utf8 data | None => inl [] end.
Definition payload_metadata_utf8 (p : payload) : bytes + utf8_error :=
  match p_metadata p with Some metadata => from_utf8 metadata | None => inl [] end.

(** [ErrorFrame::data_utf8], codec/error.rs:140-142. *)
Definition error_data_utf8 (f : error_frame) : option bytes :=
  match ef_data f with Some data => ok (from_utf8 data) | None => None end.

(** [SetupFrame::metadata_mimetype], codec/setup.rs:96-107;
    [SetupFrame::data_mimetype], codec/setup.rs:112-123. *)
Definition setup_metadata_mimetype (f : setup_frame) : option bytes :=
  match ok (from_utf8 (sf_metadata_mimetype f)) with
  | Some x => if is_ascii x then Some x else None
  | None => None
  end.
Definition setup_data_mimetype (f : setup_frame) : option bytes :=
  match ok (from_utf8 (sf_data_mimetype f)) with
  | Some x => if is_ascii x then Some x else None
  | None => None
  end.
