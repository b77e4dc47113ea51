(** * binate/src/payload.rs, except text accessors and chunking *)

From Verif Require Export Model.U24M.

(** Length of a [Bytes] as [usize]. *)
Definition blen (l : bytes) : N := N.of_nat (length l).

(** [Payload::new], payload.rs:35-37; [Payload::default] (derived, payload.rs:27). *)
Definition payload_new (metadata data : option bytes) : payload := Payload metadata data.
Definition payload_default : payload := Payload None None.

(** [Payload::len], payload.rs:45-54 (and the identical [Encode::len], 177-186). *)
Definition payload_len (p : payload) : N :=
  let len := 0 in
  let len := match p_metadata p with Some m => len + blen m | None => len end in
  match p_data p with Some d => len + blen d | None => len end.

(** [Payload::is_empty], payload.rs:57-59. *)
Definition payload_is_empty (p : payload) : bool := payload_len p =? 0.

(** [Payload::data/metadata/has_data/has_metadata/split], payload.rs:62-102. *)
Definition payload_data (p : payload) : option bytes := p_data p.
Definition payload_metadata (p : payload) : option bytes := p_metadata p.
Definition is_some {A} (o : option A) : bool := match o with Some _ => true | None => false end.
Definition payload_has_data (p : payload) : bool := is_some (p_data p).
Definition payload_has_metadata (p : payload) : bool := is_some (p_metadata p).
Definition payload_split (p : payload) : option bytes * option bytes :=
  (p_metadata p, p_data p).

(** [Encode for Payload]: [encode], payload.rs:167-175. *)
Definition payload_encode (p : payload) : enc :=
  (enc_opt (p_metadata p) put_slice ;; enc_opt (p_data p) put_slice)%enc.

(** [PayloadBuilder], payload.rs:131-164. *)
Definition payload_builder_new : payload := payload_default.
Definition payload_set_data (b : payload) (data : bytes) : payload :=
  Payload (p_metadata b) (Some data).
Definition payload_set_metadata (b : payload) (metadata : bytes) : payload :=
  Payload (Some metadata) (p_data b).
Definition payload_build (b : payload) : payload := b.

(** One builder call, and a sequence of builder calls followed by [build]. *)
Definition payload_apply (b : payload) (c : payload_call) : payload :=
  match c with
  | PSetData d => payload_set_data b d
  | PSetMetadata m => payload_set_metadata b m
  end.
Definition payload_run (cs : list payload_call) : payload :=
  payload_build (fold_left payload_apply cs payload_builder_new).
