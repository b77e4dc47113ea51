(** * The unit tests of the sources, run on the model

    One example per test, citing it.  Tests of the Rust type system ([assert_send_sync],
    [size_of]) and assertions about addresses ([ptr::eq]) have no counterpart. *)

From Verif Require Import Model.SocketM Model.BufM Model.MimeM Model.ErrorM.

Definition txt (s : string) : bytes := string_bytes s.
Definition both : payload := payload_run [PSetMetadata (txt "metadata"); PSetData (txt "data")].

(** The common course of the [test_codec] functions: encode into an empty buffer, compare its
    length, read the id and the flags, decode the rest, compare the frame and the two lengths. *)
Definition codec_test {F : Type} (made : oc F) (encode : F -> enc) (len : F -> N)
    (dec : N -> flags -> dec bytes F) (stream_id : N) (t : frame_type) (fl : flags) (size : N) : Prop :=
  exists f bs b1 b2, made = Ret f /\ encode f [] = EOk bs /\ blen bs = size /\
    eat_stream_id flat 0 bs = (DOk stream_id, b1) /\ eat_flags flat 0 b1 = (DOk (t, fl), b2) /\
    fst (dec stream_id fl b2) = DOk f /\ len f = size.
(** The same, computed. *)
Lemma codec_run : forall {F : Type} (made : oc F) encode len dec stream_id t fl size,
  match made with
  | Ret f =>
    match encode f [] with
    | EOk bs =>
      let (s, b1) := eat_stream_id flat 0 bs in
      let (x, b2) := eat_flags flat 0 b1 in
      blen bs = size /\ s = DOk stream_id /\ x = DOk (t, fl) /\ fst (dec stream_id fl b2) = DOk f /\ len f = size
    | _ => False
    end
  | _ => False
  end -> codec_test made encode len dec stream_id t fl size.
Proof.
  intros F made encode len dec stream_id t fl size H. destruct made as [f| |]; try easy.
  destruct (encode f []) as [bs|] eqn:Ee; try easy.
  destruct (eat_stream_id flat 0 bs) as [s b1] eqn:E1. destruct (eat_flags flat 0 b1) as [x b2] eqn:E2.
  destruct H as (H1 & -> & -> & H4 & H5). exists f, bs, b1, b2. repeat split; assumption.
Qed.
Ltac codec := apply codec_run; vm_compute; repeat split.

(** ** frame/codec *)

(** codec/cancel.rs:73-96 *)
Example test_cancel_codec : codec_test
  (cancel_new Debug 1)
  cancel_encode cancel_len (cancel_decode flat 0) 1 FT_CANCEL fl_empty (4 + 2).
Proof. codec. Qed.

(** codec/keepalive.rs:132-159 *)
Example test_keepalive_codec : codec_test
  (keepalive_new Debug 1 (Some (txt "data")) true)
  keepalive_encode keepalive_len (keepalive_decode flat 0) 0 FT_KEEPALIVE FL_RESPOND (4 + 2 + 8 + 4).
Proof. codec. Qed.

(** codec/lease.rs:132-159 *)
Example test_lease_codec : codec_test
  (lease_new Debug 10 20 (Some (txt "metadata")))
  lease_encode lease_len (lease_decode flat 0) 0 FT_LEASE FL_METADATA (4 + 2 + 4 + 4 + 8).
Proof. codec. Qed.

(** codec/metadata_push.rs:79-104 *)
Example test_metadata_push_codec : codec_test
  (Ret (metadata_push_new (txt "metadata")))
  metadata_push_encode metadata_push_len (metadata_push_decode flat 0) 0 FT_METADATA_PUSH FL_METADATA (4 + 2 + 8).
Proof. codec. Qed.

(** codec/payload.rs:129-163 *)
Example test_payload_codec : codec_test
  (payload_frame_new Debug 1 (fl_union FL_FOLLOWS FL_NEXT) both)
  payload_frame_encode payload_frame_len (payload_frame_decode flat 0) 1 FT_PAYLOAD (fl_union (fl_union FL_METADATA FL_FOLLOWS) FL_NEXT) (4 + 2 + 3 + 8 + 4).
Proof. codec. Qed.

(** codec/request_channel.rs:148-185 *)
Example test_request_channel_codec : codec_test
  (request_channel_new Debug 1 true true 2 both)
  request_channel_encode request_channel_len (request_channel_decode flat 0) 1 FT_REQUEST_CHANNEL (fl_union (fl_union FL_METADATA FL_FOLLOWS) FL_COMPLETE) (4 + 2 + 4 + 3 + 8 + 4).
Proof. codec. Qed.

(** codec/request_fnf.rs:113-147 *)
Example test_request_fnf_codec : codec_test
  (request_fnf_new Debug 1 true both)
  request_fnf_encode request_fnf_len (request_fnf_decode flat 0) 1 FT_REQUEST_FNF (fl_union FL_METADATA FL_FOLLOWS) (4 + 2 + 3 + 8 + 4).
Proof. codec. Qed.

(** codec/request_n.rs:88-113 *)
Example test_request_n_codec : codec_test
  (request_n_new Debug 1 2)
  request_n_encode request_n_len (request_n_decode flat 0) 1 FT_REQUEST_N fl_empty (4 + 2 + 4).
Proof. codec. Qed.

(** codec/request_response.rs:113-147 *)
Example test_request_response_codec : codec_test
  (request_response_new Debug 1 true both)
  request_response_encode request_response_len (request_response_decode flat 0) 1 FT_REQUEST_RESPONSE (fl_union FL_METADATA FL_FOLLOWS) (4 + 2 + 3 + 8 + 4).
Proof. codec. Qed.

(** codec/request_stream.rs:132-168 *)
Example test_request_stream_codec : codec_test
  (request_stream_new Debug 1 true 2 both)
  request_stream_encode request_stream_len (request_stream_decode flat 0) 1 FT_REQUEST_STREAM (fl_union FL_METADATA FL_FOLLOWS) (4 + 2 + 4 + 3 + 8 + 4).
Proof. codec. Qed.

(** codec/resume.rs:140-173 *)
Example test_resume_codec : codec_test
  (resume_new Debug (version_new 1 0) (txt "resume token") 1 2)
  resume_encode resume_len (resume_decode flat 0) 0 FT_RESUME fl_empty (4 + 2 + 4 + 2 + 12 + 8 + 8).
Proof. codec. Qed.

(** codec/resume_ok.rs:81-106 *)
Example test_resume_ok_codec : codec_test
  (resume_ok_new Debug 1)
  resume_ok_encode resume_ok_len (resume_ok_decode flat 0) 0 FT_RESUME_OK fl_empty (4 + 2 + 8).
Proof. codec. Qed.

(** codec/setup.rs:384-434 *)
Example test_setup_codec : codec_test
  (setup_run Debug [SetVersion 1 0; SetKeepaliveInterval 1000; SetKeepaliveTimeout 2000; SetResumeFlag; SetLeaseFlag;
    SetResumeToken (txt "resume token"); SetMetadataMimetype (txt "application/json"); SetDataMimetype (txt "application/binary");
    SetMetadata (txt "metadata"); SetData (txt "data")])
  setup_encode setup_len (setup_decode flat 0) 0 FT_SETUP (fl_union (fl_union FL_METADATA FL_RESUME) FL_LEASE) (4 + 2 + 4 + 4 + 4 + 2 + 12 + 1 + 16 + 1 + 18 + 3 + 8 + 4).
Proof. codec. Qed.

(** codec/keepalive.rs:127-129, lease.rs:127-129 (the constant is written 0 in the model), setup.rs:379-381 *)
Example test_setup_stream_id : SETUP_STREAM_ID = 0.
Proof. reflexivity. Qed.

(** ** frame *)

(** frame/mod.rs:186-193 *)
Example test_max : MAX_U31 = N.shiftr (2 ^ 32 - 1) 1 /\ MAX_U63 = N.shiftr (2 ^ 64 - 1) 1.
Proof. split; reflexivity. Qed.
(** frame/mod.rs:196-212 *)
Example test_frame_decode : exists f bs, request_fnf_new Debug 1 true both = Ret f /\
  request_fnf_encode f [] = EOk bs /\ fst (decode bs) = DOk (FRequestFnf f).
Proof. repeat eexists; (vm_compute; reflexivity). Qed.
(** frame/visit.rs:122-152 *)
Definition header (bits : list N) : eres := put_u16 (fold_right N.lor 0 bits) [].
Example test_eat_flags :
  (exists bs, header [N.shiftl 0x2F 10; FL_METADATA; FL_IGNORE; FL_RESUME] = EOk bs /\
     fst (eat_flags flat 0 bs) = DErr (UnrecognizedFrameType 0x2F)) /\
  (exists bs, header [ft_bits FT_SETUP; FL_METADATA; FL_IGNORE; FL_RESUME; 1; 2] = EOk bs /\
     fst (eat_flags flat 0 bs) = DOk (FT_SETUP, fl_union (fl_union FL_METADATA FL_IGNORE) FL_RESUME)).
Proof. split; repeat eexists; (vm_compute; reflexivity). Qed.
(** frame/u24.rs:68-100 *)
Example test_u24 : U24_MIN = 0 /\ U24_MAX = 16777215 /\
  (exists u, u24_from_u32 U24_MAX = Ret u /\ u24_into_u32 u = U24_MAX) /\
  (exists u, u24_from_usize U24_MAX = Ret u /\ u24_into_usize u = U24_MAX) /\
  u24_from_u32 (U24_MAX + 1) = Panic /\ u24_from_usize (U24_MAX + 1) = Panic.
Proof. repeat split; repeat eexists; (vm_compute; reflexivity). Qed.
(** frame/flags.rs:223-255 *)
Example test_from_value : map ft_from_value [1; 2; 3; 4; 5; 6; 7; 8; 9; 10; 11; 12; 13; 14; 0x3F; 0] =
  map Some [FT_SETUP; FT_LEASE; FT_KEEPALIVE; FT_REQUEST_RESPONSE; FT_REQUEST_FNF; FT_REQUEST_STREAM; FT_REQUEST_CHANNEL;
    FT_REQUEST_N; FT_CANCEL; FT_PAYLOAD; FT_ERROR; FT_METADATA_PUSH; FT_RESUME; FT_RESUME_OK; FT_EXT] ++ [None].
Proof. reflexivity. Qed.
(** frame/flags.rs:258-317 *)
Example test_from_bits : map (fun n => ft_from_bits (N.shiftl n 10)) [1; 2; 3; 4; 5; 6; 7; 8; 9; 10; 11; 12; 13; 14; 0x3F; 0] =
  map Some [FT_SETUP; FT_LEASE; FT_KEEPALIVE; FT_REQUEST_RESPONSE; FT_REQUEST_FNF; FT_REQUEST_STREAM; FT_REQUEST_CHANNEL;
    FT_REQUEST_N; FT_CANCEL; FT_PAYLOAD; FT_ERROR; FT_METADATA_PUSH; FT_RESUME; FT_RESUME_OK; FT_EXT] ++ [None].
Proof. reflexivity. Qed.
(** frame/flags.rs:320-327 *)
Example test_value : ft_value FT_SETUP = 1 /\ ft_bits FT_SETUP = 2 ^ 10.
Proof. split; reflexivity. Qed.

(** ** payload.rs *)

Definition wide : payload := payload_run [PSetMetadata (txt "metadata"); PSetData (txt "data payload")].
(** payload.rs:249-280 *)
Example test_smoke : exists it, payload_chunks wide 4 = Ret it /\ fst (chunks_calls 5 it) =
  [Some (payload_run [PSetMetadata (txt "meta"); PSetData (txt "data")]);
   Some (payload_run [PSetMetadata (txt "data"); PSetData (txt " pay")]);
   Some (payload_run [PSetData (txt "load")]); None; None].
Proof. repeat eexists; (vm_compute; reflexivity). Qed.
(** payload.rs:283-304 *)
Definition len_of (p : payload) (n : N) : oc N :=
  match payload_chunks p n with Ret it => Ret (chunks_len it) | Panic => Panic | Loop => Loop end.
Example test_payload_chunks_len : len_of (payload_run []) 1 = Ret 0 /\
  map (len_of wide) [13; 12; 11; 10; 9; 8; 7; 6; 5; 4; 3; 2; 1] = map Ret [1; 1; 2; 2; 2; 2; 2; 2; 3; 3; 4; 6; 12].
Proof. split; vm_compute; reflexivity. Qed.

(** ** mimetype.rs:135-140, error.rs:281-289 *)

Example test_unparsable_mime_type : mime_from "unparsable" = M_UNPARSEABLE /\
  mime_into 1 (mime_from "unparsable") = Ret EmptyString.
Proof. split; reflexivity. Qed.
Example test_from_decode_error : er_kind (error_from_decode InComplete) = KDecode InComplete /\
  is_some (error_source (error_from_decode InComplete)) = true.
Proof. split; reflexivity. Qed.

(** ** connection/buf.rs *)

Definition hello_world : buf_list bytes := [txt "Hello"; txt " "; txt "World"].
Notation copy := (bl_copy_to_bytes flat 9).
(** buf.rs:150-178 *)
Example test_to_bytes_shorter : exists l, copy 4 hello_world = Ret (txt "Hell", l) /\ bl_chunk flat l = txt "o" /\ bl_remaining flat l = 7%nat.
Proof. repeat eexists; (vm_compute; reflexivity). Qed.
Example test_to_bytes_eq : exists l, copy 5 hello_world = Ret (txt "Hello", l) /\ bl_chunk flat l = txt " " /\ bl_remaining flat l = 6%nat.
Proof. repeat eexists; (vm_compute; reflexivity). Qed.
Example test_to_bytes_longer : exists l, copy 7 hello_world = Ret (txt "Hello W", l) /\ bl_remaining flat l = 4%nat.
Proof. repeat eexists; (vm_compute; reflexivity). Qed.
(** buf.rs:181-192 *)
Example test_one_long_buf : exists l l', bl_push flat Debug (txt "Hello World") bl_new = Ret l /\
  copy 5 l = Ret (txt "Hello", l') /\ bl_chunk flat l' = txt " World".
Proof. repeat eexists; (vm_compute; reflexivity). Qed.
Example test_buf_to_bytes_too_many : copy 42 hello_world = Panic.
Proof. reflexivity. Qed.
(** buf.rs:195-227 *)
Definition fragment (follows : bool) (m d : option string) : oc bytes :=
  match request_fnf_new Debug 1 follows (payload_new (option_map txt m) (option_map txt d)) with
  | Ret f => frame_to_bytes (FRequestFnf f)
  | Panic => Panic
  | Loop => Loop
  end.
Example test_try_into_payload : exists f1 f2 f3 l1 l2 l3 p,
  fragment true (Some "metadata 1 "%string) None = Ret f1 /\
  fragment true (Some "metadata 2 "%string) (Some "data 1 "%string) = Ret f2 /\
  fragment false None (Some "data 2 "%string) = Ret f3 /\
  bl_push flat Debug f1 bl_new = Ret l1 /\ bl_push flat Debug f2 l1 = Ret l2 /\ bl_push flat Debug f3 l2 = Ret l3 /\
  bl_try_into flat 0 l3 = DOk p /\
  payload_split p = (Some (txt "metadata 1 metadata 2 "), Some (txt "data 1 data 2 ")).
Proof. do 7 eexists. do 7 (split; [vm_compute; reflexivity|]). vm_compute. reflexivity. Qed.

(** ** connection/counter.rs:48-72 *)

Example test_counter : counter_load (counter_new 42) = 42%Z /\
  counter_run [CtDec; CtLoad] (counter_new 42) = ([CtCount 42; CtCount 41], 41)%Z /\
  counter_run [CtAdd 8; CtLoad] (counter_new 42) = ([CtUnit; CtCount 50], 50)%Z /\
  fst (counter_run [CtDec; CtIsZero] (counter_new 1)) = [CtCount 1; CtBool true]%Z.
Proof. repeat split; reflexivity. Qed.

(** ** connection/stream_id.rs *)

(** Two ids in a row with nobody else running. *)
Definition two_ids (st : store) (c : Z) : option (N * N) :=
  match next_stream_id 3 st c with
  | Ret (a, c') => match next_stream_id 3 st c' with Ret (b, _) => Some (a, b) | _ => None end
  | _ => None
  end.
(** stream_id.rs:61-98 *)
Example test_stream_ids :
  two_ids (fun _ => false) sid_new_for_client = Some (1, 3) /\
  two_ids (fun _ => false) sid_new_for_server = Some (2, 4) /\
  two_ids (fun k => k =? 3) sid_new_for_client = Some (1, 5) /\
  two_ids (fun _ => false) (sid_new (2 ^ 31 - 1)) = Some (Z.to_N STREAM_ID_MASK, 1) /\
  two_ids (fun _ => false) (sid_new (-1)) = Some (Z.to_N STREAM_ID_MASK, 1).
Proof. repeat split; reflexivity. Qed.

From Verif Require Import Spec.Socket Props.SocketProps.

(** stream_id.rs:105-131, run by [loom] over the interleavings of two threads and the main one:
    here any number of threads and any schedule in which four calls have obtained their id,
    compared with one in which thread 0 makes them one after the other. *)
Definition loom_store (k : N) : bool := (k =? 4) || (k =? 8).
Definition loom_turns : list action :=
  Call 0 (Payload None None) :: repeat (Run 0) 4 ++ Call 0 (Payload None None) :: repeat (Run 0) 6 ++
  Call 0 (Payload None None) :: repeat (Run 0) 6 ++ Call 0 (Payload None None) :: repeat (Run 0) 4.
Definition loom_conn : connection unit unit := Connection (fun s _ => (s, None)) (fun s _ => (s, None)) (fun s => s).
Local Notation loom_run := (exec loom_conn Debug None loom_turns (config_init sid_new_for_server loom_store tt)).
Lemma loom_quiet : forall t, searching t (fst loom_run) = false.
Proof. intros [|t]; (vm_compute; reflexivity). Qed.
Lemma loom_four : List.length (alloc_ids (fst loom_run)) = 4%nat.
Proof. vm_compute. reflexivity. Qed.
Lemma loom_counter : cf_counter (snd loom_run) = 14%Z.
Proof. vm_compute. reflexivity. Qed.
Example test_assert_thread_safe : forall (S E : Type) (cn : connection S E) bd conn0 acts,
  let r := exec cn bd None acts (config_init sid_new_for_server loom_store conn0) in
  store_fixed acts -> (forall t, searching t (fst r) = false) -> List.length (alloc_ids (fst r)) = 4%nat ->
  exists c', next_stream_id 1 loom_store (cf_counter (snd r)) = Ret (14, c').
Proof.
  intros S E cn bd conn0 acts r Fx Ns L.
  assert (F1 : store_fixed loom_turns) by (intros k; split; cbn; intuition discriminate).
  destruct (C73_same _ _ _ _ cn loom_conn bd Debug None None sid_new_for_server loom_store conn0 tt acts loom_turns
    ltac:(discriminate) ltac:(discriminate) Fx F1 Ns loom_quiet (eq_trans L (eq_sym loom_four))) as (_ & _ & Ec).
  exists 16%Z. unfold r. rewrite Ec, loom_counter. reflexivity.
Qed.
