(** * Data types of the model

    Only data: the Rust structs and enums, with no behaviour.  Both the model
    ([Model/*.v]) and the independent specifications ([Spec/*.v]) use them. *)

From Coq Require Export String.
From Coq Require Export List NArith ZArith Bool Lia.
From Coq Require Init.Byte Strings.Byte.
Export ListNotations.
Open Scope list_scope.
Open Scope N_scope.

(** The element type of [Bytes], [BytesMut] and [&[u8]] ([bytes] crate). *)
Notation byte := Coq.Init.Byte.byte.
Definition bytes : Set := list byte.

(** Cargo profile: [Debug] = debug assertions on, [Release] = off.
    Decides what [debug_assert!] does
    (binate/src/frame/codec/mod.rs:5-21, binate/src/connection/buf.rs:23). *)
Inductive build : Set := Debug | Release.

(** Outcome of an operation that may panic or fail to terminate. *)
Inductive oc (A : Type) : Type :=
| Ret (a : A)
| Panic
| Loop.            (* iteration budget exhausted *)
Arguments Ret {A} a.
Arguments Panic {A}.
Arguments Loop {A}.

(** [DecodeError], binate/src/frame/decode.rs:20-34. *)
Inductive decode_error : Set :=
| InComplete
| UnrecognizedFrameType (v : N)
| InvalidStreamId (expected : string) (found : N).

(** Outcome of a decoding step: [Result<A, DecodeError>], a panic, or divergence. *)
Inductive dres (A : Type) : Type :=
| DOk (a : A)
| DErr (e : decode_error)
| DPanic
| DLoop.
Arguments DOk {A} a.
Arguments DErr {A} e.
Arguments DPanic {A}.
Arguments DLoop {A}.

(** Outcome of [Encode::encode(&self, buf: &mut BytesMut)]: the buffer after a
    normal return, or the buffer contents at the moment of a panic. *)
Inductive eres : Set :=
| EOk (buf : bytes)
| EPanic (buf : bytes).

(** [FrameType], binate/src/frame/flags.rs:6-37. *)
Inductive frame_type : Set :=
| FT_SETUP | FT_LEASE | FT_KEEPALIVE | FT_REQUEST_RESPONSE | FT_REQUEST_FNF
| FT_REQUEST_STREAM | FT_REQUEST_CHANNEL | FT_REQUEST_N | FT_CANCEL | FT_PAYLOAD
| FT_ERROR | FT_METADATA_PUSH | FT_RESUME | FT_RESUME_OK | FT_EXT.

(** [U24(u8, u16)], binate/src/frame/u24.rs:7. *)
Record u24 : Set := U24 { u24_hi : N; u24_lo : N }.

(** [Version], binate/src/frame/version.rs:8-11. *)
Record version : Set := Version { v_major : N; v_minor : N }.

(** [Payload], binate/src/payload.rs:28-31. *)
Record payload : Set := Payload { p_metadata : option bytes; p_data : option bytes }.

(** [Flags] is a [bitflags] struct over [u16] (binate/src/frame/flags.rs:156):
    its bits, as a number. *)
Definition flags : Set := N.

(** [SetupFrame], binate/src/frame/codec/setup.rs:39-48.
    [SetupFrameBuilder] (setup.rs:225-234) has the same fields in the same order. *)
Record setup_frame : Set := SetupFrame {
  sf_flags : flags;
  sf_version : version;
  sf_keepalive_interval : N;
  sf_keepalive_timeout : N;
  sf_resume_token : option bytes;
  sf_metadata_mimetype : bytes;
  sf_data_mimetype : bytes;
  sf_payload : payload }.

(** [ErrorFrame], binate/src/frame/codec/error.rs:36-40. *)
Record error_frame : Set := ErrorFrame {
  ef_stream_id : N; ef_code : N; ef_data : option bytes }.

(** [LeaseFrame], binate/src/frame/codec/lease.rs:29-33. *)
Record lease_frame : Set := LeaseFrame {
  lf_ttl : N; lf_number_of_requests : N; lf_metadata : option bytes }.

(** [KeepaliveFrame], binate/src/frame/codec/keepalive.rs:25-29. *)
Record keepalive_frame : Set := KeepaliveFrame {
  kf_respond : bool; kf_last_received_position : N; kf_data : option bytes }.

(** [RequestResponseFrame], binate/src/frame/codec/request_response.rs:21-25. *)
Record request_response_frame : Set := RequestResponseFrame {
  rr_stream_id : N; rr_flags : flags; rr_payload : payload }.

(** [RequestFnfFrame], binate/src/frame/codec/request_fnf.rs:21-25. *)
Record request_fnf_frame : Set := RequestFnfFrame {
  fnf_stream_id : N; fnf_flags : flags; fnf_payload : payload }.

(** [RequestStreamFrame], binate/src/frame/codec/request_stream.rs:23-28. *)
Record request_stream_frame : Set := RequestStreamFrame {
  rs_stream_id : N; rs_flags : flags; rs_initial_request_n : N; rs_payload : payload }.

(** [RequestChannelFrame], binate/src/frame/codec/request_channel.rs:23-28. *)
Record request_channel_frame : Set := RequestChannelFrame {
  rc_stream_id : N; rc_flags : flags; rc_initial_request_n : N; rc_payload : payload }.

(** [RequestNFrame], binate/src/frame/codec/request_n.rs:22-25. *)
Record request_n_frame : Set := RequestNFrame { rn_stream_id : N; rn_request_n : N }.

(** [CancelFrame], binate/src/frame/codec/cancel.rs:20-22. *)
Record cancel_frame : Set := CancelFrame { cf_stream_id : N }.

(** [PayloadFrame], binate/src/frame/codec/payload.rs:21-25. *)
Record payload_frame : Set := PayloadFrame {
  pf_stream_id : N; pf_flags : flags; pf_payload : payload }.

(** [MetadataPushFrame], binate/src/frame/codec/metadata_push.rs:24-26. *)
Record metadata_push_frame : Set := MetadataPushFrame { mp_metadata : bytes }.

(** [ResumeFrame], binate/src/frame/codec/resume.rs:32-37. *)
Record resume_frame : Set := ResumeFrame {
  rf_version : version;
  rf_resume_token : bytes;
  rf_last_received_server_position : N;
  rf_first_available_client_position : N }.

(** [ResumeOkFrame], binate/src/frame/codec/resume_ok.rs:24-26. *)
Record resume_ok_frame : Set := ResumeOkFrame { ro_last_received_client_position : N }.

(** [Frame], binate/src/frame/mod.rs:34-63. *)
Inductive frame : Set :=
| FSetup (v : setup_frame)
| FError (v : error_frame)
| FLease (v : lease_frame)
| FKeepalive (v : keepalive_frame)
| FRequestResponse (v : request_response_frame)
| FRequestFnf (v : request_fnf_frame)
| FRequestStream (v : request_stream_frame)
| FRequestChannel (v : request_channel_frame)
| FRequestN (v : request_n_frame)
| FCancel (v : cancel_frame)
| FPayload (v : payload_frame)
| FMetadataPush (v : metadata_push_frame)
| FResume (v : resume_frame)
| FResumeOk (v : resume_ok_frame).

(** ** API call histories *)

(** The builder methods, setup.rs:253-357, one constructor per method. *)
Inductive setup_call : Set :=
| SetResumeFlag
| SetLeaseFlag
| SetVersion (major minor : N)
| SetKeepaliveInterval (interval : N)
| SetKeepaliveTimeout (timeout : N)
| SetResumeToken (token : bytes)
| SetMetadataMimetype (mimetype : bytes)   (* the UTF-8 bytes of the String *)
| SetDataMimetype (mimetype : bytes)
| SetMetadata (metadata : bytes)
| SetData (data : bytes).

(** The methods of [PayloadBuilder], binate/src/payload.rs:143-158. *)
Inductive payload_call : Set := PSetData (d : bytes) | PSetMetadata (m : bytes).

(** An operation of a caller on a [BufList] and its result, for histories
    (binate/src/connection/buf.rs:22-25,66-89,108-128). *)
Inductive buf_op (T : Type) : Type :=
| OpPush (b : T)
| OpRemaining
| OpAdvance (n : nat)
| OpCopy (n : nat).
Arguments OpPush {T}.
Arguments OpRemaining {T}.
Arguments OpAdvance {T}.
Arguments OpCopy {T}.
Inductive buf_res : Set :=
| ResUnit
| ResNum (n : nat)
| ResBytes (b : bytes)
| ResPanic
| ResLoop.

(** Operations on a [RequestCounter] and their results
    (binate/src/connection/counter.rs:16-33). *)
Inductive counter_op : Set := CtDec | CtAdd (n : N) | CtIsZero | CtLoad.
Inductive counter_res : Set := CtCount (v : Z) | CtUnit | CtBool (b : bool).

(** [Role], binate/src/connection/socket.rs:21-25. *)
Inductive role : Set := Client | Server.

(** [ConnectionStatus], binate/src/connection/conn.rs:39-50. *)
Inductive connection_status : Set :=
| Unconnected | Connecting | Connected | Closed | StatusError (msg : string).

(** What a background task does to the outside: an [error!] line, [connection.close()]. *)
Inductive effect : Set := Logged (text : string) | ConnClose.

(** ** Executions of several threads on one machine (Model/SocketM.v) *)

(** The operations of a [DuplexConnection] the machine uses, on its state
    (binate/src/connection/conn.rs:9-36): the state afterwards and the answer, [None] for
    [Ok(())] and [Some e] for [Err(e)]; that of [send] is what its future gives. *)
Record connection (S E : Type) : Type := Connection {
  cn_send_and_forget : S -> frame -> S * option E;
  cn_send : S -> frame -> S * option E;
  cn_close : S -> S }.
Arguments Connection {S E}. Arguments cn_send_and_forget {S E}.
Arguments cn_send {S E}. Arguments cn_close {S E}.

(** What a scheduler picks: a thread starts a [fire_and_forget], a thread takes one step, a
    thread calls [metadata_push], somebody closes the connection, other code changes the store, or
    a thread calls one of the three methods that are not implemented. *)
Inductive action : Set :=
| Call (t : nat) (p : payload)
| Run (t : nat)
| Push (t : nat) (metadata : bytes)
| Close
| Insert (k : N)
| Remove (k : N)
| Request (t : nat).

(** What can be observed: an increment of the provider and the id it gave, an id
    found free or taken, a frame handed over and the answer, the end of a call; the
    frame of a [metadata_push] and its answer, [close], the panic of an unimplemented method. *)
Inductive event (E : Type) : Type :=
| EvDraw (t : nat) (sid : N)
| EvAlloc (t : nat) (sid : N) (p : payload)
| EvBusy (t : nat) (sid : N)
| EvSend (t : nat) (f : frame) (r : option E)
| EvReturn (t : nat) (sid : N)
| EvPanic (t : nat)
| EvPush (t : nat) (f : frame) (r : option E)
| EvClose
| EvMissing (t : nat).
Arguments EvDraw {E}. Arguments EvAlloc {E}. Arguments EvBusy {E}.
Arguments EvSend {E}. Arguments EvReturn {E}. Arguments EvPanic {E}.
Arguments EvPush {E}. Arguments EvClose {E}. Arguments EvMissing {E}.

(** ** Executions of a machine with its two tasks (Model/SystemM.v) *)

(** What a scheduler picks: a step of the threads, time passes, the keepalive watchdog
    runs, the status listener runs. *)
Inductive sys_action : Set :=
| SysAct (a : action)
| SysElapse (d : N)
| SysWatch
| SysListen.

(** What can be observed: an event of the threads; a line logged and the close by the watchdog; the
    status the listener is given, [None] if the stream ends, and a line it logs. *)
Inductive sys_event (E : Type) : Type :=
| SysEv (e : event E)
| SysWatchLog (text : string)
| SysWatchClose
| SysStatus (s : option connection_status)
| SysListenLog (text : string).
Arguments SysEv {E}. Arguments SysWatchLog {E}. Arguments SysWatchClose {E}.
Arguments SysStatus {E}. Arguments SysListenLog {E}.

(** ** Errors and MIME types *)

(** [WellKnownMimeType], binate/src/mimetype.rs:12-61; the constructor names get a prefix [M_]. *)
Inductive mime : Set :=
| M_UNPARSEABLE | M_APPLICATION_AVRO | M_APPLICATION_CBOR | M_APPLICATION_GRAPHQL
| M_APPLICATION_GZIP | M_APPLICATION_JAVASCRIPT | M_APPLICATION_JSON
| M_APPLICATION_OCTET_STREAM | M_APPLICATION_PDF
| M_APPLICATION_VND_APACHE_THRIFT_BINARY | M_APPLICATION_VND_GOOGLE_PROTOBUF
| M_APPLICATION_XML | M_APPLICATION_ZIP | M_AUDIO_AAC | M_AUDIO_MP3 | M_AUDIO_MP4
| M_AUDIO_MPEG3 | M_AUDIO_MPEG | M_AUDIO_OGG | M_AUDIO_OPUS | M_AUDIO_VORBIS
| M_IMAGE_BMP | M_IMAGE_GIF | M_IMAGE_HEIC_SEQUENCE | M_IMAGE_HEIC
| M_IMAGE_HEIF_SEQUENCE | M_IMAGE_HEIF | M_IMAGE_JPEG | M_IMAGE_PNG | M_IMAGE_TIFF
| M_MULTIPART_MIXED | M_TEXT_CSS | M_TEXT_CSV | M_TEXT_HTML | M_TEXT_PLAIN | M_TEXT_XML
| M_VIDEO_H264 | M_VIDEO_H265 | M_VIDEO_VP8 | M_APPLICATION_X_HESSIAN
| M_APPLICATION_X_JAVA_OBJECT | M_APPLICATION_CLOUDEVENTS_JSON
| M_MESSAGE_X_RSOCKET_MIME_TYPE_V0 | M_MESSAGE_X_RSOCKET_ACCEPT_TIME_TYPES_V0
| M_MESSAGE_X_RSOCKET_AUTHENTICATION_V0 | M_MESSAGE_X_RSOCKET_TRACING_ZIPKIN_V0
| M_MESSAGE_X_RSOCKET_ROUTING_V0 | M_MESSAGE_X_RSOCKET_COMPOSITE_METADATA_V0.

(** [Kind], binate/src/error.rs:26-44. *)
Inductive kind : Set :=
| KDecode (e : decode_error)
| KInvalidSetup | KUnsupportedSetup | KRejectedSetup | KRejectedResume | KConnectionError
| KConnectionClose | KApplicationError | KRejected | KCanceled | KInvalid
| KIo.
(** [Code], binate/src/error.rs:66-102. *)
Inductive code : Set :=
| CInvalidSetup | CUnsupportedSetup | CRejectedSetup | CRejectedResume | CConnectionError
| CConnectionClose | CApplicationError | CRejected | CCanceled | CInvalid.
(** [Error] and [ErrorImpl], binate/src/error.rs:13-22.  A source is a boxed trait
    object of which the code only uses the displayed text: it is that text. *)
Record error : Set := Error { er_kind : kind; er_source : option string }.

(** [core::str::Utf8Error]: how many bytes before the fault are text, and how many bytes
    the fault spans, if the input does not just end too early. *)
Record utf8_error : Set := Utf8Error { ue_valid_up_to : nat; ue_error_len : option nat }.

(** ** The [Buf] trait

    Required methods plus [copy_to_bytes], which both [Bytes] and [BufList]
    override, and [chunks_vectored], which [BufList] overrides.  [b_vectored n] gives
    the slices written when the destination has [n] slots: how many there are is
    the number returned. *)
Record buf_ops (B : Type) : Type := BufOps {
  b_remaining : B -> nat;
  b_chunk : B -> bytes;
  b_advance : nat -> B -> oc B;
  b_copy_to_bytes : nat -> B -> oc (bytes * B);
  b_vectored : nat -> B -> list bytes }.
Arguments BufOps {B}.
Arguments b_remaining {B}.
Arguments b_chunk {B}.
Arguments b_advance {B}.
Arguments b_copy_to_bytes {B}.
Arguments b_vectored {B}.
