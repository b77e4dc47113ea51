(** * binate/src/mimetype.rs *)

From Verif Require Export Model.Types.

(** [From<&str> for WellKnownMimeType], mimetype.rs:64-118. *)
Definition mime_from (v : string) : mime :=
  (
  if v =? "application/avro" then M_APPLICATION_AVRO else
  if v =? "application/cbor" then M_APPLICATION_CBOR else
  if v =? "application/graphql" then M_APPLICATION_GRAPHQL else
  if v =? "application/gzip" then M_APPLICATION_GZIP else
  if v =? "application/javascript" then M_APPLICATION_JAVASCRIPT else
  if v =? "application/json" then M_APPLICATION_JSON else
  if v =? "application/octet-stream" then M_APPLICATION_OCTET_STREAM else
  if v =? "application/pdf" then M_APPLICATION_PDF else
  if v =? "application/vnd.apache.thrift.binary" then M_APPLICATION_VND_APACHE_THRIFT_BINARY else
  if v =? "application/vnd.google.protobuf" then M_APPLICATION_VND_GOOGLE_PROTOBUF else
  if v =? "application/xml" then M_APPLICATION_XML else
  if v =? "application/zip" then M_APPLICATION_ZIP else
  if v =? "audio/aac" then M_AUDIO_AAC else
  if v =? "audio/mp3" then M_AUDIO_MP3 else
  if v =? "audio/mp4" then M_AUDIO_MP4 else
  if v =? "audio/mpeg3" then M_AUDIO_MPEG3 else
  if v =? "audio/mpeg" then M_AUDIO_MPEG else
  if v =? "audio/ogg" then M_AUDIO_OGG else
  if v =? "audio/opus" then M_AUDIO_OPUS else
  if v =? "audio/vorbis" then M_AUDIO_VORBIS else
  if v =? "image/bmp" then M_IMAGE_BMP else
  if v =? "image/gif" then M_IMAGE_GIF else
  if v =? "image/heic-sequence" then M_IMAGE_HEIC_SEQUENCE else
  if v =? "image/heic" then M_IMAGE_HEIC else
  if v =? "image/heif-sequence" then M_IMAGE_HEIF_SEQUENCE else
  if v =? "image/heif" then M_IMAGE_HEIF else
  if v =? "image/jpeg" then M_IMAGE_JPEG else
  if v =? "image/png" then M_IMAGE_PNG else
  if v =? "image/tiff" then M_IMAGE_TIFF else
  if v =? "multipart/mixed" then M_MULTIPART_MIXED else
  if v =? "text/css" then M_TEXT_CSS else
  if v =? "text/csv" then M_TEXT_CSV else
  if v =? "text/html" then M_TEXT_HTML else
  if v =? "text/plain" then M_TEXT_PLAIN else
  if v =? "text/xml" then M_TEXT_XML else
  if v =? "video/H264" then M_VIDEO_H264 else
  if v =? "video/H265" then M_VIDEO_H265 else
  if v =? "video/VP8" then M_VIDEO_VP8 else
  if v =? "application/x-hessian" then M_APPLICATION_X_HESSIAN else
  if v =? "application/x-java-object" then M_APPLICATION_X_JAVA_OBJECT else
  if v =? "application/cloudevents+json" then M_APPLICATION_CLOUDEVENTS_JSON else
  if v =? "message/x.rsocket.mime.type.v0" then M_MESSAGE_X_RSOCKET_MIME_TYPE_V0 else
  if v =? "message/x.rsocket.accept.time.types.v0" then M_MESSAGE_X_RSOCKET_ACCEPT_TIME_TYPES_V0 else
  if v =? "message/x.rsocket.authentication.v0" then M_MESSAGE_X_RSOCKET_AUTHENTICATION_V0 else
  if v =? "message/x.rsocket.tracing.zipkin.v0" then M_MESSAGE_X_RSOCKET_TRACING_ZIPKIN_V0 else
  if v =? "message/x.rsocket.routing.v0" then M_MESSAGE_X_RSOCKET_ROUTING_V0 else
  if v =? "message/x.rsocket.composite.metadata.v0" then M_MESSAGE_X_RSOCKET_COMPOSITE_METADATA_V0 else
  M_UNPARSEABLE)%string.

(** [PartialEq for WellKnownMimeType] (derived), mimetype.rs:11. *)
Definition mime_eq_dec (a b : mime) : {a = b} + {a <> b}.
Proof. decide equality. Defined.

(** [From<WellKnownMimeType> for &'static str], mimetype.rs:120-128.  [t.into()] is this
    same conversion through the blanket [Into] implementation; out of [fuel] is [Loop]. *)
Fixpoint mime_into (fuel : nat) (t : mime) : oc string :=
  match fuel with
  | O => Loop
  | S fuel' => if mime_eq_dec t M_UNPARSEABLE then Ret EmptyString else mime_into fuel' t
  end.
