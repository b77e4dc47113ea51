(** * Specification of the MIME type table

    Independent of the model: uses only its data types. *)

From Verif Require Export Model.Types.

(** The registered names of the well-known MIME types. *)
Definition mime_table : list (string * mime) :=
  [
   ("application/avro", M_APPLICATION_AVRO);
   ("application/cbor", M_APPLICATION_CBOR);
   ("application/graphql", M_APPLICATION_GRAPHQL);
   ("application/gzip", M_APPLICATION_GZIP);
   ("application/javascript", M_APPLICATION_JAVASCRIPT);
   ("application/json", M_APPLICATION_JSON);
   ("application/octet-stream", M_APPLICATION_OCTET_STREAM);
   ("application/pdf", M_APPLICATION_PDF);
   ("application/vnd.apache.thrift.binary", M_APPLICATION_VND_APACHE_THRIFT_BINARY);
   ("application/vnd.google.protobuf", M_APPLICATION_VND_GOOGLE_PROTOBUF);
   ("application/xml", M_APPLICATION_XML);
   ("application/zip", M_APPLICATION_ZIP);
   ("audio/aac", M_AUDIO_AAC);
   ("audio/mp3", M_AUDIO_MP3);
   ("audio/mp4", M_AUDIO_MP4);
   ("audio/mpeg3", M_AUDIO_MPEG3);
   ("audio/mpeg", M_AUDIO_MPEG);
   ("audio/ogg", M_AUDIO_OGG);
   ("audio/opus", M_AUDIO_OPUS);
   ("audio/vorbis", M_AUDIO_VORBIS);
   ("image/bmp", M_IMAGE_BMP);
   ("image/gif", M_IMAGE_GIF);
   ("image/heic-sequence", M_IMAGE_HEIC_SEQUENCE);
   ("image/heic", M_IMAGE_HEIC);
   ("image/heif-sequence", M_IMAGE_HEIF_SEQUENCE);
   ("image/heif", M_IMAGE_HEIF);
   ("image/jpeg", M_IMAGE_JPEG);
   ("image/png", M_IMAGE_PNG);
   ("image/tiff", M_IMAGE_TIFF);
   ("multipart/mixed", M_MULTIPART_MIXED);
   ("text/css", M_TEXT_CSS);
   ("text/csv", M_TEXT_CSV);
   ("text/html", M_TEXT_HTML);
   ("text/plain", M_TEXT_PLAIN);
   ("text/xml", M_TEXT_XML);
   ("video/H264", M_VIDEO_H264);
   ("video/H265", M_VIDEO_H265);
   ("video/VP8", M_VIDEO_VP8);
   ("application/x-hessian", M_APPLICATION_X_HESSIAN);
   ("application/x-java-object", M_APPLICATION_X_JAVA_OBJECT);
   ("application/cloudevents+json", M_APPLICATION_CLOUDEVENTS_JSON);
   ("message/x.rsocket.mime.type.v0", M_MESSAGE_X_RSOCKET_MIME_TYPE_V0);
   ("message/x.rsocket.accept.time.types.v0", M_MESSAGE_X_RSOCKET_ACCEPT_TIME_TYPES_V0);
   ("message/x.rsocket.authentication.v0", M_MESSAGE_X_RSOCKET_AUTHENTICATION_V0);
   ("message/x.rsocket.tracing.zipkin.v0", M_MESSAGE_X_RSOCKET_TRACING_ZIPKIN_V0);
   ("message/x.rsocket.routing.v0", M_MESSAGE_X_RSOCKET_ROUTING_V0);
   ("message/x.rsocket.composite.metadata.v0", M_MESSAGE_X_RSOCKET_COMPOSITE_METADATA_V0)
  ]%string.
