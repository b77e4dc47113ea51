(** * Specification of what a panic says

    Independent of the model: uses only its data types. *)

From Verif Require Export Model.MessageTypes Spec.Codec.
Local Open Scope string_scope.

(** The limits of integer arguments. *)
Inductive limit : Set := Below31 | Below63 | NotZero.
Definition breaks (x : limit) (v : N) : Prop :=
  match x with Below31 => (2 ^ 31 <= v)%N | Below63 => (2 ^ 63 <= v)%N | NotZero => v = 0%N end.
Definition rule_text (x : limit) : string :=
  match x with
  | Below31 => "<= MAX_U31 (0x7FFFFFFF)"
  | Below63 => "<= MAX_U63 (0x7FFF_FFFF_FFFF_FFFF)"
  | NotZero => "non-zero"
  end.
(** The limited arguments of the constructors and of the builder of SETUP, by the names they have in the code, in order. *)
Definition limited (c : api_call) : list (string * N * limit) :=
  match c with
  | NewRequestResponse sid _ _ | NewRequestFnf sid _ _ | NewPayload sid _ _ | NewCancel sid => [("stream_id", sid, Below31)]
  | NewRequestStream sid _ n _ | NewRequestChannel sid _ _ n _ =>
      [("stream_id", sid, Below31); ("initial_request_n", n, Below31); ("initial_request_n", n, NotZero)]
  | NewRequestN sid n => [("stream_id", sid, Below31); ("request_n", n, Below31); ("request_n", n, NotZero)]
  | NewError sid code _ => [("stream_id", sid, Below31); ("error_code", code, Below31)]
  | NewLease ttl n _ => [("ttl", ttl, Below31); ("number_of_requests", n, Below31)]
  | NewKeepalive pos _ _ => [("last_received_position", pos, Below63)]
  | NewResume _ _ a b => [("last_received_server_position", a, Below63); ("first_available_client_position", b, Below63)]
  | NewResumeOk a => [("last_received_client_position", a, Below63)]
  | BuildSetup _ (SetKeepaliveInterval n) => [("interval", n, Below31)]
  | BuildSetup _ (SetKeepaliveTimeout n) => [("timeout", n, Below31)]
  | _ => []
  end.

(** The other calls that panic, when, and what they say: the same in both builds but for the list. *)
Inductive complains : build -> api_call -> string -> Prop :=
| Says_token : forall bd b t, (2 ^ 16 <= size t)%N ->
    complains bd (BuildSetup b (SetResumeToken t)) "assertion failed: token.len() <= 65_535"
| Says_metadata_mimetype : forall bd b m, (256 < size m)%N ->
    complains bd (BuildSetup b (SetMetadataMimetype m)) "assertion failed: mimetype.len() <= 256"
| Says_data_mimetype : forall bd b m, (256 < size m)%N ->
    complains bd (BuildSetup b (SetDataMimetype m)) "assertion failed: mimetype.len() <= 256"
| Says_u32 : forall bd v, (2 ^ 24 <= v)%N -> complains bd (U24FromU32 v) "assertion failed: val <= U24::MAX"
| Says_usize : forall bd v, (2 ^ 24 <= v)%N -> complains bd (U24FromUsize v) "assertion failed: val <= U24::MAX as usize"
| Says_chunks : forall bd p, complains bd (PayloadChunks p 0) "assertion failed: chunk_size != 0"
| Says_push : forall l, complains Debug (ListPush l []) "assertion failed: buf.has_remaining()"
| Says_copy : forall bd l n, (length (concat l) < n)%nat -> complains bd (ListCopy l n) "`len` greater than remaining"
| Says_encode : forall bd f p, payload_of f = Some p -> (2 ^ 24 <= size (part (p_metadata p)))%N ->
    complains bd (FrameEncode f) "assertion failed: val <= U24::MAX as usize"
| Says_decode : forall bd input sid w, has_header input sid 0x3F w -> complains bd (FrameDecode input) "not implemented".

(** What the panic of a limited argument says. *)
Definition limit_text (arg : string) (x : limit) : string := arg ++ " MUST be " ++ rule_text x.
(** The first argument that breaks a limit. *)
Definition first_broken (c : api_call) (arg : string) (x : limit) : Prop :=
  exists pre v post, limited c = (pre ++ (arg, v, x) :: post)%list /\ breaks x v /\
    Forall (fun l => ~ breaks (snd l) (snd (fst l))) pre.

(** An identifier has no space. *)
Definition identifier (s : string) : Prop := forall a b, s <> a ++ " " ++ b.
