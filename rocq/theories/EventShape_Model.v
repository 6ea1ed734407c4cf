(** Turning events into messages and messages into events:
    packages/smithy-aws-event-stream/src/smithy_aws_event_stream/_private/
    serializers.py (cited as S), deserializers.py (cited as D), __init__.py (cited
    as I), with the generated union and structure classes that drive them
    (codegen/core/.../UnionGenerator.java lines 73-190, StructureGenerator.java). *)
From Verif Require Import Base Utf8_Model PyDict_Model EventStream_Model EventIO_Model.
Local Open Scope N_scope.

(** The target type of a member.  [TOther] stands for the types that are not
    written to a header (floats, big numbers, documents, lists, maps, structures). *)
Inductive mtype := TBool | TByte | TShort | TInteger | TIntEnum | TLong | TString | TEnum | TBlob | TTimestamp | TOther.
Definition is_raw (t : mtype) : bool := match t with TBlob | TString => true | _ => false end.

(** A member schema: name, target type, eventHeader, eventPayload, mediaType. *)
Record member := mkMember { mb_name : text; mb_type : mtype; mb_header : bool; mb_payload : bool; mb_media : option text }.
(** A structure schema: its members in order, whether it has the error trait. *)
Record shape := mkShape { sh_members : list member; sh_error : bool }.

(** Values of members.  Simplification: a timestamp is a whole number of
    milliseconds, as in [hvalue]; [VOther] holds a value of any other type. *)
Inductive value (V : Type) := VBool (b : bool) | VInt (z : Z) | VText (t : text) | VBlob (b : bytes) | VTime (ms : Z) | VOther (v : V).
Arguments VBool {V}. Arguments VInt {V}. Arguments VText {V}. Arguments VBlob {V}. Arguments VTime {V}. Arguments VOther {V}.

(** I 6-7 *)
Definition INITIAL_REQUEST : text := lit "initial-request".
Definition INITIAL_RESPONSE : text := lit "initial-response".
(** I 10-14 *)
Definition get_payload_member (sh : shape) : option member := find mb_payload (sh_members sh).

Section Events.
  Context {V : Type}.
  Notation writes := (list (member * value V)).

  (** The payload codec: its media type; the bytes it writes for members given to it
      inside [begin_struct] of a structure, or directly; what its deserializer
      gives to the consumer of a structure, for one value, and for the consumer of
      the union itself (the variant set, if any). *)
  Variable media_type : text.
  Variable codec_struct : shape -> writes -> result bytes.
  Variable codec_value : writes -> result bytes.
  Variable codec_read_struct : shape -> bytes -> result writes.
  Variable codec_read_value : member -> bytes -> result (value V).

  (** S 117-150: [EventHeaderSerializer].  The generated code calls the method of the
      target's type (an enum is written as a string, an intEnum as an integer); a
      value of another type is not given to it. *)
  Definition header_of (m : member) (v : value V) : result hvalue :=
    match mb_type m, v with
    | TBool, VBool b => Ok (HBool b)
    | TByte, VInt z => Ok (HByte z)
    | TShort, VInt z => Ok (HShort z)
    | TInteger, VInt z | TIntEnum, VInt z => Ok (HInt z)
    | TLong, VInt z => Ok (HLong z)
    | TString, VText s | TEnum, VText s => Ok (HString s)
    | TBlob, VBlob b => Ok (HBlob b)
    | TTimestamp, VTime ms => Ok (HTimestamp ms)
    | TOther, _ => Err InvalidHeaderValue
    | _, _ => Err TypeError
    end.
  (** S 173-176: the members with the eventHeader trait go to the header serializer,
      one after the other *)
  Fixpoint write_headers (ws : writes) (hs : headers) : result headers :=
    match ws with
    | [] => Ok hs
    | (m, v) :: r =>
      if mb_header m then do h <- header_of m v; write_headers r (dict_set (mb_name m) h hs)
      else write_headers r hs
    end.
  (** ... and the others to the payload serializer *)
  Definition body_writes (ws : writes) : writes := filter (fun mv => negb (mb_header (fst mv))) ws.
  (** S 153-161: [RawPayloadSerializer] *)
  Definition raw_write (mv : member * value V) : result bytes :=
    match mb_type (fst mv), snd mv with
    | TString, VText s | TEnum, VText s => utf8_encode s
    | TBlob, VBlob b => Ok b
    | _, _ => Err SmithyErr
    end.
  Fixpoint raw_writes (ws : writes) : result bytes :=
    match ws with
    | [] => Ok []
    | mv :: r => do b <- raw_write mv; do bs <- raw_writes r; Ok (b ++ bs)
    end.

  (** S 104-114: [_get_payload_media_type] *)
  Definition payload_media_type (pm : member) : text :=
    match mb_media pm with
    | Some t => t
    | None => match mb_type pm with TString => lit "text/plain" | TBlob => lit "application/octet-stream" | _ => media_type end
    end.

  (** S 65-78: the headers that tell what the message is *)
  Definition type_headers (client : bool) (name : option text) (sh : shape) : result headers :=
    if sh_error sh then
      match name with
      | None => Err ExpectationNotMet
      | Some n => Ok [(lit ":message-type", HString (lit "exception")); (lit ":exception-type", HString n)]
      end
    else
      Ok [(lit ":message-type", HString (lit "event"));
          (lit ":event-type", HString (match name with
                                       | None => if client then INITIAL_REQUEST else INITIAL_RESPONSE
                                       | Some n => n end))].

  (** S 52-102: [begin_struct] of the member of the union, or of the operation's
      input or output ([name] is None), with what [serialize_members] writes inside.
      Simplification: the header writes are done before the payload writes (they do
      not share anything but the exception that comes first). *)
  Definition serialize_event (client : bool) (name : option text) (sh : shape) (ws : writes) : result message :=
    do hs0 <- type_headers client name sh;
    do hs <- write_headers ws hs0;
    do '(payload, media) <-
      match get_payload_member sh with
      | Some pm =>
        do b <- (if is_raw (mb_type pm) then raw_writes (body_writes ws) else codec_value (body_writes ws));
        Ok (b, payload_media_type pm)
      | None => do b <- codec_struct sh (body_writes ws); Ok (b, media_type)
      end;
    let hs := match payload with [] => hs | _ => dict_set (lit ":content-type") (HString media) hs end in
    mk_event_message hs payload.

  (** D 151-181: [EventHeaderDeserializer], called with the method of the target's
      type.  [bool] is a subclass of [int]. *)
  Definition read_header (m : member) (h : hvalue) : result (value V) :=
    match mb_type m, h with
    | TBool, HBool b => Ok (VBool b)
    | (TByte | TShort | TInteger | TIntEnum | TLong), (HByte z | HShort z | HInt z | HLong z) => Ok (VInt z)
    | (TByte | TShort | TInteger | TIntEnum | TLong), HBool b => Ok (VBool b)
    | (TString | TEnum), HString s => Ok (VText s)
    | TBlob, HBlob b => Ok (VBlob b)
    | TTimestamp, HTimestamp ms => Ok (VTime ms)
    | TOther, _ => Err SmithyErr
    | _, _ => Err ExpectationNotMet
    end.
  Definition find_member (k : text) (sh : shape) : option member := find (fun m => text_eqb k (mb_name m)) (sh_members sh).
  (** D 138-142 *)
  Fixpoint read_headers (sh : shape) (hs : headers) : result writes :=
    match hs with
    | [] => Ok []
    | (k, h) :: r =>
      match find_member k sh with
      | Some m =>
        if mb_header m then do v <- read_header m h; do vs <- read_headers sh r; Ok ((m, v) :: vs)
        else read_headers sh r
      | None => read_headers sh r
      end
    end.
  (** D 111-119: [RawPayloadDeserializer], called with the method of the target's type *)
  Definition raw_read (pm : member) (payload : bytes) : result (value V) :=
    match mb_type pm with
    | TString => do s <- utf8_decode payload; Ok (VText s)
    | TBlob => Ok (VBlob payload)
    | _ => Err SmithyErr
    end.
  (** D 89-108 and 133-148: what the consumer of the structure is given, in order *)
  Definition read_message (sh : shape) (m : message) : result writes :=
    do hs <- read_headers sh (m_headers m);
    match m_payload m with
    | [] => Ok hs
    | payload =>
      match get_payload_member sh with
      | Some pm => do v <- (if is_raw (mb_type pm) then raw_read pm payload else codec_read_value pm payload); Ok (hs ++ [(pm, v)])
      | None => do vs <- codec_read_struct sh payload; Ok (hs ++ vs)
      end
    end.

  (** What reading a message gives: a variant with the members set in it, the unknown
      variant with its tag; [Unmodeled] stands for raising UnmodeledEventError. *)
  Inductive outcome := Known (name : text) (error : bool) (vs : writes) | UnknownVariant (tag : text) | Unmodeled (code message : text).
  (** [expect_type(str, headers[k])] *)
  Definition expect_text (k : text) (hs : headers) : result text :=
    match dict_get k hs with
    | None => Err KeyError
    | Some (HString s) => Ok s
    | Some _ => Err ExpectationNotMet
    end.
  (** The union itself read by the codec: the payload of an initial message given
      to the receiver of a union. *)
  Variable codec_read_union : bytes -> result outcome.
  Definition is_text (h : option hvalue) (t : text) : bool :=
    match h with Some (HString s) => text_eqb s t | _ => false end.

  (** D 38-87 with the consumer of the generated union (UnionGenerator 164-182).
      OtherErr 41 is EventError itself; the unknown member's shape id
      (D 83-87) is refused when its name is empty. *)
  Definition read_union (u : list (text * shape)) (m : message) : result outcome :=
    let hs := m_headers m in
    let mt := dict_get (lit ":message-type") hs in
    if is_text mt (lit "event") then
      do n <- expect_text (lit ":event-type") hs;
      if text_eqb n INITIAL_REQUEST || text_eqb n INITIAL_RESPONSE then
        match m_payload m with
        | [] => Err SerializationErr
        | payload => codec_read_union payload
        end
      else
        match dict_get n u with
        | Some sh => do vs <- read_message sh m; Ok (Known n (sh_error sh) vs)
        | None => match n with [] => Err SmithyErr | _ => Ok (UnknownVariant n) end
        end
    else if is_text mt (lit "exception") then
      do n <- expect_text (lit ":exception-type") hs;
      match dict_get n u with
      | Some sh => do vs <- read_message sh m; Ok (Known n (sh_error sh) vs)
      | None => Err KeyError
      end
    else if is_text mt (lit "error") then
      do c <- expect_text (lit ":error-code") hs;
      do t <- expect_text (lit ":error-message") hs;
      Ok (Unmodeled c t)
    else Err (OtherErr 41).

  (** D 38-51 with the consumer of the operation's input or output.
      Simplification: only for initial messages. *)
  Definition read_initial (sh : shape) (m : message) : result writes :=
    let hs := m_headers m in
    if is_text (dict_get (lit ":message-type") hs) (lit "event") then
      do n <- expect_text (lit ":event-type") hs;
      if text_eqb n INITIAL_REQUEST || text_eqb n INITIAL_RESPONSE then read_message sh m
      else Err NotImplementedErr
    else Err (OtherErr 41).

  (** aio/__init__.py lines 145-155: what [receive] makes of a message: an error variant
      is raised.  OtherErr 42 stands for the modeled exception, OtherErr 43 for
      UnmodeledEventError. *)
  Definition receive_event (u : list (text * shape)) (m : message) : result (received outcome) :=
    do o <- read_union u m;
    match o with
    | Known _ true _ => Ok (RExc (OtherErr 42))
    | Unmodeled _ _ => Err (OtherErr 43)
    | _ => Ok (RVal o)
    end.
End Events.
