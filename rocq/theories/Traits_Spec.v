(** What Smithy says of the traits, without the library. *)
From Verif Require Import Base PyText_Model Traits_Model.

(** The name of each trait in the Smithy specification (prelude traits, and the
    aws.protocols and aws.auth traits).  longPoll is recent, its name is taken from the library. *)
Definition smithy_name (c : cls) : text :=
  match c with
  | CDefault => lit "smithy.api#default"
  | CSparse => lit "smithy.api#sparse"
  | CTimestampFormat => lit "smithy.api#timestampFormat"
  | CError => lit "smithy.api#error"
  | CRequired => lit "smithy.api#required"
  | CInternal => lit "smithy.api#internal"
  | CSensitive => lit "smithy.api#sensitive"
  | CStreaming => lit "smithy.api#streaming"
  | CRequiresLength => lit "smithy.api#requiresLength"
  | CUnitType => lit "smithy.api#unitType"
  | CMediaType => lit "smithy.api#mediaType"
  | CEventHeader => lit "smithy.api#eventHeader"
  | CEventPayload => lit "smithy.api#eventPayload"
  | CJSONName => lit "smithy.api#jsonName"
  | CIdempotencyToken => lit "smithy.api#idempotencyToken"
  | CLongPoll => lit "smithy.api#longPoll"
  | CHTTP => lit "smithy.api#http"
  | CHTTPError => lit "smithy.api#httpError"
  | CHTTPHeader => lit "smithy.api#httpHeader"
  | CHTTPLabel => lit "smithy.api#httpLabel"
  | CHTTPPayload => lit "smithy.api#httpPayload"
  | CHTTPPrefixHeaders => lit "smithy.api#httpPrefixHeaders"
  | CHTTPQuery => lit "smithy.api#httpQuery"
  | CHTTPQueryParams => lit "smithy.api#httpQueryParams"
  | CHTTPResponseCode => lit "smithy.api#httpResponseCode"
  | CHTTPChecksumRequired => lit "smithy.api#httpChecksumRequired"
  | CEndpoint => lit "smithy.api#endpoint"
  | CHostLabel => lit "smithy.api#hostLabel"
  | CHTTPAPIKeyAuth => lit "smithy.api#httpApiKeyAuth"
  | CXMLName => lit "smithy.api#xmlName"
  | CXMLNamespace => lit "smithy.api#xmlNamespace"
  | CXMLFlattened => lit "smithy.api#xmlFlattened"
  | CXMLAttribute => lit "smithy.api#xmlAttribute"
  | CRestJson1 => lit "aws.protocols#restJson1"
  | CAwsQuery => lit "aws.protocols#awsQuery"
  | CAwsQueryError => lit "aws.protocols#awsQueryError"
  | CSigV4 => lit "aws.auth#sigv4"
  | Custom _ i => i
  end.

(** The entry of a map at a key (the first, should there be several), and that it has none. *)
Definition at_key (d : doc) (k : text) (v : doc) : Prop :=
  exists before after, d = DMap (before ++ (k, v) :: after) /\ ~ In k (map fst before).
Definition no_key (d : doc) (k : text) : Prop := exists m, d = DMap m /\ ~ In k (map fst m).

Definition whole (d : doc) : Prop := (exists z, d = DInt z) \/ exists b, d = DBool b.

(** The values a text, a list or bytes hold, in order. *)
Inductive holds : doc -> list doc -> Prop :=
| holds_list l : holds (DList l) l
| holds_text t : holds (DStr t) (map (fun c => DStr [c]) t)
| holds_bytes b : holds (DBytes b) (map (fun c => DInt (Z.of_N c)) b).
Definition texts (l : list doc) : Prop := Forall (fun d => exists t, d = DStr t) l.

(** What counts as nothing. *)
Inductive empty : doc -> Prop :=
| empty_null : empty DNull | empty_false : empty (DBool false) | empty_zero : empty (DInt 0) | empty_float : empty (DFloat true)
| empty_text : empty (DStr []) | empty_bytes : empty (DBytes []) | empty_list : empty (DList []) | empty_map : empty (DMap []).

(** The versions of HTTP a restJson1 trait names, and those for event streams. *)
Inductive versions : doc -> list doc -> Prop :=
| versions_given d v l : at_key d (lit "http") v -> holds v l -> texts l -> versions d l
| versions_absent d : no_key d (lit "http") -> versions d [DStr (lit "http/1.1")]
| versions_empty d : empty d -> versions d [DStr (lit "http/1.1")].
Inductive event_versions : doc -> list doc -> Prop :=
| events_given d v l : at_key d (lit "eventStreamHttp") v -> ~ empty v -> holds v l -> texts l -> event_versions d l
| events_nothing d v l : at_key d (lit "eventStreamHttp") v -> empty v -> versions d l -> event_versions d l
| events_absent d l : no_key d (lit "eventStreamHttp") -> versions d l -> event_versions d l
| events_empty d l : empty d -> versions d l -> event_versions d l.

(** The values each class takes. *)
Definition unchecked (c : cls) : Prop :=
  match c with
  | CTimestampFormat | CError | CHTTP | CHTTPAPIKeyAuth | CRestJson1 | CAwsQuery => False
  | _ => True
  end.
Inductive accepts : cls -> doc -> Prop :=
| ok_format t : In t [lit "date-time"; lit "http-date"; lit "epoch-seconds"] -> accepts CTimestampFormat (DStr t)
| ok_error t : In t [lit "client"; lit "server"] -> accepts CError (DStr t)
| ok_http d m u :
    at_key d (lit "method") (DStr m) -> at_key d (lit "uri") (DStr u) ->
    (forall c, at_key d (lit "code") c -> whole c) -> accepts CHTTP d
| ok_api_key d i n :
    at_key d (lit "in") (DStr i) -> In i [lit "header"; lit "query"] -> at_key d (lit "name") (DStr n) ->
    (forall s, at_key d (lit "scheme") s -> s = DNull \/ exists t, s = DStr t) -> accepts CHTTPAPIKeyAuth d
| ok_rest_json d h e : versions d h -> event_versions d e -> accepts CRestJson1 d
| ok_aws_query : accepts CAwsQuery DNull
| ok_other c d : unchecked c -> accepts c d.

(** The entry at a key or, without one, nothing. *)
Definition optional (d : doc) (k : text) (v : doc) : Prop := at_key d k v \/ (no_key d k /\ v = DNull).

(** What the attributes of a trait with that value are. *)
Inductive shows : cls -> doc -> attribute -> value -> Prop :=
| s_value c d : In c [CDefault; CMediaType; CJSONName; CXMLName] -> shows c d AValue (VDoc d)
| s_date_time : shows CTimestampFormat (DStr (lit "date-time")) AFormat (VFormat DateTime)
| s_http_date : shows CTimestampFormat (DStr (lit "http-date")) AFormat (VFormat HttpDate)
| s_epoch : shows CTimestampFormat (DStr (lit "epoch-seconds")) AFormat (VFormat EpochSeconds)
| s_client : shows CError (DStr (lit "client")) AFault (VFault Client)
| s_server : shows CError (DStr (lit "server")) AFault (VFault Server)
| s_timeout d v : at_key d (lit "timeoutMillis") v -> shows CLongPoll d ATimeoutMillis (VDoc v)
| s_method d v : at_key d (lit "method") v -> shows CHTTP d AMethod (VDoc v)
| s_code d v : at_key d (lit "code") v -> shows CHTTP d ACode (VDoc v)
| s_code_default d : no_key d (lit "code") -> shows CHTTP d ACode (VDoc (DInt 200))
| s_path d p : at_key d (lit "uri") (DStr p) -> ~ In 63%N p -> shows CHTTP d APath (VPattern p)
| s_no_query d p : at_key d (lit "uri") (DStr p) -> ~ In 63%N p -> shows CHTTP d AQuery (VDoc DNull)
| s_path_of d p q : at_key d (lit "uri") (DStr (p ++ 63%N :: q)) -> ~ In 63%N p -> shows CHTTP d APath (VPattern p)
| s_query_of d p q : at_key d (lit "uri") (DStr (p ++ 63%N :: q)) -> ~ In 63%N p -> shows CHTTP d AQuery (VDoc (DStr q))
| s_error_code d : shows CHTTPError d ACode (VDoc d)
| s_key c d : In c [CHTTPHeader; CHTTPQuery] -> shows c d AKey (VDoc d)
| s_prefix d : shows CHTTPPrefixHeaders d APrefix (VDoc d)
| s_host_prefix d v : at_key d (lit "hostPrefix") v -> shows CEndpoint d AHostPrefix (VDoc v)
| s_header d : at_key d (lit "in") (DStr (lit "header")) -> shows CHTTPAPIKeyAuth d ALocation (VLocation Header)
| s_query d : at_key d (lit "in") (DStr (lit "query")) -> shows CHTTPAPIKeyAuth d ALocation (VLocation Query)
| s_name c d v : In c [CHTTPAPIKeyAuth; CSigV4] -> at_key d (lit "name") v -> shows c d AName (VDoc v)
| s_scheme d v : optional d (lit "scheme") v -> shows CHTTPAPIKeyAuth d AScheme (VDoc v)
| s_uri d v : at_key d (lit "uri") v -> shows CXMLNamespace d AUri (VDoc v)
| s_xml_prefix d v : optional d (lit "prefix") v -> shows CXMLNamespace d APrefix (VDoc v)
| s_http d l : versions d l -> shows CRestJson1 d AHttp (VTuple l)
| s_event_http d l : event_versions d l -> shows CRestJson1 d AEventStreamHttp (VTuple l)
| s_query_code d v : at_key d (lit "code") v -> shows CAwsQueryError d ACode (VDoc v)
| s_query_status d v : at_key d (lit "httpResponseCode") v -> shows CAwsQueryError d AHttpResponseCode (VDoc v).

(** The shape the Smithy specification gives the value of a trait; an annotation
    comes without one. *)
Definition annotation (c : cls) : Prop :=
  In c [CSparse; CRequired; CInternal; CSensitive; CStreaming; CRequiresLength; CUnitType; CEventHeader; CEventPayload;
        CIdempotencyToken; CHTTPLabel; CHTTPPayload; CHTTPQueryParams; CHTTPResponseCode; CHTTPChecksumRequired; CHostLabel;
        CXMLFlattened; CXMLAttribute; CAwsQuery].
Definition versions_or_none (d : doc) (k : text) : Prop :=
  forall v, at_key d k v -> exists l, v = DList l /\ texts l.
Inductive declared : cls -> doc -> Prop :=
| d_annotation c : annotation c -> declared c DNull
| d_default d : declared CDefault d
| d_text c t : In c [CMediaType; CJSONName; CHTTPHeader; CHTTPPrefixHeaders; CHTTPQuery; CXMLName] -> declared c (DStr t)
| d_format t : In t [lit "date-time"; lit "http-date"; lit "epoch-seconds"] -> declared CTimestampFormat (DStr t)
| d_error t : In t [lit "client"; lit "server"] -> declared CError (DStr t)
| d_long_poll d z : at_key d (lit "timeoutMillis") (DInt z) -> declared CLongPoll d
| d_http d m u :
    at_key d (lit "method") (DStr m) -> at_key d (lit "uri") (DStr u) ->
    (forall c, at_key d (lit "code") c -> exists z, c = DInt z) -> declared CHTTP d
| d_http_error z : declared CHTTPError (DInt z)
| d_endpoint d p : at_key d (lit "hostPrefix") (DStr p) -> declared CEndpoint d
| d_api_key d i n :
    at_key d (lit "in") (DStr i) -> In i [lit "header"; lit "query"] -> at_key d (lit "name") (DStr n) ->
    (forall s, at_key d (lit "scheme") s -> exists t, s = DStr t) -> declared CHTTPAPIKeyAuth d
| d_namespace d u :
    at_key d (lit "uri") (DStr u) -> (forall p, at_key d (lit "prefix") p -> exists t, p = DStr t) -> declared CXMLNamespace d
| d_rest_json m :
    versions_or_none (DMap m) (lit "http") -> versions_or_none (DMap m) (lit "eventStreamHttp") -> declared CRestJson1 (DMap m)
| d_rest_json_plain : declared CRestJson1 DNull
| d_query_error d c z :
    at_key d (lit "code") (DStr c) -> at_key d (lit "httpResponseCode") (DInt z) -> declared CAwsQueryError d
| d_sigv4 d n : at_key d (lit "name") (DStr n) -> declared CSigV4 d
| d_custom n i d : declared (Custom n i) d.

(** The type the library declares for an attribute. *)
Definition plain_text (v : value) : Prop := exists t, v = VDoc (DStr t).
Definition plain_int (v : value) : Prop := exists z, v = VDoc (DInt z).
Definition typed (c : cls) (a : attribute) (v : value) : Prop :=
  match c, a with
  | CDefault, AValue => True
  | CMediaType, AValue | CJSONName, AValue | CXMLName, AValue => plain_text v
  | CTimestampFormat, AFormat => exists f, v = VFormat f
  | CError, AFault => exists f, v = VFault f
  | CLongPoll, ATimeoutMillis => plain_int v
  | CHTTP, AMethod => plain_text v
  | CHTTP, APath => exists p, v = VPattern p
  | CHTTP, ACode => plain_int v
  | CHTTP, AQuery => plain_text v \/ v = VDoc DNull
  | CHTTPError, ACode => plain_int v
  | CHTTPHeader, AKey | CHTTPQuery, AKey | CHTTPPrefixHeaders, APrefix | CEndpoint, AHostPrefix => plain_text v
  | CHTTPAPIKeyAuth, ALocation => exists l, v = VLocation l
  | CHTTPAPIKeyAuth, AName | CSigV4, AName => plain_text v
  | CHTTPAPIKeyAuth, AScheme => plain_text v \/ v = VDoc DNull
  | CXMLNamespace, AUri => plain_text v
  | CXMLNamespace, APrefix => plain_text v \/ v = VDoc DNull
  | CRestJson1, AHttp | CRestJson1, AEventStreamHttp => exists l, v = VTuple l /\ texts l
  | CAwsQueryError, ACode => plain_text v
  | CAwsQueryError, AHttpResponseCode => plain_int v
  | _, _ => False
  end.
(** The attributes a class has. *)
Definition has_attribute (c : cls) (a : attribute) : Prop :=
  match c, a with
  | CDefault, AValue | CMediaType, AValue | CJSONName, AValue | CXMLName, AValue
  | CTimestampFormat, AFormat | CError, AFault | CLongPoll, ATimeoutMillis
  | CHTTP, AMethod | CHTTP, APath | CHTTP, ACode | CHTTP, AQuery | CHTTPError, ACode
  | CHTTPHeader, AKey | CHTTPQuery, AKey | CHTTPPrefixHeaders, APrefix | CEndpoint, AHostPrefix
  | CHTTPAPIKeyAuth, ALocation | CHTTPAPIKeyAuth, AName | CHTTPAPIKeyAuth, AScheme | CSigV4, AName
  | CXMLNamespace, AUri | CXMLNamespace, APrefix | CRestJson1, AHttp | CRestJson1, AEventStreamHttp
  | CAwsQueryError, ACode | CAwsQueryError, AHttpResponseCode => True
  | _, _ => False
  end.

(** The classes that take a trait in its dynamic form. *)
Definition takes_dynamic (c : cls) : Prop := c <> CRestJson1 /\ c <> CAwsQuery.
(** The classes declared under the name of their trait. *)
Definition well_named (c : cls) : Prop := c <> CDefault /\ c <> CIdempotencyToken /\ c <> CUnitType.
