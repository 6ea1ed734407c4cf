(** Traits: packages/smithy-core/src/smithy_core/traits.py and
    packages/smithy-aws-core/src/smithy_aws_core/traits.py, with [Schema.get_trait]
    and the members an operation looks up by trait, smithy_core/schemas.py 144-161
    and 315-343. *)
From Verif Require Import Base PyText_Model PyDict_Model.

(** A document value (documents.py).  Floats are known by whether they are zero,
    timestamps not at all. *)
Inductive doc :=
| DNull | DBool (b : bool) | DInt (z : Z) | DFloat (zero : bool) | DTime | DStr (t : text) | DBytes (b : bytes)
| DList (l : list doc) | DMap (m : list (text * doc)).

(** ** The classes
    traits.py 95-407 of smithy-core, then 18-80 of smithy-aws-core; [Custom] is a
    class of a user, told apart by a number, with the constructor of [Trait]. *)
Inductive cls :=
| CDefault | CSparse | CTimestampFormat | CError | CRequired | CInternal | CSensitive | CStreaming | CRequiresLength
| CUnitType | CMediaType | CEventHeader | CEventPayload | CJSONName | CIdempotencyToken | CLongPoll | CHTTP | CHTTPError
| CHTTPHeader | CHTTPLabel | CHTTPPayload | CHTTPPrefixHeaders | CHTTPQuery | CHTTPQueryParams | CHTTPResponseCode
| CHTTPChecksumRequired | CEndpoint | CHostLabel | CHTTPAPIKeyAuth | CXMLName | CXMLNamespace | CXMLFlattened | CXMLAttribute
| CRestJson1 | CAwsQuery | CAwsQueryError | CSigV4
| Custom (n : nat) (id : text).

(** The [id] each class is declared with, in the same order. *)
Definition class_id (c : cls) : text :=
  match c with
  | CDefault => lit "smithy.appi#default"                      (* 96 *)
  | CSparse => lit "smithy.api#sparse"                         (* 103 *)
  | CTimestampFormat => lit "smithy.api#timestampFormat"       (* 109 *)
  | CError => lit "smithy.api#error"                           (* 124 *)
  | CRequired => lit "smithy.api#required"                     (* 134 *)
  | CInternal => lit "smithy.api#internal"                     (* 140 *)
  | CSensitive => lit "smithy.api#sensitive"                   (* 146 *)
  | CStreaming => lit "smithy.api#streaming"                   (* 152 *)
  | CRequiresLength => lit "smithy.api#requiresLength"         (* 158 *)
  | CUnitType => lit "smithy.api#UnitTypeTrait"                (* 164 *)
  | CMediaType => lit "smithy.api#mediaType"                   (* 170 *)
  | CEventHeader => lit "smithy.api#eventHeader"               (* 182 *)
  | CEventPayload => lit "smithy.api#eventPayload"             (* 188 *)
  | CJSONName => lit "smithy.api#jsonName"                     (* 194 *)
  | CIdempotencyToken => lit "smithy.api#IdempotencyToken"     (* 206 *)
  | CLongPoll => lit "smithy.api#longPoll"                     (* 212 *)
  | CHTTP => lit "smithy.api#http"                             (* 228 *)
  | CHTTPError => lit "smithy.api#httpError"                   (* 255 *)
  | CHTTPHeader => lit "smithy.api#httpHeader"                 (* 265 *)
  | CHTTPLabel => lit "smithy.api#httpLabel"                   (* 275 *)
  | CHTTPPayload => lit "smithy.api#httpPayload"               (* 281 *)
  | CHTTPPrefixHeaders => lit "smithy.api#httpPrefixHeaders"   (* 287 *)
  | CHTTPQuery => lit "smithy.api#httpQuery"                   (* 297 *)
  | CHTTPQueryParams => lit "smithy.api#httpQueryParams"       (* 307 *)
  | CHTTPResponseCode => lit "smithy.api#httpResponseCode"     (* 313 *)
  | CHTTPChecksumRequired => lit "smithy.api#httpChecksumRequired" (* 319 *)
  | CEndpoint => lit "smithy.api#endpoint"                     (* 325 *)
  | CHostLabel => lit "smithy.api#hostLabel"                   (* 335 *)
  | CHTTPAPIKeyAuth => lit "smithy.api#httpApiKeyAuth"         (* 348 *)
  | CXMLName => lit "smithy.api#xmlName"                       (* 371 *)
  | CXMLNamespace => lit "smithy.api#xmlNamespace"             (* 383 *)
  | CXMLFlattened => lit "smithy.api#xmlFlattened"             (* 399 *)
  | CXMLAttribute => lit "smithy.api#xmlAttribute"             (* 405 *)
  | CRestJson1 => lit "aws.protocols#restJson1"                (* 19 *)
  | CAwsQuery => lit "aws.protocols#awsQuery"                  (* 50 *)
  | CAwsQueryError => lit "aws.protocols#awsQueryError"        (* 56 *)
  | CSigV4 => lit "aws.auth#sigv4"                             (* 72 *)
  | Custom _ i => i
  end.

(** The classes the modules define, in order. *)
Definition core_classes : list cls :=
  [CDefault; CSparse; CTimestampFormat; CError; CRequired; CInternal; CSensitive; CStreaming; CRequiresLength;
   CUnitType; CMediaType; CEventHeader; CEventPayload; CJSONName; CIdempotencyToken; CLongPoll; CHTTP; CHTTPError;
   CHTTPHeader; CHTTPLabel; CHTTPPayload; CHTTPPrefixHeaders; CHTTPQuery; CHTTPQueryParams; CHTTPResponseCode;
   CHTTPChecksumRequired; CEndpoint; CHostLabel; CHTTPAPIKeyAuth; CXMLName; CXMLNamespace; CXMLFlattened; CXMLAttribute].
Definition aws_classes : list cls := [CRestJson1; CAwsQuery; CAwsQueryError; CSigV4].

(** lines 58-60, [__init_subclass__]: [Trait._REGISTRY] once these classes have been defined, in this order *)
Definition registry (l : list cls) : list (text * cls) := fold_left (fun d c => dict_set (class_id c) c d) l [].

(** ** Making a trait *)
(** [TimestampFormat], [ErrorFault] and [APIKeyLocation]: types.py 127-142, traits.py 118-120 and 340-344 *)
Inductive format := DateTime | HttpDate | EpochSeconds.
Inductive fault := Client | Server.
Inductive location := Header | Query.
Definition format_of (t : text) : result format :=
  if text_eqb t (lit "date-time") then Ok DateTime
  else if text_eqb t (lit "http-date") then Ok HttpDate
  else if text_eqb t (lit "epoch-seconds") then Ok EpochSeconds
  else Err ValueError.
Definition fault_of (t : text) : result fault :=
  if text_eqb t (lit "client") then Ok Client else if text_eqb t (lit "server") then Ok Server else Err ValueError.
Definition location_of (t : text) : result location :=
  if text_eqb t (lit "header") then Ok Header else if text_eqb t (lit "query") then Ok Query else Err ValueError.

(** The fields of a trait besides [document_value]. *)
Inductive fields :=
| FNone | FFormat (f : format) | FFault (f : fault) | FHttp (path : text) (code : doc) (query : option text)
| FLocation (l : location) | FVersions (http event_stream_http : list doc).
Record trait := mkTrait { t_class : cls; t_doc : doc; t_fields : fields }.

(** What a class is called with: a document value or a [DynamicTrait]. *)
Inductive arg := ADoc (d : doc) | ADyn (id : text) (d : doc).

(** [d[k]] and [d.get(k, default)] *)
Definition subscript (d : doc) (k : text) : result doc :=
  match d with
  | DMap m => match dict_get k m with Some v => Ok v | None => Err KeyError end
  | _ => Err TypeError
  end.
Definition get (d : doc) (k : text) (default : doc) : result doc :=
  match d with
  | DMap m => Ok (match dict_get k m with Some v => v | None => default end)
  | _ => Err AttributeError
  end.
(** [assert] *)
Definition check (b : bool) : result unit := if b then Ok tt else Err AssertionError.
Definition is_map (d : doc) : bool := match d with DMap _ => true | _ => false end.
Definition is_str (d : doc) : bool := match d with DStr _ => true | _ => false end.
(** a [bool] is an [int] *)
Definition is_int (d : doc) : bool := match d with DInt _ | DBool _ => true | _ => false end.
Definition is_none (d : doc) : bool := match d with DNull => true | _ => false end.
Definition truthy (d : doc) : bool :=
  match d with
  | DNull => false
  | DBool b => b
  | DInt z => negb (Z.eqb z 0)
  | DFloat zero => negb zero
  | DTime => true
  | DStr t => match t with [] => false | _ => true end
  | DBytes b => match b with [] => false | _ => true end
  | DList l => match l with [] => false | _ => true end
  | DMap m => match m with [] => false | _ => true end
  end.
(** [isinstance(d, Sequence)] and then its elements: a text is a sequence of texts,
    bytes are a sequence of integers *)
Definition elements (d : doc) : result (list doc) :=
  match d with
  | DList l => Ok l
  | DStr t => Ok (map (fun c => DStr [c]) t)
  | DBytes b => Ok (map (fun c => DInt (Z.of_N c)) b)
  | _ => Err AssertionError
  end.

(** smithy-core traits.py 62-78, [Trait.__init__]: the [document_value] *)
Definition base_init (c : cls) (v : arg) : result doc :=
  match v with
  | ADyn i d => if text_eqb i (class_id c) then Ok d else Err ValueError
  | ADoc d => Ok d
  end.

Definition text_of (d : doc) : result text := match d with DStr t => Ok t | _ => Err AssertionError end.

(** [c(v)].  The [__post_init__] of a class declared with [init=False] is called by
    nobody.  Assertions are taken to be on. *)
Definition call (c : cls) (v : arg) : result trait :=
  match c with
  | CTimestampFormat =>                                      (* 112-115 *)
    do d <- base_init c v;
    do t <- text_of d;
    do f <- format_of t;
    Ok (mkTrait c d (FFormat f))
  | CError =>                                                (* 127-130 *)
    do d <- base_init c v;
    do t <- text_of d;
    do f <- fault_of t;
    Ok (mkTrait c d (FFault f))
  | CHTTP =>                                                 (* 233-247 *)
    do d <- base_init c v;
    do _ <- check (is_map d);
    do m <- subscript d (lit "method");
    do _ <- check (is_str m);
    do code <- get d (lit "code") (DInt 200);
    do _ <- check (is_int code);
    do uri <- subscript d (lit "uri");
    do u <- text_of uri;
    let (path, query) := cut_at 63 u in
    Ok (mkTrait c d (FHttp path code query))
  | CHTTPAPIKeyAuth =>                                       (* 351-359 *)
    do d <- base_init c v;
    do _ <- check (is_map d);
    do i <- subscript d (lit "in");
    do t <- text_of i;
    do n <- subscript d (lit "name");
    do _ <- check (is_str n);
    do s <- get d (lit "scheme") DNull;
    do _ <- check (is_str s || is_none s);
    do l <- location_of t;
    Ok (mkTrait c d (FLocation l))
  | CRestJson1 =>                                            (* smithy-aws-core traits.py 27-46 *)
    do d <- base_init c v;
    do m <- match v with ADyn _ _ => Err AssertionError | ADoc x => Ok (if truthy x then x else DMap []) end;
    do _ <- check (is_map m);
    do h <- get m (lit "http") (DList [DStr (lit "http/1.1")]);
    do http <- elements h;
    do _ <- check (forallb is_str http);
    do e <- get m (lit "eventStreamHttp") DNull;
    if negb (truthy e) then Ok (mkTrait c d (FVersions http http))
    else
      do events <- elements e;
      do _ <- check (forallb is_str events);
      Ok (mkTrait c d (FVersions http events))
  | CAwsQuery =>                                             (* smithy-aws-core traits.py 49-52: the constructor dataclass writes *)
    match v with
    | ADyn _ _ => Err AssertionError
    | ADoc d => do _ <- check (is_none d); Ok (mkTrait c d FNone)
    end
  | _ => do d <- base_init c v; Ok (mkTrait c d FNone)
  end.

(** A trait: of a class, or a [DynamicTrait] (lines 22-35). *)
Inductive any_trait := Known (t : trait) | Dynamic (id : text) (d : doc).
Definition any_id (t : any_trait) : text := match t with Known t => class_id (t_class t) | Dynamic i _ => i end.
Definition any_doc (t : any_trait) : doc := match t with Known t => t_doc t | Dynamic _ d => d end.

(** lines 82-92, [Trait.new] *)
Definition new (reg : list (text * cls)) (id : text) (d : doc) : result any_trait :=
  match dict_get id reg with
  | Some c => do t <- call c (ADoc d); Ok (Known t)
  | None => Ok (Dynamic id d)
  end.

(** ** Reading a trait *)
Inductive attribute :=
| AValue | AFormat | AFault | ATimeoutMillis | APath | ACode | AQuery | AMethod | AKey | APrefix | AHostPrefix
| ALocation | AName | AScheme | AUri | AHttp | AEventStreamHttp | AHttpResponseCode.
Inductive value :=
| VDoc (d : doc) | VFormat (f : format) | VFault (f : fault) | VLocation (l : location) | VPattern (pattern : text)
| VTuple (l : list doc).

(** The attributes and properties of the classes, at the lines of the classes. *)
Definition read (t : trait) (a : attribute) : result value :=
  let d := t_doc t in
  match t_class t, a, t_fields t with
  | CDefault, AValue, _ | CMediaType, AValue, _ | CJSONName, AValue, _ | CXMLName, AValue, _ => Ok (VDoc d)
  | CTimestampFormat, AFormat, FFormat f => Ok (VFormat f)
  | CError, AFault, FFault f => Ok (VFault f)
  | CLongPoll, ATimeoutMillis, _ => do v <- subscript d (lit "timeoutMillis"); Ok (VDoc v)
  | CHTTP, APath, FHttp p _ _ => Ok (VPattern p)
  | CHTTP, ACode, FHttp _ c _ => Ok (VDoc c)
  | CHTTP, AQuery, FHttp _ _ q => Ok (VDoc (match q with Some q => DStr q | None => DNull end))
  | CHTTP, AMethod, _ => do v <- subscript d (lit "method"); Ok (VDoc v)
  | CHTTPError, ACode, _ | CHTTPHeader, AKey, _ | CHTTPPrefixHeaders, APrefix, _ | CHTTPQuery, AKey, _ => Ok (VDoc d)
  | CEndpoint, AHostPrefix, _ => do v <- subscript d (lit "hostPrefix"); Ok (VDoc v)
  | CHTTPAPIKeyAuth, ALocation, FLocation l => Ok (VLocation l)
  | CHTTPAPIKeyAuth, AName, _ => do v <- subscript d (lit "name"); Ok (VDoc v)
  | CHTTPAPIKeyAuth, AScheme, _ => do v <- get d (lit "scheme") DNull; Ok (VDoc v)
  | CXMLNamespace, AUri, _ => do v <- subscript d (lit "uri"); Ok (VDoc v)
  | CXMLNamespace, APrefix, _ => do v <- get d (lit "prefix") DNull; Ok (VDoc v)
  | CRestJson1, AHttp, FVersions h _ => Ok (VTuple h)
  | CRestJson1, AEventStreamHttp, FVersions _ e => Ok (VTuple e)
  | CAwsQueryError, ACode, _ => do v <- subscript d (lit "code"); Ok (VDoc v)
  | CAwsQueryError, AHttpResponseCode, _ => do v <- subscript d (lit "httpResponseCode"); Ok (VDoc v)
  | CSigV4, AName, _ => do v <- subscript d (lit "name"); Ok (VDoc v)
  | _, _, _ => Err AttributeError
  end.

(** ** Traits of a schema *)
(** schemas.py 76-80, [{t.id: t for t in traits}] *)
Definition traits_of (l : list any_trait) : list (text * any_trait) := fold_left (fun d t => dict_set (any_id t) t d) l [].

(** schemas.py 144-161 with a class: what is returned, and the traits after it *)
Definition get_trait (c : cls) (traits : list (text * any_trait)) : result (option any_trait * list (text * any_trait)) :=
  match dict_get (class_id c) traits with
  | Some (Dynamic i d) => do t <- call c (ADyn i d); Ok (Some (Known t), dict_set (class_id c) (Known t) traits)
  | r => Ok (r, traits)
  end.

(** schemas.py 315-337, the three properties: the first member with the trait.
    What get_trait writes to the members it looks at is not kept. *)
Fixpoint member_with (c : cls) (members : list (text * list (text * any_trait))) : result (option text) :=
  match members with
  | [] => Ok None
  | (name, traits) :: r =>
    do p <- get_trait c traits;
    match fst p with
    | Some _ => Ok (Some name)
    | None => member_with c r
    end
  end.
Definition idempotency_token_member := member_with CIdempotencyToken.
Definition stream_member := member_with CStreaming.
(** lines 339-343 *)
Definition long_polling (traits : list (text * any_trait)) : result bool :=
  do p <- get_trait CLongPoll traits; Ok (match fst p with Some _ => true | None => false end).
