(** Binding the members of a structure to an HTTP message:
    packages/smithy-http/src/smithy_http/bindings.py, serializers.py and
    deserializers.py. *)
From Verif Require Import Base Utf8_Model PyText_Model PySort_Model PyDecimal_Model PyDict_Model Fields_Model Header_Model Http_Model HttpVal_Model.
From Verif Require Time_Model.

(** ** Schemas and values *)

(** The shape a member targets; for a list also what its elements are and the traits
    of its element member. *)
Inductive shape :=
| ShScalar (k : kind) | ShEnum | ShList (k : kind) (elem : leaf) | ShMap | ShStruct | ShUnion | ShDocument.
(** A member with the traits the bindings look at. *)
Record member := mkMember {
  m_name : text; m_shape : shape;
  m_label : bool; m_query : option text; m_query_params : bool;
  m_header : option text; m_prefix : option text; m_payload : bool; m_host : bool; m_status : bool;
  m_streaming : bool; m_requires_length : bool; m_media : option text; m_ts : option format }.
Definition m_leaf (m : member) : leaf := mkLeaf (match m_media m with Some _ => true | None => false end) (m_ts m).

(** What is written for a member.  A null in a list is [None]. *)
Inductive item := IText (s : text) | ITexts (l : list text).
Inductive data := DBytes (bs : bytes) | DStream (id : N).
Inductive value :=
| VOne (v : scalar) | VList (l : list (option scalar)) | VMap (l : list (text * item))
| VData (d : data) | VOther (n : N).

(** ** bindings.py *)

(** lines 24-52 *)
Inductive binding := HEADER | QUERY | PAYLOAD | BODY | LABEL | STATUS | PREFIX_HEADERS | QUERY_PARAMS | HOST.
Definition is_some {A} (o : option A) : bool := match o with Some _ => true | None => false end.
(** lines 127-142 *)
Definition request_match (m : member) : binding :=
  if m_label m then LABEL
  else if is_some (m_query m) then QUERY
  else if m_query_params m then QUERY_PARAMS
  else if is_some (m_header m) then HEADER
  else if is_some (m_prefix m) then PREFIX_HEADERS
  else if m_payload m then PAYLOAD
  else if m_host m then HOST
  else BODY.
(** lines 163-172 *)
Definition response_match (m : member) : binding :=
  if m_status m then STATUS
  else if is_some (m_header m) then HEADER
  else if is_some (m_prefix m) then PREFIX_HEADERS
  else if m_payload m then PAYLOAD
  else BODY.

(** lines 57-99; a payload or event stream member by its index, and the member *)
Record matcher := mkMatcher {
  b_bindings : list binding; b_has_body : bool; b_has_payload : bool;
  b_payload : option (nat * member); b_events : option (nat * member) }.
Fixpoint scan (do_match : member -> binding) (i : nat) (ms : list member) (a : matcher) : matcher :=
  match ms with
  | [] => a
  | m :: r =>
    let b := do_match m in
    let is_payload := match b with PAYLOAD => true | _ => false end in
    scan do_match (S i) r (mkMatcher
      (b_bindings a ++ [b])
      (b_has_body a || match b with BODY | HOST => true | _ => false end)
      (b_has_payload a || is_payload)
      (if is_payload then Some (i, m) else b_payload a)
      (if m_streaming m && match m_shape m with ShUnion => true | _ => false end then Some (i, m) else b_events a))
  end.
Definition make_matcher (do_match : member -> binding) (ms : list member) : matcher :=
  scan do_match 0 ms (mkMatcher [] false false None None).
(** lines 101-107 *)
Definition should_write_body (b : matcher) (omit_empty_payload : bool) : bool :=
  b_has_body b || (negb omit_empty_payload && negb (b_has_payload b)).
(** lines 109-111 *)
Definition matches (b : matcher) (i : nat) : result binding :=
  match nth_error (b_bindings b) i with Some x => Ok x | None => Err IndexError end.

(** ** serializers.py *)

(** The body of a message: bytes in memory, a stream of the caller, or the events
    that are published later. *)
Inductive body := BBytes (bs : bytes) | BStream (id : N) | BEvents.

Section Http.
  (** The functions of HttpVal_Model that concern floats and years; [str.lower]; the
      [\w] of path patterns; the host expressions of URI. *)
  Variable pads_year : bool.
  Variable repr : Time_Model.float -> text.
  Variable time_float : text -> option Time_Model.float.
  Variable nearest : decimal -> float.
  Variable lower : text -> text.
  Variable uni_word : N -> bool.
  Variable host_ok : text -> bool.
  (** The codec of the payload: its media type; the bytes of a single value written at
      the top; the bytes of a structure with the given members; and reading both. *)
  Variable media_type : text.
  Variable codec_value : nat * value -> result bytes.
  Variable codec_struct : list (nat * value) -> result bytes.
  Variable decode_value : nat -> bytes -> result value.
  Variable decode_struct : bytes -> result (list (nat * value)).

  Definition CONTENT_TYPE : text := lit "content-type".
  Definition CONTENT_LENGTH : text := lit "content-length".

  (** What the serializers of a message have collected: HTTPHeaderSerializer,
      HTTPQuerySerializer, HTTPPathSerializer, HostPrefixSerializer, the calls to the
      payload serializer, and HTTPResponseCodeSerializer. *)
  Record acc := mkAcc {
    a_headers : list (text * text); a_query : list (text * text);
    a_path : list (text * text); a_host : list (text * text);
    a_calls : list (nat * value); a_status : option Z }.
  Definition no_acc : acc := mkAcc [] [] [] [] [] None.
  Definition add_headers (l : list (text * text)) (a : acc) : acc :=
    mkAcc (a_headers a ++ l) (a_query a) (a_path a) (a_host a) (a_calls a) (a_status a).
  Definition add_query (l : list (text * text)) (a : acc) : acc :=
    mkAcc (a_headers a) (a_query a ++ l) (a_path a) (a_host a) (a_calls a) (a_status a).
  Definition add_path (k v : text) (a : acc) : acc :=
    mkAcc (a_headers a) (a_query a) (dict_set k v (a_path a)) (a_host a) (a_calls a) (a_status a).
  Definition add_host (k v : text) (a : acc) : acc :=
    mkAcc (a_headers a) (a_query a) (a_path a) (dict_set k v (a_host a)) (a_calls a) (a_status a).
  Definition add_call (c : nat * value) (a : acc) : acc :=
    mkAcc (a_headers a) (a_query a) (a_path a) (a_host a) (a_calls a ++ [c]) (a_status a).
  Definition set_status (z : Z) (a : acc) : acc :=
    mkAcc (a_headers a) (a_query a) (a_path a) (a_host a) (a_calls a) (Some z).

  Definition elem_leaf (m : member) : leaf :=
    match m_shape m with ShList _ e => e | _ => mkLeaf false None end.
  (** [expect_trait] of a trait that is not there *)
  Definition expect {A} (o : option A) : result A := match o with Some x => Ok x | None => Err KeyError end.
  (** One tuple for each element, lines 468-472 and 581-584; [write_null] raises. *)
  Fixpoint texts_of (f : scalar -> result text) (key : text) (l : list (option scalar)) : result (list (text * text)) :=
    match l with
    | [] => Ok []
    | None :: _ => Err SmithyErr
    | Some v :: r => do t <- f v; do ts <- texts_of f key r; Ok ((key, t) :: ts)
    end.
  (** HTTPHeaderMapSerializer, lines 529-561: the values are strings *)
  Fixpoint prefix_entries (prefix : text) (l : list (text * item)) : result (list (text * text)) :=
    match l with
    | [] => Ok []
    | (k, IText s) :: r => do ts <- prefix_entries prefix r; Ok ((prefix ++ k, s) :: ts)
    | (_, ITexts _) :: _ => Err SmithyErr
    end.
  (** HTTPHeaderSerializer, lines 445-526 *)
  Definition header_tuples (m : member) (v : value) : result (list (text * text)) :=
    match v with
    | VOne s => do k <- expect (m_header m); do t <- header_text pads_year repr (m_leaf m) s; Ok [(k, t)]
    | VList l => do k <- expect (m_header m); texts_of (header_text pads_year repr (elem_leaf m)) k l
    | VMap l => do p <- expect (m_prefix m); prefix_entries p l
    | VData _ | VOther _ => Err SmithyErr
    end.
  (** HTTPQuerySerializer and HTTPQueryMapSerializer, lines 564-630 and 698-728 *)
  Definition query_tuples (m : member) (v : value) : result (list (text * text)) :=
    match v with
    | VOne s => do k <- expect (m_query m); do t <- query_text pads_year repr (m_leaf m) s; Ok [(k, t)]
    | VList l => do k <- expect (m_query m); texts_of (query_text pads_year repr (elem_leaf m)) k l
    | VMap l =>
      Ok (flat_map (fun e => match snd e with IText s => [(fst e, s)] | ITexts ts => map (fun s => (fst e, s)) ts end) l)
    | VData _ | VOther _ => Err SmithyErr
    end.

  (** InterceptingSerializer, smithy_core/serializers.py lines 243-350, with [before] of
      HTTPRequestBindingSerializer, lines 253-264: every call goes to one serializer.
      HostPrefixSerializer, lines 759-761, writes the payload as well. *)
  Definition write_request (pattern : text) (ms : list member) (b : matcher) (a : acc) (iv : nat * value) : result acc :=
    let '(i, v) := iv in
    do loc <- matches b i;
    match nth_error ms i with
    | None => Err IndexError
    | Some m =>
      match loc with
      | HEADER | PREFIX_HEADERS => do l <- header_tuples m v; Ok (add_headers l a)
      | QUERY | QUERY_PARAMS => do l <- query_tuples m v; Ok (add_query l a)
      | LABEL =>
        match v with
        | VOne s =>
          do t <- label_text pads_year repr (mem_text (m_name m) (greedy_labels uni_word pattern)) (m_leaf m) s;
          Ok (add_path (m_name m) t a)
        | _ => Err SmithyErr
        end
      | HOST =>
        match v with
        | VOne (HText s) => do q <- urlquote [46%N] s; Ok (add_host (m_name m) q (add_call iv a))
        | _ => Err SmithyErr
        end
      | _ => Ok (add_call iv a)
      end
    end.
  (** [before] of HTTPResponseBindingSerializer, lines 409-416;
      HTTPResponseCodeSerializer, lines 764-781, takes integers *)
  Definition write_response (ms : list member) (b : matcher) (a : acc) (iv : nat * value) : result acc :=
    let '(i, v) := iv in
    do loc <- matches b i;
    match nth_error ms i with
    | None => Err IndexError
    | Some m =>
      match loc with
      | HEADER | PREFIX_HEADERS => do l <- header_tuples m v; Ok (add_headers l a)
      | STATUS => match v with VOne (HInt z) => Ok (set_status z a) | _ => Err SmithyErr end
      | _ => Ok (add_call iv a)
      end
    end.
  Fixpoint write_all (w : acc -> nat * value -> result acc) (a : acc) (vals : list (nat * value)) : result acc :=
    match vals with
    | [] => Ok a
    | iv :: r => do a' <- w a iv; write_all w a' r
    end.

  (** RawPayloadSerializer, lines 422-442: the last call stays. *)
  Fixpoint raw_payload (p : option data) (calls : list (nat * value)) : result (option data) :=
    match calls with
    | [] => Ok p
    | (_, v) :: r =>
      match v with
      | VOne (HText s) => do bs <- utf8_encode s; raw_payload (Some (DBytes bs)) r
      | VOne (HBlob bs) => raw_payload (Some (DBytes bs)) r
      | VData d => raw_payload (Some d) r
      | _ => Err SmithyErr
      end
    end.
  (** The values a codec writes at the top one after another. *)
  Fixpoint top_values (calls : list (nat * value)) : result bytes :=
    match calls with
    | [] => Ok []
    | c :: r => do x <- codec_value c; do y <- top_values r; Ok (x ++ y)
    end.

  Definition is_text_or_blob (with_enum : bool) (s : shape) : bool :=
    match s with
    | ShScalar KText | ShScalar KBlob => true
    | ShEnum => with_enum
    | _ => false
    end.
  (** lines 112-118 and 311-316 *)
  Definition raw_type (m : member) : text :=
    match m_media m with
    | Some t => t
    | None => match m_shape m with ShScalar KBlob => lit "application/octet-stream" | _ => lit "text/plain" end
    end.
  Definition codec_type (m : member) : text := match m_media m with Some t => t | None => media_type end.
  Definition EVENT_STREAM : text := lit "application/vnd.amazon.eventstream".

  (** The payload, its type and length, lines 95-170 and 300-358 ([with_enum] tells the
      two apart).  The calls to the payload serializer are replayed after the other
      members were written; when both raise, the code may raise the other exception. *)
  Definition payload_of (with_enum omit_empty : bool) (b : matcher) (calls : list (nat * value))
      : result (body * option text * option N) :=
    match b_events b with
    | Some _ => match calls with [] => Ok (BEvents, Some EVENT_STREAM, None) | _ => Err SmithyErr end
    | None =>
      match b_payload b with
      | Some (_, m) =>
        if is_text_or_blob with_enum (m_shape m) then
          do p <- raw_payload None calls;
          Ok match p with
             | Some (DBytes bs) => (BBytes bs, Some (raw_type m), Some (N.of_nat (List.length bs)))
             | Some (DStream s) => (BStream s, Some (raw_type m), None)
             | None => (BBytes [], Some (raw_type m), None)
             end
        else
          do bs <- top_values calls;
          Ok (BBytes bs, Some (codec_type m), Some (N.of_nat (List.length bs)))
      | None =>
        if should_write_body b omit_empty then
          do bs <- codec_struct calls;
          Ok (BBytes bs, Some media_type, Some (N.of_nat (List.length bs)))
        else do bs <- top_values calls; Ok (BBytes bs, None, None)
      end
    end.
  (** lines 172-187 and 360-375: [_compute_content_length], lines 204-224, never finds
      one, as [_seek] returns nothing *)
  Definition all_headers (headers : list (text * text)) (ct : option text) (cl : option N) : list (text * text) :=
    headers ++ (match ct with Some t => [(CONTENT_TYPE, t)] | None => [] end)
            ++ (match cl with Some n => [(CONTENT_LENGTH, dec n)] | None => [] end).
  Definition length_required (b : matcher) : bool :=
    match b_events b, b_payload b with None, Some (_, m) => m_requires_length m | _, _ => false end.
  Definition check_length (b : matcher) (fields : list (text * field)) : result (list (text * field)) :=
    if length_required b && negb (dict_has (lower CONTENT_LENGTH) fields) then Err SerializationErr else Ok fields.

  (** HTTPRequestSerializer: the traits of the operation. *)
  Record operation := mkOperation {
    o_path : text; o_query : option text; o_host_prefix : option text; o_omit_empty : bool; o_code : Z }.
  (** A request; fields by their folded names. *)
  Record request := mkRequest {
    q_host : text; q_path : text; q_query : text; q_fields : list (text * field); q_body : body }.
  (** lines 82-201 *)
  Definition serialize_request (o : operation) (ms : list member) (vals : list (nat * value)) : result request :=
    let b := make_matcher request_match ms in
    do a <- write_all (write_request (o_path o) ms b) no_acc vals;
    do p <- payload_of true (o_omit_empty o) b (a_calls a);
    let '(bd, ct, cl) := p in
    do fields <- check_length b (tuples_loop lower Header (all_headers (a_headers a) ct cl) []);
    do host <- str_format (a_host a) None (match o_host_prefix o with Some p => p | None => [] end);
    do path <- path_format uni_word (o_path o) (a_path a);
    do query <- join_query_params (map (fun kv => (fst kv, Some (snd kv))) (a_query a))
                  (match o_query o with Some q => q | None => [] end);
    if host_ok host then Ok (mkRequest host path query fields bd) else Err SmithyErr.

  (** HTTPResponseSerializer, lines 291-388; [response_status] is that of the matcher,
      bindings.py lines 156-161. *)
  Record response := mkResponse { r_status : Z; r_fields : list (text * field); r_body : body }.
  Definition serialize_response (o : operation) (response_status : Z) (ms : list member) (vals : list (nat * value)) : result response :=
    let b := make_matcher response_match ms in
    do a <- write_all (write_response ms b) no_acc vals;
    do p <- payload_of false (o_omit_empty o) b (a_calls a);
    let '(bd, ct, cl) := p in
    do fields <- check_length b (tuples_loop lower Header (all_headers (a_headers a) ct cl) []);
    let status := match a_status a with
                  | Some s => s
                  | None => if Z.ltb 0 response_status then response_status else o_code o
                  end in
    Ok (mkResponse status fields bd).

  (** ** deserializers.py *)

  (** What the consumer reads for a member, by the shape of the member. *)
  Definition read_scalar (m : member) (t : text) : result value :=
    match m_shape m with
    | ShScalar k => do s <- read_header time_float nearest k (m_leaf m) t; Ok (VOne s)
    | ShEnum => do s <- read_header time_float nearest KText (m_leaf m) t; Ok (VOne s)
    | _ => Err SmithyErr
    end.
  Fixpoint read_each (k : kind) (lf : leaf) (ts : list text) : result (list (option scalar)) :=
    match ts with
    | [] => Ok []
    | t :: r => do s <- read_header time_float nearest k lf t; do l <- read_each k lf r; Ok (Some s :: l)
    end.
  (** HTTPHeaderListDeserializer, lines 211-235 *)
  Definition read_values (k : kind) (lf : leaf) (values : list text) : result value :=
    let dates := match k with
                 | KTime => match lf_ts lf with None | Some Time_Model.HTTP_DATE => true | _ => false end
                 | _ => false
                 end in
    do ts <- (match values with [v] => split_header v dates | _ => Ok values end);
    do l <- read_each k lf ts;
    Ok (VList l).
  (** HTTPHeaderMapDeserializer, lines 238-260; the consumer reads strings *)
  Definition read_prefix (prefix : text) (fields : list (text * field)) : value :=
    let p := lower prefix in
    VMap (flat_map (fun e => let f := snd e in
      if starts_with p (lower (f_name f)) then [(skipn (List.length p) (f_name f), IText (as_string (f_values f)))] else [])
      fields).
  (** lines 118-130; the body is in memory, or a stream that cannot be measured *)
  Definition has_empty_body (r : response) : result bool :=
    match dict_get (lower CONTENT_LENGTH) (r_fields r) with
    | Some f => do n <- py_int (as_string (f_values f)); Ok (Z.eqb n 0)
    | None => Ok (match r_body r with BBytes [] => true | _ => false end)
    end.
  (** [_create_body_deserializer], lines 142-153 *)
  Definition body_bytes (r : response) : result bytes :=
    match r_body r with BBytes bs => Ok bs | _ => Err (OtherErr 61) (* UnsupportedStreamError *) end.
  (** lines 108-116 and 132-140, and RawPayloadDeserializer, lines 283-321 *)
  Definition read_payload (i : nat) (m : member) (r : response) : result (list (nat * value)) :=
    if is_text_or_blob true (m_shape m) then
      if m_streaming m then
        Ok [(i, match r_body r with BStream s => VData (DStream s) | BBytes bs => VData (DBytes bs) | BEvents => VOther 0 end)]
      else
        do bs <- body_bytes r;
        match m_shape m with
        | ShScalar KBlob => Ok [(i, VOne (HBlob bs))]
        | _ => do t <- utf8_decode bs; Ok [(i, VOne (HText t))]
        end
    else
      do empty <- (match m_shape m with
                   | ShList _ _ | ShMap | ShUnion | ShStruct => has_empty_body r
                   | _ => Ok false
                   end);
      if (empty : bool) then Ok []
      else do bs <- body_bytes r; do v <- decode_value i bs; Ok [(i, v)].
  (** lines 71-100, for one member *)
  Definition read_member (b : matcher) (r : response) (i : nat) (m : member) : result (list (nat * value)) :=
    do loc <- matches b i;
    match loc with
    | HEADER =>
      do k <- expect (m_header m);
      match dict_get (lower k) (r_fields r) with
      | None => Ok []
      | Some f =>
        do v <- (match m_shape m with
                 | ShList k lf => read_values k lf (f_values f)
                 | _ => read_scalar m (as_string (f_values f))
                 end);
        Ok [(i, v)]
      end
    | PREFIX_HEADERS => do p <- expect (m_prefix m); Ok [(i, read_prefix p (r_fields r))]
    | STATUS => Ok [(i, VOne (HInt (r_status r)))]
    | PAYLOAD =>
      match b_events b, b_payload b with
      | None, Some (j, pm) => read_payload j pm r
      | _, _ => Ok []
      end
    | _ => Ok []
    end.
  Fixpoint read_members (b : matcher) (r : response) (i : nat) (ms : list member) : result (list (nat * value)) :=
    match ms with
    | [] => Ok []
    | m :: rest => do x <- read_member b r i m; do y <- read_members b r (S i) rest; Ok (x ++ y)
    end.
  (** lines 66-106 *)
  Definition read_response (ms : list member) (r : response) : result (list (nat * value)) :=
    let b := make_matcher response_match ms in
    do x <- read_members b r 0 ms;
    if b_has_body b then
      do empty <- has_empty_body r;
      if (empty : bool) then Ok x
      else do bs <- body_bytes r; do y <- decode_struct bs; Ok (x ++ y)
    else Ok x.
End Http.
