(** Form bodies of the AWS Query protocol:
    packages/smithy-aws-core/src/smithy_aws_core/_private/query/serializers.py and
    aio/protocols.py lines 274-308. *)
From Verif Require Import Base Utf8_Model PyText_Model PySort_Model Base64_Model Fields_Model HttpVal_Model.
From Verif Require Time_Model.
Local Open Scope N_scope.

(** What a generated shape writes; members of structures and unions by the number of
    their schema, in the order they are written. *)
Inductive value :=
| QNull | QScalar (v : scalar) | QDocument
| QList (l : list value) | QMap (l : list (text * value)) | QStruct (l : list (N * value)).

Section Form.
  Variable pads_year : bool.
  Variable repr : Time_Model.float -> text.
  (** The schemas, by number: [xmlName], the name of a member, [xmlFlattened],
      [timestampFormat], and the members "member", "key" and "value" of lists and maps. *)
  Variable xml_name : N -> option text.
  Variable member_name : N -> option text.
  Variable flattened : N -> bool.
  Variable ts_format : N -> option format.
  Variable list_member map_key map_value : N -> option N.

  (** lines 27-29 *)
  Definition percent_encode_query (s : text) : result text := urlquote [45; 95; 46; 126] s.
  (** lines 32-36 *)
  Definition resolve_name (s : N) (default : text) : text := match xml_name s with Some n => n | None => default end.

  (** lines 103-125; [serialize_float] and the timestamp formats as in HttpVal_Model *)
  Definition form_text (s : N) (v : scalar) : result text :=
    match v with
    | HBool b => Ok (if b then lit "true" else lit "false")
    | HInt z => Ok (dec_Z z)
    | HFloat f => Ok (serialize_float f)
    | HDecimal d => Ok (serialize_decimal d)
    | HText t => Ok t
    | HBlob bs => Ok (b64encode bs)
    | HTime t => time_text pads_year repr Time_Model.DATE_TIME (mkLeaf false (ts_format s)) t
    end.
  (** lines 78-83: the new parameter *)
  Definition append (path : list text) (t : text) : result (list (text * text)) :=
    match path with [] => Err SerializationErr | _ => Ok [(join [46] path, t)] end.
  Definition expect_schema (o : option N) : result N := match o with Some n => Ok n | None => Err KeyError end.
  Definition expect_name (s : N) : result text := match member_name s with Some n => Ok n | None => Err ExpectationNotMet end.

  (** Lines 85-128 and the serializers of structures (168-169), lists (182-203) and maps
      (217-243), with InterceptingSerializer of smithy_core/serializers.py: the
      parameters that writing [v] with the schema [s] at [path] appends.  The indices are
      counted from 1. *)
  Fixpoint write (s : N) (v : value) (path : list text) : result (list (text * text)) :=
    match v with
    | QNull => Ok []
    | QDocument => Err SerializationErr
    | QScalar x => do t <- form_text s x; append path t
    | QStruct l =>
      (fix go (l : list (N * value)) : result (list (text * text)) :=
         match l with
         | [] => Ok []
         | (m, x) :: r =>
           do n <- expect_name m;
           do ps <- write m x (path ++ [resolve_name m n]);
           do rest <- go r; Ok (ps ++ rest)
         end) l
    | QList l =>
      do first <- (match l with [] => append path [] | _ => Ok [] end);
      do m <- expect_schema (list_member s);
      let item := resolve_name m (lit "member") in
      do ps <- (fix go (i : N) (l : list value) : result (list (text * text)) :=
         match l with
         | [] => Ok []
         | x :: r =>
           do ps <- write m x (path ++ (if flattened s then [dec i] else [item; dec i]));
           do rest <- go (i + 1) r; Ok (ps ++ rest)
         end) 1 l;
      Ok (first ++ ps)
    | QMap l =>
      do k <- expect_schema (map_key s);
      do e <- expect_schema (map_value s);
      (fix go (i : N) (l : list (text * value)) : result (list (text * text)) :=
         match l with
         | [] => Ok []
         | (key, x) :: r =>
           let entry := path ++ (if flattened s then [dec i] else [lit "entry"; dec i]) in
           do kp <- append (entry ++ [resolve_name k (lit "key")]) key;
           do ps <- write e x (entry ++ [resolve_name e (lit "value")]);
           do rest <- go (i + 1) r; Ok (kp ++ ps ++ rest)
         end) 1 l
    end.

  (** lines 130-144 *)
  Fixpoint render (ps : list (text * text)) : result (list text) :=
    match ps with
    | [] => Ok []
    | (k, v) :: r =>
      do a <- percent_encode_query k; do b <- percent_encode_query v;
      do rest <- render r; Ok ((a ++ 61 :: b) :: rest)
    end.
  Definition flush (action version : option text) (params : list (text * text)) : result bytes :=
    let serialized := (match action, version with
                       | Some a, Some v => [(lit "Action", a); (lit "Version", v)]
                       | _, _ => []
                       end) ++ params in
    do l <- render serialized; utf8_encode (join [38] l).

  (** protocols.py lines 274-308; the input is a structure *)
  Record form_request := mkForm { f_method : text; f_path : text; f_fields : list (text * field); f_body : bytes }.
  Definition serialize_form (lower : text -> text) (action version : text) (s : N) (members : list (N * value)) : result form_request :=
    do ps <- write s (QStruct members) [];
    do body <- flush (Some action) (Some version) ps;
    Ok (mkForm (lit "POST") (lit "/")
          (tuples_loop lower Header
             [(lit "content-type", lit "application/x-www-form-urlencoded");
              (lit "content-length", dec (N.of_nat (List.length body)))] [])
          body).
End Form.
