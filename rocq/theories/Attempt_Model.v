(** Requests as mutable objects: what signing and an attempt do to objects that
    others hold too.
    S = packages/aws-sdk-signers/src/aws_sdk_signers/signers.py
    W = packages/aws-sdk-signers/src/aws_sdk_signers/_http.py
    R = packages/smithy-http/src/smithy_http/aio/__init__.py
    C = packages/smithy-core/src/smithy_core/aio/client.py
    A = packages/smithy-http/src/smithy_http/aio/auth/apikey.py *)
From Verif Require Import Base PyText_Model PyDict_Model Fields_Model.
From Verif Require EventIO_Model Sign_Model.
Import Sign_Model (body, NoBody, Seek, Once, Many, OtherKind, uri, sigprops, ident).

(** W 339-351, [AWSRequest]; R 14-21, [HTTPRequest]: the destination is
    immutable, the body and the fields are references. *)
Record robj := mkRobj { q_dest : uri; q_method : text; q_body : ref; q_fields : ref }.
(** All objects: fields and collections, requests, bodies. *)
Record store := mkStore { s_state : state; s_reqs : list robj; s_bodies : list body }.
Definition set_state (st : state) (s : store) : store := mkStore st (s_reqs s) (s_bodies s).

(** How a class is deep-copied: [AWSRequest] has its own method (W 353-369) that
    shares the body; the dataclass [HTTPRequest] copies everything. *)
Inductive class := OwnMethod | Dataclass.

(** Statements: a result or an exception, and the objects afterwards. *)
Definition Act (X : Type) : Type := store -> result X * store.
Definition ret {X} (x : X) : Act X := fun s => (Ok x, s).
Definition lift {X} (r : result X) : Act X := fun s => (r, s).
Definition seq {X Y} (m : Act X) (k : X -> Act Y) : Act Y :=
  fun s => let (r, s') := m s in match r with Ok x => k x s' | Err e => (Err e, s') end.

Definition field_at (st : state) (r : ref) : field := nth r (heap st) (mkField [] [] Header).
Definition no_uri : uri := Sign_Model.mkUri [] None None [] None None None.
Definition req_at (s : store) (q : ref) : robj := nth q (s_reqs s) (mkRobj no_uri [] 0 0).
Definition body_at (s : store) (b : ref) : body := nth b (s_bodies s) NoBody.

(** [deepcopy] of a [Fields]: new [Field] objects with new lists of values, in a
    new collection.  (One [Field] is never in a collection twice: its name is its
    key.) *)
Definition copy_fields (c : ref) (st : state) : state :=
  let old := entries_of st c in
  mkState (heap st ++ map (field_at st) (dict_values old))
          (cols st ++ [combine (dict_keys old) (List.seq (List.length (heap st)) (List.length old))]).

Section Objects.
  Variables (lower upper : text -> text) (sha256 : bytes -> bytes) (hmac : bytes -> bytes -> bytes)
    (utf8_replace : bytes -> text) (async : bool).
  (** Whether [deepcopy] can copy a body object: it cannot copy generators and
      files. *)
  Variable copyable : ref -> bool.

  (** S 191-192 and 568-569, [_generate_new_request]: [deepcopy(request)]. *)
  Definition deep_copy (cls : class) (q : ref) : Act ref := fun s =>
    let rq := req_at s q in
    let st := copy_fields (q_fields rq) (s_state s) in
    let made := List.length (s_reqs s) in
    let new_request b := mkRobj (q_dest rq) (q_method rq) b (List.length (cols (s_state s))) in
    match cls with
    | OwnMethod => (Ok made, mkStore st (s_reqs s ++ [new_request (q_body rq)]) (s_bodies s))
    | Dataclass =>
      if copyable (q_body rq) then
        (Ok made, mkStore st (s_reqs s ++ [new_request (List.length (s_bodies s))])
                          (s_bodies s ++ [body_at s (q_body rq)]))
      else (Err TypeError, s)
    end.

  (** [request.fields.set_field(Field(name=name, values=values))]. *)
  Definition put (q : ref) (name : text) (values : list text) : Act unit := fun s =>
    let st := s_state s in
    let st1 := mkState (heap st ++ [mkField name values Header]) (cols st) in
    match set_field lower (q_fields (req_at s q)) (List.length (heap st)) st1 with
    | Ok st2 => (Ok tt, set_state st2 s)
    | Err e => (Err e, set_state st1 s)
    end.
  (** [name in request.fields]; [request.fields[name].values]. *)
  Definition has_field (q : ref) (name : text) : Act bool := fun s =>
    (Ok (contains lower (q_fields (req_at s q)) name (s_state s)), s).
  Definition field_values (q : ref) (name : text) : Act (option (list text)) := fun s =>
    (Ok (match get_item lower (q_fields (req_at s q)) name (s_state s) with
         | Some r => Some (f_values (field_at (s_state s) r))
         | None => None
         end), s).

  (** S 194-214, [_apply_required_fields]. *)
  Definition apply_required (q : ref) (date : text) (i : ident) : Act unit :=
    seq (has_field q (lit "Date")) (fun d =>
    seq (has_field q (lit "X-Amz-Date")) (fun x =>
    seq (if negb d && negb x then put q (lit "X-Amz-Date") [date] else ret tt) (fun _ =>
    match Sign_Model.i_token i with
    | Some token => seq (has_field q (lit "X-Amz-Security-Token")) (fun h =>
                      if negb h then put q (lit "X-Amz-Security-Token") [token] else ret tt)
    | None => ret tt
    end))).

  (** [request.body = buffer], a new object. *)
  Definition new_body (q : ref) (b : body) : Act unit := fun s =>
    let rq := req_at s q in
    (Ok tt, mkStore (s_state s)
              (update q (mkRobj (q_dest rq) (q_method rq) (List.length (s_bodies s)) (q_fields rq)) (s_reqs s))
              (s_bodies s ++ [b])).
  Definition set_body (b : ref) (x : body) : Act unit := fun s =>
    (Ok tt, mkStore (s_state s) (s_reqs s) (update b x (s_bodies s))).

  (** S 383-422 and 775-813, [_compute_payload_hash]. *)
  Definition compute_hash (q : ref) (p : sigprops) : Act text := fun s =>
    let rq := req_at s q in
    if negb (Sign_Model.should_sign_payload (q_dest rq) p) then (Ok Sign_Model.UNSIGNED_PAYLOAD, s)
    else
      let b := body_at s (q_body rq) in
      let digest := EventIO_Model.hexlify (sha256 (Sign_Model.contents b)) in
      match b with
      | NoBody => (Ok Sign_Model.EMPTY_SHA256_HASH, s)
      | OtherKind => (Err TypeError, s)
      | Seek data pos => seq (set_body (q_body rq) (Seek data pos)) (fun _ => ret digest) s
      | Once cs => seq (set_body (q_body rq) (Once [])) (fun _ =>
                   seq (new_body q (Seek (Sign_Model.contents b) 0)) (fun _ => ret digest)) s
      | Many cs => seq (new_body q (Seek (Sign_Model.contents b) 0)) (fun _ => ret digest) s
      end.

  (** S 368-381 and 748-773, [_format_canonical_payload]; 815-819. *)
  Definition format_payload (q : ref) (p : sigprops) : Act text :=
    let compute :=
      seq (compute_hash q p) (fun h =>
      seq (if Sign_Model.get_or false (Sign_Model.sp_checksum p)
           then put q Sign_Model.SHA_HEADER [h] else ret tt) (fun _ => ret h)) in
    if async then
      seq (field_values q Sign_Model.SHA_HEADER) (fun given =>
        match given with
        | Some [v] => ret v
        | _ =>
          seq (field_values q (lit "Content-Type")) (fun ct =>
            if match ct with
               | Some vs => text_eqb (Sign_Model.as_string vs) Sign_Model.EVENT_STREAM_CONTENT_TYPE
               | None => false
               end
            then seq (put q Sign_Model.SHA_HEADER [Sign_Model.EVENT_STREAM_HASH])
                     (fun _ => ret Sign_Model.EVENT_STREAM_HASH)
            else compute)
        end)
    else compute.

  (** The values that [Fields] shows while the request is only read. *)
  Definition shown_fields (st : state) (c : ref) : Sign_Model.fields :=
    map (fun kr => (fst kr, Sign_Model.mkField (f_name (field_at st (snd kr))) (f_values (field_at st (snd kr)))))
        (entries_of st c).
  Definition signing_fields (q : ref) : Act (list (text * text)) := fun s =>
    let rq := req_at s q in
    (Ok (Sign_Model.normalize_signing_fields lower (q_dest rq) (shown_fields (s_state s) (q_fields rq))), s).

  (** S 216-255, [canonical_request]. *)
  Definition canonical (q : ref) (p : sigprops) : Act text :=
    seq (format_payload q p) (fun payload => fun s =>
      let rq := req_at s q in
      seq (lift (Sign_Model.format_canonical_path (Sign_Model.u_path (q_dest rq)) p)) (fun path =>
      seq (lift (Sign_Model.format_canonical_query utf8_replace (Sign_Model.u_query (q_dest rq)))) (fun query =>
      seq (signing_fields q) (fun d =>
        ret (upper (q_method rq) ++ Sign_Model.LF ++ path ++ Sign_Model.LF ++ query ++ Sign_Model.LF
               ++ Sign_Model.format_canonical_fields d ++ Sign_Model.LF
               ++ join [59%N] (map fst d) ++ Sign_Model.LF ++ payload)))) s).

  (** S 56-111 and 434-487, [sign]: the signed request object. *)
  Definition sign_object (cls : class) (now : text) (i : ident) (p : sigprops) (q : ref) : Act ref :=
    if Sign_Model.i_expired i then lift (Err ValueError)
    else
      let date := Sign_Model.get_or now (Sign_Model.sp_date p) in
      seq (deep_copy cls q) (fun new =>
      seq (apply_required new date i) (fun _ =>
      seq (canonical new p) (fun text_ =>
      seq (lift (Sign_Model.string_to_sign sha256 text_ date p)) (fun sts =>
      seq (lift (Sign_Model.signature hmac sts (Sign_Model.i_secret i) date p)) (fun sig =>
      seq (signing_fields new) (fun d =>
      seq (put new (lit "Authorization")
             [Sign_Model.authorization_value
                (Sign_Model.i_access i ++ [47%N] ++ Sign_Model.scope date p) (map fst d) sig]) (fun _ =>
      ret new))))))).

  (** ** Attempts *)

  (** What the parts of an attempt do with requests: set attributes (C 400-405
      with [set_service_endpoint], A 58-72, interceptors), change header
      collections and fields (A 73-77, interceptors, clients), read or seek
      bodies, sign (C 440-449).  What raises changes nothing more. *)
  Inductive action :=
  | SetDest (q : ref) (u : uri)
  | SetMethod (q : ref) (m : text)
  | SetBody (q : ref) (b : ref)
  | SetFields (q : ref) (c : ref)
  | OnHeaders (o : op)
  | OnBody (b : ref) (x : body)
  | NewBody (x : body)
  | Sign (cls : class) (now : text) (i : ident) (p : sigprops) (q : ref).

  Definition set_req (q : ref) (f : robj -> robj) (s : store) : store :=
    mkStore (s_state s) (update q (f (req_at s q)) (s_reqs s)) (s_bodies s).
  (** [None]: merging collections goes on forever (C65). *)
  Definition act (fuel : nat) (a : action) (s : store) : option store :=
    match a with
    | SetDest q u => Some (set_req q (fun r => mkRobj u (q_method r) (q_body r) (q_fields r)) s)
    | SetMethod q m => Some (set_req q (fun r => mkRobj (q_dest r) m (q_body r) (q_fields r)) s)
    | SetBody q b => Some (set_req q (fun r => mkRobj (q_dest r) (q_method r) b (q_fields r)) s)
    | SetFields q c => Some (set_req q (fun r => mkRobj (q_dest r) (q_method r) (q_body r) c) s)
    | OnHeaders o => match step lower fuel o (s_state s) with
                     | Some (st, _) => Some (set_state st s)
                     | None => None
                     end
    | OnBody b x => Some (mkStore (s_state s) (s_reqs s) (update b x (s_bodies s)))
    | NewBody x => Some (mkStore (s_state s) (s_reqs s) (s_bodies s ++ [x]))
    | Sign cls now i p q => Some (snd (sign_object cls now i p q s))
    end.
  Fixpoint acts (fuel : nat) (l : list action) (s : store) : option store :=
    match l with
    | [] => Some s
    | a :: r => match act fuel a s with Some s' => acts fuel r s' | None => None end
    end.

  (** C 341-347: [copy(request_context.transport_request)], a shallow copy. *)
  Definition shallow_copy (q : ref) (s : store) : store :=
    mkStore (s_state s) (s_reqs s ++ [req_at s q]) (s_bodies s).
  (** C 337-375: the attempts of a call, one after the other; what is given back
      is the request each attempt starts with, and the objects at that time. *)
  Fixpoint attempts (fuel : nat) (q : ref) (bodies_of_attempts : list (list action)) (s : store)
    : option (list (ref * store)) :=
    match bodies_of_attempts with
    | [] => Some []
    | l :: rest =>
      let s1 := shallow_copy q s in
      match acts fuel l s1 with
      | None => None
      | Some s2 =>
        match attempts fuel q rest s2 with
        | Some starts => Some ((List.length (s_reqs s), s1) :: starts)
        | None => None
        end
      end
    end.

  (** A 73-77: the key in a header. *)
  Definition api_key_in_header (c : ref) (next : ref) (name value : text) : list action :=
    [OnHeaders (ONewField name [value] Header); OnHeaders (OSetField c next)].
End Objects.
