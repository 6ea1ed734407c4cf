(** REST JSON error information: packages/smithy-http/src/smithy_http/aio/restjson.py
    lines 17-60 and smithy_http/restjson.py 7-11. *)
From Verif Require Import Base PyText_Model.

(** What [json.loads] gives, as far as it is looked at: texts, objects with the
    entries in order, and anything else by whether Python takes it for true. *)
Inductive jval := JStr (t : text) | JObj (m : list (text * jval)) | JOther (truthy : bool).
(** [json.loads(body)]: a value, a [JSONDecodeError] or another exception, such as
    UnicodeDecodeError. *)
Inductive parsed := Parsed (v : jval) | NotJson | Fails (e : exn).

(** A field of the response: its name and values. *)
Record field := mkField { f_name : text; f_values : list text }.

(** [RestJsonErrorInfo]; a [json_body] that is JSON null is told apart from none. *)
Record info := mkInfo { i_code : text; i_message : text; i_body : option jval }.

(** restjson.py 7-11 *)
Definition code_header : text := lit "x-amzn-errortype".
Definition code_keys : list text := [lit "__type"; lit "code"].
Definition message_keys : list text := [lit "message"; lit "errormessage"; lit "error_message"].

Section Info.
  (** [str.lower] and [json.loads] *)
  Variable lower : text -> text.
  Variable loads : bytes -> parsed.

  Definition has_name (l : list text) (k : text) : bool := existsb (text_eqb k) l.
  (** [not x] for a text or None *)
  Definition missing (o : option text) : bool := match o with None | Some [] => true | _ => false end.
  Definition truthy (v : jval) : bool :=
    match v with JStr [] => false | JStr _ => true | JObj [] => false | JObj _ => true | JOther b => b end.
  (** utils.py 82-96 *)
  Definition expect_str (v : jval) : result text := match v with JStr t => Ok t | _ => Err ExpectationNotMet end.

  (** lines 30-33 *)
  Fixpoint header_code (fields : list field) : result (option text) :=
    match fields with
    | [] => Ok None
    | f :: r =>
      if text_eqb (lower (f_name f)) code_header then
        match f_values f with v :: _ => Ok (Some v) | [] => Err IndexError end
      else header_code r
    end.

  (** lines 46-51 *)
  Fixpoint scan (items : list (text * jval)) (code message : option text) : result (option text * option text) :=
    match items with
    | [] => Ok (code, message)
    | (k, v) :: r =>
      let key := lower k in
      do code1 <- (if missing code && has_name code_keys key then do t <- expect_str v; Ok (Some t) else Ok code);
      do message1 <- (if missing message && has_name message_keys key then do t <- expect_str v; Ok (Some t) else Ok message);
      scan r code1 message1
    end.

  (** lines 35-44: the body that was consumed *)
  Definition read_body (check_body : bool) (body : bytes) : result (option jval) :=
    if check_body then
      match body with
      | [] => Ok None
      | _ => match loads body with Parsed v => Ok (Some v) | NotJson => Ok None | Fails e => Err e end
      end
    else Ok None.

  (** lines 53-58; the second part of a text that has a number sign always exists *)
  Definition normalize (code : text) : text :=
    let code1 := if existsb (N.eqb 35) code then nth 1 (split_on 35 code) [] else code in
    hd [] (split_on 58 code1).
  Definition or_unknown (o : option text) : text := match o with None | Some [] => lit "Unknown" | Some t => t end.

  (** lines 17-60 *)
  Definition parse_info (fields : list field) (body : bytes) (check_body : bool) : result info :=
    do code <- header_code fields;
    do json_body <- read_body check_body body;
    do p <- match json_body with
            | None => Ok (code, None)
            | Some v =>
              if truthy v then match v with JObj m => scan m code None | _ => Err AttributeError end
              else Ok (code, None)
            end;
    let code1 := match fst p with Some ((_ :: _) as c) => Some (normalize c) | o => o end in
    Ok (mkInfo (or_unknown code1) (or_unknown (snd p)) json_body).
End Info.
