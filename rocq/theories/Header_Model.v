(** Model of the header value syntax of smithy-http
    (packages/smithy-http/src/smithy_http/__init__.py and utils.py). *)
From Verif Require Import Base PyText_Model.
Local Open Scope N_scope.

Definition DQUOTE : N := 34.
Definition BACKSLASH : N := 92.
Definition COMMA : N := 44.

(** __init__.py 207-217, [quote_and_escape_field_value]. *)
Definition quote_and_escape (v : text) : text :=
  if existsb (fun c => (c =? COMMA) || (c =? DQUOTE)) v then
    let escaped :=
      replace_char DQUOTE [BACKSLASH; DQUOTE] (replace_char BACKSLASH [BACKSLASH; BACKSLASH] v) in
    [DQUOTE] ++ escaped ++ [DQUOTE]
  else v.

(** __init__.py 54-71, [Field.as_string]; the [delimiter] argument is ignored
    by the code as well. *)
Definition as_string (values : list text) : text :=
  match values with
  | [] => []
  | [v] => v
  | _ => join [COMMA; 32] (map quote_and_escape values)
  end.

(** utils.py 65-106, the loop of [_consume_until], from the text that starts at
    [end_index].  It returns the collected text and how far [end_index] moved. *)
Fixpoint consume_loop (end_char : N) (escape_char : option N) (should_skip escaped : bool)
    (rest : text) : text * nat :=
  match rest with
  | [] => ([], 0%nat)
  | c :: r =>
    if escaped then
      let (t, k) := consume_loop end_char escape_char should_skip false r in (c :: t, S k)
    else if match escape_char with Some e => c =? e | None => false end then
      let (t, k) := consume_loop end_char escape_char should_skip true r in (t, S k)
    else if c =? end_char then
      if should_skip then
        let (t, k) := consume_loop end_char escape_char false false r in (c :: t, S k)
      else ([], 0%nat)
    else
      let (t, k) := consume_loop end_char escape_char should_skip false r in (c :: t, S k)
  end.

(** utils.py 65-106, [_consume_until]: the text and the index after the end
    character, which is [len(given) + 1] when the end was reached. *)
Definition consume_until (given : text) (start : nat) (end_char : N) (escape_char : option N)
    (skip_first : bool) : text * nat :=
  let (t, k) := consume_loop end_char escape_char skip_first false (skipn start given) in
  (t, S (start + k)).

(** utils.py 29-62, the loop of [split_header].  Every iteration moves [i]
    forward, so [S (len(given))] iterations are enough ([Header_Proofs.split_fuel]
    proves it); the last argument of the recursion only serves termination. *)
Fixpoint split_loop (fuel : nat) (given : text) (date : bool) (i : nat) : result (list text) :=
  match fuel with
  | O => Err RuntimeError
  | S fuel' =>
    match nth_error given i with
    | None => Ok []
    | Some c =>
      if is_space c then split_loop fuel' given date (S i)
      else if c =? DQUOTE then
        let (entry, i1) := consume_until given (S i) DQUOTE (Some BACKSLASH) false in
        if Nat.ltb (List.length given) i1 || negb (nth (i1 - 1) given 0 =? DQUOTE) then Err SmithyErr
        else
          let (excess, i2) := consume_until given i1 COMMA None false in
          match strip excess with
          | _ :: _ => Err SmithyErr
          | [] => do vs <- split_loop fuel' given date i2; Ok (entry :: vs)
          end
      else
        let (entry, i1) := consume_until given i COMMA None date in
        do vs <- split_loop fuel' given date i1;
        match strip entry with
        | [] => Ok vs
        | s => Ok (s :: vs)
        end
    end
  end.

(** utils.py 9-62, [split_header]. *)
Definition split_header (given : text) (date : bool) : result (list text) :=
  split_loop (S (List.length given)) given date 0.

(** deserializers.py 221-235, [HTTPHeaderListDeserializer.read_list]: the texts
    handed to the element deserializer, for a field with these values. *)
Definition read_header_list (http_date_list : bool) (values : list text) : result (list text) :=
  match values with
  | [v] => split_header v http_date_list
  | _ => Ok values
  end.
