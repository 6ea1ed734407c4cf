(** What query strings, paths and the user agent mean, independently of the
    code that writes them. *)
From Verif Require Import Base Utf8_Model PyText_Model Http_Model.
Local Open Scope N_scope.

(** Percent decoding (RFC 3986, section 2.1), then UTF-8. *)
Definition hex_value (c : N) : option N :=
  if (48 <=? c) && (c <=? 57) then Some (c - 48)
  else if (65 <=? c) && (c <=? 70) then Some (c - 55)
  else if (97 <=? c) && (c <=? 102) then Some (c - 87)
  else None.
Fixpoint unquote (s : text) : option bytes :=
  match s with
  | [] => Some []
  | c :: r =>
    if c =? 37 then
      match r with
      | a :: b :: r' =>
        match hex_value a, hex_value b, unquote r' with
        | Some x, Some y, Some bs => Some (16 * x + y :: bs)
        | _, _, _ => None
        end
      | _ => None
      end
    else if c <? 128 then match unquote r with Some bs => Some (c :: bs) | None => None end
    else None
  end.
Definition decode (s : text) : option text :=
  match unquote s with
  | Some bs => match utf8_decode bs with Ok t => Some t | Err _ => None end
  | None => None
  end.

(** Reading a query string: parameters between ampersands, the value after the
    first equals sign. *)
Definition decode_param (s : text) : option (text * option text) :=
  match cut_at 61 s with
  | (k, None) => match decode k with Some k' => Some (k', None) | None => None end
  | (k, Some v) =>
    match decode k, decode v with Some k', Some v' => Some (k', Some v') | _, _ => None end
  end.
Fixpoint all_some {A} (l : list (option A)) : option (list A) :=
  match l with
  | [] => Some []
  | Some x :: r => match all_some r with Some xs => Some (x :: xs) | None => None end
  | None :: _ => None
  end.
Definition parse_query (s : text) : option (list (text * option text)) :=
  match s with [] => Some [] | _ => all_some (map decode_param (split_on 38 s)) end.

(** A path pattern: literal text, labels and greedy labels. *)
Inductive piece := Lit (t : text) | Label (n : text) | Greedy (n : text).
Definition show_piece (p : piece) : text :=
  match p with
  | Lit t => t
  | Label n => [123] ++ n ++ [125]
  | Greedy n => [123] ++ n ++ [43; 125]
  end.
Definition show (ps : list piece) : text := List.concat (map show_piece ps).
(** The path with every label replaced. *)
Definition fill_piece (value : text -> text) (p : piece) : text :=
  match p with Lit t => t | Label n | Greedy n => value n end.
Definition fill (value : text -> text) (ps : list piece) : text :=
  List.concat (map (fill_piece value) ps).

(** Label names are ASCII identifiers, literals hold no braces. *)
Definition name_char (c : N) : bool :=
  ((48 <=? c) && (c <=? 57)) || ((65 <=? c) && (c <=? 90)) || (c =? 95) || ((97 <=? c) && (c <=? 122)).
Definition label_name (n : text) : Prop :=
  (forall c, In c n -> name_char c = true) /\ (exists c, In c n /\ ~ (48 <= c <= 57)).
Definition good_piece (p : piece) : Prop :=
  match p with
  | Lit t => ~ In 123 t /\ ~ In 125 t
  | Label n | Greedy n => label_name n
  end.
Definition is_greedy (n : text) (ps : list piece) : Prop := In (Greedy n) ps.
Definition is_label (n : text) (ps : list piece) : Prop := In (Label n) ps \/ In (Greedy n) ps.

(** A pattern split at its slashes: literals hold none. *)
Definition no_slash (p : piece) : Prop := match p with Lit t => ~ In 47 t | _ => True end.
Definition segments (segs : list (list piece)) : list piece :=
  match segs with
  | [] => []
  | s :: r => s ++ flat_map (fun s' => Lit [47] :: s') r
  end.
Definition only_plain (seg : list piece) : Prop := forall n, ~ In (Greedy n) seg.

(** The non-empty segments of an optional path. *)
Definition nonempty (t : text) : bool := match t with [] => false | _ => true end.
Definition path_parts (p : option text) : list text :=
  match p with
  | Some s => filter nonempty (split_on 47 s)
  | None => []
  end.
Definition text_of (o : option text) : text := match o with Some t => t | None => [] end.

(** One word of a user agent, read back: prefix, name, value. *)
Definition read_word (w : text) : option (text * text * option text) :=
  match cut_at 47 w with
  | (p, Some rest) => let (n, v) := cut_at 35 rest in Some (p, n, v)
  | (_, None) => None
  end.
(** The documented order of the component groups. *)
Definition in_order (u : user_agent) : list component :=
  List.concat [ua_sdk u; ua_internal u; ua_ua u; ua_api u; ua_os u; ua_language u; ua_env u; ua_config u; ua_feat u;
               ua_additional u].
Definition token_char (c : N) : bool :=
  ((65 <=? c) && (c <=? 90)) || ((97 <=? c) && (c <=? 122)) || ((48 <=? c) && (c <=? 57))
  || (c =? 33) || (c =? 36) || (c =? 37) || (c =? 38) || (c =? 39) || (c =? 42) || (c =? 43)
  || (c =? 45) || (c =? 46) || (c =? 94) || (c =? 95) || (c =? 96) || (c =? 124) || (c =? 126).
