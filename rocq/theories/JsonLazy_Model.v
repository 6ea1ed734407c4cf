(** Strings and blobs that hold JSON: smithy_core/types.py lines 35-66
    ([JsonString], [JsonBlob]), with CPython's [json.dumps] and [json.loads]. *)
From Verif Require Import Base Utf8_Model PyText_Model PySort_Model PyDict_Model PyDecimal_Model Json_Model Json_Spec.
Local Open Scope N_scope.

(** The values [json.loads] makes.  Tuples, keys that are not strings and objects that
    [json.dumps] refuses are left out. *)
Inductive pyval :=
| YNull | YBool (b : bool) | YInt (z : Z) | YFloat (f : float) | YStr (s : text)
| YList (l : list pyval) | YDict (l : list (text * pyval)).

(** CPython, json/encoder.py lines 49-70 ([py_encode_basestring_ascii]). *)
Definition uescape (n : N) : text :=
  [92; 117; hex_char (n / 4096 mod 16); hex_char (n / 256 mod 16); hex_char (n / 16 mod 16); hex_char (n mod 16)].
Definition ascii_escape (c : N) : text :=
  if c =? 92 then [92; 92]
  else if c =? 34 then [92; 34]
  else if c =? 10 then [92; 110]
  else if c =? 13 then [92; 114]
  else if c =? 9 then [92; 116]
  else if c =? 8 then [92; 98]
  else if c =? 12 then [92; 102]
  else if (32 <=? c) && (c <=? 126) then [c]
  else if c <? 0x10000 then uescape c
  else uescape (0xD800 + (c - 0x10000) / 0x400 mod 0x400) ++ uescape (0xDC00 + (c - 0x10000) mod 0x400).
Definition dumps_str (s : text) : text := 34 :: flat_map ascii_escape s ++ [34].
(** lines 224-244 ([floatstr]); [float_text] is [float.__repr__]. *)
Definition dumps_float (f : float) : text :=
  match f with
  | FNaN => lit "NaN"
  | FInf => lit "Infinity"
  | FNegInf => lit "-Infinity"
  | FFin d => float_text d
  end.
(** [json.dumps] with its defaults, lines 277-442.  The limit of 4300 digits of
    [str(int)] and the recursion limit are not modelled. *)
Fixpoint dumps (v : pyval) : text :=
  match v with
  | YNull => lit "null"
  | YBool b => if b then lit "true" else lit "false"
  | YInt z => dec_Z z
  | YFloat f => dumps_float f
  | YStr s => dumps_str s
  | YList l => [91] ++ join (lit ", ") (map dumps l) ++ [93]
  | YDict l => [123] ++ join (lit ", ") (map (fun a => dumps_str (fst a) ++ lit ": " ++ dumps (snd a)) l) ++ [125]
  end.

Section Lazy.
  (** [float] of a decimal numeral. *)
  Variable float_of : decimal -> float.

  Definition number_of (n : number) : pyval :=
    let '(m, e) := num_value n in
    if integral n then YInt m else YFloat (float_of (mkDec (n_neg n) (Z.abs_N m) e)).
  Fixpoint value_of (j : json) : pyval :=
    match j with
    | JNull => YNull
    | JBool b => YBool b
    | JNum n => number_of n
    | JStr s => YStr s
    | JArr l => YList (map value_of l)
    | JObj l => YDict (fold_left (fun d a => dict_set (fst a) (snd a) d) (map (fun a => (fst a, value_of (snd a))) l) [])
    end.
  (** [json.loads] of a text: RFC 8259, the reader of Json_Spec.v.  The words NaN,
      Infinity and -Infinity, which CPython reads as well, are refused here. *)
  Definition loads (t : text) : result pyval :=
    match read_json t with Some j => Ok (value_of j) | None => Err ValueError end.

  (** What the string, or the blob, is. *)
  Inductive source := SText (s : text) | SBlob (bs : bytes).
  (** Objects are numbered; an object is looked at as a whole, with all it refers to. *)
  Definition heap := list pyval.
  Record lazy := mkLazy { l_source : source; l_cache : option nat }.    (* [_json], lines 38 and 54 *)

  (** Lines 42 and 58: [not self._json] is false. *)
  Definition truthy (v : pyval) : bool :=
    match v with
    | YNull => false
    | YBool b => b
    | YInt z => negb (Z.eqb z 0)
    | YFloat (FFin d) => negb (d_coeff d =? 0)
    | YFloat _ => true
    | YStr s => match s with [] => false | _ => true end
    | YList l => match l with [] => false | _ => true end
    | YDict l => match l with [] => false | _ => true end
    end.
  Definition cached (h : heap) (s : lazy) : option nat :=
    match l_cache s with
    | Some r => match nth_error h r with Some v => if truthy v then Some r else None | None => None end
    | None => None
    end.
  (** [as_json], lines 40-43 and 56-59: the object returned. *)
  Definition as_json (h : heap) (s : lazy) : result (heap * lazy * nat) :=
    match cached h s with
    | Some r => Ok (h, s, r)
    | None =>
      do t <- match l_source s with SText t => Ok t | SBlob bs => utf8_decode bs end;
      do v <- loads t;
      Ok (h ++ [v], mkLazy (l_source s) (Some (List.length h)), List.length h)
    end.
  (** [from_json], lines 45-49 and 61-65, of an object. *)
  Definition from_json_string (v : pyval) (r : nat) : lazy := mkLazy (SText (dumps v)) (Some r).
  Definition from_json_blob (v : pyval) (r : nat) : result lazy :=
    do bs <- utf8_encode (dumps v); Ok (mkLazy (SBlob bs) (Some r)).

  (** Several calls of [as_json] in a row: the objects returned, up to the first exception. *)
  Fixpoint calls (n : nat) (h : heap) (s : lazy) : heap * lazy * list nat * option exn :=
    match n with
    | O => (h, s, [], None)
    | S n =>
      match as_json h s with
      | Ok (h, s, r) => let '(h, s, rs, e) := calls n h s in (h, s, r :: rs, e)
      | Err e => (h, s, [], Some e)
      end
    end.
  (** A list or a dict is changed in place. *)
  Definition change (r : nat) (v : pyval) (h : heap) : option heap :=
    match nth_error h r, v with
    | Some (YList _), YList _ => Some (firstn r h ++ v :: skipn (S r) h)
    | Some (YDict _), YDict _ => Some (firstn r h ++ v :: skipn (S r) h)
    | _, _ => None
    end.
End Lazy.
