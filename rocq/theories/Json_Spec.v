(** JSON texts, RFC 8259: a reader written from its grammar; what the text of a
    value has to be; the events of a JSON value. *)
From Verif Require Import Base Utf8_Model PyText_Model PySort_Model PyDict_Model PyDecimal_Model Base64_Spec Json_Model.
Local Open Scope N_scope.

(** A number as written: sign, digits before and after the point, exponent. *)
Record number := mkNum { n_neg : bool; n_int : text; n_frac : text; n_exp : option Z }.
Inductive json :=
| JNull | JBool (b : bool) | JNum (n : number) | JStr (s : text)
| JArr (l : list json) | JObj (l : list (text * json)).

(** The value of a number is [m * 10 ^ e] for this [(m, e)]. *)
Definition num_value (n : number) : Z * Z :=
  let m := Z.of_N (match digits_val 0 (n_int n ++ n_frac n) with Some v => v | None => 0 end) in
  (if n_neg n then (- m)%Z else m, (match n_exp n with Some e => e | None => 0 end - Z.of_nat (List.length (n_frac n)))%Z).
(** The same number. *)
Definition same_value (a b : Z * Z) : Prop :=
  let k := Z.min (snd a) (snd b) in (fst a * 10 ^ (snd a - k) = fst b * 10 ^ (snd b - k))%Z.
Definition dec_value (d : decimal) : Z * Z :=
  ((if d_neg d then - Z.of_N (d_coeff d) else Z.of_N (d_coeff d))%Z, d_exp d).

(** ** Reading: each function gives what is left of the text *)

(** ws = space, tab, line feed, carriage return *)
Definition is_ws (c : N) : bool := (c =? 32) || (c =? 9) || (c =? 10) || (c =? 13).
Fixpoint skip_ws (s : text) : text :=
  match s with c :: r => if is_ws c then skip_ws r else s | [] => [] end.

Definition is_digit (c : N) : bool := (48 <=? c) && (c <=? 57).
Fixpoint span_digits (s : text) : text * text :=
  match s with
  | c :: r => if is_digit c then let (d, t) := span_digits r in (c :: d, t) else ([], s)
  | [] => ([], [])
  end.
(** int = zero / ( digit1-9 *DIGIT ) *)
Definition read_int (s : text) : option (text * text) :=
  match s with
  | c :: r => if c =? 48 then Some ([48], r) else if is_digit c then Some (span_digits s) else None
  | [] => None
  end.
(** frac = decimal-point 1*DIGIT *)
Definition read_frac (s : text) : option (text * text) :=
  match s with
  | c :: r =>
    if c =? 46 then match span_digits r with ([], _) => None | dt => Some dt end else Some ([], s)
  | [] => Some ([], [])
  end.
(** exp = e [ minus / plus ] 1*DIGIT *)
Definition exp_digits (neg : bool) (s : text) : option (option Z * text) :=
  match span_digits s with
  | ([], _) => None
  | (d, t) =>
    match digits_val 0 d with
    | Some v => Some (Some (if neg then (- Z.of_N v)%Z else Z.of_N v), t)
    | None => None
    end
  end.
Definition read_exp (s : text) : option (option Z * text) :=
  match s with
  | c :: r =>
    if (c =? 101) || (c =? 69) then
      match r with
      | d :: r' => if d =? 43 then exp_digits false r' else if d =? 45 then exp_digits true r' else exp_digits false r
      | [] => None
      end
    else Some (None, s)
  | [] => Some (None, [])
  end.
(** number = [ minus ] int [ frac ] [ exp ] *)
Definition read_unsigned (neg : bool) (s : text) : option (number * text) :=
  match read_int s with
  | None => None
  | Some (i, s1) =>
    match read_frac s1 with
    | None => None
    | Some (f, s2) =>
      match read_exp s2 with
      | None => None
      | Some (e, s3) => Some (mkNum neg i f e, s3)
      end
    end
  end.
Definition read_number (s : text) : option (number * text) :=
  match s with
  | c :: r => if c =? 45 then read_unsigned true r else read_unsigned false s
  | [] => None
  end.

Definition hex_val (c : N) : option N :=
  if is_digit c then Some (c - 48)
  else if (97 <=? c) && (c <=? 102) then Some (c - 87)
  else if (65 <=? c) && (c <=? 70) then Some (c - 55)
  else None.
Definition hex4 (a b c d : N) : option N :=
  match hex_val a, hex_val b, hex_val c, hex_val d with
  | Some a, Some b, Some c, Some d => Some (((a * 16 + b) * 16 + c) * 16 + d)
  | _, _, _, _ => None
  end.
(** The two-character escapes. *)
Definition simple_escape (c : N) : option N :=
  if c =? 34 then Some 34 else if c =? 92 then Some 92 else if c =? 47 then Some 47
  else if c =? 98 then Some 8 else if c =? 102 then Some 12 else if c =? 110 then Some 10
  else if c =? 114 then Some 13 else if c =? 116 then Some 9 else None.
Definition cons_char (c : N) (r : option (text * text)) : option (text * text) :=
  match r with Some (s, t) => Some (c :: s, t) | None => None end.
(** string, after the opening quotation mark; a surrogate pair is one character *)
Fixpoint read_string (s : text) : option (text * text) :=
  match s with
  | [] => None
  | c :: r =>
    if c =? 34 then Some ([], r)
    else if c <? 32 then None
    else if c =? 92 then
      match r with
      | [] => None
      | e :: r1 =>
        if e =? 117 then
          match r1 with
          | h1 :: h2 :: h3 :: h4 :: r2 =>
            match hex4 h1 h2 h3 h4 with
            | None => None
            | Some u =>
              if (0xD800 <=? u) && (u <? 0xDC00) then
                match r2 with
                | b :: e2 :: g1 :: g2 :: g3 :: g4 :: r3 =>
                  match (if (b =? 92) && (e2 =? 117) then hex4 g1 g2 g3 g4 else None) with
                  | Some v =>
                    if (0xDC00 <=? v) && (v <? 0xE000)
                    then cons_char (0x10000 + (u - 0xD800) * 0x400 + (v - 0xDC00)) (read_string r3)
                    else cons_char u (read_string r2)
                  | None => cons_char u (read_string r2)
                  end
                | _ => cons_char u (read_string r2)
                end
              else cons_char u (read_string r2)
            end
          | _ => None
          end
        else match simple_escape e with Some x => cons_char x (read_string r1) | None => None end
      end
    else cons_char c (read_string r)
  end.

Fixpoint strip_prefix (p s : text) : option text :=
  match p, s with
  | [], _ => Some s
  | a :: p', b :: s' => if a =? b then strip_prefix p' s' else None
  | _, [] => None
  end.
Definition read_word (w : text) (v : json) (s : text) : option (json * text) :=
  match strip_prefix w s with Some r => Some (v, r) | None => None end.

(** value, object and array.  Every nesting and every element takes a character
    at least, so that the length of the text bounds [fuel]. *)
Fixpoint read_value (fuel : nat) (s : text) : option (json * text) :=
  match fuel with
  | O => None
  | S f =>
    match skip_ws s with
    | [] => None
    | c :: r =>
      if c =? 123 then
        match skip_ws r with
        | d :: r' =>
          if d =? 125 then Some (JObj [], r')
          else match read_members f (d :: r') with Some (ms, t) => Some (JObj ms, t) | None => None end
        | [] => None
        end
      else if c =? 91 then
        match skip_ws r with
        | d :: r' =>
          if d =? 93 then Some (JArr [], r')
          else match read_elements f (d :: r') with Some (es, t) => Some (JArr es, t) | None => None end
        | [] => None
        end
      else if c =? 34 then match read_string r with Some (x, t) => Some (JStr x, t) | None => None end
      else if c =? 116 then read_word (lit "true") (JBool true) (c :: r)
      else if c =? 102 then read_word (lit "false") (JBool false) (c :: r)
      else if c =? 110 then read_word (lit "null") JNull (c :: r)
      else match read_number (c :: r) with Some (n, t) => Some (JNum n, t) | None => None end
    end
  end
with read_elements (fuel : nat) (s : text) : option (list json * text) :=
  match fuel with
  | O => None
  | S f =>
    match read_value f s with
    | None => None
    | Some (v, t) =>
      match skip_ws t with
      | c :: r =>
        if c =? 93 then Some ([v], r)
        else if c =? 44 then match read_elements f r with Some (vs, t') => Some (v :: vs, t') | None => None end
        else None
      | [] => None
      end
    end
  end
with read_members (fuel : nat) (s : text) : option (list (text * json) * text) :=
  match fuel with
  | O => None
  | S f =>
    match skip_ws s with
    | q :: s1 =>
      if q =? 34 then
        match read_string s1 with
        | None => None
        | Some (k, s2) =>
          match skip_ws s2 with
          | c :: s3 =>
            if c =? 58 then
              match read_value f s3 with
              | None => None
              | Some (v, t) =>
                match skip_ws t with
                | d :: r =>
                  if d =? 125 then Some ([(k, v)], r)
                  else if d =? 44 then match read_members f r with Some (ms, t') => Some ((k, v) :: ms, t') | None => None end
                  else None
                | [] => None
                end
              end
            else None
          | [] => None
          end
        end
      else None
    | [] => None
    end
  end.

(** JSON-text = ws value ws *)
Definition read_json (s : text) : option json :=
  match read_value (2 * List.length s + 1) s with
  | Some (v, t) => match skip_ws t with [] => Some v | _ => None end
  | None => None
  end.

(** ** What a written value has to read back as *)

(** The member of a structure that carries a name on the wire. *)
Definition on_wire (st : settings) (m : member) (w : text) : Prop :=
  match m_json m with
  | Some j => if use_json_name st then w = j else w = m_name m
  | None => w = m_name m
  end.
Definition has_member (env : N -> node) (schema : N) (k : text) (m : member) : Prop :=
  exists ms, env schema = NStruct ms /\ In m ms /\ m_name m = k.
(** The timestamp format in force. *)
Definition format_in_force (st : settings) (trait : option tformat) (f : tformat) : Prop :=
  match trait with
  | Some g => if use_ts_format st then f = g else f = default_ts st
  | None => f = default_ts st
  end.

(** A number with neither a point nor an exponent. *)
Definition integral (n : number) : bool := match n_frac n, n_exp n with [], None => true | _, _ => false end.
Inductive float_is : float -> json -> Prop :=
| Fl_fin d n : same_value (num_value n) (dec_value d) -> n_neg n = d_neg d -> integral n = false -> float_is (FFin d) (JNum n)
| Fl_inf : float_is FInf (JStr (lit "Infinity"))
| Fl_neg : float_is FNegInf (JStr (lit "-Infinity")).
Inductive decimal_is : bigdec -> json -> Prop :=
| De_fin d n : same_value (num_value n) (dec_value d) -> decimal_is (BFin d) (JNum n)
| De_inf : decimal_is BInf (JStr (lit "Infinity"))
| De_neg : decimal_is BNegInf (JStr (lit "-Infinity")).

Inductive doc_is : plain -> json -> Prop :=
| Do_null : doc_is PNull JNull
| Do_bool b : doc_is (PBool b) (JBool b)
| Do_int z n : num_value n = (z, 0%Z) -> integral n = true -> doc_is (PInt z) (JNum n)
| Do_dec d n : same_value (num_value n) (dec_value d) -> doc_is (PDec d) (JNum n)
| Do_str s : doc_is (PStr s) (JStr s)
| Do_list l js : Forall2 doc_is l js -> doc_is (PList l) (JArr js)
| Do_dict l js : Forall2 (fun a b => fst a = fst b /\ doc_is (snd a) (snd b)) l js -> doc_is (PDict l) (JObj js).

Section Is.
  Variable st : settings.
  Variable env : N -> node.
  Variable ts_ser : tformat -> Z -> tstext.

  Inductive value_is : value -> json -> Prop :=
  | Is_null : value_is VNull JNull
  | Is_bool b : value_is (VBool b) (JBool b)
  | Is_int z n : num_value n = (z, 0%Z) -> integral n = true -> value_is (VInt z) (JNum n)
  | Is_float f j : float_is f j -> value_is (VFloat f) j
  | Is_decimal d j : decimal_is d j -> value_is (VDecimal d) j
  | Is_str s : value_is (VStr s) (JStr s)
  | Is_blob bs s : base64 bs s -> value_is (VBlob bs) (JStr s)
  | Is_time_text trait t f s : format_in_force st trait f -> ts_ser f t = TText s -> value_is (VTime trait t) (JStr s)
  | Is_time_num trait t f x j :
      format_in_force st trait f -> ts_ser f t = TNum x -> float_is x j -> value_is (VTime trait t) j
  | Is_struct n ms js :
      Forall2 (fun a b => (exists m, has_member env n (fst a) m /\ on_wire st m (fst b)) /\ value_is (snd a) (snd b)) ms js ->
      value_is (VStruct n ms) (JObj js)
  | Is_list l js : Forall2 value_is l js -> value_is (VList l) (JArr js)
  | Is_map l js : Forall2 (fun a b => fst a = fst b /\ value_is (snd a) (snd b)) l js -> value_is (VMap l) (JObj js)
  | Is_doc p j : doc_is p j -> value_is (VDoc p) j.

  (** ** The values the text of which is JSON *)

  Definition float_ok (f : float) : Prop :=
    match f with
    | FNaN => False
    | FFin d => d_coeff d = 0 -> d_exp d = 0%Z
    | _ => True
    end.
  (** At most 28 significant digits. *)
  Definition decimal_ok (d : bigdec) : Prop :=
    match d with
    | BNaN => False
    | BFin d => (d_coeff d < 10 ^ 28)%N
    | _ => True
    end.
  Inductive doc_ok : plain -> Prop :=
  | Dk_null : doc_ok PNull
  | Dk_bool b : doc_ok (PBool b)
  | Dk_int z : doc_ok (PInt z)
  | Dk_dec d : decimal_ok (BFin d) -> doc_ok (PDec d)
  | Dk_str s : forallb is_scalar s = true -> doc_ok (PStr s)
  | Dk_list l : Forall doc_ok l -> doc_ok (PList l)
  | Dk_dict l : Forall (fun a => forallb is_scalar (fst a) = true /\ doc_ok (snd a)) l -> doc_ok (PDict l).
  Inductive value_ok : value -> Prop :=
  | Ok_null : value_ok VNull
  | Ok_bool b : value_ok (VBool b)
  | Ok_int z : value_ok (VInt z)
  | Ok_float f : float_ok f -> value_ok (VFloat f)
  | Ok_decimal d : decimal_ok d -> value_ok (VDecimal d)
  | Ok_str s : forallb is_scalar s = true -> value_ok (VStr s)
  | Ok_blob bs : all_bytes bs = true -> value_ok (VBlob bs)
  | Ok_time trait t :
      (forall f, format_in_force st trait f ->
         match ts_ser f t with TText s => forallb is_scalar s = true | TNum x => float_ok x end) ->
      value_ok (VTime trait t)
  | Ok_struct n ms :
      Forall (fun a => (exists m, has_member env n (fst a) m
                         /\ (forall m', has_member env n (fst a) m' -> m' = m)
                         /\ forall w, on_wire st m w -> forallb is_scalar w = true) /\ value_ok (snd a)) ms ->
      value_ok (VStruct n ms)
  | Ok_list l : Forall value_ok l -> value_ok (VList l)
  | Ok_map l : Forall (fun a => forallb is_scalar (fst a) = true /\ value_ok (snd a)) l -> value_ok (VMap l)
  | Ok_doc p : doc_ok p -> value_ok (VDoc p).
End Is.

(** ** The events of a JSON value (ijson, backends/python.py [parse_basecoro]) *)

Definition dotted (path : list text) : text := join (lit ".") path.
(** A number with neither a point nor an exponent is an int, another one a Decimal. *)
Definition num_token (n : number) : token :=
  if integral n then TkInt (fst (num_value n))
  else TkDec (mkDec (n_neg n) (Z.abs_N (fst (num_value n))) (snd (num_value n))).
Fixpoint events (path : list text) (v : json) : list event :=
  match v with
  | JNull => [mkEv (dotted path) TkNull]
  | JBool b => [mkEv (dotted path) (TkBool b)]
  | JNum n => [mkEv (dotted path) (num_token n)]
  | JStr s => [mkEv (dotted path) (TkStr s)]
  | JArr l => mkEv (dotted path) TkStartArr :: flat_map (events (path ++ [lit "item"])) l ++ [mkEv (dotted path) TkEndArr]
  | JObj l =>
    mkEv (dotted path) TkStartMap
    :: flat_map (fun kv : text * json => let (k, x) := kv in mkEv (dotted path) (TkKey k) :: events (path ++ [k]) x) l
    ++ [mkEv (dotted path) TkEndMap]
  end.
(** The Python object: a later entry of an object replaces an earlier one of the same key. *)
Fixpoint to_plain (v : json) : plain :=
  match v with
  | JNull => PNull
  | JBool b => PBool b
  | JNum n => match num_token n with TkInt z => PInt z | TkDec d => PDec d | _ => PNull end
  | JStr s => PStr s
  | JArr l => PList (map to_plain l)
  | JObj l => PDict (fold_left (fun d (kv : text * json) => let (k, x) := kv in dict_set k (to_plain x) d) l [])
  end.
(** What a parser has yet to give out. *)
Definition ahead (p : parser) : list event :=
  match p_pending p with Some e => e :: p_rest p | None => p_rest p end.

(** Reading [evs], and no more, with this outcome. *)
Definition consumes {A} (r : R A) (evs : list event) (x : A) : Prop :=
  forall p rest, ahead p = evs ++ rest ->
    exists p', r p = Some (p', Ok x) /\ ahead p' = rest /\ p_end p' = p_end p.

(** At the top of a text, where the path is empty, the path of a member with an
    empty name is empty too. *)
Definition clear_path (path : list text) (v : json) : Prop :=
  match path, v with
  | [], JObj l => forall k j, In (k, JObj j) l -> k <> []
  | _, _ => True
  end.

(** What reading an object as a structure does: members that are not of the
    structure are passed over, nulls too unless the member is a document. *)
Section StructReads.
  Context {A : Type}.
  Variable st : settings.
  Variable document : member -> Prop.
  Variable ms : list member.
  (** What a member's consumer makes of a value. *)
  Variable upd : member -> json -> A -> A -> Prop.
  Inductive struct_reads : list (text * json) -> A -> A -> Prop :=
  | SR_nil acc : struct_reads [] acc acc
  | SR_unknown k j l acc acc' :
      (forall m, In m ms -> ~ on_wire st m k) -> struct_reads l acc acc' -> struct_reads ((k, j) :: l) acc acc'
  | SR_null k m l acc acc' :
      In m ms -> on_wire st m k -> ~ document m -> struct_reads l acc acc' -> struct_reads ((k, JNull) :: l) acc acc'
  | SR_member k j m l acc acc1 acc' :
      In m ms -> on_wire st m k -> j <> JNull \/ document m -> upd m j acc acc1 ->
      struct_reads l acc1 acc' -> struct_reads ((k, j) :: l) acc acc'.
End StructReads.
(** One element after the other. *)
Inductive in_turn {A B} (upd : B -> A -> A -> Prop) : list B -> A -> A -> Prop :=
| IT_nil acc : in_turn upd [] acc acc
| IT_cons x l acc acc1 acc' : upd x acc acc1 -> in_turn upd l acc1 acc' -> in_turn upd (x :: l) acc acc'.
(** No two members of the same name, nor of the same name on the wire. *)
Definition distinct (st : settings) (ms : list member) : Prop :=
  (forall m m', In m ms -> In m' ms -> m_name m = m_name m' -> m = m')
  /\ (forall m m' k, In m ms -> In m' ms -> on_wire st m k -> on_wire st m' k -> m = m').

(** ** Values of a schema *)

(** Equal up to the form of a Decimal: a Decimal that is an integer comes back
    from a document as an int. *)
Inductive same_doc : plain -> plain -> Prop :=
| SD_null : same_doc PNull PNull
| SD_bool b : same_doc (PBool b) (PBool b)
| SD_int z : same_doc (PInt z) (PInt z)
| SD_dec d d' : same_value (dec_value d') (dec_value d) -> same_doc (PDec d) (PDec d')
| SD_dec_int d z : same_value (z, 0%Z) (dec_value d) -> same_doc (PDec d) (PInt z)
| SD_str s : same_doc (PStr s) (PStr s)
| SD_list l l' : Forall2 same_doc l l' -> same_doc (PList l) (PList l')
| SD_dict l l' : Forall2 (fun a b => fst a = fst b /\ same_doc (snd a) (snd b)) l l' -> same_doc (PDict l) (PDict l').
Inductive same : value -> value -> Prop :=
| S_null : same VNull VNull
| S_bool b : same (VBool b) (VBool b)
| S_int z : same (VInt z) (VInt z)
| S_float f : same (VFloat f) (VFloat f)
| S_dec d d' : same_value (dec_value d') (dec_value d) -> same (VDecimal (BFin d)) (VDecimal (BFin d'))
| S_str s : same (VStr s) (VStr s)
| S_blob bs : same (VBlob bs) (VBlob bs)
| S_time a t : same (VTime a t) (VTime a t)
| S_struct n l l' : Forall2 (fun a b => fst a = fst b /\ same (snd a) (snd b)) l l' -> same (VStruct n l) (VStruct n l')
| S_list l l' : Forall2 same l l' -> same (VList l) (VList l')
| S_map l l' : Forall2 (fun a b => fst a = fst b /\ same (snd a) (snd b)) l l' -> same (VMap l) (VMap l')
| S_doc p p' : same_doc p p' -> same (VDoc p) (VDoc p').

(** Dictionaries of a document have each key once. *)
Inductive doc_dicts : plain -> Prop :=
| DD_null : doc_dicts PNull
| DD_bool b : doc_dicts (PBool b)
| DD_int z : doc_dicts (PInt z)
| DD_dec d : doc_dicts (PDec d)
| DD_str s : doc_dicts (PStr s)
| DD_list l : Forall doc_dicts l -> doc_dicts (PList l)
| DD_dict l : NoDup (map fst l) -> Forall (fun a => doc_dicts (snd a)) l -> doc_dicts (PDict l).
Section Typed.
  Variable st : settings.
  Variable env : N -> node.
  Variable ts_ser : tformat -> Z -> tstext.
  Variable ts_de : tformat -> tstext -> result Z.
  Variable float_of : decimal -> float.
  (** The decimal of a float reads as that float. *)
  Definition printed (f : float) : Prop := match f with FFin d => float_of d = FFin d | _ => True end.
  (** A timestamp that its format can carry. *)
  Definition carried (f : tformat) (t : Z) : Prop :=
    ts_de f (ts_ser f t) = Ok t
    /\ match ts_ser f t with TText _ => f <> TEpoch | TNum x => f = TEpoch /\ printed x end.
  (** The values of a schema.  A null is a value of a sparse collection only; a
      document that holds a null is not an element of a collection. *)
  Inductive typed : N -> value -> Prop :=
  | T_bool n b : env n = NBool -> typed n (VBool b)
  | T_int n z : env n = NInt -> typed n (VInt z)
  | T_float n f : env n = NFloat -> printed f -> typed n (VFloat f)
  | T_dec n d : env n = NDecimal -> typed n (VDecimal (BFin d))
  | T_str n s : env n = NStr -> typed n (VStr s)
  | T_blob n bs : env n = NBlob -> typed n (VBlob bs)
  | T_time n a t : env n = NTime a -> (forall f, format_in_force st a f -> carried f t) -> typed n (VTime a t)
  | T_struct n ms l : env n = NStruct ms -> distinct st ms -> NoDup (map fst l) ->
      Forall (fun a => exists m, In m ms /\ m_name m = fst a /\ typed (m_target m) (snd a)) l -> typed n (VStruct n l)
  | T_list n sparse t l : env n = NList sparse t ->
      Forall (fun x => (sparse = true /\ x = VNull) \/ (typed t x /\ x <> VDoc PNull)) l -> typed n (VList l)
  | T_map n sparse t l : env n = NMap sparse t -> NoDup (map fst l) ->
      Forall (fun a => (sparse = true /\ snd a = VNull) \/ (typed t (snd a) /\ snd a <> VDoc PNull)) l -> typed n (VMap l)
  | T_doc n p : env n = NDoc -> doc_dicts p -> typed n (VDoc p).
End Typed.
(** [float] depends on the number only, not on how it is written. *)
Definition by_value (float_of : decimal -> float) : Prop :=
  forall d d', d_neg d = d_neg d' -> same_value (dec_value d) (dec_value d') -> float_of d = float_of d'.
