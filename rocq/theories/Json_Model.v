(** The JSON codec: packages/smithy-json/src/smithy_json/_private. *)
From Verif Require Import Base Utf8_Model PyText_Model PySort_Model PyDict_Model PyDecimal_Model Base64_Model.
Local Open Scope N_scope.

(** ** Values and schemas *)

(** A float: a finite one is identified with the shortest decimal that reads
    back as it, which is what [repr] prints. *)
Inductive float := FNaN | FInf | FNegInf | FFin (d : decimal).
(** A [Decimal]; signalling NaNs are left out. *)
Inductive bigdec := BNaN | BInf | BNegInf | BFin (d : decimal).
(** types.py lines 127-146. *)
Inductive tformat := TDateTime | THttpDate | TEpoch.
(** What [TimestampFormat.serialize] returns, lines 148-162. *)
Inductive tstext := TText (s : text) | TNum (f : float).

(** A value of JSON as ijson and its ObjectBuilder make it. *)
Inductive plain :=
| PNull | PBool (b : bool) | PInt (z : Z) | PDec (d : decimal) | PStr (s : text)
| PList (l : list plain) | PDict (l : list (text * plain)).

(** The calls a shape makes to its serializer, as a tree.  A timestamp (here in
    microseconds) carries the format trait of its schema, a structure the number
    of its schema and, for each member that is written, the member's name. *)
Inductive value :=
| VNull | VBool (b : bool) | VInt (z : Z) | VFloat (f : float) | VDecimal (d : bigdec)
| VStr (s : text) | VBlob (bs : bytes) | VTime (trait : option tformat) (t : Z)
| VStruct (schema : N) (ms : list (text * value))
| VList (l : list value) | VMap (l : list (text * value))
| VDoc (p : plain).

(** The schema of a member: its name, its [jsonName] and the schema of what it holds. *)
Record member := mkMember { m_name : text; m_json : option text; m_target : N }.
(** A schema; [sparse] collections keep nulls. *)
Inductive node :=
| NBool | NInt | NFloat | NDecimal | NStr | NBlob | NTime (trait : option tformat)
| NStruct (ms : list member) | NList (sparse : bool) (of : N) | NMap (sparse : bool) (of : N) | NDoc.

(** ** Writing: what has been written, and how it ended *)

Definition W : Type := bytes * option exn.
Definition wseq (a b : W) : W :=
  match snd a with None => (fst a ++ fst b, snd b) | Some e => a end.
Declare Scope w_scope.
Delimit Scope w_scope with w.
Notation "a ;; b" := (wseq a b) (at level 61, right associativity) : w_scope.
Local Open Scope w_scope.
Definition wraw (bs : bytes) : W := (bs, None).
Definition wnone : W := ([], None).
(** [sink.write(s.encode("utf-8"))]. *)
Definition wtext (s : text) : W :=
  match utf8_encode s with Ok bs => (bs, None) | Err e => ([], Some e) end.

(** serializers.py lines 31-48 *)
Definition hex_char (d : N) : N := if d <? 10 then 48 + d else 87 + d.
Definition escape_char (c : N) : text :=
  if c =? 92 then [92; 92]
  else if c =? 34 then [92; 34]
  else if c =? 10 then [92; 110]
  else if c =? 13 then [92; 114]
  else if c =? 9 then [92; 116]
  else if c =? 8 then [92; 98]
  else if c =? 12 then [92; 102]
  else [92; 117; hex_char (c / 4096 mod 16); hex_char (c / 256 mod 16); hex_char (c / 16 mod 16); hex_char (c mod 16)].
(** lines 41 and 51-53 *)
Definition must_escape (c : N) : bool := (c =? 92) || (c =? 34) || (c <? 32).
Definition escape_string (s : text) : text :=
  flat_map (fun c => if must_escape c then escape_char c else [c]) s.

(** lines 297-300 *)
Definition write_string (s : text) : W := wraw [34] ;; wtext (escape_string s) ;; wraw [34].
(** lines 251-253 *)
Definition write_key (s : text) : W := write_string s ;; wraw [58].
(** lines 302-304.  The limit of 4300 digits of [str(int)] is not modelled. *)
Definition write_int (z : Z) : W := wtext (dec_Z z).
(** lines 328-332 *)
Definition write_bool (b : bool) : W := wraw (if b then lit "true" else lit "false").
Definition write_null : W := wraw (lit "null").

(** [repr] of a finite float (CPython, [float_repr_style] short): an exponent of
    two digits at least below 1e-4 and from 1e16 on, a point otherwise. *)
Definition exp2 (z : Z) : text :=
  (if Z.ltb z 0 then [45] else [43])
  ++ (let d := dec (Z.abs_N z) in if Nat.ltb (List.length d) 2 then 48 :: d else d).
Definition float_text (d : decimal) : text :=
  let ds := dec (d_coeff d) in
  let n := Z.of_nat (List.length ds) in
  let decpt := (d_exp d + n)%Z in
  (if d_neg d then [45] else [])
  ++ if Z.leb decpt (-4) || Z.ltb 16 decpt then
       firstn 1 ds ++ (if Nat.ltb 1 (List.length ds) then 46 :: skipn 1 ds else [])
       ++ 101 :: exp2 (decpt - 1)
     else if Z.leb decpt 0 then lit "0." ++ repeat 48 (Z.to_nat (- decpt)) ++ ds
     else if Z.leb n decpt then ds ++ repeat 48 (Z.to_nat (decpt - n)) ++ lit ".0"
     else firstn (Z.to_nat decpt) ds ++ 46 :: skipn (Z.to_nat decpt) ds.
(** lines 306-326, for a float *)
Definition write_float (f : float) : W :=
  match f with
  | FNaN => wraw (lit "NaN")
  | FInf => wraw (34 :: lit "Infinity" ++ [34])
  | FNegInf => wraw (34 :: lit "-Infinity" ++ [34])
  | FFin d => wtext (float_text d)
  end.
(** The precision of the default context of [decimal]. *)
Definition precision : nat := 28.
(** lines 306-326, for a [Decimal]; the exponent range of the context is taken to
    be unlimited. *)
Definition write_decimal (d : bigdec) : W :=
  match d with
  | BNaN => wraw (lit "NaN")
  | BInf => wraw (34 :: lit "Infinity" ++ [34])
  | BNegInf => wraw (34 :: lit "-Infinity" ++ [34])
  | BFin d => wtext (decimal_text (normalize precision d))
  end.

Fixpoint find_member (k : text) (ms : list member) : option member :=
  match ms with
  | [] => None
  | m :: r => if text_eqb (m_name m) k then Some m else find_member k r
  end.

(** A document, smithy_core/documents.py lines 274-330 and serializers.py lines
    105-106: its contents are written by their type. *)
Fixpoint write_plain (p : plain) : W :=
  match p with
  | PNull => write_null
  | PBool b => write_bool b
  | PInt z => write_int z
  | PDec d => write_decimal (BFin d)
  | PStr s => write_string s
  | PList l =>
    wraw [91] ;;
    (fix go (first : bool) (l : list plain) : W :=
       match l with
       | [] => wnone
       | x :: r => (if first then wnone else wraw [44]) ;; write_plain x ;; go false r
       end) true l ;;
    wraw [93]
  | PDict l =>
    wraw [123] ;;
    (fix go (first : bool) (l : list (text * plain)) : W :=
       match l with
       | [] => wnone
       | (k, x) :: r => (if first then wnone else wraw [44]) ;; write_key k ;; write_plain x ;; go false r
       end) true l ;;
    wraw [125]
  end.

(** ** Reading *)

(** deserializers.py lines 42-45: an event of [ijson.parse]. *)
Inductive token :=
| TkNull | TkBool (b : bool) | TkInt (z : Z) | TkDec (d : decimal) | TkStr (s : text) | TkKey (s : text)
| TkStartMap | TkEndMap | TkStartArr | TkEndArr.
Record event := mkEv { e_path : text; e_tok : token }.
(** lines 62-87: the events to come and what the stream raises after them. *)
Record parser := mkParser { p_pending : option event; p_rest : list event; p_end : exn }.

(** [None] when the fuel of a loop is used up, which is no outcome of the program. *)
Definition R (A : Type) : Type := parser -> option (parser * result A).
Definition ret {A} (x : A) : R A := fun p => Some (p, Ok x).
Definition rfail {A} (e : exn) : R A := fun p => Some (p, Err e).
Definition rbind {A B} (r : R A) (k : A -> R B) : R B :=
  fun p => match r p with
           | None => None
           | Some (p', Ok x) => k x p'
           | Some (p', Err e) => Some (p', Err e)
           end.
Notation "'get' x <- r ; k" := (rbind r (fun x => k)) (at level 200, x name, r at level 100, k at level 200, right associativity).

(** lines 81-82 *)
Definition next_raw : R event :=
  fun p => match p_rest p with
           | [] => Some (p, Err (p_end p))
           | e :: r => Some (mkParser (p_pending p) r (p_end p), Ok e)
           end.
(** lines 74-79 *)
Definition next : R event :=
  fun p => match p_pending p with
           | Some e => Some (mkParser None (p_rest p) (p_end p), Ok e)
           | None => next_raw p
           end.
(** lines 84-87 *)
Definition peek : R event :=
  fun p => match p_pending p with
           | Some e => Some (p, Ok e)
           | None => match next_raw p with
                     | Some (p', Ok e) => Some (mkParser (Some e) (p_rest p') (p_end p'), Ok e)
                     | other => other
                     end
           end.

(** JSONSettings, settings.py lines 13-31. *)
Record settings := mkSettings { use_json_name : bool; use_ts_format : bool; default_ts : tformat }.

Section Codec.
  Variable st : settings.
  Variable env : N -> node.
  (** [TimestampFormat.serialize]/[deserialize] and [float(Decimal)]. *)
  Variable ts_ser : tformat -> Z -> tstext.
  Variable ts_de : tformat -> tstext -> result Z.
  Variable float_of : decimal -> float.

  (** lines 147-151 *)
  Definition wire_name (m : member) : text :=
    match m_json m with
    | Some j => if use_json_name st then j else m_name m
    | None => m_name m
    end.
  Definition members_of (n : N) : list member := match env n with NStruct ms => ms | _ => [] end.
  Definition member_key (schema : N) (k : text) : W :=
    match find_member k (members_of schema) with
    | Some m => write_key (wire_name m)
    | None => ([], Some KeyError)
    end.
  (** lines 98-101; deserializers.py lines 175-178 *)
  Definition ts_format (trait : option tformat) : tformat :=
    match trait with
    | Some f => if use_ts_format st then f else default_ts st
    | None => default_ts st
    end.
  (** lines 97-103 and 258-271 *)
  Definition write_timestamp (trait : option tformat) (t : Z) : W :=
    match ts_ser (ts_format trait) t with
    | TText s => write_string s
    | TNum f => write_float f
    end.

  (** lines 56-226 *)
  Fixpoint write (v : value) : W :=
    match v with
    | VNull => write_null
    | VBool b => write_bool b
    | VInt z => write_int z
    | VFloat f => write_float f
    | VDecimal d => write_decimal d
    | VStr s => write_string s
    | VBlob bs => write_string (b64encode bs)
    | VTime trait t => write_timestamp trait t
    | VStruct n ms =>
      wraw [123] ;;
      (fix go (first : bool) (ms : list (text * value)) : W :=
         match ms with
         | [] => wnone
         | (k, x) :: r => (if first then wnone else wraw [44]) ;; member_key n k ;; write x ;; go false r
         end) true ms ;;
      wraw [125]
    | VList l =>
      wraw [91] ;;
      (fix go (first : bool) (l : list value) : W :=
         match l with
         | [] => wnone
         | x :: r => (if first then wnone else wraw [44]) ;; write x ;; go false r
         end) true l ;;
      wraw [93]
    | VMap l =>
      wraw [123] ;;
      (fix go (first : bool) (l : list (text * value)) : W :=
         match l with
         | [] => wnone
         | (k, x) :: r => (if first then wnone else wraw [44]) ;; write_key k ;; write x ;; go false r
         end) true l ;;
      wraw [125]
    | VDoc p => write_plain p
    end.

  (** lines 100-107; every event whose value is None counts as a null *)
  Definition is_null : R bool :=
    get e <- peek; ret (match e_tok e with TkNull => true | _ => false end).
  Definition read_null : R unit :=
    get e <- next;
    match e_tok e with
    | TkNull | TkStartMap | TkEndMap | TkStartArr | TkEndArr => ret tt
    | _ => rfail SmithyErr
    end.
  (** lines 109-113 *)
  Definition read_boolean : R value :=
    get e <- next; match e_tok e with TkBool b => ret (VBool b) | _ => rfail SmithyErr end.
  (** lines 115-119 *)
  Definition read_blob : R value :=
    get e <- next;
    match e_tok e with
    | TkStr s => match b64decode s with Ok bs => ret (VBlob bs) | Err x => rfail x end
    | _ => rfail SmithyErr
    end.
  (** lines 121-125: a bool is an int *)
  Definition read_integer : R value :=
    get e <- next;
    match e_tok e with TkInt z => ret (VInt z) | TkBool b => ret (VBool b) | _ => rfail SmithyErr end.
  (** lines 127-137: an int is returned as it is *)
  Definition read_float : R value :=
    get e <- next;
    match e_tok e with
    | TkDec d => ret (VFloat (float_of d))
    | TkInt z => ret (VInt z)
    | TkBool b => ret (VBool b)
    | TkStr s | TkKey s =>
      if text_eqb s (lit "Infinity") then ret (VFloat FInf)
      else if text_eqb s (lit "-Infinity") then ret (VFloat FNegInf)
      else if text_eqb s (lit "NaN") then ret (VFloat FNaN)
      else rfail SmithyErr
    | _ => rfail SmithyErr
    end.
  Definition decimal_of_Z (z : Z) : decimal := mkDec (Z.ltb z 0) (Z.abs_N z) 0.
  (** lines 139-147 *)
  Definition read_big_decimal : R value :=
    get e <- next;
    match e_tok e with
    | TkDec d => ret (VDecimal (BFin d))
    | TkInt z => ret (VDecimal (BFin (decimal_of_Z z)))
    | TkBool b => ret (VDecimal (BFin (decimal_of_Z (if b then 1 else 0))))
    | _ => rfail SmithyErr
    end.
  (** lines 149-153 *)
  Definition read_text : R text :=
    get e <- next; match e_tok e with TkStr s | TkKey s => ret s | _ => rfail SmithyErr end.
  (** lines 174-184 *)
  Definition read_timestamp (trait : option tformat) : R value :=
    match ts_format trait with
    | TEpoch =>
      get v <- read_float;
      match v with
      | VFloat f => match ts_de TEpoch (TNum f) with Ok t => ret (VTime trait t) | Err e => rfail e end
      | VInt z => match ts_de TEpoch (TNum (FFin (decimal_of_Z z))) with Ok t => ret (VTime trait t) | Err e => rfail e end
      | VBool b => match ts_de TEpoch (TNum (FFin (decimal_of_Z (if b then 1 else 0)))) with Ok t => ret (VTime trait t) | Err e => rfail e end
      | _ => rfail TypeError
      end
    | f => get s <- read_text; match ts_de f (TText s) with Ok t => ret (VTime trait t) | Err e => rfail e end
    end.

  (** The end of the value whose first event is [start], lines 162 and 257. *)
  Definition is_start (t : token) : bool := match t with TkStartMap | TkStartArr => true | _ => false end.
  Definition ends (start e : event) : bool :=
    text_eqb (e_path e) (e_path start)
    && match e_tok start, e_tok e with TkStartMap, TkEndMap | TkStartArr, TkEndArr => true | _, _ => false end.
  (** lines 252-262 *)
  Fixpoint skip_loop (fuel : nat) (start : event) : R unit :=
    match fuel with
    | O => fun _ => None
    | S f => get e <- next; if ends start e then ret tt else skip_loop f start
    end.
  Definition skip (fuel : nat) : R unit :=
    get start <- next; if is_start (e_tok start) then skip_loop fuel start else ret tt.

  (** ijson's ObjectBuilder: the containers still open, innermost first, each
      with what it holds so far and, for a map, the key to set next.  The
      builder keeps one key for all maps; every value of a map directly follows
      its key, so that it is the innermost map's. *)
  Inductive frame := FMap (l : list (text * plain)) (key : text) | FArr (l : list plain).
  Record builder := mkBuilder { b_open : list frame; b_value : option plain }.
  Definition put (v : plain) (f : frame) : frame :=
    match f with
    | FMap l k => FMap (dict_set k v l) k
    | FArr l => FArr (l ++ [v])
    end.
  Definition close (f : frame) : plain := match f with FMap l _ => PDict l | FArr l => PList l end.
  Definition add (v : plain) (b : builder) : builder :=
    match b_open b with
    | [] => mkBuilder [] (Some v)
    | f :: r => mkBuilder (put v f :: r) (b_value b)
    end.
  (** A container is put where it belongs when it starts and filled there; here,
      when it ends. *)
  Definition build (t : token) (b : builder) : builder :=
    match t with
    | TkNull => add PNull b
    | TkBool x => add (PBool x) b
    | TkInt z => add (PInt z) b
    | TkDec d => add (PDec d) b
    | TkStr s => add (PStr s) b
    | TkKey k => match b_open b with
                 | FMap l _ :: r => mkBuilder (FMap l k :: r) (b_value b)
                 | _ => b
                 end
    | TkStartMap => mkBuilder (FMap [] [] :: b_open b) (b_value b)
    | TkStartArr => mkBuilder (FArr [] :: b_open b) (b_value b)
    | TkEndMap | TkEndArr =>
      match b_open b with
      | f :: r => add (close f) (mkBuilder r (b_value b))
      | [] => b
      end
    end.
  (** [builder.value]: the containers still open are closed as they are. *)
  Fixpoint built_open (v : option plain) (l : list frame) : option plain :=
    match l with
    | [] => v
    | f :: r => built_open (Some (close (match v with Some x => put x f | None => f end))) r
    end.
  Definition built (b : builder) : option plain :=
    match b_open b with [] => b_value b | l => built_open None l end.

  (** lines 155-172 *)
  Fixpoint document_loop (fuel : nat) (start : event) (b : builder) : R plain :=
    match fuel with
    | O => fun _ => None
    | S f =>
      get e <- next;
      if ends start e then (match built b with Some v => ret v | None => rfail AttributeError end)
      else document_loop f start (build (e_tok e) b)
    end.
  Definition read_document (fuel : nat) : R plain :=
    get start <- next;
    match e_tok start with
    | TkNull => ret PNull
    | TkBool b => ret (PBool b)
    | TkInt z => ret (PInt z)
    | TkDec d => ret (PDec d)
    | TkStr s | TkKey s => ret (PStr s)
    | TkStartMap | TkStartArr => document_loop fuel start (build (e_tok start) (mkBuilder [] None))
    | TkEndMap | TkEndArr => ret PNull
    end.

  (** lines 216-223: later members replace earlier ones of the same name *)
  Definition json_names (ms : list member) : list (text * text) :=
    fold_left (fun d m => dict_set (match m_json m with Some j => j | None => m_name m end) (m_name m) d) ms [].
  (** lines 206-214 *)
  Definition resolve_member (ms : list member) (key : text) : option member :=
    if use_json_name st then
      match dict_get key (json_names ms) with
      | Some n => find_member n ms
      | None => None
      end
    else find_member key ms.

  Definition is_document (m : member) : bool := match env (m_target m) with NDoc => true | _ => false end.

  Section Loops.
    Context {A : Type}.
    (** lines 186-204 *)
    Fixpoint struct_loop (fuel : nat) (ms : list member) (consumer : member -> A -> R A) (acc : A) : R A :=
      match fuel with
      | O => fun _ => None
      | S f =>
        get e <- peek;
        match e_tok e with
        | TkEndMap => get _ <- next; ret acc
        | _ =>
          get key <- read_text;
          match resolve_member ms key with
          | None => get _ <- skip f; struct_loop f ms consumer acc
          | Some m =>
            get null <- is_null;
            if null && negb (is_document m) then get _ <- read_null; struct_loop f ms consumer acc
            else get acc' <- consumer m acc; struct_loop f ms consumer acc'
          end
        end
      end.
    Definition read_struct (fuel : nat) (ms : list member) (consumer : member -> A -> R A) (acc : A) : R A :=
      get e <- next;
      match e_tok e with TkStartMap => struct_loop fuel ms consumer acc | _ => rfail SmithyErr end.
    (** lines 225-235 *)
    Fixpoint list_loop (fuel : nat) (consumer : A -> R A) (acc : A) : R A :=
      match fuel with
      | O => fun _ => None
      | S f =>
        get e <- peek;
        match e_tok e with
        | TkEndArr => get _ <- next; ret acc
        | _ => get acc' <- consumer acc; list_loop f consumer acc'
        end
      end.
    Definition read_list (fuel : nat) (consumer : A -> R A) (acc : A) : R A :=
      get e <- next;
      match e_tok e with TkStartArr => list_loop fuel consumer acc | _ => rfail SmithyErr end.
    (** lines 237-250 *)
    Fixpoint map_loop (fuel : nat) (consumer : text -> A -> R A) (acc : A) : R A :=
      match fuel with
      | O => fun _ => None
      | S f =>
        get e <- peek;
        match e_tok e with
        | TkEndMap => get _ <- next; ret acc
        | _ => get key <- read_text; get acc' <- consumer key acc; map_loop f consumer acc'
        end
      end.
    Definition read_map (fuel : nat) (consumer : text -> A -> R A) (acc : A) : R A :=
      get e <- next;
      match e_tok e with TkStartMap => map_loop fuel consumer acc | _ => rfail SmithyErr end.
  End Loops.

  (** What generated code does to read a shape: codegen's ListGenerator.java
      lines 79-91, MapGenerator.java lines 80-91 and, for structures, one read
      of the target per member into the keyword arguments. *)
  Fixpoint read_shape (fuel : nat) (n : N) : R value :=
    match fuel with
    | O => fun _ => None
    | S f =>
      match env n with
      | NBool => read_boolean
      | NInt => read_integer
      | NFloat => read_float
      | NDecimal => read_big_decimal
      | NStr => get s <- read_text; ret (VStr s)
      | NBlob => read_blob
      | NTime trait => read_timestamp trait
      | NDoc => get p <- read_document f; ret (VDoc p)
      | NStruct ms =>
        get kwargs <- read_struct f ms
                    (fun m acc => get v <- read_shape f (m_target m); ret (dict_set (m_name m) v acc)) [];
        ret (VStruct n kwargs)
      | NList sparse t =>
        get l <- read_list f
               (fun acc =>
                  get null <- is_null;
                  if null : bool then get _ <- read_null; ret (if sparse then acc ++ [VNull] else acc)
                  else get v <- read_shape f t; ret (acc ++ [v])) [];
        ret (VList l)
      | NMap sparse t =>
        get l <- read_map f
               (fun k acc =>
                  get null <- is_null;
                  if null : bool then get _ <- read_null; ret (if sparse then dict_set k VNull acc else acc)
                  else get v <- read_shape f t; ret (dict_set k v acc)) [];
        ret (VMap l)
      end
    end.
End Codec.
