(** What a shared configuration file means: a grammar of lines, the document a
    text is read as, and what a profile of a pair of documents holds.  Only texts,
    lists and white space are used here, none of the parser. *)
From Verif Require Import Base PyText_Model.
Local Open Scope N_scope.

(** ** Texts *)

Definition white (s : text) : Prop := forall c, In c s -> is_space c = true.
(** [Trim raw v]: [v] is [raw] without the white space around it. *)
Definition Trim (raw v : text) : Prop :=
  exists a b, raw = a ++ v ++ b /\ white a /\ white b /\
  (forall c r, v = c :: r -> is_space c = false) /\ (forall r c, v = r ++ [c] -> is_space c = false).

Definition blank (c : N) : Prop := c = 32 \/ c = 9.              (* space, tab *)
Definition marker (c : N) : Prop := c = 35 \/ c = 59.            (* hash, semicolon *)
Definition id_char (c : N) : Prop :=
  65 <= c <= 90 \/ 97 <= c <= 122 \/ 48 <= c <= 57 \/ In c (lit "_-/.%@:+").
Definition identifier (s : text) : Prop := s <> [] /\ forall c, In c s -> id_char c.
(** [Lower a b]: [b] is the ASCII text [a] in lower case. *)
Definition Lower (a b : text) : Prop :=
  Forall2 (fun x y => (65 <= x <= 90 /\ y = x + 32) \/ (~ 65 <= x <= 90 /\ y = x)) a b.

(** ** Lines *)

Definition indented (l : text) : Prop := exists c r, l = c :: r /\ blank c.

(** A blank line or a comment. *)
Definition noise (l : text) : Prop := white l \/ exists c r, l = c :: r /\ marker c.

(** [[name]], with anything behind it. *)
Definition header (l name : text) : Prop :=
  ~ indented l /\ name <> [] /\
  exists w inner junk, l = w ++ [91] ++ inner ++ [93] ++ junk /\ white w /\ ~ In 93 inner /\ Trim inner name.

(** A comment behind a value: a marker after a space or a tab. *)
Definition comment_free (t : text) : Prop :=
  ~ exists a c m b, t = a ++ [c; m] ++ b /\ blank c /\ marker m.
Definition value_of (raw value : text) : Prop :=
  exists t, Trim raw t /\
  ((comment_free t /\ value = t)
   \/ exists a c m b, t = a ++ [c; m] ++ b /\ blank c /\ marker m /\ comment_free (a ++ [c]) /\ Trim a value).

(** [name = raw], not indented and not another kind of line. *)
Definition assignment (l name raw : text) : Prop :=
  ~ indented l /\ ~ noise l /\ (forall w r, white w -> l <> w ++ [91] ++ r) /\
  exists k, l = k ++ [61] ++ raw /\ ~ In 61 k /\ Trim k name /\ name <> [].
Definition property (l key value : text) : Prop :=
  exists name raw, assignment l name raw /\ identifier name /\ Lower name key /\ value_of raw value.
Definition bad_property (l : text) : Prop :=
  exists name raw, assignment l name raw /\ ~ identifier name.

(** An indented line with text [t]. *)
Definition continuation (l t : text) : Prop := indented l /\ t <> [] /\ Trim l t.
(** An indented line [name = value]. *)
Definition sub_assignment (l name value : text) : Prop :=
  indented l /\ exists k v, l = k ++ [61] ++ v /\ ~ In 61 k /\ Trim k name /\ name <> [] /\ Trim v value.
Definition sub_property (l key value : text) : Prop :=
  exists name, sub_assignment l name value /\ identifier name /\ Lower name key.
Definition bad_sub_property (l : text) : Prop :=
  exists name value, sub_assignment l name value /\ ~ identifier name.

(** ** Documents *)

Inductive entry :=
| Plain (key : text) (lines : list text)            (* a value of one or more lines *)
| Empty (key : text)                                (* [key =] with nothing below *)
| Group (key : text) (subs : list (text * text))    (* [key =] with properties below *)
| Skipped.                                          (* a property whose name is no identifier *)

(** The sections as they stand in the file, in order. *)
Definition doc := list (text * list entry).

(** [Doc lines d]: the lines, one after the other, say [d]. *)
Inductive Doc : list text -> doc -> Prop :=
| D_start : Doc [] []
| D_noise ls d l : Doc ls d -> noise l -> Doc (ls ++ [l]) d
| D_header ls d l n : Doc ls d -> header l n -> Doc (ls ++ [l]) (d ++ [(n, [])])
| D_plain ls d n es l k v : Doc ls (d ++ [(n, es)]) -> property l k v -> v <> [] ->
    Doc (ls ++ [l]) (d ++ [(n, es ++ [Plain k [v]])])
| D_more ls d n es k vs l t : Doc ls (d ++ [(n, es ++ [Plain k vs])]) -> continuation l t ->
    Doc (ls ++ [l]) (d ++ [(n, es ++ [Plain k (vs ++ [t])])])
| D_empty ls d n es l k : Doc ls (d ++ [(n, es)]) -> property l k [] ->
    Doc (ls ++ [l]) (d ++ [(n, es ++ [Empty k])])
| D_sub_first ls d n es k l sk sv : Doc ls (d ++ [(n, es ++ [Empty k])]) -> sub_property l sk sv ->
    Doc (ls ++ [l]) (d ++ [(n, es ++ [Group k [(sk, sv)]])])
| D_bad_sub_first ls d n es k l : Doc ls (d ++ [(n, es ++ [Empty k])]) -> bad_sub_property l ->
    Doc (ls ++ [l]) (d ++ [(n, es ++ [Group k []])])
| D_sub ls d n es k subs l sk sv : Doc ls (d ++ [(n, es ++ [Group k subs])]) -> sub_property l sk sv ->
    Doc (ls ++ [l]) (d ++ [(n, es ++ [Group k (subs ++ [(sk, sv)])])])
| D_bad_sub ls d n es k subs l : Doc ls (d ++ [(n, es ++ [Group k subs])]) -> bad_sub_property l ->
    Doc (ls ++ [l]) (d ++ [(n, es ++ [Group k subs])])
| D_skipped ls d n es l : Doc ls (d ++ [(n, es)]) -> bad_property l ->
    Doc (ls ++ [l]) (d ++ [(n, es ++ [Skipped])])
| D_skipped_more ls d n es l t : Doc ls (d ++ [(n, es ++ [Skipped])]) -> continuation l t ->
    Doc (ls ++ [l]) (d ++ [(n, es ++ [Skipped])]).

(** ** What a document holds *)

Inductive content := Text (t : text) | Table (subs : list (text * text)).

Definition defines (key : text) (e : entry) : option content :=
  match e with
  | Plain k ls => if text_eqb k key then Some (Text (join [10] ls)) else None
  | Empty k => if text_eqb k key then Some (Text []) else None
  | Group k subs => if text_eqb k key then Some (Table subs) else None
  | Skipped => None
  end.

(** The last answer in a list. *)
Fixpoint last_some {A B} (f : A -> option B) (l : list A) : option B :=
  match l with
  | [] => None
  | x :: r => match last_some f r with Some y => Some y | None => f x end
  end.

(** All entries of the sections that [sel] selects, in file order. *)
Definition entries_of (sel : text -> bool) (d : doc) : list entry :=
  flat_map (fun s => if sel (fst s) then snd s else []) d.
Definition property_of (sel : text -> bool) (key : text) (d : doc) : option content :=
  last_some (defines key) (entries_of sel d).
Definition sub_of (key : text) (subs : list (text * text)) : option text :=
  last_some (fun kv => if text_eqb (fst kv) key then Some (snd kv) else None) subs.

(** The texts in the order of their first occurrence. *)
Fixpoint first_occurrences (l : list text) : list text :=
  match l with
  | [] => []
  | x :: r => x :: filter (fun y => negb (text_eqb x y)) (first_occurrences r)
  end.

(** The value of the last of the selected section names, in the order of their
    first occurrence, that has one. *)
Definition profile_value (sel : text -> bool) (key : text) (d : doc) : option content :=
  last_some (fun n => if sel n then property_of (text_eqb n) key d else None) (first_occurrences (map fst d)).

(** ** Profiles *)

(** [prefix], white space that starts with a space or tab, and an identifier. *)
Definition prefixed (prefix name p : text) : Prop :=
  exists c w, name = prefix ++ [c] ++ w ++ p /\ blank c /\ white w /\ identifier p.

(** The sections of a config file that define the profile [p]. *)
Definition config_section (names : list text) (name p : text) : Prop :=
  prefixed (lit "profile") name p
  \/ (p = lit "default" /\ name = lit "default" /\ forall s, In s names -> ~ prefixed (lit "profile") s p).

(** ** When a dictionary of sections holds what a document says *)

From Verif Require Import PyDict_Model ConfigFile_Model.

Definition content_of (v : pvalue) : content := match v with PStr t => Text t | PMap d => Table d end.
(** Two tables are the same when they answer alike. *)
Definition same_content (a b : content) : Prop :=
  match a, b with
  | Text x, Text y => x = y
  | Table x, Table y => forall k, dict_get k x = sub_of k y
  | _, _ => False
  end.
Definition opt_same (a : option pvalue) (b : option content) : Prop :=
  match a, b with
  | Some v, Some c => same_content (content_of v) c
  | None, None => True
  | _, _ => False
  end.

(** The property [k] of the section [n]. *)
Definition look (n k : text) (m : sections) : option pvalue :=
  match dict_get n m with Some ps => dict_get k ps | None => None end.

Definition holds (m : sections) (d : doc) : Prop :=
  dict_keys m = first_occurrences (map fst d)
  /\ forall n k, opt_same (look n k m) (property_of (text_eqb n) k d).

(** A text written line by line, each line ended by a newline or a carriage
    return and a newline ([true]), but for a last line. *)
Definition written (ls : list (text * bool)) (last : text) : text :=
  List.concat (map (fun l => fst l ++ if snd l : bool then [13; 10] else [10]) ls) ++ last.
Definition written_lines (ls : list (text * bool)) (last : text) : list text :=
  map fst ls ++ match last with [] => [] | _ => [last] end.
(** No character that ends a line. *)
Definition one_line (l : text) : Prop :=
  forall c, In c l -> ~ In c [10; 11; 12; 13; 28; 29; 30; 133; 8232; 8233].

(** The lines of a text: cut after each line ending, where a carriage return and
    the newline after it are one ending; what follows the last ending is a line if
    it is not empty. *)
Definition line_ending (e rest : text) : Prop :=
  e = [13; 10]
  \/ exists c, e = [c] /\ In c [10; 11; 12; 13; 28; 29; 30; 133; 8232; 8233]
               /\ ~ (c = 13 /\ exists r, rest = 10 :: r).
Inductive Lines : text -> list text -> Prop :=
| Lines_none : Lines [] []
| Lines_last l : l <> [] -> one_line l -> Lines l [l]
| Lines_cut l e rest ls : one_line l -> line_ending e rest -> Lines rest ls -> Lines (l ++ e ++ rest) (l :: ls).
