(** Model of shared configuration files: parsing, standardising and merging
    (packages/smithy-aws-core/src/smithy_aws_core/config/file_parser.py, cited as
    F, and merged_config.py, cited as M). *)
From Verif Require Import Base PyText_Model PyDict_Model.
Local Open Scope N_scope.

(** ** Lines *)

(** The characters [str.splitlines] breaks a text at. *)
Definition is_break (c : N) : bool :=
  ((10 <=? c) && (c <=? 13)) || ((28 <=? c) && (c <=? 30)) || (c =? 133) || (c =? 8232) || (c =? 8233).

(** [s.splitlines()]; [cur] is the line so far, its last character first. *)
Fixpoint splitlines_from (cur : text) (s : text) : list text :=
  match s with
  | [] => match cur with [] => [] | _ => [rev cur] end
  | c :: r =>
    if c =? 13 then
      rev cur :: match r with
                 | d :: r' => if d =? 10 then splitlines_from [] r' else splitlines_from [] r
                 | [] => splitlines_from [] r
                 end
    else if is_break c then rev cur :: splitlines_from [] r
    else splitlines_from (c :: cur) r
  end.
Definition splitlines (s : text) : list text := splitlines_from [] s.

(** ** Identifiers and keys *)

(** F 18: one character of [_VALID_IDENTIFIER_RE]. *)
Definition ident_char (c : N) : bool :=
  ((65 <=? c) && (c <=? 90)) || ((97 <=? c) && (c <=? 122)) || ((48 <=? c) && (c <=? 57))
  || has c (lit "_-/.%@:+").
Definition ident_chars (s : text) : bool := match s with [] => false | _ => forallb ident_char s end.
(** F 18, 228, 262, 334-335: [_VALID_IDENTIFIER_RE.match(s)].  The dollar sign of
    the pattern also matches before a newline at the end. *)
Definition ident_re (s : text) : bool :=
  ident_chars s || (ends_with [10] s && ident_chars (firstn (List.length s - 1) s)).

(** [str.lower] on ASCII; only applied to identifiers and to ASCII keys. *)
Definition lower_char (c : N) : N := if (65 <=? c) && (c <=? 90) then c + 32 else c.
Definition ascii_lower (s : text) : text := map lower_char s.

(** ** Parsing *)

(** F 16, [RawParsedSections]. *)
Inductive pvalue := PStr (t : text) | PMap (d : list (text * text)).
Notation props := (list (text * pvalue)).
Notation sections := (list (text * list (text * pvalue))).

Inductive reason := OrphanContinuation | ContinuationWithoutProperty | OrphanProperty | NoBracket
| EmptySection | NoEquals | NoName | SubNoEquals | SubNoName.

(** A [ConfigParseError] with its line number and kind, or another exception. *)
Inductive parsed (A : Type) := Parsed (a : A) | BadLine (n : nat) (why : reason) | Crash (e : exn).
Arguments Parsed {A} _.
Arguments BadLine {A} _ _.
Arguments Crash {A} _.

(** F 123-127, the local variables of [_parse_content]. *)
Record pstate := mkP {
  p_sections : sections; p_section : option text; p_key : option text; p_sub : bool; p_ignore : bool }.
Definition start : pstate := mkP [] None None false false.

(** [c in (" ", "\t")] and [c in ("#", ";")]. *)
Definition is_blank (c : N) : bool := (c =? 32) || (c =? 9).
Definition is_marker (c : N) : bool := (c =? 35) || (c =? 59).

Definition lstrip (s : text) : text := lstrip_by is_space s.
Definition rstrip (s : text) : text := rstrip_by is_space s.

(** F 273-278, [_strip_inline_comment]: [seen] is [value[:i]], its last character
    first. *)
Fixpoint strip_comment_from (seen : text) (s : text) : text :=
  match s with
  | [] => rev seen
  | c :: r =>
    match seen with
    | d :: before => if is_marker c && is_blank d then rstrip (rev before) else strip_comment_from (c :: seen) r
    | [] => strip_comment_from (c :: seen) r
    end
  end.
Definition strip_inline_comment (value : text) : text := strip_comment_from [] value.

(** F 202-211, [_parse_section_line]. *)
Definition parse_section_line (line : text) (n : nat) : parsed text :=
  let stripped := strip line in
  match cut_at 93 stripped with
  | (_, None) => BadLine n NoBracket
  | (before, Some _) =>
    let inner := strip (skipn 1 before) in
    match inner with [] => BadLine n EmptySection | _ => Parsed inner end
  end.

(** F 214-233, [_parse_property_line]; [None]: a key that is not an identifier. *)
Definition parse_property_line (line : text) (n : nat) : parsed (option (text * text)) :=
  match cut_at 61 line with
  | (_, None) => BadLine n NoEquals
  | (k, Some v) =>
    let key := strip k in
    let value := strip v in
    match key with
    | [] => BadLine n NoName
    | _ =>
      if negb (ident_re key) then Parsed None
      else Parsed (Some (ascii_lower key, strip_inline_comment value))
    end
  end.

(** F 236-270, [_handle_sub_property]. *)
Definition handle_sub_property (line : text) (secs : sections) (sec key : text) (n : nat) : parsed sections :=
  match dict_get sec secs with
  | None => Crash KeyError
  | Some ps =>
    match dict_get key ps with
    | None => Crash KeyError
    | Some v =>
      let ps := match v with PMap _ => ps | PStr _ => dict_set key (PMap []) ps end in
      let secs := dict_set sec ps secs in
      match cut_at 61 line with
      | (_, None) => BadLine n SubNoEquals
      | (k, Some v) =>
        let k := strip k in
        let v := strip v in
        match k with
        | [] => BadLine n SubNoName
        | _ =>
          if negb (ident_re k) then Parsed secs
          else
            match dict_get key ps with
            | Some (PMap d) =>
              Parsed (dict_set sec (dict_set key (PMap (dict_set (ascii_lower k) v d)) ps) secs)
            | Some (PStr _) => Crash TypeError
            | None => Crash KeyError
            end
        end
      end
    end
  end.

(** F 161-162, [sections[section][key] += "\n" + trimmed]. *)
Definition continue_value (t : text) (secs : sections) (sec key : text) : parsed sections :=
  match dict_get sec secs with
  | None => Crash KeyError
  | Some ps =>
    match dict_get key ps with
    | None => Crash KeyError
    | Some (PMap _) => Crash TypeError
    | Some (PStr v) => Parsed (dict_set sec (dict_set key (PStr (v ++ [10] ++ t)) ps) secs)
    end
  end.

(** F 129-197, one turn of the loop of [_parse_content]. *)
Definition parse_line (n : nat) (line : text) (st : pstate) : parsed pstate :=
  match strip line, line with
  | [], _ | _, [] => Parsed st
  | _, c :: _ =>
    if is_blank c then
      match p_section st with
      | None => BadLine n OrphanContinuation
      | Some sec =>
        if p_ignore st then Parsed st
        else match p_key st with
             | None => BadLine n ContinuationWithoutProperty
             | Some key =>
               let res := if p_sub st then handle_sub_property (strip line) (p_sections st) sec key n
                          else continue_value (strip line) (p_sections st) sec key in
               match res with
               | Parsed secs => Parsed (mkP secs (Some sec) (Some key) (p_sub st) (p_ignore st))
               | BadLine m r => BadLine m r
               | Crash e => Crash e
               end
             end
      end
    else if is_marker c then Parsed st
    else if starts_with [91] (lstrip line) then
      match parse_section_line line n with
      | Parsed name =>
        Parsed (mkP (if dict_has name (p_sections st) then p_sections st else dict_set name [] (p_sections st))
                    (Some name) None false false)
      | BadLine m r => BadLine m r
      | Crash e => Crash e
      end
    else
      match p_section st with
      | None => BadLine n OrphanProperty
      | Some sec =>
        match parse_property_line line n with
        | Parsed (Some (key, value)) =>
          match dict_get sec (p_sections st) with
          | None => Crash KeyError
          | Some ps =>
            Parsed (mkP (dict_set sec (dict_set key (PStr value) ps) (p_sections st)) (Some sec) (Some key)
                        (match value with [] => true | _ => false end) false)
          end
        | Parsed None => Parsed (mkP (p_sections st) (Some sec) (p_key st) (p_sub st) true)
        | BadLine m r => BadLine m r
        | Crash e => Crash e
        end
      end
  end.

Fixpoint parse_lines (n : nat) (lines : list text) (st : pstate) : parsed pstate :=
  match lines with
  | [] => Parsed st
  | l :: r =>
    match parse_line n l st with
    | Parsed st' => parse_lines (S n) r st'
    | BadLine m w => BadLine m w
    | Crash e => Crash e
    end
  end.

(** F 116-199, [_parse_content]. *)
Definition parse_content (content : text) : parsed sections :=
  match parse_lines 1 (splitlines content) start with
  | Parsed st => Parsed (p_sections st)
  | BadLine n w => BadLine n w
  | Crash e => Crash e
  end.

(** F 45-63, [parse_config_file], for the content the file system gives. *)
Definition parse_config_file (content : option text) : parsed sections :=
  match content with None => Parsed [] | Some c => parse_content c end.

(** ** Standardising *)

Inductive file_type := CONFIG | CREDENTIALS.

(** F 36-42, [StandardizedOutput]. *)
Record std := mkStd { s_profiles : sections; s_sso : sections; s_services : sections }.

(** [d.update(e)]. *)
Definition update {A} (d e : list (text * A)) : list (text * A) :=
  fold_left (fun d kv => dict_set (fst kv) (snd kv) d) e d.

(** F 349-357, [_merge_properties]. *)
Definition merge_properties (target : sections) (name : text) (ps : props) : sections :=
  dict_set name (update (match dict_get name target with Some q => q | None => [] end) ps) target.

(** F 326-331, [_extract_prefixed_name]. *)
Definition extract_prefixed_name (name prefix : text) : option text :=
  match skipn (List.length prefix) name with
  | [] => None
  | c :: r => if is_blank c then match strip (c :: r) with [] => None | t => Some t end else None
  end.

(** F 338-346, [_is_profile_prefixed_default]. *)
Definition is_profile_prefixed_default (name : text) : bool :=
  let stripped := strip name in
  if negb (starts_with (lit "profile") stripped) then false
  else match skipn 7 stripped with
       | [] => false
       | c :: r => if is_blank c then text_eqb (strip (c :: r)) (lit "default") else false
       end.

Definition merge_named (target : sections) (name : option text) (ps : props) : sections :=
  match name with
  | Some t => if ident_re t then merge_properties target t ps else target
  | None => target
  end.

(** F 281-312, [_classify_config_section]. *)
Definition classify_config_section (name : text) (ps : props) (has_profile_default : bool) (s : std) : std :=
  let stripped := strip name in
  if starts_with (lit "sso-session") stripped then
    mkStd (s_profiles s) (merge_named (s_sso s) (extract_prefixed_name stripped (lit "sso-session")) ps)
          (s_services s)
  else if starts_with (lit "services") stripped then
    mkStd (s_profiles s) (s_sso s)
          (merge_named (s_services s) (extract_prefixed_name stripped (lit "services")) ps)
  else if text_eqb stripped (lit "default") then
    if has_profile_default then s
    else mkStd (merge_properties (s_profiles s) (lit "default") ps) (s_sso s) (s_services s)
  else if starts_with (lit "profile") stripped then
    mkStd (merge_named (s_profiles s) (extract_prefixed_name stripped (lit "profile")) ps) (s_sso s)
          (s_services s)
  else s.

(** F 315-323, [_classify_credentials_section]. *)
Definition classify_credentials_section (name : text) (ps : props) (s : std) : std :=
  let stripped := strip name in
  if ident_re stripped then mkStd (merge_properties (s_profiles s) stripped ps) (s_sso s) (s_services s) else s.

(** F 66-113, [standardize]. *)
Definition standardize (raw : sections) (ft : file_type) : std :=
  match ft with
  | CONFIG =>
    let has_profile_default := existsb (fun kv => is_profile_prefixed_default (fst kv)) raw in
    fold_left (fun s kv => classify_config_section (fst kv) (snd kv) has_profile_default s) raw (mkStd [] [] [])
  | CREDENTIALS =>
    fold_left (fun s kv => classify_credentials_section (fst kv) (snd kv) s) raw (mkStd [] [] [])
  end.

(** ** Merging *)

(** M 101-115, [_merge_profiles]. *)
Definition merge_profiles (config creds : sections) : sections :=
  let merged := fold_left (fun m kv => dict_set (fst kv) (snd kv) m) config [] in
  fold_left (fun m kv =>
      match dict_get (fst kv) m with
      | Some ps => dict_set (fst kv) (update ps (snd kv)) m
      | None => dict_set (fst kv) (snd kv) m
      end) creds merged.

(** M 11-33, [MergedConfig]. *)
Record merged := mkMerged { m_profiles : sections; m_sso : sections; m_services : sections }.
Definition merge (config creds : std) : merged :=
  mkMerged (merge_profiles (s_profiles config) (s_profiles creds)) (s_sso config) (s_services config).

(** M 35-46, [get]; the key is ASCII. *)
Definition get (m : merged) (profile key : text) : option text :=
  match dict_get profile (m_profiles m) with
  | None => None
  | Some ps => match dict_get (ascii_lower key) ps with Some (PStr v) => Some v | _ => None end
  end.
(** M 48-68, [get_sub_property]. *)
Definition get_sub_property (m : merged) (profile key sub : text) : option text :=
  match dict_get profile (m_profiles m) with
  | None => None
  | Some ps => match dict_get (ascii_lower key) ps with
               | Some (PMap d) => dict_get (ascii_lower sub) d
               | _ => None
               end
  end.

(** context.py 57-86, [load_config], for the contents of the two files. *)
Definition load_config (config creds : option text) : parsed merged :=
  match parse_config_file config with
  | Parsed raw_config =>
    match parse_config_file creds with
    | Parsed raw_credentials =>
      Parsed (merge (standardize raw_config CONFIG) (standardize raw_credentials CREDENTIALS))
    | BadLine n w => BadLine n w
    | Crash e => Crash e
    end
  | BadLine n w => BadLine n w
  | Crash e => Crash e
  end.
