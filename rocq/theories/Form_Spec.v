(** The parameters of a value, by the way to each leaf. *)
From Verif Require Import Base Utf8_Model PyText_Model PySort_Model Base64_Model HttpVal_Model Form_Model.
From Verif Require Import HttpVal_Spec.
From Verif Require Json_Spec Http_Spec Time_Model Time_Spec Utf8_Proofs.
Local Open Scope N_scope.

(** Reading a form: parameters between ampersands, name and value around the first
    equals sign, both percent-decoded. *)
Definition form_of (body : text) (ps : list (text * text)) : Prop :=
  Http_Spec.parse_query body = Some (map (fun p => (fst p, Some (snd p))) ps).

Section Spec.
  Variable pads_year : bool.
  Variable repr : Time_Model.float -> text.
  Variable xml_name : N -> option text.
  Variable member_name : N -> option text.
  Variable flattened : N -> bool.
  Variable ts_format : N -> option format.
  Variable list_member map_key map_value : N -> option N.

  (** [n] is the name used for [s] where [default] would be used without [xmlName]. *)
  Definition is_named (s : N) (default n : text) : Prop :=
    match xml_name s with Some x => n = x | None => n = default end.
  (** The segment before an index, absent in flattened collections. *)
  Definition numbered (s : N) (name : text) (i : nat) (segments : list text) : Prop :=
    segments = (if flattened s then [] else [name]) ++ [dec (N.of_nat (S i))].

  (** [leaf s v way t]: the way [way] through [v] ends at a leaf written as [t].  The
      leaves are the scalars, the keys of maps and, with no text, the empty lists. *)
  Inductive leaf : N -> value -> list text -> text -> Prop :=
  | leaf_scalar s v t : form_text pads_year repr ts_format s v = Ok t -> leaf s (QScalar v) [] t
  | leaf_empty s : leaf s (QList []) [] []
  | leaf_element s m n l i x segments way t :
      list_member s = Some m -> is_named m (lit "member") n -> nth_error l i = Some x ->
      numbered s n i segments -> leaf m x way t -> leaf s (QList l) (segments ++ way) t
  | leaf_key s k e n l i key x segments :
      map_key s = Some k -> map_value s = Some e -> is_named k (lit "key") n -> nth_error l i = Some (key, x) ->
      numbered s (lit "entry") i segments -> leaf s (QMap l) (segments ++ [n]) key
  | leaf_value s k e n l i key x segments way t :
      map_key s = Some k -> map_value s = Some e -> is_named e (lit "value") n -> nth_error l i = Some (key, x) ->
      numbered s (lit "entry") i segments -> leaf e x way t -> leaf s (QMap l) (segments ++ n :: way) t
  | leaf_member s m n name l x way t :
      In (m, x) l -> member_name m = Some name -> is_named m name n -> leaf m x way t -> leaf s (QStruct l) (n :: way) t.

  (** Text that has an encoding; names without dots. *)
  Definition encodable (t : text) : Prop := Utf8_Proofs.valid_text t = true.
  Definition plain_name (n : text) : Prop := ~ In 46 n /\ encodable n.
  Definition name_of (s : N) (default : text) : text := match xml_name s with Some x => x | None => default end.
  Definition member_of (mx : N * value) (n : text) : Prop :=
    exists name, member_name (fst mx) = Some name /\ is_named (fst mx) name n.

  (** Values the protocol has a form for: no documents, text that can be encoded,
      members and keys with different names and no dots in them. *)
  Fixpoint good (s : N) (v : value) : Prop :=
    match v with
    | QNull => True
    | QDocument => False
    | QScalar x => exists t, form_text pads_year repr ts_format s x = Ok t /\ encodable t
    | QList l =>
      exists m, list_member s = Some m /\ plain_name (name_of m (lit "member")) /\
        (fix all (l : list value) : Prop := match l with [] => True | x :: r => good m x /\ all r end) l
    | QMap l =>
      exists k e, map_key s = Some k /\ map_value s = Some e /\
        plain_name (name_of k (lit "key")) /\ plain_name (name_of e (lit "value")) /\
        name_of k (lit "key") <> name_of e (lit "value") /\
        (fix all (l : list (text * value)) : Prop :=
           match l with [] => True | (key, x) :: r => (good e x /\ encodable key) /\ all r end) l
    | QStruct l =>
      exists names, Forall2 member_of l names /\ NoDup names /\ Forall plain_name names /\
        (fix all (l : list (N * value)) : Prop := match l with [] => True | (m, x) :: r => good m x /\ all r end) l
    end.
End Spec.
