(** The form of shape identifiers, and a map with keys in order of insertion. *)
From Verif Require Import Base Shape_Model.
Local Open Scope N_scope.

(** namespace # name, or namespace # name $ member, none of them empty, the
    namespace without [#] and the name without [$]. *)
Definition id_form (id ns name : text) (member : option text) : Prop :=
  ns <> [] /\ name <> [] /\ member <> Some []
  /\ ~ In 35 ns /\ ~ In 36 name
  /\ id = ns ++ [35] ++ name ++ match member with Some m => [36] ++ m | None => [] end.

(** The text a key stands for: a typed key and a text key of the same text are one key. *)
Definition named (k : key) : text := match k with KText t | KTyped t _ => t end.

(** ** Ordered maps: the values by key and the keys in order *)
Section Map.
  Context {V : Type}.
  Record omap := mkMap { values : text -> option V; order : list text }.
  Definition well_formed (m : omap) : Prop := NoDup (order m) /\ forall k, In k (order m) <-> values m k <> None.
  (** The same map. *)
  Definition same_map (m m' : omap) : Prop := (forall k, values m k = values m' k) /\ order m = order m'.
  Definition absent (m : omap) (k : text) : Prop := values m k = None.
  (** [m'] is [m] but for [k], which has the value [v]; a new key comes last. *)
  Inductive put_in (k : text) (v : V) (m m' : omap) : Prop :=
  | Put : values m' k = Some v -> (forall k', k' <> k -> values m' k' = values m k') ->
          (absent m k -> order m' = order m ++ [k]) -> (~ absent m k -> order m' = order m) -> put_in k v m m'.
  (** [m'] is [m] without [k]; the others keep their order. *)
  Inductive taken (k : text) (m m' : omap) : Prop :=
  | Take a b : values m' k = None -> (forall k', k' <> k -> values m' k' = values m k') ->
          order m = a ++ k :: b -> order m' = a ++ b -> taken k m m'.
  Inductive all_put : list (key * V) -> omap -> omap -> Prop :=
  | AP_nil m m' : same_map m m' -> all_put [] m m'
  | AP_cons k v l m m1 m' : put_in (named k) v m m1 -> all_put l m1 m' -> all_put ((k, v) :: l) m m'.

  (** What each operation is to do and to give. *)
  Inductive does : op V -> omap -> omap -> answer V -> Prop :=
  | Do_get k v m m' : same_map m m' -> values m (named k) = Some v -> does (Get k) m m' (AVal v)
  | Do_get_none k m m' : same_map m m' -> absent m (named k) -> does (Get k) m m' (ARaise KeyError)
  | Do_set k v m m' : put_in (named k) v m m' -> does (Set_ k v) m m' ANone
  | Do_del k m m' : ~ absent m (named k) -> taken (named k) m m' -> does (Del k) m m' ANone
  | Do_del_none k m m' : same_map m m' -> absent m (named k) -> does (Del k) m m' (ARaise KeyError)
  | Do_has k m m' b : same_map m m' -> (b = true <-> ~ absent m (named k)) -> does (Has k) m m' (ABool b)
  | Do_get_or k d v m m' : same_map m m' -> values m (named k) = Some v -> does (GetOr k d) m m' (AVal v)
  | Do_get_default k d m m' : same_map m m' -> absent m (named k) ->
      does (GetOr k d) m m' (match d with Some v => AVal v | None => ANone end)
  | Do_pop k d v m m' : values m (named k) = Some v -> taken (named k) m m' -> does (Pop k d) m m' (AVal v)
  | Do_pop_default k d m m' : same_map m m' -> absent m (named k) ->
      does (Pop k d) m m' (match d with Some v => AVal v | None => ANone end)
  | Do_popitem k v r m m' : order m = k :: r -> values m k = Some v -> taken k m m' -> order m' = r -> does PopItem m m' (AItem k v)
  | Do_popitem_none m m' : same_map m m' -> order m = [] -> does PopItem m m' (ARaise KeyError)
  | Do_default_old k v x m m' : same_map m m' -> values m (named k) = Some x -> does (SetDefault k v) m m' (AVal x)
  | Do_default_new k v m m' : absent m (named k) -> put_in (named k) v m m' -> does (SetDefault k v) m m' (AVal v)
  | Do_update l m m' : all_put l m m' -> does (Update l) m m' ANone
  | Do_clear m m' : order m' = [] -> (forall k, absent m' k) -> does Clear m m' ANone
  | Do_keys m m' : same_map m m' -> does Keys m m' (AKeys (order m)).

  (** An operation that may give the key another value or take it away. *)
  Definition touches (k : text) (o : op V) : Prop :=
    match o with
    | Set_ q _ | Del q | Pop q _ => named q = k
    | Update l => exists q v, In (q, v) l /\ named q = k
    | PopItem | Clear => True
    | _ => False
    end.
End Map.
Arguments omap : clear implicits.
