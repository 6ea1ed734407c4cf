(** What a JSON value says as a value of a schema, and when two values are the same. *)
From Verif Require Import Base PyDecimal_Model Base64_Spec Json_Model Json_Spec.
Local Open Scope N_scope.

(** No object has a key twice. *)
Inductive keys_once : json -> Prop :=
| KO_null : keys_once JNull
| KO_bool b : keys_once (JBool b)
| KO_num x : keys_once (JNum x)
| KO_str s : keys_once (JStr s)
| KO_arr l : Forall keys_once l -> keys_once (JArr l)
| KO_obj l : NoDup (map fst l) -> Forall (fun a => keys_once (snd a)) l -> keys_once (JObj l).

(** An integer as a decimal. *)
Definition int_decimal (z : Z) : decimal := mkDec (Z.ltb z 0) (Z.abs_N z) 0.
(** The decimal a number writes, with its zeros and its sign. *)
Definition as_written (x : number) (d : decimal) : Prop := dec_value d = num_value x /\ d_neg d = n_neg x.
(** Nulls of a collection that is not sparse are left out. *)
Definition present (sparse : bool) (j : json) : bool := sparse || match j with JNull => false | _ => true end.

Section Says.
  (** Whether the value is read by way of a document. *)
  Variable doc : bool.
  Variable st : settings.
  Variable env : N -> node.
  Variable ts_de : tformat -> tstext -> result Z.
  Variable float_of : decimal -> float.

  (** Nulls are no members, but for members that are documents; a document has
      its nulls read too. *)
  Definition counts (m : member) (j : json) : Prop := doc = true \/ j <> JNull \/ env (m_target m) = NDoc.

  Inductive says : N -> json -> value -> Prop :=
  | Sy_bool n b : env n = NBool -> says n (JBool b) (VBool b)
  | Sy_int n x z : env n = NInt -> integral x = true -> num_value x = (z, 0%Z) -> says n (JNum x) (VInt z)
  | Sy_float n x d : env n = NFloat -> integral x = false -> as_written x d -> says n (JNum x) (VFloat (float_of d))
  | Sy_float_int n x z : doc = false -> env n = NFloat -> integral x = true -> num_value x = (z, 0%Z) -> says n (JNum x) (VInt z)
  | Sy_inf n : doc = false -> env n = NFloat -> says n (JStr (lit "Infinity")) (VFloat FInf)
  | Sy_neg_inf n : doc = false -> env n = NFloat -> says n (JStr (lit "-Infinity")) (VFloat FNegInf)
  | Sy_nan n : doc = false -> env n = NFloat -> says n (JStr (lit "NaN")) (VFloat FNaN)
  | Sy_dec n x d : env n = NDecimal -> integral x = false \/ doc = false -> dec_value d = num_value x ->
      says n (JNum x) (VDecimal (BFin d))
  (** The direct reader takes true and false for numbers. *)
  | Sy_int_bool n b : doc = false -> env n = NInt -> says n (JBool b) (VBool b)
  | Sy_float_bool n b : doc = false -> env n = NFloat -> says n (JBool b) (VBool b)
  | Sy_dec_bool n (b : bool) : doc = false -> env n = NDecimal -> says n (JBool b) (VDecimal (BFin (int_decimal (if b then 1 else 0))))
  | Sy_str n s : env n = NStr -> says n (JStr s) (VStr s)
  | Sy_blob n s bs : env n = NBlob -> base64_read s bs -> says n (JStr s) (VBlob bs)
  | Sy_time_text n a f s t : env n = NTime a -> format_in_force st a f -> f <> TEpoch \/ doc = true ->
      ts_de f (TText s) = Ok t -> says n (JStr s) (VTime a t)
  | Sy_time_int n a f x z t : env n = NTime a -> format_in_force st a f -> f = TEpoch \/ doc = true ->
      integral x = true -> num_value x = (z, 0%Z) -> ts_de f (TNum (FFin (int_decimal z))) = Ok t -> says n (JNum x) (VTime a t)
  | Sy_time_num n a f x d t : env n = NTime a -> format_in_force st a f -> f = TEpoch \/ doc = true ->
      integral x = false -> as_written x d -> ts_de f (TNum (float_of d)) = Ok t -> says n (JNum x) (VTime a t)
  | Sy_time_bool n a f (b : bool) t : env n = NTime a -> format_in_force st a f -> f = TEpoch \/ doc = true ->
      ts_de f (TNum (FFin (int_decimal (if b then 1 else 0)))) = Ok t -> says n (JBool b) (VTime a t)
  | Sy_struct n ms l kw : env n = NStruct ms -> NoDup (map fst kw) ->
      (forall k v, In (k, v) kw -> exists m w j,
         In m ms /\ m_name m = k /\ on_wire st m w /\ In (w, j) l /\ counts m j /\ says (m_target m) j v) ->
      (forall m w j, In m ms -> on_wire st m w -> In (w, j) l -> counts m j -> exists v, In (m_name m, v) kw) ->
      says n (JObj l) (VStruct n kw)
  | Sy_empty n j : doc = true -> env n = NStruct [] -> says n j (VStruct n [])
  | Sy_list n sparse t l vs : env n = NList sparse t ->
      Forall2 (fun j v => (j = JNull /\ v = VNull) \/ (j <> JNull /\ says t j v)) (filter (present sparse) l) vs ->
      says n (JArr l) (VList vs)
  | Sy_map n sparse t l kvs : env n = NMap sparse t ->
      Forall2 (fun a b : text * _ => fst a = fst b /\ ((snd a = JNull /\ snd b = VNull) \/ (snd a <> JNull /\ says t (snd a) (snd b))))
        (filter (fun a => present sparse (snd a)) l) kvs ->
      says n (JObj l) (VMap kvs)
  | Sy_doc n j : env n = NDoc -> says n j (VDoc (to_plain j)).
End Says.

(** The same value: the order of the members of a structure does not matter, nor
    the sign of a decimal zero. *)
Inductive alike : value -> value -> Prop :=
| Al_same v : alike v v
| Al_dec d d' : dec_value d = dec_value d' -> alike (VDecimal (BFin d)) (VDecimal (BFin d'))
| Al_struct n l l' : NoDup (map fst l) -> NoDup (map fst l') ->
    (forall k v, In (k, v) l -> exists v', In (k, v') l' /\ alike v v') ->
    (forall k v', In (k, v') l' -> exists v, In (k, v) l /\ alike v v') ->
    alike (VStruct n l) (VStruct n l')
| Al_list l l' : Forall2 alike l l' -> alike (VList l) (VList l')
| Al_map l l' : Forall2 (fun a b : text * _ => fst a = fst b /\ alike (snd a) (snd b)) l l' -> alike (VMap l) (VMap l').

(** Reading fails when these events are ahead. *)
Definition refuses {A} (r : R A) (evs : list event) : Prop :=
  forall p rest, ahead p = evs ++ rest -> exists p' e, r p = Some (p', Err e).

(** Settings under which neither [jsonName] nor [timestampFormat] is heeded. *)
Definition no_traits (st : settings) : settings := mkSettings false false (default_ts st).
