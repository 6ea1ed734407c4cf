(** Reading events is reading the tree they come from. *)
From Verif Require Import Base Base_Proofs PyText_Model PyText_Proofs PyDict_Model PyDict_Proofs HttpVal_Model Xml_Model Xml_Spec.
From Verif Require Time_Model.
From Coq Require Import Lia.
Local Open Scope N_scope.

Lemma xml_ind' (P : xml -> Prop) : (forall n ch, (forall c, In c ch -> P c) -> P (Elem n ch)) -> forall x, P x.
Proof.
  intros H. fix IH 1. intros [n ch]. apply H. induction ch as [|c ch IHc]; [intros c []|]. intros c' [<- | I]; [apply IH | now apply IHc].
Qed.

(** ** Tags *)
Lemma tag_name_iff t n : local_name t = Ok n <-> tag_name t n.
Proof.
  split.
  - unfold local_name. destruct t as [|c t]; [intros [= <-]; apply T_plain; discriminate|].
    destruct (N.eqb_spec c 123) as [->|Hc]; [|intros [= <-]; now apply T_plain].
    assert (E : cut_at 125 (123 :: t) = (123 :: fst (cut_at 125 t), snd (cut_at 125 t))) by (cbn [cut_at]; change (123 =? 125) with false; cbv iota; destruct (cut_at 125 t); reflexivity).
    rewrite E. destruct (snd (cut_at 125 t)) as [r|] eqn:Sn; [|discriminate]. intros [= <-].
    destruct (in_dec N.eq_dec 125 t) as [I|I]; [|rewrite PyText_Proofs.cut_at_none in Sn by exact I; discriminate].
    assert (X : exists a b, t = a ++ 125 :: b /\ ~ In 125 a).
    { clear -I. induction t as [|x t IH]; [destruct I|]. destruct (N.eq_dec x 125) as [->|Hx]; [exists [], t; split; [reflexivity | intros []]|].
      destruct IH as (a & b & -> & H); [destruct I; [congruence | assumption]|]. exists (x :: a), b. split; [reflexivity|]. intros [|]; [congruence | contradiction]. }
    destruct X as (a & b & -> & H). rewrite cut_at_app in Sn by exact H. cbn [snd] in Sn. injection Sn as <-. now apply T_qualified.
  - intros [t' H | ns t' H].
    + unfold local_name. destruct t' as [|c t']; [reflexivity|]. cbn [hd] in H. apply N.eqb_neq in H. now rewrite H.
    + unfold local_name. change (123 =? 123) with true. cbv iota. change (123 :: ns ++ 125 :: t') with ((123 :: ns) ++ 125 :: t'). rewrite cut_at_app; [reflexivity|]. intros [X|X]; [discriminate X | contradiction].
Qed.
Lemma tag_fun t a b : tag_name t a -> tag_name t b -> a = b.
Proof. intros A B. apply tag_name_iff in A, B. congruence. Qed.
Lemma named_dec name x : {named name x} + {~ named name x}.
Proof.
  unfold named. destruct (local_name (n_tag (root_node x))) as [t|e] eqn:E.
  - destruct (text_eq_dec t name) as [->|H]; [left; now apply tag_name_iff | right]. intros K. apply tag_name_iff in K. congruence.
  - right. intros K. apply tag_name_iff in K. congruence.
Qed.

(** ** Passing over elements *)
Lemma skip_0 l : skip 0 l = Ok l.
Proof. destruct l; reflexivity. Qed.
Lemma buffer_0 l : buffer 0 l = Ok ([], l).
Proof. destruct l; reflexivity. Qed.
Lemma skip_events x : forall k l, skip (S k) (events x ++ l) = skip (S k) l.
Proof.
  induction x as [n ch IH] using xml_ind'. intros k l. cbn [events]. change ((Start n :: flat_map events ch ++ [End n]) ++ l) with (Start n :: (flat_map events ch ++ [End n]) ++ l).
  cbn [skip]. rewrite <- app_assoc. assert (G : forall j, skip (S j) (flat_map events ch ++ [End n] ++ l) = skip (S j) ([End n] ++ l)).
  { intros j. clear -IH. induction ch as [|c ch IHc]; [reflexivity|]. cbn [flat_map]. rewrite <- app_assoc, (IH c (or_introl eq_refl)). apply IHc. intros; apply IH; now right. }
  rewrite G. reflexivity.
Qed.
Lemma skip_children ch k l : skip (S k) (flat_map events ch ++ l) = skip (S k) l.
Proof. induction ch as [|c ch IH]; [reflexivity|]. cbn [flat_map]. rewrite <- app_assoc, skip_events. exact IH. Qed.
Definition prepend {A} (es : list A) (r : result (list A * list A)) : result (list A * list A) := do br <- r; Ok (es ++ fst br, snd br).
Lemma prepend_app {A} (a b : list A) r : prepend (a ++ b) r = prepend a (prepend b r).
Proof. destruct r as [[x y]|]; [|reflexivity]. cbn. now rewrite app_assoc. Qed.
Lemma buffer_events x : forall k l, buffer (S k) (events x ++ l) = prepend (events x) (buffer (S k) l).
Proof.
  induction x as [n ch IH] using xml_ind'. intros k l. cbn [events]. change ((Start n :: flat_map events ch ++ [End n]) ++ l) with (Start n :: (flat_map events ch ++ [End n]) ++ l).
  cbn [buffer]. rewrite <- app_assoc. assert (G : forall j, buffer (S j) (flat_map events ch ++ [End n] ++ l) = prepend (flat_map events ch) (buffer (S j) ([End n] ++ l))).
  { intros j. clear -IH. induction ch as [|c ch IHc]; [cbn [flat_map app]; destruct (buffer _ _) as [[x y]|]; reflexivity|].
    cbn [flat_map]. rewrite <- app_assoc, (IH c (or_introl eq_refl)), IHc by (intros; apply IH; now right). now rewrite prepend_app. }
  rewrite G. cbn [app buffer]. destruct (buffer (S k) l) as [[x y]|]; [|reflexivity]. cbn. now rewrite <- app_assoc.
Qed.
Lemma buffer_children ch k l : buffer (S k) (flat_map events ch ++ l) = prepend (flat_map events ch) (buffer (S k) l).
Proof.
  induction ch as [|c ch IH]; [cbn [flat_map app]; destruct (buffer _ _) as [[x y]|]; reflexivity|].
  cbn [flat_map]. rewrite <- app_assoc, buffer_events, IH. now rewrite prepend_app.
Qed.

(** ** The tree with the value of each element *)
Inductive rtree := RT (x : xml) (rd : schema -> result value) (ch : list rtree).
Definition r_xml (r : rtree) : xml := let (x, _, _) := r in x.
Definition r_rd (r : rtree) : schema -> result value := let (_, rd, _) := r in rd.
Definition r_ch (r : rtree) : list rtree := let (_, _, ch) := r in ch.
Definition r_tag (r : rtree) : result text := local_name (n_tag (root_node (r_xml r))).
Definition revents (r : rtree) : list event := events (r_xml r).

Section Trees.
  Variable py_float : text -> result float.
  Variable time_float : text -> option Time_Model.float.
  Variable default_format : format.
  Variable use_format : bool.
  Variable shapes : nat -> shape.
  Notation leaf_value := (leaf_value py_float time_float default_format use_format).
  Notation attributes := (attributes py_float time_float default_format use_format).
  Notation attribute_value := (attribute_value py_float time_float default_format use_format).
  Notation read := (read py_float time_float default_format use_format shapes).
  Notation read_struct := (read_struct py_float time_float default_format use_format shapes).
  Notation read_members := (read_members py_float time_float default_format use_format shapes).
  Notation read_items := (read_items py_float time_float default_format use_format shapes).
  Notation read_entries := (read_entries py_float time_float default_format use_format shapes).
  Notation read_entry := (read_entry py_float time_float default_format use_format shapes).

  Fixpoint t_items (m : schema) (cs : list rtree) : result (list value) :=
    match cs with [] => Ok [] | c :: r => do v <- r_rd c m; do l <- t_items m r; Ok (v :: l) end.
  Fixpoint t_entry (kt vt : text) (m : schema) (key : option text) (acc : list (text * value)) (cs : list rtree) : result (list (text * value)) :=
    match cs with
    | [] => Ok acc
    | c :: r =>
      do tag <- r_tag c;
      if text_eqb tag kt then t_entry kt vt m (Some (full_text (r_xml c))) acc r
      else if text_eqb tag vt then
        match key with
        | None => Err XMLParseError
        | Some k => do v <- r_rd c m; t_entry kt vt m key (dict_set k v acc) r
        end
      else t_entry kt vt m key acc r
    end.
  Fixpoint t_entries (kt vt : text) (m : schema) (acc : list (text * value)) (cs : list rtree) : result (list (text * value)) :=
    match cs with [] => Ok acc | c :: r => do acc <- t_entry kt vt m None acc (r_ch c); t_entries kt vt m acc r end.
  Definition t_extend (tag : text) (c : rtree) (bufs : list (text * list rtree)) : list (text * list rtree) :=
    dict_set tag (match dict_get tag bufs with Some l => l ++ [c] | None => [c] end) bufs.
  Fixpoint t_members (union : bool) (names : list (text * schema)) (kwargs : list (text * value)) (bufs : list (text * list rtree)) (cs : list rtree)
      : result (list (text * value) * list (text * list rtree)) :=
    match cs with
    | [] => Ok (kwargs, bufs)
    | c :: r =>
      do tag <- r_tag c;
      match dict_get tag names with
      | Some m =>
        if m_flat m then t_members union names kwargs (t_extend tag c bufs) r
        else do v <- r_rd c m; do kwargs <- accept union kwargs m v; t_members union names kwargs bufs r
      | None => t_members union names kwargs bufs r
      end
    end.
  Definition t_together (m : schema) (items : list rtree) : result value :=
    match m_kind m with
    | TList i => do l <- t_items i items; Ok (VList l)
    | TMap k v => do l <- t_entries (xml_member_name k) (xml_member_name v) v [] items; Ok (VMap l)
    | _ => Err OutOfFuel
    end.
  Fixpoint t_replay (union : bool) (names : list (text * schema)) (bs : list (text * list rtree)) (kwargs : list (text * value)) : result (list (text * value)) :=
    match bs with
    | [] => Ok kwargs
    | (tag, items) :: r =>
      match dict_get tag names with
      | None => Err KeyError
      | Some m => do v <- t_together m items; do kwargs <- accept union kwargs m v; t_replay union names r kwargs
      end
    end.
  Definition t_struct (union : bool) (def : shape) (attrs : bool) (n : node) (cs : list rtree) : result value :=
    do kwargs <- (if attrs then attributes union n (d_members def) [] else Ok []);
    do kb <- t_members union (xml_names def) kwargs [] cs;
    do kwargs <- t_replay union (xml_names def) (snd kb) (fst kb);
    finish union kwargs.
  Definition t_value (n : node) (cs : list rtree) (s : schema) : result value :=
    match m_kind s with
    | TLeaf k => do v <- leaf_value s k (match n_text n with Some t => t | None => [] end); Ok (VScalar v)
    | TDocument => Err NotImplementedErr
    | TStruct id => t_struct false (shapes id) true n cs
    | TUnion id => t_struct true (shapes id) true n cs
    | TList m => do l <- t_items m cs; Ok (VList l)
    | TMap k m => do l <- t_entries (xml_member_name k) (xml_member_name m) m [] cs; Ok (VMap l)
    end.
  Fixpoint annotate (x : xml) : rtree :=
    match x with Elem n ch => let cs := map annotate ch in RT x (t_value n cs) cs end.
  Definition value_of (x : xml) (s : schema) : result value := r_rd (annotate x) s.

  Lemma annotate_xml x : r_xml (annotate x) = x.
  Proof. destruct x; reflexivity. Qed.
  Lemma annotate_ch n ch : r_ch (annotate (Elem n ch)) = map annotate ch.
  Proof. reflexivity. Qed.

  (** ** Events and trees *)
  Definition sized (x : xml) : nat := List.length (events x).
  Definition all_events (cs : list xml) : list event := flat_map events cs.
  Lemma sized_elem n ch : sized (Elem n ch) = (2 + List.length (all_events ch))%nat.
  Proof. unfold sized, all_events. cbn [events List.length]. rewrite app_length. cbn [List.length]. lia. Qed.
  Lemma sized_pos x : (2 <= sized x)%nat.
  Proof. destruct x. rewrite sized_elem. lia. Qed.
  Lemma all_cons c r : List.length (all_events (c :: r)) = (sized c + List.length (all_events r))%nat.
  Proof. unfold all_events, sized. cbn [flat_map]. now rewrite app_length. Qed.

  (** The check of the root passes. *)
  Definition passes (b : bool) (s : schema) (x : xml) : Prop :=
    b = false \/ simple s \/ exists name, has_name shapes s name /\ named name x.
  (** What the reader gives, for what the tree gives. *)
  Definition agrees {A} (got : result (A * de)) (want : result A) (l : list event) (b : bool) : Prop :=
    match want with
    | Ok v => exists b', got = Ok (v, mkDe l b' None) /\ (b = false -> b' = false)
    | Err e => got = Err e
    end.
  Definition sim (x : xml) : Prop := forall s b fuel l, proper x -> m_flat s = false -> unflattened s -> passes b s x ->
    (4 * sized x <= fuel)%nat -> agrees (read fuel s (mkDe (events x ++ l) b None)) (value_of x s) l b.

  Lemma events_start x l : events x ++ l = Start (root_node x) :: all_events (match x with Elem _ ch => ch end) ++ End (root_node x) :: l.
  Proof. destruct x as [n ch]. cbn [events root_node app]. now rewrite <- app_assoc. Qed.
  Lemma read_text_elem x l b : read_text (mkDe (events x ++ l) b None) = Ok (full_text x, mkDe l b None).
  Proof.
    rewrite events_start. unfold read_text, consume_start, pull. cbn [preconsumed rest bind fst snd is_root]. unfold skip_to_end. cbn [rest]. unfold all_events.
    destruct x as [n ch]. rewrite skip_children. cbn [skip]. rewrite skip_0. reflexivity.
  Qed.
  Lemma skip_elem x l b : (do nd <- consume_start (mkDe (events x ++ l) b None); skip_to_end (snd nd)) = Ok (mkDe l b None).
  Proof.
    rewrite events_start. unfold consume_start, pull. cbn [preconsumed rest bind fst snd is_root]. unfold skip_to_end. cbn [rest]. unfold all_events.
    destruct x as [n ch]. rewrite skip_children. cbn [skip]. rewrite skip_0. reflexivity.
  Qed.
  Lemma buffer_elem x l b : buffer_element (mkDe (events x ++ l) b None) = Ok (events x, mkDe l b None).
  Proof.
    unfold buffer_element. rewrite events_start. unfold pull. cbn [rest bind fst snd is_root preconsumed].
    destruct x as [n ch]. unfold all_events. rewrite buffer_children. cbn [buffer]. rewrite buffer_0. reflexivity.
  Qed.

  (** ** One step of each function *)
  Lemma read_S fuel s d : read (S fuel) s d =
    match m_kind s with
    | TLeaf k => do td <- read_text d; do v <- leaf_value s k (fst td); Ok (VScalar v, snd td)
    | TDocument => Err NotImplementedErr
    | TStruct id => read_struct fuel false (shapes id) d
    | TUnion id => read_struct fuel true (shapes id) d
    | TList m =>
      if m_flat s then do ld <- read_items fuel true m d; Ok (VList (fst ld), snd ld)
      else do nd <- consume_start d; do ld <- read_items fuel false m (snd nd); do ed <- pull (snd ld); Ok (VList (fst ld), snd ed)
    | TMap k m =>
      let kt := xml_member_name k in
      let vt := xml_member_name m in
      if m_flat s then do ld <- read_entries fuel true kt vt m [] d; Ok (VMap (fst ld), snd ld)
      else do nd <- consume_start d; do ld <- read_entries fuel false kt vt m [] (snd nd); do ed <- pull (snd ld); Ok (VMap (fst ld), snd ed)
    end.
  Proof. reflexivity. Qed.
  Definition replay (fuel : nat) (union : bool) (names : list (text * schema)) : list (text * list event) -> list (text * value) -> result (list (text * value)) :=
    fix replay bs kwargs :=
      match bs with
      | [] => Ok kwargs
      | (tag, es) :: r =>
        match dict_get tag names with
        | None => Err KeyError
        | Some m => do vd <- read fuel m (mkDe es true None); do kwargs <- accept union kwargs m (fst vd); replay r kwargs
        end
      end.
  Lemma read_struct_S fuel union def d : read_struct (S fuel) union def d =
    let from_wrapper := match preconsumed d with Some _ => true | None => false end in
    do nd <- consume_start d;
    let (n, d) := nd in
    do _ <- (if is_root d then validate_element_name (expected_root_name def) n else Ok tt);
    let d := mkDe (rest d) false (preconsumed d) in
    do kwargs <- (if from_wrapper then Ok [] else attributes union n (d_members def) []);
    do r <- read_members fuel union (xml_names def) kwargs [] d;
    let '(kwargs, buffers, d) := r in
    do ed <- pull d;
    do kwargs <- replay fuel union (xml_names def) buffers kwargs;
    do v <- finish union kwargs;
    Ok (v, snd ed).
  Proof. reflexivity. Qed.
  Lemma read_members_S fuel union names kwargs buffers d : read_members (S fuel) union names kwargs buffers d =
    do e <- peek d;
    match e with
    | End _ => Ok (kwargs, buffers, d)
    | Start n =>
      do tag <- local_name (n_tag n);
      match dict_get tag names with
      | Some m =>
        if m_flat m then do bd <- buffer_element d; read_members fuel union names kwargs (extend tag (fst bd) buffers) (snd bd)
        else do vd <- read fuel m d; do kwargs <- accept union kwargs m (fst vd); read_members fuel union names kwargs buffers (snd vd)
      | None => do nd <- consume_start d; do d <- skip_to_end (snd nd); read_members fuel union names kwargs buffers d
      end
    end.
  Proof. reflexivity. Qed.
  Definition stops (flat : bool) (d : de) : result bool :=
    if flat then Ok (match rest d with [] => true | _ => false end) else do e <- peek d; Ok (match e with End _ => true | Start _ => false end).
  Lemma read_items_S fuel flat m d : read_items (S fuel) flat m d =
    do stop <- stops flat d;
    if stop : bool then Ok ([], d)
    else do vd <- read fuel m d; do ld <- read_items fuel flat m (snd vd); Ok (fst vd :: fst ld, snd ld).
  Proof. reflexivity. Qed.
  Lemma read_entries_S fuel flat kt vt m acc d : read_entries (S fuel) flat kt vt m acc d =
    do stop <- stops flat d;
    if stop : bool then Ok (acc, d)
    else do nd <- consume_start d; do ad <- read_entry fuel kt vt m None acc (snd nd); do ed <- pull (snd ad); read_entries fuel flat kt vt m (fst ad) (snd ed).
  Proof. reflexivity. Qed.
  Lemma read_entry_S fuel kt vt m key acc d : read_entry (S fuel) kt vt m key acc d =
    do e <- peek d;
    match e with
    | End _ => Ok (acc, d)
    | Start n =>
      do tag <- local_name (n_tag n);
      if text_eqb tag kt then do td <- read_text d; read_entry fuel kt vt m (Some (fst td)) acc (snd td)
      else if text_eqb tag vt then
        match key with
        | None => Err XMLParseError
        | Some k => do vd <- read fuel m d; read_entry fuel kt vt m key (dict_set k (fst vd) acc) (snd vd)
        end
      else do nd <- consume_start d; do d <- skip_to_end (snd nd); read_entry fuel kt vt m key acc d
    end.
  Proof. reflexivity. Qed.

  (** ** The reader follows the tree *)
  Lemma items_sim m cs : (forall c, In c cs -> sim c) -> (forall c, In c cs -> proper c) -> m_flat m = false -> unflattened m ->
    forall flat b fuel n l, (forall c, In c cs -> b = false \/ passes true m c) ->
    (4 * List.length (all_events cs) + 1 <= fuel)%nat ->
    let tail := if flat : bool then [] else End n :: l in
    agrees (read_items fuel flat m (mkDe (all_events cs ++ tail) b None)) (t_items m (map annotate cs)) tail b.
  Proof.
    intros S P Fm Um. induction cs as [|c cs IH]; intros flat b fuel n l Ok_ Fu tail.
    - destruct fuel as [|fuel]; [cbn in Fu; lia|]. rewrite read_items_S; cbn [all_events flat_map app map t_items]. subst tail. destruct flat; cbn; (exists b; split; [reflexivity | easy]).
    - rewrite all_cons in Fu. pose proof (sized_pos c) as Sc. destruct fuel as [|fuel]; [lia|]. rewrite read_items_S; cbn [map t_items].
      unfold all_events. cbn [flat_map]. rewrite <- app_assoc. fold (all_events cs).
      assert (St : stops flat (mkDe (events c ++ all_events cs ++ tail) b None) = Ok false).
      { rewrite events_start. destruct flat; reflexivity. }
      rewrite St. cbn [bind].
      assert (Pc : passes b m c). { destruct b; [|now left]. destruct (Ok_ c (or_introl eq_refl)) as [X|X]; [discriminate X | exact X]. }
      pose proof (S c (or_introl eq_refl) m b fuel (all_events cs ++ tail) (P c (or_introl eq_refl)) Fm Um Pc ltac:(lia)) as H. unfold agrees in H.
      fold (value_of c m). destruct (value_of c m) as [v|e] eqn:E; [|rewrite H; reflexivity].
      destruct H as (b' & H & Hb). rewrite H. cbn [bind fst snd].
      pose proof (IH ltac:(intros; apply S; now right) ltac:(intros; apply P; now right) flat b' fuel n l) as J. cbv zeta in J. fold tail in J.
      assert (J' := J ltac:(intros c' Hc; destruct (Ok_ c' (or_intror Hc)) as [X|X]; [left; now apply Hb | now right]) ltac:(lia)).
      unfold agrees in *. destruct (t_items m (map annotate cs)) as [vs|e] eqn:T.
      + destruct J' as (b'' & J' & Hb'). rewrite J'. cbn [bind fst snd]. exists b''. split; [reflexivity | tauto].
      + rewrite J'. reflexivity.
  Qed.
  Lemma entry_sim kt vt m cs : (forall c, In c cs -> sim c) -> (forall c, In c cs -> proper c) -> m_flat m = false -> unflattened m ->
    forall key acc b fuel n l, (forall c, In c cs -> b = false \/ simple m \/ has_name shapes m vt) ->
    (4 * List.length (all_events cs) + 1 <= fuel)%nat ->
    agrees (read_entry fuel kt vt m key acc (mkDe (all_events cs ++ End n :: l) b None)) (t_entry kt vt m key acc (map annotate cs)) (End n :: l) b.
  Proof.
    intros S P Fm Um. induction cs as [|c cs IH]; intros key acc b fuel n l Ok_ Fu.
    - destruct fuel as [|fuel]; [cbn in Fu; lia|]. cbn. exists b. split; [reflexivity | easy].
    - rewrite all_cons in Fu. pose proof (sized_pos c) as Sc. destruct fuel as [|fuel]; [lia|]. rewrite read_entry_S; cbn [map t_entry].
      unfold all_events. cbn [flat_map]. rewrite <- app_assoc. fold (all_events cs).
      assert (Pk : peek (mkDe (events c ++ all_events cs ++ End n :: l) b None) = Ok (Start (root_node c))) by now rewrite events_start.
      rewrite Pk. cbn [bind]. unfold r_tag. rewrite annotate_xml. destruct (local_name (n_tag (root_node c))) as [tag|e] eqn:Tg; [|reflexivity]. cbn [bind].
      assert (Ok' : forall b', (b = false -> b' = false) -> forall c', In c' cs -> b' = false \/ simple m \/ has_name shapes m vt).
      { intros b' Hb c' Hc. destruct (Ok_ c' (or_intror Hc)) as [X|X]; [left; now apply Hb | now right]. }
      assert (IH' := fun key acc b' H => IH ltac:(intros; apply S; now right) ltac:(intros; apply P; now right) key acc b' fuel n l (Ok' b' H) ltac:(lia)). clear IH.
      destruct (text_eqb tag kt).
      + rewrite read_text_elem. cbn [bind fst snd]. exact (IH' (Some (full_text c)) acc b (fun H => H)).
      + destruct (text_eqb tag vt) eqn:Vt.
        * apply text_eqb_eq in Vt as ->. destruct key as [k|]; [|reflexivity].
          assert (Pc : passes b m c).
          { destruct (Ok_ c (or_introl eq_refl)) as [X|[X|X]]; [now left | right; now left | right; right; exists vt; split; [exact X | now apply tag_name_iff]]. }
          pose proof (S c (or_introl eq_refl) m b fuel (all_events cs ++ End n :: l) (P c (or_introl eq_refl)) Fm Um Pc ltac:(lia)) as H. unfold agrees in H.
          fold (value_of c m). destruct (value_of c m) as [v|e] eqn:E; [|rewrite H; reflexivity].
          destruct H as (b' & H & Hb). rewrite H. cbn [bind fst snd]. pose proof (IH' (Some k) (dict_set k v acc) b' Hb) as J.
          unfold agrees in *. destruct (t_entry kt vt m (Some k) (dict_set k v acc) (map annotate cs)) as [a|e]; [|exact J].
          destruct J as (b'' & J & Hb'). exists b''. split; [exact J | tauto].
        * assert (Sk : (do nd <- consume_start (mkDe (events c ++ all_events cs ++ End n :: l) b None); do d <- skip_to_end (snd nd); read_entry fuel kt vt m key acc d)
                       = read_entry fuel kt vt m key acc (mkDe (all_events cs ++ End n :: l) b None)).
          { pose proof (skip_elem c (all_events cs ++ End n :: l) b) as K. destruct (consume_start _) as [nd|]; [|discriminate K]. cbn [bind] in K |- *. rewrite K. reflexivity. }
          rewrite Sk. exact (IH' key acc b (fun H => H)).
  Qed.
  Lemma entries_sim kt vt m cs : (forall c, In c cs -> forall g, In g (match c with Elem _ ch => ch end) -> sim g) -> (forall c, In c cs -> proper c) -> m_flat m = false -> unflattened m ->
    forall flat acc b fuel n l, (b = false \/ simple m \/ has_name shapes m vt) ->
    (4 * List.length (all_events cs) + 1 <= fuel)%nat ->
    let tail := if flat : bool then [] else End n :: l in
    agrees (read_entries fuel flat kt vt m acc (mkDe (all_events cs ++ tail) b None)) (t_entries kt vt m acc (map annotate cs)) tail b.
  Proof.
    intros S P Fm Um. induction cs as [|c cs IH]; intros flat acc b fuel n l Ok_ Fu tail.
    - destruct fuel as [|fuel]; [cbn in Fu; lia|]. rewrite read_entries_S; cbn [all_events flat_map app map t_entries]. subst tail. destruct flat; cbn; (exists b; split; [reflexivity | easy]).
    - rewrite all_cons in Fu. pose proof (sized_pos c) as Sc. destruct fuel as [|fuel]; [lia|]. rewrite read_entries_S; cbn [map t_entries].
      unfold all_events. cbn [flat_map]. rewrite <- app_assoc. fold (all_events cs).
      assert (St : stops flat (mkDe (events c ++ all_events cs ++ tail) b None) = Ok false).
      { rewrite events_start. destruct flat; reflexivity. }
      rewrite St. cbn [bind]. rewrite events_start. unfold consume_start at 1, pull at 1. cbn [preconsumed rest bind fst snd is_root].
      destruct c as [cn ch]. rewrite sized_elem in Fu. cbn [root_node]. rewrite annotate_ch.
      assert (Pc : proper (Elem cn ch)) by (apply P; now left). inversion Pc as [? ? _ _ Pch]; subst.
      pose proof (entry_sim kt vt m ch (S _ (or_introl eq_refl)) Pch Fm Um None acc b fuel cn (all_events cs ++ tail) (fun _ _ => Ok_) ltac:(lia)) as H.
      unfold agrees in H. destruct (t_entry kt vt m None acc (map annotate ch)) as [a|e]; [|rewrite H; reflexivity].
      destruct H as (b' & H & Hb). rewrite H. unfold pull. cbn [bind fst snd rest is_root preconsumed].
      pose proof (IH ltac:(intros; apply (S c); [now right | assumption]) ltac:(intros; apply P; now right) flat a b' fuel n l
        ltac:(destruct Ok_ as [X|X]; [left; now apply Hb | now right]) ltac:(lia)) as J. cbv zeta in J. fold tail in J.
      unfold agrees in *. destruct (t_entries kt vt m a (map annotate cs)) as [vs|e]; [|exact J].
      destruct J as (b'' & J & Hb'). exists b''. split; [exact J | tauto].
  Qed.
  Definition flatten (bufs : list (text * list rtree)) : list (text * list event) := map (fun kv => (fst kv, flat_map revents (snd kv))) bufs.
  Lemma flatten_get tag bufs : dict_get tag (flatten bufs) = match dict_get tag bufs with Some l => Some (flat_map revents l) | None => None end.
  Proof. induction bufs as [|[k v] r IH]; [reflexivity|]. cbn [flatten map fst snd dict_get]. destruct (text_eqb tag k); [reflexivity | exact IH]. Qed.
  Lemma flatten_set tag l bufs : dict_set tag (flat_map revents l) (flatten bufs) = flatten (dict_set tag l bufs).
  Proof. induction bufs as [|[k v] r IH]; [reflexivity|]. cbn [flatten map fst snd dict_set]. destruct (text_eqb tag k); [reflexivity|]. unfold flatten in *. cbn [map fst snd]. now rewrite IH. Qed.
  Lemma flatten_extend tag c bufs : extend tag (events c) (flatten bufs) = flatten (t_extend tag (annotate c) bufs).
  Proof.
    unfold extend, t_extend. rewrite flatten_get, <- flatten_set. assert (E : flat_map revents [annotate c] = events c) by (cbn [flat_map]; unfold revents; rewrite annotate_xml; apply app_nil_r).
    destruct (dict_get tag bufs) as [l|]; [rewrite flat_map_app, E; reflexivity | now rewrite E].
  Qed.

  Lemma xml_names_get def t m : dict_get t (xml_names def) = Some m -> element m (d_members def) /\ wire_name m = t.
  Proof.
    unfold xml_names, element. enough (G : forall l acc, (forall m, In m l -> In m (d_members def)) ->
      (forall t m, dict_get t acc = Some m -> (In m (d_members def) /\ m_attr m = false) /\ wire_name m = t) ->
      forall t m, dict_get t (fold_left (fun acc m => if m_attr m then acc else dict_set (xml_member_name m) m acc) l acc) = Some m ->
      (In m (d_members def) /\ m_attr m = false) /\ wire_name m = t).
    { apply G; [auto | intros ? ? [=]]. }
    clear. induction l as [|x l IH]; intros acc L A t m; [apply A|]. cbn [fold_left]. apply IH; [intros; apply L; now right|].
    clear t m. intros t m. destruct (m_attr x) eqn:Ax; [apply A|].
    destruct (text_eq_dec t (xml_member_name x)) as [->|Ht].
    - rewrite dict_get_set_eq. intros [= <-]. split; [split; [apply L; now left | exact Ax] | reflexivity].
    - rewrite dict_get_set_ne by exact Ht. apply A.
  Qed.

  Lemma members_sim union def cs : (forall m, In m (d_members def) -> unflattened m) -> (forall c, In c cs -> sim c) -> (forall c, In c cs -> proper c) ->
    forall kwargs bufs fuel n l, (4 * List.length (all_events cs) + 1 <= fuel)%nat ->
    read_members fuel union (xml_names def) kwargs (flatten bufs) (mkDe (all_events cs ++ End n :: l) false None)
    = do kb <- t_members union (xml_names def) kwargs bufs (map annotate cs); Ok (fst kb, flatten (snd kb), mkDe (End n :: l) false None).
  Proof.
    intros R Sm P. induction cs as [|c cs IH]; intros kwargs bufs fuel n l Fu.
    - destruct fuel as [|fuel]; [cbn in Fu; lia|]. reflexivity.
    - rewrite all_cons in Fu. pose proof (sized_pos c) as Sc. destruct fuel as [|fuel]; [lia|]. rewrite read_members_S. cbn [map t_members].
      unfold all_events. cbn [flat_map]. rewrite <- app_assoc. fold (all_events cs).
      assert (Pk : peek (mkDe (events c ++ all_events cs ++ End n :: l) false None) = Ok (Start (root_node c))) by now rewrite events_start.
      rewrite Pk. cbn [bind]. unfold r_tag. rewrite annotate_xml. destruct (local_name (n_tag (root_node c))) as [tag|e] eqn:Tg; [|reflexivity]. cbn [bind].
      assert (IH' := fun kwargs bufs => IH ltac:(intros; apply Sm; now right) ltac:(intros; apply P; now right) kwargs bufs fuel n l ltac:(lia)). clear IH.
      destruct (dict_get tag (xml_names def)) as [m|] eqn:G.
      + destruct (xml_names_get _ _ _ G) as ([Im Am] & Wm). destruct (m_flat m) eqn:Fm.
        * rewrite buffer_elem. cbn [bind fst snd]. rewrite flatten_extend. apply IH'.
        * pose proof (Sm c (or_introl eq_refl) m false fuel (all_events cs ++ End n :: l) (P c (or_introl eq_refl)) Fm (R m Im) (or_introl eq_refl) ltac:(lia)) as H.
          unfold agrees in H. fold (value_of c m). destruct (value_of c m) as [v|e]; [|rewrite H; reflexivity].
          destruct H as (b' & H & Hb). rewrite H, (Hb eq_refl). cbn [bind fst snd]. destruct (accept union kwargs m v) as [kw|e]; [|reflexivity]. cbn [bind]. apply IH'.
      + pose proof (skip_elem c (all_events cs ++ End n :: l) false) as K. destruct (consume_start _) as [nd|]; [|discriminate K]. cbn [bind] in K |- *. rewrite K. cbn [bind]. apply IH'.
  Qed.

  (** What is kept for later *)
  Definition held (def : shape) (ch : list xml) (k : nat) (bufs : list (text * list rtree)) : Prop :=
    forall tag items, In (tag, items) bufs -> exists xs m, items = map annotate xs /\ incl xs ch /\ Forall (named tag) xs /\
      (List.length (all_events xs) <= k)%nat /\ dict_get tag (xml_names def) = Some m /\ m_flat m = true.
  Lemma held_more def ch k k' bufs : (k <= k')%nat -> held def ch k bufs -> held def ch k' bufs.
  Proof. intros L H tag items I. destruct (H tag items I) as (xs & m & E & A & B & C & D). exists xs, m. repeat (split; [assumption|]). split; [lia | assumption]. Qed.
  Lemma members_held union def ch cs : incl cs ch -> forall kwargs bufs k kb, held def ch k bufs ->
    t_members union (xml_names def) kwargs bufs (map annotate cs) = Ok kb -> held def ch (k + List.length (all_events cs)) (snd kb).
  Proof.
    induction cs as [|c cs IH]; intros I kwargs bufs k kb H; cbn [map t_members].
    - intros [= <-]. cbn. apply (held_more _ _ k); [lia | exact H].
    - unfold r_tag. rewrite annotate_xml. destruct (local_name (n_tag (root_node c))) as [tag|e] eqn:Tg; [|discriminate]. cbn [bind].
      assert (IH' := fun kwargs bufs k => IH ltac:(intros x Hx; apply I; now right) kwargs bufs k kb). clear IH. rewrite all_cons.
      assert (Go : forall kwargs bufs, held def ch (k + sized c) bufs -> t_members union (xml_names def) kwargs bufs (map annotate cs) = Ok kb -> held def ch (k + (sized c + List.length (all_events cs))) (snd kb)).
      { intros kw bf Hb T. rewrite Nat.add_assoc. exact (IH' kw bf _ Hb T). }
      assert (H' : held def ch (k + sized c) bufs) by (apply (held_more _ _ k); [lia | exact H]).
      destruct (dict_get tag (xml_names def)) as [m|] eqn:G; [|now apply Go].
      destruct (m_flat m) eqn:Fm.
      + apply Go. intros t items It. unfold t_extend in It. apply dict_set_In in It. destruct It as [E | It]; [|now apply H'].
        injection E as -> ->. assert (Nc : named tag c) by (now apply tag_name_iff).
        destruct (dict_get tag bufs) as [old|] eqn:Old.
        * apply dict_get_In in Old. destruct (H _ _ Old) as (xs & m' & -> & A & B & C & D & E). exists (xs ++ [c]), m'.
          split; [now rewrite map_app|]. split; [apply incl_app; [exact A | intros x [<-|[]]; apply I; now left]|].
          split; [apply Forall_app; split; [exact B | constructor; [exact Nc | constructor]]|].
          split; [unfold all_events in *; rewrite flat_map_app, app_length; cbn [flat_map]; rewrite app_nil_r; unfold sized; lia | split; assumption].
        * exists [c], m. split; [reflexivity|]. split; [intros x [<-|[]]; apply I; now left|]. split; [constructor; [exact Nc | constructor]|].
          split; [cbn; rewrite app_nil_r; unfold sized; lia | split; assumption].
      + destruct (r_rd (annotate c) m) as [v|]; [|discriminate]. cbn [bind]. destruct (accept union kwargs m v); [|discriminate]. cbn [bind]. now apply Go.
  Qed.

  Lemma replay_sim union def ch k bufs : readable shapes def -> (forall c, In c ch -> sim c) -> (forall c, In c ch -> forall g, In g (match c with Elem _ cc => cc end) -> sim g) -> (forall c, In c ch -> proper c) ->
    held def ch k bufs -> forall fuel kwargs, (4 * k + 2 <= fuel)%nat ->
    replay fuel union (xml_names def) (flatten bufs) kwargs = t_replay union (xml_names def) bufs kwargs.
  Proof.
    intros R Sm Sg P. induction bufs as [|[tag items] bufs IH]; intros H fuel kwargs Fu; [reflexivity|].
    cbn [flatten map fst snd replay t_replay]. fold (flatten bufs).
    destruct (H tag items (or_introl eq_refl)) as (xs & m & -> & A & B & C & G & Fm). rewrite G.
    destruct (xml_names_get _ _ _ G) as ([Im Am] & Wm).
    assert (Ev : flat_map revents (map annotate xs) = all_events xs ++ []).
    { rewrite app_nil_r. unfold all_events. clear. induction xs as [|x xs IH]; [reflexivity|]. cbn [map flat_map]. rewrite IH. unfold revents at 1. now rewrite annotate_xml. }
    rewrite Ev.
    assert (Rd : exists b', read fuel m (mkDe (all_events xs ++ []) true None) = do v <- t_together m (map annotate xs); Ok (v, mkDe [] b' None)).
    { destruct fuel as [|fuel]; [lia|]. rewrite read_S. unfold t_together. pose proof (r_flat _ _ R m Im Fm) as Rp. pose proof (r_members _ _ R m Im) as Um.
      unfold replayable in Rp. destruct m as [nm xm am fm tm km]. cbn [m_kind m_flat unflattened] in *. subst fm. destruct km as [| | |i|kk vv|]; try contradiction.
      - destruct Um as [Fi Ui].
        pose proof (items_sim i xs ltac:(intros c Ic; apply Sm; now apply A) ltac:(intros c Ic; apply P; now apply A) Fi Ui true true fuel (mkNode [] [] None) []) as J. cbv zeta in J.
        assert (J' := J ltac:(intros c Ic; right; destruct Rp as [Rp|Rp]; [right; now left | right; right; eexists; split; [exact Rp | rewrite Wm; rewrite Forall_forall in B; now apply B]]) ltac:(lia)).
        unfold agrees in J'. destruct (t_items i (map annotate xs)) as [vs|e]; [|exists true; rewrite J'; reflexivity].
        destruct J' as (b' & J' & _). exists b'. rewrite J'. reflexivity.
      - destruct Um as [Fi Ui].
        pose proof (entries_sim (xml_member_name kk) (xml_member_name vv) vv xs ltac:(intros c Ic; apply Sg; now apply A) ltac:(intros c Ic; apply P; now apply A) Fi Ui true [] true fuel (mkNode [] [] None) [] (or_intror Rp) ltac:(lia)) as J'. cbv zeta in J'.
        unfold agrees in J'. destruct (t_entries _ _ _ _ (map annotate xs)) as [vs|e]; [|exists true; rewrite J'; reflexivity].
        destruct J' as (b' & J' & _). exists b'. rewrite J'. reflexivity. }
    destruct Rd as (b' & Rd). rewrite Rd. destruct (t_together m (map annotate xs)) as [v|e]; [|reflexivity]. cbn [bind fst snd].
    destruct (accept union kwargs m v) as [kw|e]; [|reflexivity]. cbn [bind]. apply IH; [intros t i It; apply H; now right | exact Fu].
  Qed.

  (** A structure, once its start is taken *)
  Lemma struct_sim union def ch : readable shapes def -> (forall c, In c ch -> sim c) -> (forall c, In c ch -> forall g, In g (match c with Elem _ cc => cc end) -> sim g) -> (forall c, In c ch -> proper c) ->
    forall fuel kwargs n l, (4 * List.length (all_events ch) + 2 <= fuel)%nat ->
    (do r <- read_members fuel union (xml_names def) kwargs [] (mkDe (all_events ch ++ End n :: l) false None);
     let '(kwargs, buffers, d) := r in
     do ed <- pull d;
     do kwargs <- replay fuel union (xml_names def) buffers kwargs;
     do v <- finish union kwargs;
     Ok (v, snd ed))
    = do v <- (do kb <- t_members union (xml_names def) kwargs [] (map annotate ch); do kwargs <- t_replay union (xml_names def) (snd kb) (fst kb); finish union kwargs);
      Ok (v, mkDe l false None).
  Proof.
    intros R Sm Sg P fuel kwargs n l Fu.
    rewrite (members_sim union def ch (r_members _ _ R) Sm P kwargs [] fuel n l ltac:(lia) : read_members fuel union (xml_names def) kwargs [] _ = _).
    destruct (t_members union (xml_names def) kwargs [] (map annotate ch)) as [kb|e] eqn:T; [|reflexivity]. cbn [bind fst snd pull rest is_root preconsumed].
    assert (H : held def ch (0 + List.length (all_events ch)) (snd kb)).
    { apply (members_held union def ch ch (incl_refl _) kwargs [] 0 kb); [intros ? ? [] | exact T]. }
    rewrite (replay_sim union def ch _ (snd kb) R Sm Sg P H) by lia.
    destruct (t_replay _ _ _ _) as [kw|e]; [|reflexivity]. cbn [bind]. destruct (finish union kw); reflexivity.
  Qed.

  Hypothesis all_readable : forall id, readable shapes (shapes id).
  Lemma sim_both x : sim x /\ (forall g, In g (match x with Elem _ cc => cc end) -> sim g).
  Proof.
    induction x as [n ch IH] using xml_ind'. split; [|intros g Hg; now apply IH].
    intros s b fuel l Px Fs Us Pa Fu. rewrite sized_elem in Fu. destruct fuel as [|fuel]; [lia|]. rewrite read_S.
    unfold value_of. change (r_rd (annotate (Elem n ch)) s) with (t_value n (map annotate ch) s). unfold t_value.
    inversion Px as [? ? Pt _ Pch]; subst. destruct s as [nm xm am fm tm km]. cbn [m_kind m_flat unflattened] in *. subst fm.
    assert (Sm : forall c, In c ch -> sim c) by (intros; now apply IH).
    assert (Sg : forall c, In c ch -> forall g, In g (match c with Elem _ cc => cc end) -> sim g) by (intros c Hc; now apply IH).
    assert (St : forall union id, km = (if union : bool then TUnion id else TStruct id) ->
      agrees (read_struct fuel union (shapes id) (mkDe (events (Elem n ch) ++ l) b None)) (t_struct union (shapes id) true n (map annotate ch)) l b).
    { intros union id E. destruct fuel as [|fuel]; [lia|]. rewrite read_struct_S. rewrite events_start. cbn [root_node preconsumed]. unfold consume_start, pull at 1. cbn [preconsumed rest is_root bind fst snd].
      assert (V : (if b then validate_element_name (expected_root_name (shapes id)) n else Ok tt) = Ok tt).
      { destruct b; [|reflexivity]. destruct Pa as [Pa|[Pa|(name & (i & Hi & Hn) & Nm)]]; [discriminate | destruct union; subst km; contradiction|].
        cbn [m_kind] in Hi. assert (i = id) by (destruct union; subst km; destruct Hi as [Hi|Hi]; congruence). subst i.
        unfold validate_element_name. unfold named in Nm. cbn [root_node] in Nm. apply tag_name_iff in Nm. rewrite Nm. cbn [bind]. subst name.
        unfold expected_root_name, shape_name. now rewrite text_eqb_refl. }
      rewrite V. cbn [bind]. unfold t_struct. destruct (attributes union n (d_members (shapes id)) []) as [kw|e]; [|reflexivity]. cbn [bind].
      rewrite (struct_sim union (shapes id) ch (all_readable id) Sm Sg Pch fuel kw n l ltac:(lia)).
      unfold agrees. destruct (t_members _ _ _ _ _) as [kb|e]; [|reflexivity]. cbn [bind].
      destruct (t_replay _ _ _ _) as [kw'|e]; [|reflexivity]. cbn [bind].
      destruct (finish union kw') as [v|e]; [|reflexivity]. exists false. split; reflexivity. }
    destruct km as [k|id|id|m|k m|].
    - rewrite read_text_elem. cbn [bind fst snd]. unfold full_text. cbn [root_node]. unfold agrees.
      destruct (leaf_value _ k _) as [v|e]; [|reflexivity]. cbn [bind]. exists b. split; [reflexivity | easy].
    - exact (St false id eq_refl).
    - exact (St true id eq_refl).
    - rewrite events_start. unfold consume_start, pull at 1. cbn [preconsumed rest is_root bind fst snd root_node]. destruct Us as [Fi Ui].
      pose proof (items_sim m ch Sm Pch Fi Ui false b fuel n l) as J. cbv zeta in J.
      assert (J' := J ltac:(intros c Ic; destruct Pa as [Pa|[Pa|(name & (i & [Hi|Hi] & _) & _)]]; [now left | right; right; left; exact Pa | discriminate Hi | discriminate Hi]) ltac:(lia)).
      unfold agrees in *. destruct (t_items m (map annotate ch)) as [vs|e]; [|rewrite J'; reflexivity].
      destruct J' as (b' & J' & Hb). rewrite J'. cbn [bind fst snd]. unfold pull. cbn [rest bind fst snd is_root preconsumed]. exists b'. split; [reflexivity | exact Hb].
    - rewrite events_start. unfold consume_start, pull at 1. cbn [preconsumed rest is_root bind fst snd root_node]. destruct Us as [Fi Ui].
      pose proof (entries_sim (xml_member_name k) (xml_member_name m) m ch Sg Pch Fi Ui false [] b fuel n l) as J. cbv zeta in J.
      assert (J' := J ltac:(destruct Pa as [Pa|[Pa|(name & (i & [Hi|Hi] & _) & _)]]; [now left | right; left; exact Pa | discriminate Hi | discriminate Hi]) ltac:(lia)).
      unfold agrees in *. destruct (t_entries _ _ m [] (map annotate ch)) as [vs|e]; [|rewrite J'; reflexivity].
      destruct J' as (b' & J' & Hb). rewrite J'. cbn [bind fst snd]. unfold pull. cbn [rest bind fst snd is_root preconsumed]. exists b'. split; [reflexivity | exact Hb].
    - reflexivity.
  Qed.

  (** ** The tree holds what the specification says *)
  Definition leaf (s : schema) (k : kind) (t : text) (v : scalar) : Prop := leaf_value s k t = Ok v.
  Fixpoint accept_all (union : bool) (kwargs calls : list (text * value)) : result (list (text * value)) :=
    match calls with
    | [] => Ok kwargs
    | (n, v) :: r => do kw <- (if union then match kwargs with [] => Ok [(n, v)] | _ => Err SerializationErr end else Ok (dict_set n v kwargs)); accept_all union kw r
    end.
  Lemma accept_all_app union a : forall kwargs b, accept_all union kwargs (a ++ b) = do kw <- accept_all union kwargs a; accept_all union kw b.
  Proof.
    induction a as [|[n v] a IH]; intros kwargs b; [reflexivity|]. cbn [app accept_all].
    destruct (if union then _ else _) as [kw|]; [|reflexivity]. cbn [bind]. apply IH.
  Qed.
  Lemma accept_all_struct calls : forall kwargs, accept_all false kwargs calls = Ok (fold_left (fun d kv => dict_set (fst kv) (snd kv) d) calls kwargs).
  Proof. induction calls as [|[n v] r IH]; intros kwargs; [reflexivity|]. cbn [accept_all bind fold_left fst snd]. apply IH. Qed.
  Lemma accept_all_union calls kw : accept_all true [] calls = Ok kw <-> kw = calls /\ (List.length calls <= 1)%nat.
  Proof.
    destruct calls as [|[n v] [|[n' v'] r]]; cbn.
    - split; [intros [= <-]; auto | intros [-> _]; reflexivity].
    - split; [intros [= <-]; auto | intros [-> _]; reflexivity].
    - split; [discriminate | intros [_ H]; lia].
  Qed.
  Lemma accept_one union kwargs m v r : (do kw <- accept union kwargs m v; accept_all union kw r) = accept_all union kwargs ((m_name m, v) :: r).
  Proof. reflexivity. Qed.

  (** Attributes *)
  Lemma find_attr_iff name l : (forall k v, In (k, v) l -> exists t, tag_name k t) ->
    (forall t, find_attr name l = Ok (Some t) <-> attribute name l t) /\ (find_attr name l = Ok None <-> forall t, ~ attribute name l t) /\ (forall e, find_attr name l <> Err e).
  Proof.
    induction l as [|[k v] r IH]; intros P.
    - cbn. split; [intros t; split; [discriminate | intros H; inversion H]|]. split; [split; [intros _ t H; inversion H | reflexivity] | discriminate].
    - cbn [find_attr]. destruct (P k v (or_introl eq_refl)) as [n Hn]. pose proof (proj2 (tag_name_iff k n) Hn) as E. rewrite E. cbn [bind].
      destruct (text_eqb n name) eqn:Q.
      + apply text_eqb_eq in Q as ->. split; [|split].
        * intros t. split; [intros [= <-]; now constructor | intros H; inversion H; subst; [reflexivity | contradiction]].
        * split; [discriminate | intros H; exfalso; apply (H v); now constructor].
        * discriminate.
      + assert (Ne : ~ tag_name k name) by (intros K; apply (tag_fun k n name) in K; [subst; rewrite text_eqb_refl in Q; discriminate | exact Hn]).
        destruct IH as (A & B & C); [intros k' v' I; apply (P k' v'); now right|]. split; [|split].
        * intros t. rewrite A. split; [now constructor 2 | intros H; inversion H; subst; [contradiction | assumption]].
        * rewrite B. split; [intros H t K; inversion K; subst; [contradiction | eapply H; eassumption] | intros H t K; apply (H t); now constructor 2].
        * exact C.
  Qed.
  Lemma attribute_value_iff m t w : attribute_value m t = Ok w <-> exists k v, m_kind m = TLeaf k /\ k <> KBlob /\ leaf m k t v /\ w = VScalar v.
  Proof.
    unfold attribute_value, leaf. split.
    - destruct (m_kind m) as [k| | | | |] eqn:K; try discriminate. intros H.
      destruct k; try discriminate; (match type of H with bind ?r _ = _ => destruct r as [v|] eqn:L; [|discriminate] end; injection H as <-; eexists _, v; repeat split; [discriminate | exact L]).
    - intros (k & v & -> & Hk & L & ->). destruct k; try contradiction; now rewrite L.
  Qed.
  Lemma attributes_iff union n ms : (forall k v, In (k, v) (n_attrs n) -> exists t, tag_name k t) -> forall kwargs kw,
    attributes union n ms kwargs = Ok kw <-> exists l, from_attributes leaf n ms l /\ accept_all union kwargs l = Ok kw.
  Proof.
    intros P. induction ms as [|m ms IH]; intros kwargs kw.
    - cbn. split; [intros [= <-]; exists []; split; [constructor | reflexivity] | intros (l & H & A); inversion H; subst; exact A].
    - cbn [attributes]. destruct (m_attr m) eqn:At.
      + destruct (find_attr_iff (xml_member_name m) (n_attrs n) P) as (A & B & C). fold (wire_name m) in *. change (xml_member_name m) with (wire_name m) in *.
        destruct (find_attr (wire_name m) (n_attrs n)) as [[t|]|e] eqn:F; [| |exfalso; now apply (C e)]; cbn [bind].
        * pose proof (proj1 (A t) eq_refl) as At'. assert (Un : forall t', attribute (wire_name m) (n_attrs n) t' -> t' = t) by (intros t' H; apply A in H; congruence).
          destruct (attribute_value m t) as [w|e] eqn:V.
          { cbn [bind]. apply attribute_value_iff in V as (k & v & Km & Kb & L & ->). split.
            - intros H. destruct (accept union kwargs m (VScalar v)) as [kw1|] eqn:Ac; [|discriminate]. cbn [bind] in H. apply IH in H as (l & Fl & Al).
              exists ((m_name m, VScalar v) :: l). split; [now apply (FA_some _ _ m ms l k t v) | rewrite <- accept_one, Ac; exact Al].
            - intros (l & Fl & Al). inversion Fl as [|m' r' l' k' t' v' Ha Hat Hk Hb Hl Hr|m' r' l' Hn Hr]; subst.
              + assert (t' = t) by now apply Un. subst t'. assert (k' = k) by congruence. subst k'. assert (v' = v) by (unfold leaf in *; congruence). subst v'.
                rewrite <- accept_one in Al. destruct (accept union kwargs m (VScalar v)) as [kw1|]; [|discriminate]. cbn [bind] in *. apply IH. eauto.
              + exfalso. now apply (Hn At t). }
          { split; [discriminate|]. intros (l & Fl & Al). inversion Fl as [|m' r' l' k' t' v' Ha Hat Hk Hb Hl Hr|m' r' l' Hn Hr]; subst.
            - assert (t' = t) by now apply Un. subst t'. assert (X : attribute_value m t = Ok (VScalar v')) by (apply attribute_value_iff; eauto 6). congruence.
            - exfalso. now apply (Hn At t). }
        * pose proof (proj1 B eq_refl) as No. rewrite IH. split; intros (l & Fl & Al); exists l; (split; [|exact Al]).
          { now apply FA_none. }
          { inversion Fl; subst; [exfalso; eapply No; eassumption | assumption]. }
      + rewrite IH. split; intros (l & Fl & Al); exists l; (split; [|exact Al]).
        * apply FA_none; [congruence | exact Fl].
        * inversion Fl; subst; [congruence | assumption].
  Qed.

  (** Lists and maps *)
  Definition good (x : xml) : Prop := forall s v, proper x -> m_flat s = false -> unflattened s -> (value_of x s = Ok v <-> reads leaf shapes s x v).
  Lemma items_iff m cs : m_flat m = false -> unflattened m -> (forall c, In c cs -> good c /\ proper c) ->
    forall vs, t_items m (map annotate cs) = Ok vs <-> each leaf shapes m cs vs.
  Proof.
    intros Fm Um. induction cs as [|c cs IH]; intros G vs; cbn [map t_items].
    - split; [intros [= <-]; constructor | intros H; inversion H; reflexivity].
    - fold (value_of c m). destruct (G c (or_introl eq_refl)) as [Gc Pc]. pose proof (fun v => Gc m v Pc Fm Um) as Gv.
      specialize (IH ltac:(intros; apply G; now right)). split.
      + destruct (value_of c m) as [v|] eqn:V; [|discriminate]. cbn [bind]. destruct (t_items m (map annotate cs)) as [l|]; [|discriminate]. intros [= <-].
        constructor; [now apply Gv | now apply IH].
      + intros H. inversion H as [|? ? ? v l Hv Hl]; subst. apply Gv in Hv. rewrite Hv. apply IH in Hl. cbn [bind]. now rewrite Hl.
  Qed.
  Definition put (ps acc : list (text * value)) : list (text * value) := fold_left (fun d kv => dict_set (fst kv) (snd kv) d) ps acc.
  Lemma put_app a b acc : put (a ++ b) acc = put b (put a acc).
  Proof. apply fold_left_app. Qed.
  Lemma entry_iff k m cs : m_flat m = false -> unflattened m -> (forall c, In c cs -> good c /\ proper c) ->
    forall key acc a, t_entry (wire_name k) (wire_name m) m key acc (map annotate cs) = Ok a <-> exists ps, pairs leaf shapes k m key cs ps /\ a = put ps acc.
  Proof.
    intros Fm Um. induction cs as [|c cs IH]; intros G key acc a; cbn [map t_entry].
    - split; [intros [= <-]; exists []; split; [constructor | reflexivity] | intros (ps & H & ->); inversion H; reflexivity].
    - destruct (G c (or_introl eq_refl)) as [Gc Pc]. pose proof (fun v => Gc m v Pc Fm Um) as Gv. fold (value_of c m).
      specialize (IH ltac:(intros; apply G; now right)). unfold r_tag. rewrite annotate_xml.
      destruct c as [n ch]. inversion Pc as [? ? [tag Ht] _ _]; subst. cbn [root_node]. pose proof (proj2 (tag_name_iff _ _) Ht) as Lt. rewrite Lt. cbn [bind].
      assert (Nm : forall w, named w (Elem n ch) <-> tag = w) by (intros w; unfold named; cbn [root_node]; split; [apply tag_fun; exact Ht | intros <-; exact Ht]).
      destruct (text_eqb tag (wire_name k)) eqn:Ek.
      + apply text_eqb_eq in Ek. rewrite IH. split; intros (ps & H & ->); exists ps; (split; [|reflexivity]).
        * apply P_key; [now apply Nm | exact H].
        * inversion H; subst; [assumption | exfalso | exfalso]; match goal with K : ~ named (wire_name k) _ |- _ => apply K; now apply Nm end.
      + assert (Nk : ~ named (wire_name k) (Elem n ch)) by (rewrite Nm; intros ->; rewrite text_eqb_refl in Ek; discriminate).
        destruct (text_eqb tag (wire_name m)) eqn:Em.
        * apply text_eqb_eq in Em. apply Nm in Em. destruct key as [kk|].
          { split.
            - destruct (value_of (Elem n ch) m) as [v|] eqn:V; [|discriminate]. cbn [bind]. intros H. apply IH in H as (ps & H & ->). exists ((kk, v) :: ps).
              split; [|reflexivity]. apply P_value; [exact Nk | exact Em | now apply Gv | exact H].
            - intros (ps & H & ->). inversion H; subst; [contradiction| |contradiction]. match goal with K : reads _ _ _ _ _ |- _ => apply Gv in K; rewrite K end. cbn [bind]. apply IH. eauto. }
          { split; [discriminate|]. intros (ps & H & _). inversion H; subst; contradiction. }
        * assert (Nv : ~ named (wire_name m) (Elem n ch)) by (rewrite Nm; intros ->; rewrite text_eqb_refl in Em; discriminate).
          rewrite IH. split; intros (ps & H & ->); exists ps; (split; [|reflexivity]).
          { now apply P_other. }
          { inversion H; subst; [contradiction | contradiction | assumption]. }
  Qed.
  Lemma entries_iff k m cs : m_flat m = false -> unflattened m -> (forall c, In c cs -> proper c /\ forall g, In g (match c with Elem _ cc => cc end) -> good g) ->
    forall acc a, t_entries (wire_name k) (wire_name m) m acc (map annotate cs) = Ok a <-> exists ps, entries leaf shapes k m cs ps /\ a = put ps acc.
  Proof.
    intros Fm Um. induction cs as [|c cs IH]; intros G acc a; cbn [map t_entries].
    - split; [intros [= <-]; exists []; split; [constructor | reflexivity] | intros (ps & H & ->); inversion H; reflexivity].
    - destruct (G c (or_introl eq_refl)) as [Pc Gc]. specialize (IH ltac:(intros; apply G; now right)). destruct c as [n ch]. rewrite annotate_ch.
      inversion Pc as [? ? _ _ Pch]; subst. pose proof (entry_iff k m ch Fm Um ltac:(intros c Hc; split; [now apply Gc | now apply Pch]) None acc) as En. split.
      + destruct (t_entry _ _ m None acc (map annotate ch)) as [a1|] eqn:T; [|discriminate]. cbn [bind]. intros H. apply IH in H as (l & H & ->).
        destruct (proj1 (En a1) eq_refl) as (ps & Hp & ->). exists (ps ++ l). split; [now constructor | now rewrite put_app].
      + intros (ps & H & ->). inversion H as [|? ? ? ? ? ps1 l Hp Hl]; subst. rewrite (proj2 (En _) (ex_intro _ ps1 (conj Hp eq_refl))). cbn [bind]. rewrite put_app. apply IH. eauto.
  Qed.

  (** Names *)
  Lemma xml_names_iff0 def t m : NoDup (map wire_name (filter (fun m => negb (m_attr m)) (d_members def))) -> dict_get t (xml_names def) = Some m <-> element m (d_members def) /\ wire_name m = t.
  Proof.
    intros N. split; [apply xml_names_get|]. intros [[I A] <-]. unfold xml_names.
    enough (G : forall l acc, NoDup (map wire_name (filter (fun m => negb (m_attr m)) l)) -> In m l \/ (dict_get (wire_name m) acc = Some m /\ ~ In (wire_name m) (map wire_name (filter (fun m => negb (m_attr m)) l))) ->
      dict_get (wire_name m) (fold_left (fun acc m => if m_attr m then acc else dict_set (xml_member_name m) m acc) l acc) = Some m) by (apply G; [exact N | now left]).
    clear -A. induction l as [|x l IH]; intros acc N [I|[G I]]; [destruct I | exact G | |]; cbn [fold_left].
    - cbn [filter] in N. destruct I as [->|I].
      + rewrite A in N |- *. cbn [negb map] in N. apply NoDup_cons_iff in N as [N1 N2]. apply IH; [exact N2|]. right. split; [apply dict_get_set_eq | exact N1].
      + apply IH; [|now left]. destruct (m_attr x); [exact N | now inversion N].
    - cbn [filter] in N, I. destruct (m_attr x); cbn [negb map] in N, I; (apply IH; [|right]).
      + exact N.
      + auto.
      + now inversion N.
      + split; [|intros K; apply I; now right]. rewrite dict_get_set_ne; [exact G|]. intros E. apply I. left. symmetry. exact E.
  Qed.

  Lemma xml_names_iff def t m : readable shapes def -> dict_get t (xml_names def) = Some m <-> element m (d_members def) /\ wire_name m = t.
  Proof. intros R. apply xml_names_iff0. exact (r_names _ _ R). Qed.

  (** The flattened members *)
  Definition flat_tag (names : list (text * schema)) (c : xml) : option text :=
    match local_name (n_tag (root_node c)) with
    | Ok tag => match dict_get tag names with Some m => if m_flat m then Some tag else None | None => None end
    | Err _ => None
    end.
  Definition has_tag (t : text) (c : xml) : bool := match local_name (n_tag (root_node c)) with Ok tag => text_eqb tag t | Err _ => false end.
  Lemma has_tag_iff t c : has_tag t c = true <-> named t c.
  Proof.
    unfold has_tag, named. rewrite <- tag_name_iff. destruct (local_name _) as [tag|e]; [|split; discriminate]. rewrite text_eqb_eq. split; [intros ->; reflexivity | intros [= ->]; reflexivity].
  Qed.
  Fixpoint group (names : list (text * schema)) (bufs : list (text * list rtree)) (cs : list xml) : list (text * list rtree) :=
    match cs with [] => bufs | c :: r => group names (match flat_tag names c with Some t => t_extend t (annotate c) bufs | None => bufs end) r end.
  Fixpoint firsts (names : list (text * schema)) (done : list text) (cs : list xml) : list text :=
    match cs with
    | [] => []
    | c :: r => match flat_tag names c with
                | Some t => if in_dec text_eq_dec t done then firsts names done r else t :: firsts names (t :: done) r
                | None => firsts names done r
                end
    end.
  Lemma firsts_same names cs : forall a b, (forall t, In t a <-> In t b) -> firsts names a cs = firsts names b cs.
  Proof.
    induction cs as [|c cs IH]; intros a b H; [reflexivity|]. cbn [firsts]. destruct (flat_tag names c) as [t|]; [|now apply IH].
    destruct (in_dec text_eq_dec t a) as [Ia|Ia], (in_dec text_eq_dec t b) as [Ib|Ib]; [now apply IH | exfalso; apply Ib; now apply H | exfalso; apply Ia; now apply H|].
    f_equal. apply IH. intros u. cbn [In]. now rewrite H.
  Qed.
  Lemma extend_keys t c bufs : dict_keys (t_extend t c bufs) = if in_dec text_eq_dec t (dict_keys bufs) then dict_keys bufs else dict_keys bufs ++ [t].
  Proof.
    unfold t_extend. destruct (in_dec text_eq_dec t (dict_keys bufs)) as [I|I].
    - now apply dict_keys_set_in.
    - rewrite (dict_set_new _ _ _ I). unfold dict_keys. now rewrite map_app.
  Qed.
  Lemma group_keys names cs : forall bufs, dict_keys (group names bufs cs) = dict_keys bufs ++ firsts names (dict_keys bufs) cs.
  Proof.
    induction cs as [|c cs IH]; intros bufs; cbn [group firsts]; [now rewrite app_nil_r|]. rewrite IH. destruct (flat_tag names c) as [t|]; [|reflexivity].
    rewrite extend_keys. destruct (in_dec text_eq_dec t (dict_keys bufs)); [reflexivity|]. rewrite <- app_assoc. cbn [app]. f_equal. f_equal.
    apply firsts_same. intros u. rewrite in_app_iff. cbn [In]. tauto.
  Qed.
  Definition flat_name (names : list (text * schema)) (t : text) : Prop := exists m, dict_get t names = Some m /\ m_flat m = true.
  Lemma flat_tag_iff names c t : flat_tag names c = Some t <-> named t c /\ flat_name names t.
  Proof.
    unfold flat_tag, named, flat_name. rewrite <- tag_name_iff. destruct (local_name _) as [tag|e]; [|split; [discriminate | intros [[=] _]]].
    destruct (dict_get tag names) as [m|] eqn:G.
    - destruct (m_flat m) eqn:F.
      + split; [intros [= <-]; eauto | intros [[= <-] _]; reflexivity].
      + split; [discriminate | intros [[= <-] (m' & G' & F')]; congruence].
    - split; [discriminate | intros [[= <-] (m' & G' & F')]; congruence].
  Qed.
  Definition joined {A} (o : option (list A)) (l : list A) : option (list A) := match o, l with None, [] => None | None, _ => Some l | Some a, _ => Some (a ++ l) end.
  Lemma group_get names t cs : flat_name names t -> forall bufs, dict_get t (group names bufs cs) = joined (dict_get t bufs) (map annotate (filter (has_tag t) cs)).
  Proof.
    intros Ft. induction cs as [|c cs IH]; intros bufs; cbn [group filter map].
    - destruct (dict_get t bufs) as [l|]; cbn; [now rewrite app_nil_r | reflexivity].
    - rewrite IH. destruct (has_tag t c) eqn:Ht.
      + apply has_tag_iff in Ht. rewrite (proj2 (flat_tag_iff names c t) (conj Ht Ft)). unfold t_extend. rewrite dict_get_set_eq.
        destruct (dict_get t bufs) as [l|]; cbn [joined map]; [now rewrite <- app_assoc | reflexivity].
      + destruct (flat_tag names c) as [u|] eqn:Fu; [|reflexivity]. apply flat_tag_iff in Fu as [Nu _].
        assert (t <> u) by (intros ->; apply has_tag_iff in Nu; congruence). unfold t_extend. now rewrite dict_get_set_ne.
  Qed.
  Lemma extend_nodup t c bufs : NoDup (dict_keys bufs) -> NoDup (dict_keys (t_extend t c bufs)).
  Proof. intros H. unfold t_extend. now apply dict_set_NoDup. Qed.
  Lemma group_nodup names cs : forall bufs, NoDup (dict_keys bufs) -> NoDup (dict_keys (group names bufs cs)).
  Proof. induction cs as [|c cs IH]; intros bufs H; [exact H|]. cbn [group]. apply IH. destruct (flat_tag names c); [now apply extend_nodup | exact H]. Qed.
  Lemma firsts_flat names cs : forall done t, In t (firsts names done cs) -> flat_name names t /\ exists c, In c cs /\ has_tag t c = true.
  Proof.
    induction cs as [|c cs IH]; intros done t; cbn [firsts]; [intros []|].
    destruct (flat_tag names c) as [u|] eqn:Fu; [destruct (in_dec text_eq_dec u done)|].
    - intros H. destruct (IH _ _ H) as (A & c' & B & C). split; [exact A | exists c'; split; [now right | exact C]].
    - intros [<-|H]; [apply flat_tag_iff in Fu as [A B]; split; [exact B | exists c; split; [now left | now apply has_tag_iff]]|].
      destruct (IH _ _ H) as (A & c' & B & C). split; [exact A | exists c'; split; [now right | exact C]].
    - intros H. destruct (IH _ _ H) as (A & c' & B & C). split; [exact A | exists c'; split; [now right | exact C]].
  Qed.
  Lemma dict_of_keys {A} (d : list (text * A)) (f : text -> A) : NoDup (dict_keys d) -> (forall t, In t (dict_keys d) -> dict_get t d = Some (f t)) -> d = map (fun t => (t, f t)) (dict_keys d).
  Proof.
    induction d as [|[k v] d IH]; intros N H; [reflexivity|]. unfold dict_keys in N |- *. cbn [map fst] in N |- *. apply NoDup_cons_iff in N as [N1 N2]. f_equal.
    - specialize (H k (or_introl eq_refl)). cbn [dict_get] in H. rewrite text_eqb_refl in H. congruence.
    - apply IH; [exact N2|]. intros t I. specialize (H t (or_intror I)). cbn [dict_get] in H. destruct (text_eqb t k) eqn:E; [|exact H]. apply text_eqb_eq in E as ->. now contradiction N1.
  Qed.
  Lemma group_is names cs : group names [] cs = map (fun t => (t, map annotate (filter (has_tag t) cs))) (firsts names [] cs).
  Proof.
    pose proof (group_keys names cs []) as K. cbn [dict_keys map app] in K. rewrite <- K at 1. apply dict_of_keys; [apply group_nodup; constructor|].
    intros t I. rewrite K in I. destruct (firsts_flat _ _ _ _ I) as (F & c & Ic & Hc). rewrite (group_get names t cs F). cbn [dict_get joined].
    destruct (filter (has_tag t) cs) as [|x r] eqn:Fl; [|reflexivity]. exfalso. assert (X : In c (filter (has_tag t) cs)) by now apply filter_In. rewrite Fl in X. destruct X.
  Qed.
  Lemma occurrences_iff t cs items : occurrences t cs items <-> items = filter (has_tag t) cs.
  Proof.
    revert items. induction cs as [|c cs IH]; intros items; cbn [filter].
    - split; [intros H; now inversion H | intros ->; constructor].
    - destruct (has_tag t c) eqn:Hc.
      + apply has_tag_iff in Hc. split; [intros H; inversion H; subst; [f_equal; now apply IH | contradiction] | intros ->; constructor; [exact Hc | now apply IH]].
      + assert (Nc : ~ named t c) by (intros K; apply has_tag_iff in K; congruence).
        split; [intros H; inversion H; subst; [contradiction | now apply IH] | intros ->; constructor; [exact Nc | now apply IH]].
  Qed.

  (** Members that are not flattened *)
  Lemma members_iff union def cs : readable shapes def -> (forall c, In c cs -> good c /\ proper c) -> forall kwargs bufs kw bufs',
    t_members union (xml_names def) kwargs bufs (map annotate cs) = Ok (kw, bufs') <->
    (exists l, single leaf shapes (d_members def) cs l /\ accept_all union kwargs l = Ok kw) /\ bufs' = group (xml_names def) bufs cs.
  Proof.
    intros R. induction cs as [|c cs IH]; intros G kwargs bufs kw bufs'; cbn [map t_members group].
    - split; [intros [= <- <-]; split; [exists []; split; [constructor | reflexivity] | reflexivity] | intros ((l & H & A) & ->); inversion H; subst; cbn in A; congruence].
    - destruct (G c (or_introl eq_refl)) as [Gc Pc]. specialize (IH ltac:(intros; apply G; now right)). unfold r_tag. rewrite annotate_xml. fold (value_of c).
      assert (Ex : exists tag, local_name (n_tag (root_node c)) = Ok tag) by (inversion Pc as [n ch [tag Ht] _ _]; exists tag; now apply tag_name_iff).
      destruct Ex as [tag Lt]. rewrite Lt. cbn [bind]. pose proof (proj1 (tag_name_iff _ _) Lt) as Ht. change (named tag c) in Ht.
      assert (Un : forall w, named w c -> w = tag) by (intros w Hw; exact (tag_fun _ _ _ Hw Ht)).
      unfold flat_tag. rewrite Lt. destruct (dict_get tag (xml_names def)) as [m|] eqn:D.
      + apply (xml_names_iff def tag m R) in D as [Em Wm]. assert (Only : forall m', element m' (d_members def) -> named (wire_name m') c -> m' = m).
        { intros m' E' N'. apply Un in N'. assert (D1 := proj2 (xml_names_iff def tag m R) (conj Em Wm)). assert (D2 := proj2 (xml_names_iff def tag m' R) (conj E' N')). congruence. }
        destruct (m_flat m) eqn:Fm.
        * rewrite IH. split; (intros [(l & H & A) ->]; split; [exists l; split; [|exact A] | reflexivity]).
          { apply S_other; [|exact H]. intros m' E' F' N'. rewrite (Only m' E' N') in F'. congruence. }
          { inversion H; subst; [|assumption]. match goal with E' : element ?x _, N' : named (wire_name ?x) c |- _ => rewrite (Only x E' N') in * end. congruence. }
        * destruct Em as [Im Am]. pose proof (fun v => Gc m v Pc Fm (r_members _ _ R m Im)) as Gv. unfold value_of in Gv. split.
          { destruct (r_rd (annotate c) m) as [v|] eqn:V; [|discriminate]. cbn [bind]. destruct (accept union kwargs m v) as [kw1|] eqn:A1; [|discriminate]. cbn [bind].
            rewrite IH. intros [(l & H & A) ->]. split; [|reflexivity]. exists ((m_name m, v) :: l). split; [|now rewrite <- accept_one, A1].
            apply S_member; [split; assumption | exact Fm | now rewrite Wm | now apply Gv | exact H]. }
          { intros [(l & H & A) ->]. inversion H as [|ms' c' r' m' v' l' E' F' N' R' H'|ms' c' r' l' No H']; subst.
            - rewrite (Only m' E' N') in *. apply Gv in R'. rewrite R'. cbn [bind]. rewrite <- accept_one in A. destruct (accept union kwargs m v') as [kw1|]; [|discriminate]. cbn [bind] in *.
              apply IH. split; [eauto | reflexivity].
            - exfalso. apply (No m (conj Im Am) Fm). exact Ht. }
      + assert (None_ : forall m, element m (d_members def) -> ~ named (wire_name m) c).
        { intros m E N'. apply Un in N'. assert (D2 := proj2 (xml_names_iff def tag m R) (conj E N')). congruence. }
        rewrite IH. split; (intros [(l & H & A) ->]; split; [exists l; split; [|exact A] | reflexivity]).
        * apply S_other; [intros m' E' _; now apply None_ | exact H].
        * inversion H; subst; [|assumption]. exfalso. eapply None_; eassumption.
  Qed.
  Lemma together_iff m xs : unflattened m -> replayable shapes m -> (forall c, In c xs -> good c /\ proper c /\ forall g, In g (match c with Elem _ cc => cc end) -> good g) ->
    forall v, t_together m (map annotate xs) = Ok v <-> together leaf shapes m xs v.
  Proof.
    intros U R G v. unfold t_together, replayable in *. destruct m as [nm xm am fm tm km]. cbn [m_kind unflattened] in *. destruct km as [| | |i|k i|]; try contradiction; destruct U as [Fi Ui].
    - pose proof (items_iff i xs Fi Ui ltac:(intros c Hc; destruct (G c Hc) as (? & ? & ?); split; assumption)) as J. split.
      + destruct (t_items i _) as [l|]; [|discriminate]. cbn [bind]. intros [= <-]. apply (F_list _ _ _ i); [reflexivity | now apply J].
      + intros H. inversion H as [? i' ? vs E He|? k' i' ? ps E He]; subst; cbn [m_kind] in E; [|discriminate]. injection E as <-. apply J in He. now rewrite He.
    - pose proof (entries_iff k i xs Fi Ui ltac:(intros c Hc; destruct (G c Hc) as (? & ? & ?); split; assumption) []) as J. change (xml_member_name k) with (wire_name k). change (xml_member_name i) with (wire_name i). split.
      + destruct (t_entries _ _ i [] _) as [l|]; [|discriminate]. cbn [bind]. intros [= <-]. destruct (proj1 (J l) eq_refl) as (ps & Hp & ->). apply (F_map _ _ _ k i); [reflexivity | exact Hp].
      + intros H. inversion H as [? i' ? vs E He|? k' i' ? ps E He]; subst; cbn [m_kind] in E; [discriminate|]. injection E as <- <-. rewrite (proj2 (J _) (ex_intro _ ps (conj He eq_refl))). reflexivity.
  Qed.
  (** One call for each of the names. *)
  Inductive calls (def : shape) (all : list xml) : list text -> list (text * value) -> Prop :=
  | C_nil : calls def all [] []
  | C_cons t r m v l : dict_get t (xml_names def) = Some m -> m_flat m = true -> together leaf shapes m (filter (has_tag t) all) v -> calls def all r l -> calls def all (t :: r) ((m_name m, v) :: l).
  Lemma replay_iff union def all ts : readable shapes def -> (forall c, In c all -> good c /\ proper c /\ forall g, In g (match c with Elem _ cc => cc end) -> good g) ->
    (forall t, In t ts -> flat_name (xml_names def) t) -> forall kwargs kw,
    t_replay union (xml_names def) (map (fun t => (t, map annotate (filter (has_tag t) all))) ts) kwargs = Ok kw <-> exists l, calls def all ts l /\ accept_all union kwargs l = Ok kw.
  Proof.
    intros R G. induction ts as [|t ts IH]; intros Fl kwargs kw; cbn [map t_replay].
    - split; [intros [= <-]; exists []; split; [constructor | reflexivity] | intros (l & H & A); inversion H; subst; exact A].
    - destruct (Fl t (or_introl eq_refl)) as (m & D & Fm). rewrite D. destruct (xml_names_get _ _ _ D) as [[Im Am] Wm].
      pose proof (together_iff m (filter (has_tag t) all) (r_members _ _ R m Im) (r_flat _ _ R m Im Fm) ltac:(intros c Hc; apply filter_In in Hc as [Hc _]; now apply G)) as J.
      specialize (IH ltac:(intros; apply Fl; now right)). split.
      + destruct (t_together m _) as [v|]; [|discriminate]. cbn [bind]. destruct (accept union kwargs m v) as [kw1|] eqn:A1; [|discriminate]. cbn [bind]. rewrite IH.
        intros (l & H & A). exists ((m_name m, v) :: l). split; [apply C_cons; [exact D | exact Fm | now apply J | exact H] | now rewrite <- accept_one, A1].
      + intros (l & H & A). inversion H as [|t' r' m' v l' D' Fm' T' H']; subst. assert (m' = m) by congruence. subst m'. apply J in T'. rewrite T'. cbn [bind].
        rewrite <- accept_one in A. destruct (accept union kwargs m v) as [kw1|]; [|discriminate]. cbn [bind] in *. apply IH. eauto.
  Qed.
  Lemma calls_regrouped def all cs : readable shapes def -> (forall c, In c cs -> proper c) -> forall done l,
    calls def all (firsts (xml_names def) done cs) l <-> regrouped leaf shapes (d_members def) all done cs l.
  Proof.
    intros R. induction cs as [|c cs IH]; intros P done l; cbn [firsts].
    - split; intros H; inversion H; constructor.
    - specialize (IH ltac:(intros; apply P; now right)). destruct (flat_tag (xml_names def) c) as [t|] eqn:Ft.
      + apply flat_tag_iff in Ft as [Nt (m & D & Fm)]. pose proof D as D0. apply (xml_names_iff def t m R) in D0 as [Em Wm].
        assert (Only : forall m', element m' (d_members def) -> named (wire_name m') c -> m' = m).
        { intros m' E' N'. assert (wire_name m' = t) by (exact (tag_fun _ _ _ N' Nt)). assert (D2 := proj2 (xml_names_iff def t m' R) (conj E' H)). congruence. }
        destruct (in_dec text_eq_dec t done) as [I|I].
        * rewrite IH. split; intros H.
          { apply G_other; [|exact H]. intros m' E' _ N'. rewrite (Only m' E' N'), Wm. exact I. }
          { inversion H; subst; [|assumption]. match goal with E' : element ?x _, N' : named (wire_name ?x) c |- _ => rewrite (Only x E' N') in * end. contradiction. }
        * split; intros H.
          { inversion H as [|t' r' m' v l' D' Fm' T' H']; subst. assert (m' = m) by congruence. subst m'.
            apply (G_first _ _ _ _ _ c cs m (filter (has_tag (wire_name m)) all)); [exact Em | exact Fm | exact Nt | exact I | now apply occurrences_iff | exact T' | now apply IH]. }
          { inversion H as [|ms' all' done' c' r' m' items v l' E' F' N' D' O' T' H'|ms' all' done' c' r' l' No H']; subst.
            - rewrite (Only m' E' N') in *. apply occurrences_iff in O' as ->. apply C_cons; [exact D | exact Fm | exact T' | now apply IH].
            - exfalso. apply I. exact (No m Em Fm Nt). }
      + rewrite IH. split; intros H.
        * apply G_other; [|exact H]. intros m E F N. exfalso. assert (X : flat_tag (xml_names def) c = Some (wire_name m)); [|congruence].
          apply flat_tag_iff. split; [exact N|]. exists m. split; [now apply xml_names_iff | exact F].
        * inversion H as [|ms' all' done' c' r' m' items v l' E' F' N' D' O' T' H'|ms' all' done' c' r' l' No H']; subst; [|assumption].
          exfalso. assert (X : flat_tag (xml_names def) c = Some (wire_name m')); [|congruence]. apply flat_tag_iff. split; [exact N'|]. exists m'. split; [now apply xml_names_iff | exact F'].
  Qed.
  (** The calls of a structure, after those for its attributes. *)
  Lemma rest_iff union def ch : readable shapes def -> (forall c, In c ch -> good c /\ proper c /\ forall g, In g (match c with Elem _ cc => cc end) -> good g) -> forall kwargs kw,
    (do kb <- t_members union (xml_names def) kwargs [] (map annotate ch); t_replay union (xml_names def) (snd kb) (fst kb)) = Ok kw <->
    exists l2 l3, single leaf shapes (d_members def) ch l2 /\ regrouped leaf shapes (d_members def) ch [] ch l3 /\ accept_all union kwargs (l2 ++ l3) = Ok kw.
  Proof.
    intros R G kwargs kw. pose proof (members_iff union def ch R ltac:(intros c Hc; destruct (G c Hc) as (? & ? & ?); split; assumption) kwargs []) as M.
    pose proof (replay_iff union def ch (firsts (xml_names def) [] ch) R G ltac:(intros t Ht; exact (proj1 (firsts_flat _ _ _ _ Ht)))) as Rp. rewrite <- group_is in Rp.
    pose proof (calls_regrouped def ch ch R ltac:(intros c Hc; now apply G) []) as Cr. split.
    - destruct (t_members _ _ _ _ _) as [[kw1 bufs]|] eqn:T; [|discriminate]. cbn [bind fst snd]. destruct (proj1 (M kw1 bufs) eq_refl) as [(l2 & H2 & A2) ->].
      rewrite Rp. intros (l3 & H3 & A3). exists l2, l3. split; [exact H2|]. split; [now apply Cr|]. now rewrite accept_all_app, A2.
    - intros (l2 & l3 & H2 & H3 & A). rewrite accept_all_app in A. destruct (accept_all union kwargs l2) as [kw1|] eqn:A2; [|discriminate]. cbn [bind] in A.
      rewrite (proj2 (M kw1 _) (conj (ex_intro _ l2 (conj H2 A2)) eq_refl)). cbn [bind fst snd]. apply Rp. exists l3. split; [now apply Cr | exact A].
  Qed.
  Lemma struct_iff union def n ch : readable shapes def -> (forall k v, In (k, v) (n_attrs n) -> exists t, tag_name k t) ->
    (forall c, In c ch -> good c /\ proper c /\ forall g, In g (match c with Elem _ cc => cc end) -> good g) -> forall v,
    t_struct union def true n (map annotate ch) = Ok v <-> exists calls, delivers leaf shapes n def ch calls /\
      (if union then exists m w, calls = [(m, w)] /\ v = VUnion m w else v = VStruct (gather calls)).
  Proof.
    intros R Pa G v. unfold t_struct. pose proof (attributes_iff union n (d_members def) Pa []) as At.
    assert (All : forall kw, (do kwargs <- attributes union n (d_members def) []; do kb <- t_members union (xml_names def) kwargs [] (map annotate ch); t_replay union (xml_names def) (snd kb) (fst kb)) = Ok kw
      <-> exists cl, delivers leaf shapes n def ch cl /\ accept_all union [] cl = Ok kw).
    { intros kw. split.
      - destruct (attributes union n (d_members def) []) as [kw1|]; [|discriminate]. cbn [bind]. destruct (proj1 (At kw1) eq_refl) as (l1 & H1 & A1).
        rewrite (rest_iff union def ch R G). intros (l2 & l3 & H2 & H3 & A). exists (l1 ++ l2 ++ l3). split; [now constructor|]. now rewrite accept_all_app, A1.
      - intros (cl & H & A). inversion H as [? ? ? l1 l2 l3 H1 H2 H3]; subst. rewrite accept_all_app in A. destruct (accept_all union [] l1) as [kw1|] eqn:A1; [|discriminate]. cbn [bind] in A.
        rewrite (proj2 (At kw1) (ex_intro _ l1 (conj H1 A1))). cbn [bind]. apply (rest_iff union def ch R G). eauto. }
    assert (Re : (do kwargs <- attributes union n (d_members def) []; do kb <- t_members union (xml_names def) kwargs [] (map annotate ch); do kwargs <- t_replay union (xml_names def) (snd kb) (fst kb); finish union kwargs)
      = do kw <- (do kwargs <- attributes union n (d_members def) []; do kb <- t_members union (xml_names def) kwargs [] (map annotate ch); t_replay union (xml_names def) (snd kb) (fst kb)); finish union kw).
    { destruct (attributes union n (d_members def) []); [|reflexivity]. cbn [bind]. destruct (t_members _ _ _ _ _); reflexivity. }
    cbv iota. rewrite Re. destruct (do kwargs <- attributes union n (d_members def) []; _) as [kw|e] eqn:E.
    - cbn [bind]. destruct (proj1 (All kw) eq_refl) as (cl & H & A). clear E Re. destruct union.
      + apply accept_all_union in A as [-> L]. split.
        * destruct cl as [|[m w] [|? ?]]; [discriminate | | cbn in L; lia]. intros [= <-]. eauto 6.
        * intros (cl' & H' & m & w & -> & ->). assert (A' : accept_all true [] [(m, w)] = Ok [(m, w)]) by reflexivity.
          pose proof (proj2 (All [(m, w)]) (ex_intro _ _ (conj H' A'))) as X. injection X as ->. reflexivity.
      + rewrite accept_all_struct in A. injection A as <-. split.
        * intros [= <-]. eauto.
        * intros (cl' & H' & ->). pose proof (proj2 (All (gather cl')) (ex_intro _ _ (conj H' (accept_all_struct _ _)))) as X. injection X as X. cbn [finish]. now rewrite X.
    - cbn [bind]. split; [discriminate|]. intros (cl & H & X). exfalso. destruct union.
      + destruct X as (m & w & -> & _). pose proof (proj2 (All [(m, w)]) (ex_intro _ _ (conj H eq_refl))) as Y. discriminate.
      + pose proof (proj2 (All (gather cl)) (ex_intro _ _ (conj H (accept_all_struct _ _)))) as Y. discriminate.
  Qed.
  Lemma good_both x : good x /\ (forall g, In g (match x with Elem _ cc => cc end) -> good g).
  Proof.
    induction x as [n ch IH] using xml_ind'. split; [|intros g Hg; now apply IH].
    intros s v Px Fs Us. unfold value_of. change (r_rd (annotate (Elem n ch)) s) with (t_value n (map annotate ch) s). unfold t_value.
    inversion Px as [? ? _ Pa Pch]; subst.
    assert (G : forall c, In c ch -> good c /\ proper c /\ forall g, In g (match c with Elem _ cc => cc end) -> good g) by (intros c Hc; destruct (IH c Hc); auto).
    destruct (m_kind s) as [k|id|id|m|k m|] eqn:K.
    - change (match n_text n with Some t => t | None => [] end) with (full_text (Elem n ch)). split.
      + destruct (leaf_value s k (full_text (Elem n ch))) as [w|] eqn:L; [|discriminate]. intros [= <-]. now apply (R_leaf _ _ _ _ k).
      + intros H. inversion H; subst; try congruence. match goal with L : leaf s ?k' _ _ |- _ => assert (k' = k) by congruence; subst k'; unfold leaf in L; rewrite L end. reflexivity.
    - rewrite (struct_iff false (shapes id) n ch (all_readable id) Pa G). split.
      + intros (cl & H & ->). now apply (R_struct _ _ _ _ _ id).
      + intros H. inversion H; subst; try congruence. match goal with L : m_kind s = TStruct ?i |- _ => assert (i = id) by congruence; subst i end. eauto.
    - rewrite (struct_iff true (shapes id) n ch (all_readable id) Pa G). split.
      + intros (cl & H & m & w & -> & ->). now apply (R_union _ _ _ _ _ id).
      + intros H. inversion H; subst; try congruence. match goal with L : m_kind s = TUnion ?i |- _ => assert (i = id) by congruence; subst i end. eauto 6.
    - destruct s as [nm xm am fm tm km]. cbn [m_kind m_flat unflattened] in *. subst km fm. destruct Us as [Fi Ui].
      pose proof (items_iff m ch Fi Ui ltac:(intros c Hc; destruct (G c Hc) as (? & ? & ?); split; assumption)) as J. split.
      + destruct (t_items m _) as [l|]; [|discriminate]. cbn [bind]. intros [= <-]. apply (R_list _ _ _ _ _ m); [reflexivity | reflexivity | now apply J].
      + intros H. inversion H as [? ? ? ? E | ? ? ? m' vs E F He | ? ? ? k' m' ps E F He | ? ? ? ? ? E | ? ? ? ? ? ? E]; subst; cbn [m_kind] in E; try discriminate. injection E as <-. apply J in He. now rewrite He.
    - destruct s as [nm xm am fm tm km]. cbn [m_kind m_flat unflattened] in *. subst km fm. destruct Us as [Fi Ui].
      pose proof (entries_iff k m ch Fi Ui ltac:(intros c Hc; destruct (G c Hc) as (? & ? & ?); split; assumption) []) as J. change (xml_member_name k) with (wire_name k). change (xml_member_name m) with (wire_name m). split.
      + destruct (t_entries _ _ m [] _) as [l|]; [|discriminate]. cbn [bind]. intros [= <-]. destruct (proj1 (J l) eq_refl) as (ps & Hp & ->). apply (R_map _ _ _ _ _ k m); [reflexivity | reflexivity | exact Hp].
      + intros H. inversion H as [? ? ? ? E | ? ? ? m' vs E F He | ? ? ? k' m' ps E F He | ? ? ? ? ? E | ? ? ? ? ? ? E]; subst; cbn [m_kind] in E; try discriminate. injection E as <- <-. rewrite (proj2 (J _) (ex_intro _ ps (conj He eq_refl))). reflexivity.
    - split; [discriminate|]. intros H. inversion H; congruence.
  Qed.

  (** ** Whole documents *)
  Lemma all_sim x : sim x. Proof. apply sim_both. Qed.
  Lemma all_good x : good x. Proof. apply good_both. Qed.
  Lemma good_all ch : (forall c, In c ch -> proper c) -> forall c, In c ch -> good c /\ proper c /\ forall g, In g (match c with Elem _ cc => cc end) -> good g.
  Proof. intros P c Hc. split; [apply all_good|]. split; [now apply P | intros; apply all_good]. Qed.
  Lemma root_struct def n ch b fuel l : readable shapes def -> (forall c, In c ch -> proper c) -> (4 * List.length (all_events ch) + 3 <= fuel)%nat ->
    read_struct fuel false def (mkDe (events (Elem n ch) ++ l) b None)
    = do _ <- (if b then validate_element_name (expected_root_name def) n else Ok tt); do v <- t_struct false def true n (map annotate ch); Ok (v, mkDe l false None).
  Proof.
    intros R P Fu. destruct fuel as [|fuel]; [lia|]. rewrite read_struct_S, events_start. cbn [root_node preconsumed]. unfold consume_start, pull at 1. cbn [preconsumed rest is_root bind fst snd].
    destruct (if b then _ else _) as [[]|e]; [|reflexivity]. cbn [bind]. unfold t_struct. destruct (attributes false n (d_members def) []) as [kw|e]; [|reflexivity]. cbn [bind].
    rewrite (struct_sim false def ch R ltac:(intros; apply all_sim) ltac:(intros; apply all_sim) P fuel kw n l ltac:(lia)). reflexivity.
  Qed.
  Lemma wrapped_struct def w n ch fuel l : readable shapes def -> (forall c, In c ch -> proper c) -> (4 * List.length (all_events ch) + 3 <= fuel)%nat ->
    read_struct fuel false def (mkDe (all_events ch ++ End n :: l) false (Some w))
    = do v <- t_struct false def false w (map annotate ch); Ok (v, mkDe l false None).
  Proof.
    intros R P Fu. destruct fuel as [|fuel]; [lia|]. rewrite read_struct_S. cbn [root_node preconsumed]. unfold consume_start. cbn [preconsumed rest is_root bind fst snd].
    rewrite (struct_sim false def ch R ltac:(intros; apply all_sim) ltac:(intros; apply all_sim) P fuel [] n l ltac:(lia)). reflexivity.
  Qed.
  Lemma wrappers_ok ws names : Forall2 (fun w name => tag_name (n_tag w) name) ws names -> forall l b p,
    wrappers names (mkDe (map Start ws ++ l) b p) = Ok (mkDe l b (fold_left (fun _ w => Some w) ws p)).
  Proof.
    induction 1 as [|w name ws names T H IH]; intros l b p; [reflexivity|]. cbn [map app wrappers fold_left]. unfold pull. cbn [rest bind fst snd is_root preconsumed].
    unfold validate_element_name. apply tag_name_iff in T. rewrite T. cbn [bind]. rewrite text_eqb_refl. cbn [bind]. apply IH.
  Qed.

  (** ** Members get what is theirs *)
  Definition vals (nm : text) (l : list (text * value)) : list value := map snd (filter (fun kv => text_eqb (fst kv) nm) l).
  Lemma vals_app nm a b : vals nm (a ++ b) = vals nm a ++ vals nm b.
  Proof. unfold vals. now rewrite filter_app, map_app. Qed.
  Lemma vals_In nm v l : In v (vals nm l) <-> In (nm, v) l.
  Proof.
    unfold vals. rewrite in_map_iff. split.
    - intros ([k w] & <- & H). apply filter_In in H as [H E]. cbn [fst snd] in *. apply text_eqb_eq in E as ->. exact H.
    - intros H. exists (nm, v). split; [reflexivity|]. apply filter_In. split; [exact H | apply text_eqb_refl].
  Qed.
  Definition last_opt {A} (l : list A) : option A := match rev l with [] => None | x :: _ => Some x end.
  Lemma put_get nm l : forall acc, dict_get nm (put l acc) = match last_opt (vals nm l) with Some v => Some v | None => dict_get nm acc end.
  Proof.
    induction l as [|[k v] l IH] using rev_ind; intros acc; [reflexivity|]. rewrite put_app, vals_app. cbn [put fold_left fst snd vals filter map].
    destruct (text_eqb k nm) eqn:E; cbn [map app].
    - apply text_eqb_eq in E as ->. rewrite dict_get_set_eq. unfold last_opt. rewrite rev_app_distr. reflexivity.
    - rewrite app_nil_r. rewrite dict_get_set_ne; [apply IH|]. intros ->. now rewrite text_eqb_refl in E.
  Qed.
  Lemma gather_get nm l : dict_get nm (gather l) = last_opt (vals nm l).
  Proof. change (gather l) with (put l []). rewrite put_get. destruct (last_opt _); reflexivity. Qed.

  Section Members.
    Variable def : shape.
    Hypothesis R : readable shapes def.
    Hypothesis names : NoDup (map m_name (d_members def)).
    Notation ms := (d_members def).
    Lemma same_name m m' : In m ms -> In m' ms -> m_name m = m_name m' -> m = m'.
    Proof.
      clear R. revert m m'. induction ms as [|x l IH]; intros m m' [] [] E; subst.
      - reflexivity.
      - exfalso. cbn [map] in names. apply NoDup_cons_iff in names as [N _]. apply N. rewrite E. now apply in_map.
      - exfalso. cbn [map] in names. apply NoDup_cons_iff in names as [N _]. apply N. rewrite <- E. now apply in_map.
      - cbn [map] in names. apply NoDup_cons_iff in names as [_ N]. now apply IH.
    Qed.
    Lemma same_wire m m' c : element m ms -> element m' ms -> named (wire_name m) c -> named (wire_name m') c -> m = m'.
    Proof.
      intros E E' N N'. pose proof (tag_fun _ _ _ N N') as W. assert (A := proj2 (xml_names_iff def _ m R) (conj E eq_refl)). assert (B := proj2 (xml_names_iff def _ m' R) (conj E' eq_refl)). rewrite <- W in B. congruence.
    Qed.
    Lemma element_dec c : (exists m, element m ms /\ named (wire_name m) c) \/ (forall m, element m ms -> ~ named (wire_name m) c).
    Proof.
      destruct (local_name (n_tag (root_node c))) as [t|e] eqn:L.
      - apply tag_name_iff in L. destruct (dict_get t (xml_names def)) as [m|] eqn:D.
        + left. exists m. apply xml_names_get in D as [E <-]. split; [exact E | exact L].
        + right. intros m E N. pose proof (tag_fun _ _ _ N L) as <-. assert (X := proj2 (xml_names_iff def _ m R) (conj E eq_refl)). congruence.
      - right. intros m E N. apply tag_name_iff in N. congruence.
    Qed.
    Lemma single_names ch l nm v : single leaf shapes ms ch l -> In (nm, v) l -> exists m, element m ms /\ m_flat m = false /\ nm = m_name m.
    Proof.
      revert l. induction ch as [|c ch IH]; intros l H I; inversion H; subst; [destruct I| |eapply IH; eassumption].
      destruct I as [[= <- <-]|I]; [eauto | eapply IH; eassumption].
    Qed.
    Lemma single_vals ch m : element m ms -> m_flat m = false -> forall l, single leaf shapes ms ch l -> each leaf shapes m (filter (has_tag (wire_name m)) ch) (vals (m_name m) l).
    Proof.
      intros E F. induction ch as [|c ch IH]; intros l H; inversion H as [|ms' c' r' m' v l' E' F' N' R' H'|ms' c' r' l' No H']; subst; cbn [filter].
      - constructor.
      - unfold vals. cbn [filter fst]. destruct (text_eqb (m_name m') (m_name m)) eqn:Q.
        + apply text_eqb_eq in Q. apply same_name in Q; [subst m'|apply E'|apply E]. rewrite (proj2 (has_tag_iff _ c) N'). cbn [map snd]. constructor; [exact R' | now apply IH].
        + assert (T : has_tag (wire_name m) c = false).
          { destruct (has_tag (wire_name m) c) eqn:T; [|reflexivity]. apply has_tag_iff in T. rewrite (same_wire m m' c E E' T N'), text_eqb_refl in Q. discriminate. }
          rewrite T. now apply IH.
      - assert (T : has_tag (wire_name m) c = false) by (destruct (has_tag (wire_name m) c) eqn:T; [apply has_tag_iff in T; exfalso; now apply (No m) | reflexivity]).
        rewrite T. now apply IH.
    Qed.
    Lemma single_other ch l nm : single leaf shapes ms ch l -> (forall m, element m ms -> m_flat m = false -> m_name m <> nm) -> vals nm l = [].
    Proof.
      intros H No. destruct (vals nm l) as [|v r] eqn:V; [reflexivity|]. exfalso. assert (I : In v (vals nm l)) by (rewrite V; now left). apply vals_In in I.
      destruct (single_names _ _ _ _ H I) as (m & E & F & ->). now apply (No m).
    Qed.
    Lemma single_reads ch l : single leaf shapes ms ch l -> forall c m, In c ch -> element m ms -> m_flat m = false -> named (wire_name m) c -> exists v, reads leaf shapes m c v.
    Proof.
      revert l. induction ch as [|c0 ch IH]; intros l H c m [] E F N; inversion H as [|ms' c' r' m' v l' E' F' N' R' H'|ms' c' r' l' No H']; subst.
      - rewrite (same_wire m m' c E E' N N'). eauto.
      - exfalso. now apply (No m).
      - eapply IH; eassumption.
      - eapply IH; eassumption.
    Qed.
    Lemma single_total ch : (forall c m, In c ch -> element m ms -> m_flat m = false -> named (wire_name m) c -> exists v, reads leaf shapes m c v) -> exists l, single leaf shapes ms ch l.
    Proof.
      induction ch as [|c ch IH]; intros H; [exists []; constructor|]. destruct IH as [l Hl]; [intros; eapply H; eauto; now right|].
      destruct (element_dec c) as [(m & E & N)|No].
      - destruct (m_flat m) eqn:F.
        + exists l. apply S_other; [|exact Hl]. intros m' E' F' N'. rewrite (same_wire m' m c E' E N' N) in F'. congruence.
        + destruct (H c m (or_introl eq_refl) E F N) as [v Hv]. exists ((m_name m, v) :: l). now apply S_member.
      - exists l. apply S_other; [intros; now apply No | exact Hl].
    Qed.

    Lemma regrouped_names all cs : forall done l, regrouped leaf shapes ms all done cs l -> NoDup (map fst l) /\
      forall nm v, In (nm, v) l -> exists m, element m ms /\ m_flat m = true /\ nm = m_name m /\ ~ In (wire_name m) done /\ together leaf shapes m (filter (has_tag (wire_name m)) all) v /\ (exists c, In c cs /\ named (wire_name m) c).
    Proof.
      induction cs as [|c cs IH]; intros done l H; inversion H as [|ms' all' done' c' r' m items v l' E F N D O T H'|ms' all' done' c' r' l' No H']; subst.
      - split; [constructor | intros ? ? []].
      - destruct (IH _ _ H') as [A B]. split.
        + cbn [map fst]. constructor; [|exact A]. intros I. apply in_map_iff in I as ([nm w] & En & I). cbn [fst] in En. subst nm. destruct (B _ _ I) as (m' & E' & F' & Q & D' & _).
          apply same_name in Q; [subst m'|apply E|apply E']. apply D'. now left.
        + intros nm w [[= <- <-]|I].
          * exists m. apply occurrences_iff in O as ->. repeat (split; [first [assumption | reflexivity]|]). exists c. split; [now left | exact N].
          * destruct (B _ _ I) as (m' & E' & F' & Q & D' & T' & c' & I' & N'). exists m'. repeat (split; [first [assumption | intros K; apply D'; now right]|]). exists c'. split; [now right | exact N'].
      - destruct (IH _ _ H') as [A B]. split; [exact A|]. intros nm w I. destruct (B _ _ I) as (m' & E' & F' & Q & D' & T' & c' & I' & N'). exists m'. repeat (split; [assumption|]). exists c'. split; [now right | exact N'].
    Qed.
    Lemma regrouped_has all cs m : element m ms -> m_flat m = true -> (exists c, In c cs /\ named (wire_name m) c) -> forall done l, ~ In (wire_name m) done -> regrouped leaf shapes ms all done cs l ->
      exists v, In (m_name m, v) l.
    Proof.
      intros E F. induction cs as [|c cs IH]; intros (c0 & I0 & N0) done l D H; [destruct I0|].
      inversion H as [|ms' all' done' c' r' m' items v l' E' F' N' D' O' T' H'|ms' all' done' c' r' l' No H']; subst.
      - destruct (text_eq_dec (wire_name m') (wire_name m)) as [Q|Q].
        + assert (m' = m). { rewrite Q in N'. exact (same_wire m' m c E' E ltac:(rewrite Q; exact N') N'). } subst m'. exists v. now left.
        + destruct (IH) with (done := wire_name m' :: done) (l := l') as [w Hw]; [|intros [|]; contradiction|exact H'|exists w; now right].
          destruct I0 as [->|I0]; [exfalso; apply Q; exact (tag_fun _ _ _ N' N0)|]. eauto.
      - apply IH with (done := done); [|exact D | exact H']. destruct I0 as [->|I0]; [|eauto]. exfalso. apply D. now apply (No m).
    Qed.
    Lemma regrouped_total all cs : (forall m, element m ms -> m_flat m = true -> (exists c, In c cs /\ named (wire_name m) c) -> exists v, together leaf shapes m (filter (has_tag (wire_name m)) all) v) ->
      forall done, exists l, regrouped leaf shapes ms all done cs l.
    Proof.
      induction cs as [|c cs IH]; intros H done; [exists []; constructor|].
      assert (IH' : forall done, exists l, regrouped leaf shapes ms all done cs l).
      { apply IH. intros m E F (c' & I & N). apply H; [assumption | assumption|]. exists c'. split; [now right | exact N]. }
      destruct (element_dec c) as [(m & E & N)|No]; [|destruct (IH' done) as [l Hl]; exists l; apply G_other; [intros m E _ N; exfalso; now apply (No m) | exact Hl]].
      destruct (m_flat m) eqn:F; [destruct (in_dec text_eq_dec (wire_name m) done) as [D|D]|].
      - destruct (IH' done) as [l Hl]. exists l. apply G_other; [|exact Hl]. intros m' E' _ N'. now rewrite (same_wire m' m c E' E N' N).
      - destruct (H m E F) as [v Hv]; [exists c; split; [now left | exact N]|]. destruct (IH' (wire_name m :: done)) as [l Hl]. exists ((m_name m, v) :: l).
        apply (G_first _ _ _ _ _ c cs m (filter (has_tag (wire_name m)) all)); [exact E | exact F | exact N | exact D | now apply occurrences_iff | exact Hv | exact Hl].
      - destruct (IH' done) as [l Hl]. exists l. apply G_other; [|exact Hl]. intros m' E' F' N'. rewrite (same_wire m' m c E' E N' N) in F'. congruence.
    Qed.
    Lemma vals_once l nm v : NoDup (map fst l) -> In (nm, v) l -> vals nm l = [v].
    Proof.
      clear. induction l as [|[k w] l IH]; intros N I; [destruct I|]. cbn [map fst] in N. apply NoDup_cons_iff in N as [N1 N2]. unfold vals. cbn [filter fst]. destruct I as [[= -> ->]|I].
      - rewrite text_eqb_refl. cbn [map snd]. f_equal. fold (vals nm l). destruct (vals nm l) as [|x r] eqn:V; [reflexivity|]. exfalso. apply N1. assert (X : In x (vals nm l)) by (rewrite V; now left).
        apply vals_In in X. change nm with (fst (nm, x)). now apply in_map.
      - destruct (text_eqb k nm) eqn:Q; [|now apply IH]. exfalso. apply text_eqb_eq in Q as ->. apply N1. change nm with (fst (nm, v)). now apply in_map.
    Qed.
    Lemma each_fun m xs a b : m_flat m = false -> unflattened m -> (forall c, In c xs -> proper c) -> each leaf shapes m xs a -> each leaf shapes m xs b -> a = b.
    Proof.
      intros F U P A B. assert (G : forall c, In c xs -> good c /\ proper c) by (intros c Hc; split; [apply all_good | now apply P]).
      apply (items_iff m xs F U G) in A, B. congruence.
    Qed.
    Lemma together_fun m xs a b : In m ms -> m_flat m = true -> (forall c, In c xs -> proper c) -> together leaf shapes m xs a -> together leaf shapes m xs b -> a = b.
    Proof.
      intros I F P A B. apply (together_iff m xs (r_members _ _ R m I) (r_flat _ _ R m I F) (good_all xs P)) in A, B. congruence.
    Qed.

    (** The order of elements with different names does not matter. *)
    Lemma interleaved n ch ch' calls : (forall c, In c ch -> proper c) -> (forall c, In c ch' -> proper c) ->
      (forall m, element m ms -> filter (has_tag (wire_name m)) ch = filter (has_tag (wire_name m)) ch') ->
      delivers leaf shapes n def ch calls -> exists calls', delivers leaf shapes n def ch' calls' /\ forall nm, vals nm calls = vals nm calls'.
    Proof.
      intros P P' Same H. inversion H as [? ? ? l1 l2 l3 H1 H2 H3]; subst.
      assert (Back : forall c m, In c ch' -> element m ms -> named (wire_name m) c -> In c ch).
      { intros c m I E N. assert (X : In c (filter (has_tag (wire_name m)) ch')) by (apply filter_In; split; [exact I | now apply has_tag_iff]).
        rewrite <- Same in X by exact E. now apply filter_In in X as [X _]. }
      destruct (single_total ch') as [l2' H2'].
      { intros c m I E F N. apply (single_reads ch l2 H2 c m); [now apply (Back c m) | exact E | exact F | exact N]. }
      destruct (regrouped_names _ _ _ _ H3) as [N3 A3].
      destruct (regrouped_total ch' ch') with (done := @nil text) as [l3' H3'].
      { intros m E F (c & I & N). destruct (regrouped_has ch ch m E F) with (done := @nil text) (l := l3) as [v Hv]; [exists c; split; [now apply (Back c m) | exact N] | intros [] | exact H3|].
        destruct (A3 _ _ Hv) as (m' & E' & F' & Q & _ & T & _). apply same_name in Q; [subst m'|apply E|apply E']. exists v. rewrite <- Same by exact E. exact T. }
      destruct (regrouped_names _ _ _ _ H3') as [N3' A3'].
      exists (l1 ++ l2' ++ l3'). split; [now constructor|]. intros nm. rewrite !vals_app. f_equal. f_equal.
      - destruct (in_dec text_eq_dec nm (map m_name (filter (fun m => negb (m_attr m) && negb (m_flat m))%bool ms))) as [I|I].
        + apply in_map_iff in I as (m & <- & I). apply filter_In in I as [I B]. apply andb_prop in B as [B1 B2]. apply Bool.negb_true_iff in B1, B2.
          assert (E : element m ms) by (split; assumption).
          pose proof (single_vals ch m E B2 l2 H2) as V. pose proof (single_vals ch' m E B2 l2' H2') as V'. rewrite <- Same in V' by exact E.
          apply (each_fun m (filter (has_tag (wire_name m)) ch)); [exact B2 | now apply (r_members _ _ R) | intros c Hc; apply filter_In in Hc as [Hc _]; now apply P | exact V | exact V'].
        + assert (No : forall m, element m ms -> m_flat m = false -> m_name m <> nm).
          { intros m [Im Am] Fm <-. apply I. apply in_map. apply filter_In. split; [exact Im|]. now rewrite Am, Fm. }
          now rewrite (single_other ch l2 nm H2 No), (single_other ch' l2' nm H2' No).
      - destruct (vals nm l3) as [|v r] eqn:V.
        + destruct (vals nm l3') as [|v' r'] eqn:V'; [reflexivity|]. exfalso. assert (I : In v' (vals nm l3')) by (rewrite V'; now left). apply vals_In in I.
          destruct (A3' _ _ I) as (m & E & F & -> & _ & T & c & Ic & N).
          destruct (regrouped_has ch ch m E F) with (done := @nil text) (l := l3) as [w Hw]; [exists c; split; [now apply (Back c m) | exact N] | intros [] | exact H3|]. apply vals_In in Hw. rewrite V in Hw. destruct Hw.
        + assert (I : In v (vals nm l3)) by (rewrite V; now left). apply vals_In in I. rewrite (vals_once l3 nm v N3 I) in V. injection V as <-.
          destruct (A3 _ _ I) as (m & E & F & -> & _ & T & c & Ic & N).
          assert (X : In c (filter (has_tag (wire_name m)) ch')) by (rewrite <- Same by exact E; apply filter_In; split; [exact Ic | now apply has_tag_iff]). apply filter_In in X as [X _].
          destruct (regrouped_has ch' ch' m E F) with (done := @nil text) (l := l3') as [w Hw]; [eauto | intros [] | exact H3'|].
          rewrite (vals_once l3' _ w N3' Hw). destruct (A3' _ _ Hw) as (m' & E' & F' & Q & _ & T' & _). apply same_name in Q; [subst m'|apply E|apply E'].
          rewrite <- Same in T' by exact E. f_equal. symmetry.
          apply (together_fun m (filter (has_tag (wire_name m)) ch)); [apply E | exact F | intros x Hx; apply filter_In in Hx as [Hx _]; now apply P | exact T' | exact T].
    Qed.
    Lemma attribute_names n l nm v : forall ms', (forall m, In m ms' -> In m ms) -> from_attributes leaf n ms' l -> In (nm, v) l -> exists m, In m ms /\ m_attr m = true /\ nm = m_name m.
    Proof.
      intros ms'. revert l. induction ms' as [|m ms' IH]; intros l Hm H I; inversion H; subst; [destruct I| |].
      - destruct I as [[= <- <-]|I]; [exists m; split; [apply Hm; now left | split; [assumption | reflexivity]] | eapply IH; [intros; apply Hm; now right | eassumption | eassumption]].
      - eapply IH; [intros; apply Hm; now right | eassumption | eassumption].
    Qed.
    Lemma regrouped_calls n ch calls : delivers leaf shapes n def ch calls -> exists before after, calls = before ++ after /\
      (forall m v, element m ms -> m_flat m = true -> ~ In (m_name m, v) before) /\ NoDup (map fst after) /\
      (forall nm v, In (nm, v) after -> exists m, element m ms /\ m_flat m = true /\ nm = m_name m) /\
      (forall m, element m ms -> m_flat m = true -> (exists c, In c ch /\ named (wire_name m) c) -> exists items v, In (m_name m, v) after /\ occurrences (wire_name m) ch items /\ together leaf shapes m items v) /\
      (forall m v, element m ms -> m_flat m = true -> In (m_name m, v) after -> exists c, In c ch /\ named (wire_name m) c).
    Proof.
      intros H. inversion H as [? ? ? l1 l2 l3 H1 H2 H3]; subst. destruct (regrouped_names _ _ _ _ H3) as [N3 A3]. exists (l1 ++ l2), l3. split; [apply app_assoc|].
      split; [|split; [exact N3|split; [|split]]].
      - intros m v E F I. apply in_app_iff in I as [I|I].
        + destruct (attribute_names _ _ _ _ _ (fun m H => H) H1 I) as (m' & Im & Am & Q). apply same_name in Q; [subst m'|apply E|exact Im]. destruct E as [_ E]. congruence.
        + destruct (single_names _ _ _ _ H2 I) as (m' & Im & Am & Q). apply same_name in Q; [subst m'|apply E|apply Im]. congruence.
      - intros nm v I. destruct (A3 _ _ I) as (m & E & F & Q & _). eauto.
      - intros m E F X. destruct (regrouped_has ch ch m E F X [] l3 (fun H => H) H3) as [v Hv]. destruct (A3 _ _ Hv) as (m' & E' & F' & Q & _ & T & _). apply same_name in Q; [subst m'|apply E|apply E'].
        exists (filter (has_tag (wire_name m)) ch), v. split; [exact Hv|]. split; [now apply occurrences_iff | exact T].
      - intros m v E F I. destruct (A3 _ _ I) as (m' & E' & F' & Q & _ & _ & X). apply same_name in Q; [subst m'|apply E|apply E']. exact X.
    Qed.
  End Members.

  (** ** Elements that nobody knows *)
  Lemma members_unknown union names x post : (forall t, named t x -> dict_get t names = None) -> proper x -> forall pre kwargs bufs,
    t_members union names kwargs bufs (map annotate (pre ++ x :: post)) = t_members union names kwargs bufs (map annotate (pre ++ post)).
  Proof.
    intros No P. induction pre as [|c pre IH]; intros kwargs bufs; cbn [app map t_members].
    - unfold r_tag. rewrite annotate_xml. inversion P as [n ch [t Ht] _ _]; subst. pose proof (proj2 (tag_name_iff _ _) Ht) as L. cbn [root_node]. rewrite L. cbn [bind]. now rewrite (No t Ht).
    - destruct (r_tag (annotate c)) as [tag|]; [|reflexivity]. cbn [bind]. destruct (dict_get tag names) as [m|]; [|apply IH]. destruct (m_flat m); [apply IH|].
      destruct (r_rd (annotate c) m) as [v|]; [|reflexivity]. cbn [bind]. destruct (accept union kwargs m v); [|reflexivity]. cbn [bind]. apply IH.
  Qed.

  (** ** Structures in flattened members *)
  Lemma members_group union names cs : (forall c, In c cs -> proper c) -> forall kwargs bufs kb, t_members union names kwargs bufs (map annotate cs) = Ok kb -> snd kb = group names bufs cs.
  Proof.
    induction cs as [|c cs IH]; intros P kwargs bufs kb; cbn [map t_members group]; [intros [= <-]; reflexivity|].
    specialize (IH ltac:(intros; apply P; now right)). unfold r_tag, flat_tag. rewrite annotate_xml. destruct (local_name _) as [tag|]; [|discriminate]. cbn [bind].
    destruct (dict_get tag names) as [m|]; [|apply IH]. destruct (m_flat m); [apply IH|].
    destruct (r_rd (annotate c) m) as [v|]; [|discriminate]. cbn [bind]. destruct (accept union kwargs m v); [|discriminate]. cbn [bind]. apply IH.
  Qed.
  Lemma replay_fails fuel union names tag es m bs : In (tag, es) bs -> dict_get tag names = Some m -> (forall r, read fuel m (mkDe es true None) <> Ok r) ->
    forall kwargs kw, replay fuel union names bs kwargs <> Ok kw.
  Proof.
    intros I D F. induction bs as [|[t e] bs IH]; [destruct I|]. intros kwargs kw. cbn [replay]. destruct I as [[= -> ->]|I].
    - rewrite D. destruct (read fuel m _) as [r|] eqn:E; [exfalso; now apply (F r) | discriminate].
    - destruct (dict_get t names) as [m'|]; [|discriminate]. destruct (read fuel m' _) as [r|]; [|discriminate]. cbn [bind]. destruct (accept union kwargs m' (fst r)); [|discriminate]. cbn [bind]. now apply IH.
  Qed.
  Lemma flat_struct_fails def n ch l m i id v : (forall m, In m (d_members def) -> unflattened m) -> NoDup (map wire_name (filter (fun m => negb (m_attr m)) (d_members def))) ->
    (forall c, In c ch -> proper c) -> element m (d_members def) -> m_flat m = true -> m_kind m = TList i -> m_kind i = TStruct id \/ m_kind i = TUnion id ->
    shape_name (shapes id) <> wire_name m -> (exists c, In c ch /\ named (wire_name m) c) ->
    deserialize py_float time_float default_format use_format shapes (events (Elem n ch) ++ l) [] def <> Ok v.
  Proof.
    intros U N P E F K Ki Ne (c & Ic & Nc). unfold deserialize, new_de. cbn [wrappers bind].
    assert (Len : List.length (events (Elem n ch) ++ l) = (sized (Elem n ch) + List.length l)%nat) by apply app_length. rewrite Len, sized_elem.
    set (L := List.length (all_events ch)). assert (Lc : (2 <= L)%nat).
    { subst L. clear -Ic. induction ch as [|x ch IH]; [destruct Ic|]. rewrite all_cons. destruct Ic as [->|Ic]; [pose proof (sized_pos c); lia | apply IH in Ic; lia]. }
    set (fuel := (4 * (2 + L + List.length l) + 4)%nat). assert (Hf : exists f, fuel = S (S (S (S (S f)))) /\ (4 * L + 1 <= S (S (S (S f))))%nat) by (exists (4 * (2 + L + List.length l) - 1)%nat; subst fuel; split; lia).
    destruct Hf as (f & Hf & Hl). rewrite Hf. clear fuel Hf Len. rewrite read_struct_S, events_start. cbn [root_node preconsumed]. unfold consume_start, pull at 1. cbn [preconsumed rest is_root bind fst snd].
    destruct (validate_element_name _ n) as [[]|]; [|discriminate]. cbn [bind]. destruct (attributes false n (d_members def) []) as [kw|]; [|discriminate]. cbn [bind].
    rewrite (members_sim false def ch U ltac:(intros; apply all_sim) P kw [] _ n l Hl : read_members _ false (xml_names def) kw [] _ = _).
    destruct (t_members false (xml_names def) kw [] (map annotate ch)) as [kb|] eqn:T; [|discriminate]. cbn [bind fst snd pull rest is_root preconsumed].
    pose proof (members_group _ _ _ P _ _ _ T) as G. rewrite group_is in G.
    pose proof (proj2 (xml_names_iff0 def (wire_name m) m N) (conj E eq_refl)) as D.
    assert (If : In (wire_name m) (firsts (xml_names def) [] ch)).
    { enough (X : forall done, ~ In (wire_name m) done -> In (wire_name m) (firsts (xml_names def) done ch)) by (apply X; intros []).
      clear -Ic Nc D F. induction ch as [|x ch IH]; [destruct Ic|]. intros done Nd. cbn [firsts]. destruct Ic as [->|Ic].
      - rewrite (proj2 (flat_tag_iff (xml_names def) c (wire_name m)) (conj Nc (ex_intro _ m (conj D F)))). destruct (in_dec text_eq_dec (wire_name m) done); [contradiction | now left].
      - destruct (flat_tag (xml_names def) x) as [t|]; [|now apply IH]. destruct (in_dec text_eq_dec t done); [now apply IH|].
        destruct (text_eq_dec t (wire_name m)) as [->|Q]; [now left|]. right. apply IH; [exact Ic | intros [|]; contradiction]. }
    set (xs := filter (has_tag (wire_name m)) ch). assert (Ix : In c xs) by (apply filter_In; split; [exact Ic | now apply has_tag_iff]).
    assert (Ib : In (wire_name m, flat_map revents (map annotate xs)) (flatten (snd kb))).
    { rewrite G. unfold flatten. rewrite map_map. apply in_map_iff. exists (wire_name m). split; [reflexivity | exact If]. }
    assert (Fx : forall r, read (S (S (S (S f)))) m (mkDe (flat_map revents (map annotate xs)) true None) <> Ok r).
    { assert (Nx : forall x, In x xs -> named (wire_name m) x) by (intros x Hx; apply filter_In in Hx as [_ Hx]; now apply has_tag_iff).
      destruct xs as [|x xs']; [destruct Ix|]. cbn [map flat_map]. unfold revents at 1. rewrite annotate_xml, events_start. intros r. rewrite read_S, K, F, read_items_S. cbn [stops rest bind].
      rewrite read_S. assert (St : forall union d2, read_struct (S f) union (shapes id) (mkDe (Start (root_node x) :: d2) true None) = Err XMLParseError).
      { intros union d2. rewrite read_struct_S. cbn [preconsumed]. unfold consume_start, pull at 1. cbn [preconsumed rest is_root bind fst snd]. unfold validate_element_name.
        pose proof (Nx x (or_introl eq_refl)) as Hn. unfold named in Hn. apply tag_name_iff in Hn. rewrite Hn. cbn [bind]. change (expected_root_name (shapes id)) with (shape_name (shapes id)).
        destruct (text_eqb (wire_name m) (shape_name (shapes id))) eqn:Q; [apply text_eqb_eq in Q; congruence | reflexivity]. }
      destruct Ki as [-> | ->]; rewrite St; discriminate. }
    destruct (replay _ _ _ _ _) as [kw'|] eqn:Rp; [exfalso; exact (replay_fails _ _ _ _ _ _ _ Ib D Fx _ _ Rp) | discriminate].
  Qed.
End Trees.
