(** Reading: each reader takes the events of its value and no more. *)
From Verif Require Import Base Base_Proofs Utf8_Model PyText_Model PyText_Proofs PySort_Model PyDict_Model PyDict_Proofs PyDecimal_Model Base64_Model Json_Model Json_Spec Json_Proofs.
Local Open Scope N_scope.

Section JsonInd.
  Variable P : json -> Prop.
  Hypothesis Hn : P JNull.
  Hypothesis Hb : forall b, P (JBool b).
  Hypothesis Hi : forall z, P (JNum z).
  Hypothesis Hs : forall s, P (JStr s).
  Hypothesis Hl : forall l, Forall P l -> P (JArr l).
  Hypothesis Hm : forall l, Forall (fun a => P (snd a)) l -> P (JObj l).
  Fixpoint json_ind' (p : json) : P p :=
    match p with
    | JNull => Hn | JBool b => Hb b | JNum z => Hi z | JStr s => Hs s
    | JArr l => Hl l ((fix go l : Forall P l := match l with [] => Forall_nil _ | x :: r => Forall_cons _ (json_ind' x) (go r) end) l)
    | JObj l => Hm l ((fix go l : Forall (fun a : text * json => P (snd a)) l :=
        match l with [] => Forall_nil _ | x :: r => Forall_cons _ (json_ind' (snd x)) (go r) end) l)
    end.
End JsonInd.

(** ** Paths *)
Lemma dotted_longer p q : p <> [] -> q <> [] -> (List.length (dotted p) < List.length (dotted (p ++ q)))%nat.
Proof.
  unfold dotted. intros P Q. induction p as [|a p IH]; [now elim P|]. destruct p as [|b p].
  - cbn [app]. destruct q as [|c q]; [now elim Q|]. rewrite join_cons2, !app_length. cbn. lia.
  - change ((a :: b :: p) ++ q) with (a :: b :: (p ++ q)). rewrite !join_cons2, !app_length.
    assert (H := IH ltac:(discriminate)). change ((b :: p) ++ q) with (b :: p ++ q) in H. lia.
Qed.
Lemma dotted_ne p q : p <> [] -> q <> [] -> dotted p <> dotted (p ++ q).
Proof. intros P Q E. assert (L := dotted_longer p q P Q). rewrite <- E in L. lia. Qed.
Lemma dotted_first k q : k <> [] \/ q <> [] -> dotted (k :: q) <> [].
Proof.
  unfold dotted. destruct q as [|c q].
  - intros [H|H]; [exact H | now elim H].
  - intros _. rewrite join_cons2. intros E. apply app_eq_nil in E as [_ E]. discriminate E.
Qed.
Lemma dotted_nil k q : dotted (k :: q) = [] -> k = [] /\ q = [].
Proof.
  intros E. destruct k as [|c k].
  - destruct q as [|d q]; [auto|]. exfalso. revert E. apply dotted_first. right. discriminate.
  - exfalso. revert E. apply dotted_first. left. discriminate.
Qed.
Lemma events_paths v : forall path e, In e (events path v) -> exists ext, e_path e = dotted (path ++ ext).
Proof.
  induction v using json_ind'; intros path e I; cbn [events] in I.
  1-4: destruct I as [<-|[]]; exists []; now rewrite app_nil_r.
  - destruct I as [<-|I]; [exists []; now rewrite app_nil_r|]. apply in_app_or in I as [I|I].
    + apply in_flat_map in I as (x & Ix & I). rewrite Forall_forall in H. destruct (H x Ix _ _ I) as [ext E].
      exists (lit "item" :: ext). now rewrite E, <- app_assoc.
    + destruct I as [<-|[]]. exists []. now rewrite app_nil_r.
  - destruct I as [<-|I]; [exists []; now rewrite app_nil_r|]. apply in_app_or in I as [I|I].
    + apply in_flat_map in I as ([k x] & Ix & I). rewrite Forall_forall in H. destruct I as [<-|I]; [exists []; now rewrite app_nil_r|].
      destruct (H _ Ix _ _ I) as [ext E]. exists (k :: ext). now rewrite E, <- app_assoc.
    + destruct I as [<-|[]]. exists []. now rewrite app_nil_r.
Qed.
(** The events of a value start with its first token and, for a container, end
    with its last. *)
Definition head_tok (v : json) : token :=
  match v with
  | JNull => TkNull | JBool b => TkBool b | JNum n => num_token n | JStr s => TkStr s
  | JArr _ => TkStartArr | JObj _ => TkStartMap
  end.
Lemma events_head path v : exists r, events path v = mkEv (dotted path) (head_tok v) :: r.
Proof. destruct v; cbn [events head_tok]; eexists; reflexivity. Qed.
Definition inner (path : list text) (v : json) : list event :=
  match v with
  | JArr l => flat_map (events (path ++ [lit "item"])) l
  | JObj l => flat_map (fun kv : text * json => let (k, x) := kv in mkEv (dotted path) (TkKey k) :: events (path ++ [k]) x) l
  | _ => []
  end.
Definition end_tok (v : json) : token := match v with JArr _ => TkEndArr | _ => TkEndMap end.
Lemma events_container path v : is_start (head_tok v) = true ->
  events path v = mkEv (dotted path) (head_tok v) :: inner path v ++ [mkEv (dotted path) (end_tok v)].
Proof. destruct v; cbn [head_tok is_start events inner end_tok]; try discriminate; try reflexivity. unfold num_token. destruct (integral n); discriminate. Qed.
(** The last token of an object within stands out from the one that ends it. *)
Lemma ends_tok s e : ends s e = true -> e_path e = e_path s /\
  (e_tok s = TkStartMap /\ e_tok e = TkEndMap \/ e_tok s = TkStartArr /\ e_tok e = TkEndArr).
Proof.
  unfold ends. intros H. apply andb_true_iff in H as [P T]. apply text_eqb_eq in P. split; [exact P|].
  destruct (e_tok s); try discriminate T; destruct (e_tok e); try discriminate T; auto.
Qed.
(** Events at the very path of an object that is in an object of that path. *)
Lemma events_at_path v : forall path e, In e (events path v) -> e_tok e = TkEndMap -> path <> [] -> e_path e = dotted path -> exists l, v = JObj l.
Proof.
  intros path e I T P E. destruct v; cbn [events] in I.
  1-4: destruct I as [<-|[]]; cbn [e_tok] in T; try discriminate T; unfold num_token in T; destruct (integral n); discriminate T.
  - destruct I as [<-|I]; [discriminate T|]. apply in_app_or in I as [I|I].
    + apply in_flat_map in I as (x & Ix & I). apply events_paths in I as [ext X]. rewrite E in X.
      rewrite <- app_assoc in X. exfalso. exact (dotted_ne path ([lit "item"] ++ ext) P ltac:(discriminate) X).
    + destruct I as [<-|[]]. discriminate T.
  - eauto.
Qed.
Lemma inner_not_ends path v : is_start (head_tok v) = true -> clear_path path v ->
  Forall (fun e => ends (mkEv (dotted path) (head_tok v)) e = false) (inner path v).
Proof.
  intros S C. apply Forall_forall. intros e I. destruct (ends _ e) eqn:X; [exfalso|reflexivity].
  apply ends_tok in X as (P & T). cbn [e_path e_tok] in P, T.
  destruct v as [| | | |l|l]; cbn [head_tok inner] in *; try (now destruct I).
  - apply in_flat_map in I as (x & Ix & I). apply events_paths in I as [ext X]. rewrite P, <- app_assoc in X.
    destruct path as [|a path].
    + cbn [app] in X. symmetry in X. revert X. apply dotted_first. left. discriminate.
    + exact (dotted_ne (a :: path) ([lit "item"] ++ ext) ltac:(discriminate) ltac:(discriminate) X).
  - apply in_flat_map in I as ([k x] & Ix & I). destruct I as [<-|I]; [destruct T as [[_ T]|[_ T]]; discriminate T|].
    assert (I0 := I). apply events_paths in I as [ext X]. rewrite P, <- app_assoc in X.
    destruct path as [|a path].
    + cbn [app] in *. change (dotted []) with (@nil N) in X.
      destruct T as [[_ T]|[T _]]; [|discriminate T].
      symmetry in X. apply dotted_nil in X as [-> ->].
      destruct (events_at_path x [[]] e I0 T ltac:(discriminate)) as [l' ->].
      { rewrite P. reflexivity. }
      cbn [clear_path] in C. now apply (C [] l' Ix).
    + exact (dotted_ne (a :: path) ([k] ++ ext) ltac:(discriminate) ltac:(discriminate) X).
Qed.

(** ** Running readers *)
Definition looks {A} (r : R A) (e : event) (x : A) : Prop :=
  forall p rest, ahead p = e :: rest -> exists p', r p = Some (p', Ok x) /\ ahead p' = e :: rest /\ p_end p' = p_end p.
Lemma consumes_ret {A} (x : A) : consumes (ret x) [] x.
Proof. intros p rest H. exists p. auto. Qed.
Lemma consumes_bind {A B} (r : R A) (k : A -> R B) e1 e2 x y :
  consumes r e1 x -> consumes (k x) e2 y -> consumes (rbind r k) (e1 ++ e2) y.
Proof.
  intros H1 H2 p rest E. rewrite <- app_assoc in E. destruct (H1 p _ E) as (p1 & R1 & A1 & F1).
  destruct (H2 p1 rest A1) as (p2 & R2 & A2 & F2). exists p2. unfold rbind. rewrite R1. repeat split; congruence.
Qed.
Lemma consumes_look {A B} (r : R A) (k : A -> R B) e evs x y :
  looks r e x -> consumes (k x) (e :: evs) y -> consumes (rbind r k) (e :: evs) y.
Proof.
  intros H1 H2 p rest E. cbn [app] in E. destruct (H1 p _ E) as (p1 & R1 & A1 & F1).
  destruct (H2 p1 rest A1) as (p2 & R2 & A2 & F2). exists p2. unfold rbind. rewrite R1. repeat split; congruence.
Qed.
Lemma consumes_next e : consumes next [e] e.
Proof.
  intros p rest E. destruct p as [[x|] r f]; unfold ahead in E; cbn [p_pending p_rest app] in E.
  - injection E as -> ->. eexists. unfold next. cbn [p_pending p_rest p_end]. repeat split.
  - subst r. eexists. unfold next, next_raw. cbn [p_pending p_rest p_end]. repeat split.
Qed.
Lemma looks_peek e : looks peek e e.
Proof.
  intros p rest E. destruct p as [[x|] r f]; unfold ahead in E; cbn [p_pending p_rest app] in E.
  - injection E as -> ->. eexists. unfold peek. cbn [p_pending p_rest p_end]. repeat split.
  - subst r. eexists. unfold peek, next_raw. cbn [p_pending p_rest p_end]. repeat split.
Qed.
Lemma next_bind {B} (k : event -> R B) e evs y : consumes (k e) evs y -> consumes (rbind next k) (e :: evs) y.
Proof. intros H. apply (consumes_bind next k [e] evs e y); [apply consumes_next | exact H]. Qed.
Definition null_tok (t : token) : bool := match t with TkNull => true | _ => false end.
Lemma looks_is_null e : looks is_null e (null_tok (e_tok e)).
Proof.
  intros p rest E. destruct (looks_peek e p rest E) as (p' & R & A & F). exists p'. unfold is_null, rbind. rewrite R.
  unfold ret. split; [|auto]. do 3 f_equal.
Qed.

Lemma skip_loop_run start inn : forall fuel last, Forall (fun e => ends start e = false) inn -> ends start last = true ->
  (List.length inn < fuel)%nat -> consumes (skip_loop fuel start) (inn ++ [last]) tt.
Proof.
  induction inn as [|e inn IH]; intros fuel last F L N; (destruct fuel as [|f]; [cbn in N; lia|]); cbn [app skip_loop].
  - apply next_bind. rewrite L. apply consumes_ret.
  - inversion F as [|? ? Fe Fi]; subst. apply next_bind. rewrite Fe. apply IH; [exact Fi | exact L | cbn [List.length] in N; lia].
Qed.
Lemma end_ends path v : is_start (head_tok v) = true -> ends (mkEv (dotted path) (head_tok v)) (mkEv (dotted path) (end_tok v)) = true.
Proof.
  intros S. unfold ends. cbn [e_path e_tok]. rewrite text_eqb_refl.
  destruct v; cbn [head_tok is_start end_tok] in *; try discriminate; try reflexivity. unfold num_token in S. destruct (integral n); discriminate.
Qed.
Lemma events_scalar path v : is_start (head_tok v) = false -> events path v = [mkEv (dotted path) (head_tok v)].
Proof. destruct v; cbn [head_tok is_start]; intros H; try discriminate H; reflexivity. Qed.

Lemma skip_consumes path v fuel : clear_path path v -> (List.length (events path v) <= fuel)%nat -> consumes (skip fuel) (events path v) tt.
Proof.
  intros C L. destruct (is_start (head_tok v)) eqn:S.
  - rewrite (events_container _ _ S) in *. unfold skip. apply next_bind. cbn [e_tok]. rewrite S.
    apply skip_loop_run; [now apply inner_not_ends | now apply end_ends|].
    cbn [List.length] in L. rewrite app_length in L. cbn [List.length] in L. lia.
  - rewrite (events_scalar _ _ S). unfold skip. apply next_bind. cbn [e_tok]. rewrite S. apply consumes_ret.
Qed.

(** ** Documents *)
Definition builds (evs : list event) (b : builder) : builder := fold_left (fun b e => build (e_tok e) b) evs b.
Lemma builds_app a c b : builds (a ++ c) b = builds c (builds a b).
Proof. unfold builds. apply fold_left_app. Qed.
Definition ready (b : builder) : Prop := True.
Lemma builds_arr l path : Forall (fun v => forall path b, builds (events path v) b = add (to_plain v) b) l ->
  forall r o acc, builds (flat_map (events path) l) (mkBuilder (FArr acc :: r) o) = mkBuilder (FArr (acc ++ map to_plain l) :: r) o.
Proof.
  induction 1 as [|v l Hv _ IH]; intros r o acc; cbn [flat_map map].
  - cbn. now rewrite app_nil_r.
  - rewrite builds_app, Hv. unfold add. cbn [b_open b_value put]. rewrite IH, <- app_assoc. reflexivity.
Qed.
Lemma builds_obj l path : Forall (fun a : text * json => forall path b, builds (events path (snd a)) b = add (to_plain (snd a)) b) l ->
  forall r o acc k0, exists k1, builds (flat_map (fun kv : text * json => let (k, x) := kv in mkEv (dotted path) (TkKey k) :: events (path ++ [k]) x) l) (mkBuilder (FMap acc k0 :: r) o)
   = mkBuilder (FMap (fold_left (fun d (kv : text * json) => let (k, x) := kv in dict_set k (to_plain x) d) l acc) k1 :: r) o.
Proof.
  induction 1 as [|[k v] l Hv _ IH]; intros r o acc k0; cbn [flat_map fold_left].
  - now exists k0.
  - rewrite builds_app. cbn [snd] in Hv.
    change (builds (mkEv (dotted path) (TkKey k) :: events (path ++ [k]) v) (mkBuilder (FMap acc k0 :: r) o))
      with (builds (events (path ++ [k]) v) (mkBuilder (FMap acc k :: r) o)).
    rewrite Hv. unfold add. cbn [b_open b_value put]. apply IH.
Qed.
Lemma builds_value v : forall path b, builds (events path v) b = add (to_plain v) b.
Proof.
  induction v using json_ind'; intros path b0.
  1,2,4: reflexivity.
  - cbn [events to_plain]. unfold builds. cbn [fold_left e_tok]. unfold num_token. destruct (integral z); reflexivity.
  - cbn [events]. change (builds (?x :: ?y) b0) with (builds y (build (e_tok x) b0)). rewrite builds_app. cbn [e_tok build].
    rewrite builds_arr by exact H. cbn [app]. destruct b0 as [o v0]. reflexivity.
  - cbn [events]. change (builds (?x :: ?y) b0) with (builds y (build (e_tok x) b0)). rewrite builds_app. cbn [e_tok build].
    destruct (builds_obj l path H (b_open b0) (b_value b0) [] []) as [k1 E]. rewrite E. destruct b0 as [o v0]. reflexivity.
Qed.
Lemma document_loop_run start inn : forall fuel last b v, Forall (fun e => ends start e = false) inn -> ends start last = true ->
  (List.length inn < fuel)%nat -> built (builds inn b) = Some v -> consumes (document_loop fuel start b) (inn ++ [last]) v.
Proof.
  induction inn as [|e inn IH]; intros fuel last b v F L N B; (destruct fuel as [|f]; [cbn in N; lia|]); cbn [app document_loop].
  - apply next_bind. rewrite L. cbn in B. rewrite B. apply consumes_ret.
  - inversion F as [|? ? Fe Fi]; subst. apply next_bind. rewrite Fe. apply IH; [exact Fi | exact L | cbn [List.length] in N; lia | exact B].
Qed.
Lemma document_consumes path v fuel : clear_path path v -> (List.length (events path v) <= fuel)%nat ->
  consumes (read_document fuel) (events path v) (to_plain v).
Proof.
  intros C L. destruct (is_start (head_tok v)) eqn:S.
  - assert (X := inner_not_ends path v S C). assert (Y := end_ends path v S).
    rewrite (events_container _ _ S) in *. unfold read_document. apply next_bind. cbn [e_tok].
    cbn [List.length] in L. rewrite app_length in L. cbn [List.length] in L.
    destruct v as [| |n| |l|l]; cbn [head_tok] in *; try discriminate S.
    + unfold num_token in S. destruct (integral n); discriminate S.
    + apply document_loop_run; [exact X | exact Y | lia |].
      cbn [inner build b_open b_value]. rewrite builds_arr; [reflexivity|]. apply Forall_forall. intros v _. apply builds_value.
    + apply document_loop_run; [exact X | exact Y | lia |].
      cbn [inner build b_open b_value].
      destruct (builds_obj l path) with (r := @nil frame) (o := @None plain) (acc := @nil (text * plain)) (k0 := @nil N) as [k1 E].
      { apply Forall_forall. intros v _. apply builds_value. }
      rewrite E. reflexivity.
  - rewrite (events_scalar _ _ S). unfold read_document. apply next_bind. cbn [e_tok].
    destruct v as [| |n| |l|l]; cbn [head_tok to_plain] in *; try discriminate S; try apply consumes_ret.
    unfold num_token. destruct (integral n); apply consumes_ret.
Qed.

(** ** Members *)
Definition jname (m : member) : text := match m_json m with Some j => j | None => m_name m end.
Lemma names_other ms : forall d k, (forall m, In m ms -> jname m <> k) ->
  dict_get k (fold_left (fun d m => dict_set (jname m) (m_name m) d) ms d) = dict_get k d.
Proof.
  induction ms as [|m ms IH]; intros d k H; cbn [fold_left]; [reflexivity|].
  rewrite IH by (intros x I; apply H; now right). apply dict_get_set_ne. intros E. now apply (H m (in_eq _ _)).
Qed.
Lemma names_found ms : forall d k n, (exists m, In m ms /\ jname m = k) -> (forall m, In m ms -> jname m = k -> m_name m = n) ->
  dict_get k (fold_left (fun d m => dict_set (jname m) (m_name m) d) ms d) = Some n.
Proof.
  induction ms as [|m ms IH]; intros d k n (m0 & I0 & J0) U; [destruct I0|]. cbn [fold_left].
  destruct (Exists_dec (fun m => jname m = k) ms) as [X|X].
  { intros x. apply text_eq_dec. }
  - apply Exists_exists in X as (m1 & I1 & J1). apply IH; [eauto|]. intros x Ix. apply U. now right.
  - rewrite names_other.
    + destruct I0 as [->|I0].
      * rewrite J0, dict_get_set_eq. f_equal. apply U; [now left | exact J0].
      * elim X. apply Exists_exists. eauto.
    + intros x Ix E. apply X. apply Exists_exists. eauto.
Qed.
Lemma find_member_unique ms m : In m ms -> (forall m', In m' ms -> m_name m' = m_name m -> m' = m) -> find_member (m_name m) ms = Some m.
Proof.
  intros I U. destruct (find_member (m_name m) ms) as [m'|] eqn:F.
  - apply find_member_In in F as [A B]. f_equal. now apply U.
  - now elim (find_member_None _ _ _ F I).
Qed.
Lemma resolve_some st ms k m : distinct st ms -> In m ms -> on_wire st m k -> resolve_member st ms k = Some m.
Proof.
  intros [D1 D2] I W. unfold resolve_member.
  assert (F : find_member (m_name m) ms = Some m) by (apply find_member_unique; auto).
  destruct (use_json_name st) eqn:J.
  - unfold json_names. change (fun d m0 => dict_set match m_json m0 with Some j => j | None => m_name m0 end (m_name m0) d)
      with (fun d m0 => dict_set (jname m0) (m_name m0) d).
    assert (WJ : forall x, jname x = k -> on_wire st x k).
    { intros x E. unfold on_wire, jname in *. rewrite J. destruct (m_json x); auto. }
    rewrite (names_found _ _ _ (m_name m)); [exact F| |].
    + exists m. split; [exact I|]. unfold on_wire in W. rewrite J in W. unfold jname. destruct (m_json m); auto.
    + intros x Ix E. f_equal. apply (D2 x m k); auto.
  - assert (E : k = m_name m). { unfold on_wire in W. rewrite J in W. destruct (m_json m); exact W. }
    subst k. exact F.
Qed.
Lemma resolve_none st ms k : (forall m, In m ms -> ~ on_wire st m k) -> resolve_member st ms k = None.
Proof.
  intros H. unfold resolve_member. destruct (use_json_name st) eqn:J.
  - unfold json_names. change (fun d m0 => dict_set match m_json m0 with Some j => j | None => m_name m0 end (m_name m0) d)
      with (fun d m0 => dict_set (jname m0) (m_name m0) d).
    rewrite names_other; [reflexivity|]. intros m I E. apply (H m I). unfold on_wire, jname in *. rewrite J. destruct (m_json m); auto.
  - destruct (find_member k ms) as [m|] eqn:F; [|reflexivity]. apply find_member_In in F as [I E]. elim (H m I).
    unfold on_wire. rewrite J. destruct (m_json m); auto.
Qed.

(** ** Loops *)
Lemma consumes_text e s : e_tok e = TkStr s \/ e_tok e = TkKey s -> consumes read_text [e] s.
Proof. intros H. unfold read_text. apply next_bind. destruct H as [-> | ->]; apply consumes_ret. Qed.
Lemma consumes_read_null path : consumes read_null [mkEv path TkNull] tt.
Proof. unfold read_null. apply next_bind. apply consumes_ret. Qed.
Lemma null_tok_head j : null_tok (head_tok j) = true <-> j = JNull.
Proof. destruct j; cbn [head_tok null_tok]; try (split; [discriminate | discriminate]); [tauto|]. unfold num_token. destruct (integral n); split; discriminate. Qed.
Lemma start_list_length {B} (f : B -> list event) x l : (List.length (f x) <= List.length (flat_map f (x :: l)))%nat.
Proof. cbn [flat_map]. rewrite app_length. lia. Qed.
Definition pair_events (path : list text) (kv : text * json) : list event :=
  let (k, x) := kv in mkEv (dotted path) (TkKey k) :: events (path ++ [k]) x.
Lemma clear_below path k j : clear_path (path ++ [k]) j.
Proof. destruct path; exact I. Qed.

Section Struct.
  Context {A : Type}.
  Variable st : settings.
  Variable env : N -> node.
  Variable ms : list member.
  Variable consumer : member -> A -> R A.
  Variable upd : member -> json -> A -> A -> Prop.
  Variable path : list text.
  Definition doc_member (m : member) : Prop := env (m_target m) = NDoc.
  Lemma is_document_iff m : is_document env m = true <-> doc_member m.
  Proof. unfold is_document, doc_member. destruct (env (m_target m)); split; congruence. Qed.

  Lemma struct_loop_run l : distinct st ms -> forall fuel acc acc',
    (forall k j m acc acc1, In (k, j) l -> In m ms -> on_wire st m k -> j <> JNull \/ doc_member m -> upd m j acc acc1 ->
       consumes (consumer m acc) (events (path ++ [k]) j) acc1) ->
    struct_reads st doc_member ms upd l acc acc' ->
    (List.length (flat_map (pair_events path) l) < fuel)%nat ->
    consumes (struct_loop st env fuel ms consumer acc) (flat_map (pair_events path) l ++ [mkEv (dotted path) TkEndMap]) acc'.
  Proof.
    intros D fuel acc acc' C S. revert fuel. induction S as [acc | k j l acc acc' U S IH | k m l acc acc' I W ND S IH | k j m l acc acc1 acc' I W Q X1 S IH]; intros fuel L;
      (destruct fuel as [|f]; [lia|]); cbn [flat_map] in *.
    - cbn [app struct_loop]. eapply consumes_look; [apply looks_peek|]. cbn [e_tok]. apply next_bind. apply consumes_ret.
    - rewrite app_length in L. cbn [pair_events app List.length struct_loop] in *. eapply consumes_look; [apply looks_peek|]. cbn [e_tok].
      apply (consumes_bind read_text _ [mkEv (dotted path) (TkKey k)] _ k); [apply consumes_text; now right|].
      rewrite (resolve_none _ _ _ U). rewrite <- app_assoc. apply (consumes_bind (skip f) _ _ _ tt).
      + apply skip_consumes; [apply clear_below | lia].
      + apply IH; [|lia]. intros; eapply C; eauto. now right.
    - rewrite app_length in L. cbn [pair_events app List.length struct_loop] in *. eapply consumes_look; [apply looks_peek|]. cbn [e_tok].
      apply (consumes_bind read_text _ [mkEv (dotted path) (TkKey k)] _ k); [apply consumes_text; now right|].
      rewrite (resolve_some _ _ _ _ D I W). cbn [events app]. eapply consumes_look; [apply looks_is_null|]. cbn [e_tok null_tok andb].
      destruct (is_document env m) eqn:X; [elim ND; now apply is_document_iff|]. cbn [negb].
      apply (consumes_bind read_null _ [mkEv (dotted (path ++ [k])) TkNull] _ tt); [apply consumes_read_null|].
      apply IH; [|lia]. intros; eapply C; eauto. now right.
    - rewrite app_length in L. cbn [pair_events app List.length struct_loop] in *. eapply consumes_look; [apply looks_peek|]. cbn [e_tok].
      apply (consumes_bind read_text _ [mkEv (dotted path) (TkKey k)] _ k); [apply consumes_text; now right|].
      rewrite (resolve_some _ _ _ _ D I W). rewrite <- app_assoc.
      assert (Cm := C k j m acc acc1 (in_eq _ _) I W Q X1).
      destruct (events_head (path ++ [k]) j) as [r E]. rewrite E in *. cbn [app].
      eapply consumes_look; [apply looks_is_null|]. cbn [e_tok].
      replace (null_tok (head_tok j) && negb (is_document env m)) with false.
      + apply (consumes_bind (consumer m acc) _ (mkEv (dotted (path ++ [k])) (head_tok j) :: r) _ acc1); [exact Cm|].
        apply IH; [|lia]. intros; eapply C; eauto. now right.
      + symmetry. apply andb_false_iff. destruct Q as [Q|Q].
        * left. destruct (null_tok (head_tok j)) eqn:X; [|reflexivity]. now apply null_tok_head in X.
        * right. apply is_document_iff in Q. now rewrite Q.
  Qed.
  Lemma struct_consumes l fuel acc acc' : distinct st ms ->
    (forall k j m acc acc1, In (k, j) l -> In m ms -> on_wire st m k -> j <> JNull \/ doc_member m -> upd m j acc acc1 ->
       consumes (consumer m acc) (events (path ++ [k]) j) acc1) ->
    struct_reads st doc_member ms upd l acc acc' ->
    (List.length (events path (JObj l)) <= fuel)%nat ->
    consumes (read_struct st env fuel ms consumer acc) (events path (JObj l)) acc'.
  Proof.
    intros D C S L. cbn [events] in *. cbn [List.length] in L. rewrite app_length in L. cbn [List.length] in L.
    unfold read_struct. apply next_bind. cbn [e_tok]. apply struct_loop_run; auto.
    change (flat_map (pair_events path) l) with (flat_map (fun kv : text * json => let (k, x) := kv in mkEv (dotted path) (TkKey k) :: events (path ++ [k]) x) l). lia.
  Qed.
End Struct.

Section Lists.
  Context {A : Type}.
  Variable path : list text.
  Lemma list_consumes (consumer : A -> R A) (upd : json -> A -> A -> Prop) l fuel acc acc' :
    (forall j acc acc1, In j l -> upd j acc acc1 -> consumes (consumer acc) (events (path ++ [lit "item"]) j) acc1) ->
    in_turn upd l acc acc' ->
    (List.length (events path (JArr l)) <= fuel)%nat ->
    consumes (read_list fuel consumer acc) (events path (JArr l)) acc'.
  Proof.
    intros C T L. cbn [events] in *. cbn [List.length] in L. rewrite app_length in L. cbn [List.length] in L.
    unfold read_list. apply next_bind. cbn [e_tok].
    assert (L' : (List.length (flat_map (events (path ++ [lit "item"])) l) < fuel)%nat) by lia. clear L. revert fuel L'.
    induction T as [acc|j l acc acc1 acc' U T IH]; intros fuel L; (destruct fuel as [|f]; [lia|]); cbn [flat_map] in *.
    - cbn [app list_loop]. eapply consumes_look; [apply looks_peek|]. cbn [e_tok]. apply next_bind. apply consumes_ret.
    - rewrite app_length in L. assert (Cj := C j acc acc1 (in_eq _ _) U).
      destruct (events_head (path ++ [lit "item"]) j) as [r E]. rewrite E in *. cbn [app list_loop]. cbn [List.length] in L.
      eapply consumes_look; [apply looks_peek|]. cbn [e_tok].
      assert (G : consumes (rbind (consumer acc) (fun acc' => list_loop f consumer acc'))
        (mkEv (dotted (path ++ [lit "item"])) (head_tok j) :: (r ++ flat_map (events (path ++ [lit "item"])) l) ++ [mkEv (dotted path) TkEndArr])
        acc').
      { rewrite <- app_assoc.
        apply (consumes_bind (consumer acc) _ (mkEv (dotted (path ++ [lit "item"])) (head_tok j) :: r) _ acc1); [exact Cj|].
        apply IH; [|lia]. intros; eapply C; [now right | eassumption]. }
      assert (T0 : head_tok j <> TkEndArr). { destruct j; cbn [head_tok]; try discriminate. unfold num_token. destruct (integral n); discriminate. }
      destruct (head_tok j); try exact G. now elim T0.
  Qed.
  Lemma map_consumes (consumer : text -> A -> R A) (upd : text * json -> A -> A -> Prop) l fuel acc acc' :
    (forall k j acc acc1, In (k, j) l -> upd (k, j) acc acc1 -> consumes (consumer k acc) (events (path ++ [k]) j) acc1) ->
    in_turn upd l acc acc' ->
    (List.length (events path (JObj l)) <= fuel)%nat ->
    consumes (read_map fuel consumer acc) (events path (JObj l)) acc'.
  Proof.
    intros C T L. cbn [events] in *. cbn [List.length] in L. rewrite app_length in L. cbn [List.length] in L.
    unfold read_map. apply next_bind. cbn [e_tok].
    change (fun kv : text * json => let (k, x) := kv in mkEv (dotted path) (TkKey k) :: events (path ++ [k]) x) with (pair_events path) in *.
    assert (L' : (List.length (flat_map (pair_events path) l) < fuel)%nat) by lia. clear L. revert fuel L'.
    induction T as [acc|[k j] l acc acc1 acc' U T IH]; intros fuel L; (destruct fuel as [|f]; [lia|]); cbn [flat_map] in *.
    - cbn [app map_loop]. eapply consumes_look; [apply looks_peek|]. cbn [e_tok]. apply next_bind. apply consumes_ret.
    - rewrite app_length in L. assert (Cj := C k j acc acc1 (in_eq _ _) U). cbn [pair_events app List.length map_loop fst snd] in *.
      eapply consumes_look; [apply looks_peek|]. cbn [e_tok].
      apply (consumes_bind read_text _ [mkEv (dotted path) (TkKey k)] _ k); [apply consumes_text; now right|].
      rewrite <- app_assoc. apply (consumes_bind (consumer k acc) _ _ _ acc1); [exact Cj|].
      apply IH; [|lia]. intros; eapply C; [now right | eassumption].
  Qed.
End Lists.
