(** Proofs about traits. *)
From Verif Require Import Base PyText_Model PyText_Proofs PyDict_Model PyDict_Proofs Base_Proofs Traits_Model Traits_Spec.
Open Scope N_scope.

Lemma dict_get_at {A} k (m : list (text * A)) v :
  dict_get k m = Some v <-> exists before after, m = before ++ (k, v) :: after /\ ~ In k (map fst before).
Proof.
  split.
  - induction m as [|[k1 v1] m IH]; cbn; [discriminate|].
    destruct (text_eqb k k1) eqn:E.
    + apply text_eqb_eq in E; subst k1. intros [= ->]. exists [], m. split; [reflexivity | intros []].
    + intros H. destruct (IH H) as (b & a & -> & N1). exists ((k1, v1) :: b), a. split; [reflexivity|].
      intros [E1|I]; [cbn in E1; subst k1; rewrite text_eqb_refl in E; discriminate | exact (N1 I)].
  - intros (b & a & -> & N1). induction b as [|[k1 v1] b IH]; cbn; [now rewrite text_eqb_refl|].
    destruct (text_eqb k k1) eqn:E; [apply text_eqb_eq in E; subst; destruct N1; now left|].
    apply IH. intros I. apply N1. now right.
Qed.
Lemma dict_get_no {A} k (m : list (text * A)) : dict_get k m = None <-> ~ In k (map fst m).
Proof.
  induction m as [|[k1 v1] m IH]; cbn; [split; [intros _ [] | reflexivity]|].
  destruct (text_eqb k k1) eqn:E.
  - apply text_eqb_eq in E; subst. split; [discriminate | intros H; destruct H; now left].
  - rewrite IH. split; [|tauto]. intros H [E1|I]; [subst; now rewrite text_eqb_refl in E | exact (H I)].
Qed.

Lemma at_map m k v : at_key (DMap m) k v <-> dict_get k m = Some v.
Proof.
  rewrite dict_get_at. split; intros (b & a & E & N1); exists b, a; split; auto; [now injection E | now rewrite E].
Qed.
Lemma no_map m k : no_key (DMap m) k <-> dict_get k m = None.
Proof. rewrite dict_get_no. split; [intros (m1 & [= ->] & N1); exact N1 | intros N1; now exists m]. Qed.

Lemma at_inv d k v : at_key d k v <-> exists m, d = DMap m /\ dict_get k m = Some v.
Proof.
  split.
  - intros H. pose proof H as (b & a & -> & _). eexists. split; [reflexivity|]. now apply at_map.
  - intros (m & -> & E). now apply at_map.
Qed.
Lemma no_inv d k : no_key d k <-> exists m, d = DMap m /\ dict_get k m = None.
Proof.
  split.
  - intros H. pose proof H as (m & -> & _). eexists. split; [reflexivity|]. now apply no_map.
  - intros (m & -> & E). now apply no_map.
Qed.

Lemma subscript_iff d k v : subscript d k = Ok v <-> at_key d k v.
Proof.
  rewrite at_inv. split.
  - destruct d; cbn; try discriminate. destruct (dict_get k m) eqn:E; [|discriminate]. intros [= ->]. now exists m.
  - intros (m & -> & E). cbn. now rewrite E.
Qed.
Lemma get_iff d k dflt v : get d k dflt = Ok v <-> at_key d k v \/ (no_key d k /\ v = dflt).
Proof.
  rewrite at_inv, no_inv. split.
  - destruct d; cbn; try discriminate. destruct (dict_get k m) eqn:E; intros [= <-]; [left; now exists m | right; split; [now exists m | reflexivity]].
  - intros [(m & -> & E) | ((m & -> & E) & ->)]; cbn; now rewrite E.
Qed.

Lemma elements_iff d l : elements d = Ok l <-> holds d l.
Proof.
  split.
  - destruct d; cbn; try discriminate; intros [= <-]; constructor.
  - intros []; reflexivity.
Qed.
Lemma truthy_iff d : truthy d = false <-> empty d.
Proof.
  split.
  - destruct d as [|b|z|b| |t|b|l|m]; cbn; try discriminate; try (constructor).
    + destruct b; [discriminate | constructor].
    + destruct (Z.eqb_spec z 0); [subst; constructor | discriminate].
    + destruct b; [constructor | discriminate].
    + destruct t; [constructor | discriminate].
    + destruct b; [constructor | discriminate].
    + destruct l; [constructor | discriminate].
    + destruct m; [constructor | discriminate].
  - now intros [].
Qed.
Lemma truthy_true d : truthy d = true <-> ~ empty d.
Proof. rewrite <- truthy_iff. destruct (truthy d); split; try discriminate; try reflexivity; try tauto. Qed.
Lemma texts_iff l : forallb is_str l = true <-> texts l.
Proof.
  unfold texts. rewrite forallb_forall, Forall_forall. split; intros H x I; specialize (H x I).
  - destruct x; try discriminate. now eexists.
  - now destruct H as (t & ->).
Qed.
Lemma text_of_iff d t : text_of d = Ok t <-> d = DStr t.
Proof. split; [destruct d; cbn; try discriminate; now intros [= ->] | now intros ->]. Qed.
Lemma is_str_iff d : is_str d = true <-> exists t, d = DStr t.
Proof. split; [destruct d; try discriminate; now eexists | now intros (t & ->)]. Qed.
Lemma is_int_iff d : is_int d = true <-> whole d.
Proof.
  unfold whole. split; [destruct d; try discriminate; intros _; [right | left]; now eexists | now intros [(z & ->)|(z & ->)]].
Qed.
Lemma check_iff b u : check b = Ok u <-> b = true.
Proof. destruct b, u; cbn; split; congruence. Qed.

Lemma format_iff t f : format_of t = Ok f <->
  (t = lit "date-time" /\ f = DateTime) \/ (t = lit "http-date" /\ f = HttpDate) \/ (t = lit "epoch-seconds" /\ f = EpochSeconds).
Proof.
  unfold format_of. split.
  - destruct (text_eqb t (lit "date-time")) eqn:E1; [apply text_eqb_eq in E1; intros [= <-]; auto|].
    destruct (text_eqb t (lit "http-date")) eqn:E2; [apply text_eqb_eq in E2; intros [= <-]; auto|].
    destruct (text_eqb t (lit "epoch-seconds")) eqn:E3; [apply text_eqb_eq in E3; intros [= <-]; auto | discriminate].
  - intros [(-> & ->)|[(-> & ->)|(-> & ->)]]; reflexivity.
Qed.
Lemma fault_iff t f : fault_of t = Ok f <-> (t = lit "client" /\ f = Client) \/ (t = lit "server" /\ f = Server).
Proof.
  unfold fault_of. split.
  - destruct (text_eqb t (lit "client")) eqn:E1; [apply text_eqb_eq in E1; intros [= <-]; auto|].
    destruct (text_eqb t (lit "server")) eqn:E2; [apply text_eqb_eq in E2; intros [= <-]; auto | discriminate].
  - intros [(-> & ->)|(-> & ->)]; reflexivity.
Qed.
Lemma location_iff t l : location_of t = Ok l <-> (t = lit "header" /\ l = Header) \/ (t = lit "query" /\ l = Query).
Proof.
  unfold location_of. split.
  - destruct (text_eqb t (lit "header")) eqn:E1; [apply text_eqb_eq in E1; intros [= <-]; auto|].
    destruct (text_eqb t (lit "query")) eqn:E2; [apply text_eqb_eq in E2; intros [= <-]; auto | discriminate].
  - intros [(-> & ->)|(-> & ->)]; reflexivity.
Qed.

Lemma bind_iff {A B} (r : result A) (k : A -> result B) b : bind r k = Ok b <-> exists a, r = Ok a /\ k a = Ok b.
Proof. destruct r; cbn; split; [now exists a | now intros (x & [= ->] & E) | discriminate | now intros (x & [=] & _)]. Qed.

Lemma ok_eq {A} (a b : A) : Ok a = Ok b -> a = b.
Proof. congruence. Qed.

Lemma at_functional d k v w : at_key d k v -> at_key d k w -> v = w.
Proof. rewrite <- !subscript_iff. congruence. Qed.
Lemma at_no d k v : at_key d k v -> no_key d k -> False.
Proof. rewrite at_inv, no_inv. intros (m & -> & E) (m1 & [= ->] & E1). congruence. Qed.
Lemma at_or_no d k w : at_key d k w -> forall k1, (exists v, at_key d k1 v) \/ no_key d k1.
Proof.
  rewrite at_inv. intros (m & -> & _) k1. destruct (dict_get k1 m) eqn:E; [left; eexists; apply at_map; eauto | right; now apply no_map].
Qed.
Lemma cut_cases u : (exists p q, u = p ++ 63 :: q /\ ~ In 63 p /\ cut_at 63 u = (p, Some q)) \/ (~ In 63 u /\ cut_at 63 u = (u, None)).
Proof.
  induction u as [|x u IH]; [right; now split|].
  destruct (N.eqb_spec x 63) as [->|Ne].
  - left. exists [], u. split; [reflexivity|]. split; [intros []|reflexivity].
  - destruct IH as [(p & q & -> & N1 & E) | (N1 & E)].
    + left. exists (x :: p), q. split; [reflexivity|]. split; [intros [?|?]; [congruence | auto]|].
      cbn [cut_at]. rewrite (proj2 (N.eqb_neq x 63) Ne). now rewrite E.
    + right. split; [intros [?|?]; [congruence | auto]|]. cbn [cut_at]. rewrite (proj2 (N.eqb_neq x 63) Ne). now rewrite E.
Qed.

(** What each constructor gives. *)
Definition arg_doc (v : arg) : doc := match v with ADoc d | ADyn _ d => d end.
Lemma base_iff c v d : base_init c v = Ok d <-> d = arg_doc v /\ match v with ADyn i _ => i = class_id c | ADoc _ => True end.
Proof.
  destruct v as [x|i x]; cbn; [split; [intros [= ->]; auto | intros (-> & _); reflexivity]|].
  destruct (text_eqb i (class_id c)) eqn:E.
  - apply text_eqb_eq in E. split; [intros [= ->]; auto | intros (-> & _); reflexivity].
  - split; [discriminate|]. intros (_ & ->). now rewrite text_eqb_refl in E.
Qed.

Lemma empty_not_at d k v : empty d -> ~ at_key d k v.
Proof. intros E A. apply at_inv in A as (m & -> & G). inversion E; subst. discriminate. Qed.

Lemma versions_iff d h :
  ((~ empty d /\ (exists v, (at_key d (lit "http") v \/ (no_key d (lit "http") /\ v = DList [DStr (lit "http/1.1")])) /\ holds v h /\ texts h)) \/
   (empty d /\ h = [DStr (lit "http/1.1")])) <-> versions d h.
Proof.
  assert (T : texts [DStr (lit "http/1.1")]) by (constructor; [now eexists | constructor]).
  split.
  - intros [(Ne & v & [A|(N1 & ->)] & H & Tx) | (Em & ->)].
    + now apply (versions_given d v).
    + inversion H; subst. now apply versions_absent.
    + now apply versions_empty.
  - intros [d1 v l A H Tx | d1 N1 | d1 Em].
    + left. split; [intros E; exact (empty_not_at _ _ _ E A)|]. exists v. auto.
    + apply no_inv in N1 as (m & -> & G). destruct m as [|e m].
      * right. split; [constructor | reflexivity].
      * left. split; [intros E; inversion E|]. eexists. split; [right; split; [now apply no_map | reflexivity]|].
        split; [constructor | exact T].
    + right. now split.
Qed.
Lemma empty_dec d : empty d \/ ~ empty d.
Proof. rewrite <- truthy_iff. destruct (truthy d); [right; discriminate | now left]. Qed.

Lemma versions_functional d h h1 : versions d h -> versions d h1 -> h = h1.
Proof.
  rewrite <- !versions_iff. intros [(Ne & v & A & H & Tx) | (Em & ->)] [(Ne1 & v1 & A1 & H1 & Tx1) | (Em1 & ->)]; try tauto.
  assert (v = v1) as <-.
  { destruct A as [A|(N1 & ->)], A1 as [A1|(N2 & ->)]; auto; [now apply (at_functional d (lit "http")) | destruct (at_no _ _ _ A N2) | destruct (at_no _ _ _ A1 N1)]. }
  apply elements_iff in H. apply elements_iff in H1. congruence.
Qed.
Lemma versions_texts d h : versions d h -> texts h.
Proof. intros []; auto; (constructor; [now eexists | constructor]). Qed.

Lemma events_iff d h e :
  versions d h ->
  ((~ empty d /\ exists v, (at_key d (lit "eventStreamHttp") v \/ (no_key d (lit "eventStreamHttp") /\ v = DNull)) /\
      ((empty v /\ e = h) \/ (~ empty v /\ holds v e /\ texts e))) \/ (empty d /\ e = h)) <-> event_versions d e.
Proof.
  intros V. split.
  - intros [(Ne & v & [A|(N1 & ->)] & [(Em & ->)|(Nv & H & Tx)]) | (Em & ->)].
    + now apply (events_nothing d v).
    + now apply (events_given d v).
    + now apply events_absent.
    + destruct Nv. constructor.
    + now apply events_empty.
  - intros W. revert V. destruct W as [d1 v l A Nv H Tx | d1 v l A Em V1 | d1 l N1 V1 | d1 l Em V1]; intros V.
    + left. split; [intros E; exact (empty_not_at _ _ _ E A)|]. exists v. auto.
    + left. split; [intros E; exact (empty_not_at _ _ _ E A)|]. exists v. split; [auto|]. left. split; [exact Em|].
      exact (versions_functional _ _ _ V1 V).
    + destruct (empty_dec d1) as [E|Ne].
      * right. split; [exact E|]. exact (versions_functional _ _ _ V1 V).
      * left. split; [exact Ne|]. exists DNull. split; [auto|]. left. split; [constructor|]. exact (versions_functional _ _ _ V1 V).
    + right. split; [exact Em|]. exact (versions_functional _ _ _ V1 V).
Qed.

Ltac step H := let x := fresh "x" in let E := fresh "E" in apply bind_iff in H as (x & E & H); cbn beta in H.

Definition fits (c : cls) (v : arg) (d : doc) : Prop :=
  d = arg_doc v /\ match v with ADyn i _ => i = class_id c | ADoc _ => True end.

Lemma call_plain c v t : unchecked c -> call c v = Ok t <-> exists d, fits c v d /\ t = mkTrait c d FNone.
Proof.
  intros U. assert (E : call c v = bind (base_init c v) (fun d => Ok (mkTrait c d FNone))) by (destruct c; try destruct U; reflexivity).
  rewrite E, bind_iff. split; intros (d & H & H1); exists d.
  - apply base_iff in H. split; [exact H | congruence].
  - subst t. split; [now apply base_iff | reflexivity].
Qed.

Lemma call_format v t : call CTimestampFormat v = Ok t <->
  exists s f, fits CTimestampFormat v (DStr s) /\ format_of s = Ok f /\ t = mkTrait CTimestampFormat (DStr s) (FFormat f).
Proof.
  cbn [call]. split.
  - intros H. step H. step H. step H. apply base_iff in E. apply text_of_iff in E0. subst x. exists x0, x1. split; [exact E|]. split; [exact E1 | congruence].
  - intros (s & f & B & F & ->). apply base_iff in B. rewrite B. cbn [bind text_of]. now rewrite F.
Qed.
Lemma call_error v t : call CError v = Ok t <->
  exists s f, fits CError v (DStr s) /\ fault_of s = Ok f /\ t = mkTrait CError (DStr s) (FFault f).
Proof.
  cbn [call]. split.
  - intros H. step H. step H. step H. apply base_iff in E. apply text_of_iff in E0. subst x. exists x0, x1. split; [exact E|]. split; [exact E1 | congruence].
  - intros (s & f & B & F & ->). apply base_iff in B. rewrite B. cbn [bind text_of]. now rewrite F.
Qed.
Lemma call_http v t : call CHTTP v = Ok t <->
  exists d m c u, fits CHTTP v d /\ at_key d (lit "method") (DStr m) /\
    (at_key d (lit "code") c \/ (no_key d (lit "code") /\ c = DInt 200)) /\ whole c /\ at_key d (lit "uri") (DStr u) /\
    t = mkTrait CHTTP d (FHttp (fst (cut_at 63 u)) c (snd (cut_at 63 u))).
Proof.
  cbn [call]. split.
  - intros H. step H. step H. step H. step H. step H. step H. step H. step H.
    apply base_iff in E. apply check_iff in E0. apply subscript_iff in E1. apply check_iff in E2. apply is_str_iff in E2 as (m & ->).
    apply get_iff in E3. apply check_iff in E4. apply is_int_iff in E4. apply subscript_iff in E5. apply text_of_iff in E6. subst x5.
    destruct (cut_at 63 x6) as [p q] eqn:C. injection H as <-. exists x, m, x3, x6. rewrite C. cbn [fst snd]. repeat (split; [assumption|]). reflexivity.
  - intros (d & m & c & u & B & M & C & W & U & ->). apply base_iff in B. rewrite B. cbn [bind].
    assert (I : is_map d = true) by (apply at_inv in M as (y & -> & _); reflexivity). rewrite I. cbn [check bind].
    apply subscript_iff in M. rewrite M. cbn [bind is_str check]. apply get_iff in C. rewrite C. cbn [bind].
    apply is_int_iff in W. rewrite W. cbn [check bind]. apply subscript_iff in U. rewrite U. cbn [bind text_of].
    now destruct (cut_at 63 u).
Qed.
Lemma call_api_key v t : call CHTTPAPIKeyAuth v = Ok t <->
  exists d i n s l, fits CHTTPAPIKeyAuth v d /\ at_key d (lit "in") (DStr i) /\ at_key d (lit "name") (DStr n) /\
    optional d (lit "scheme") s /\ (s = DNull \/ exists x, s = DStr x) /\ location_of i = Ok l /\ t = mkTrait CHTTPAPIKeyAuth d (FLocation l).
Proof.
  cbn [call]. split.
  - intros H. step H. step H. step H. step H. step H. step H. step H. step H. step H.
    apply base_iff in E. apply subscript_iff in E1. apply text_of_iff in E2. subst x1. apply subscript_iff in E3.
    apply check_iff in E4. apply is_str_iff in E4 as (n & ->). apply get_iff in E5. apply check_iff in E6.
    exists x, x2, n, x5, x7. repeat (split; [assumption|]). split; [|split; [exact E7 | congruence]].
    apply orb_prop in E6 as [K|K]; [right; now apply is_str_iff | left; now destruct x5].
  - intros (d & i & n & s & l & B & I & M & O & T & L & ->). apply base_iff in B. rewrite B. cbn [bind].
    assert (J : is_map d = true) by (apply at_inv in M as (y & -> & _); reflexivity). rewrite J. cbn [check bind].
    apply subscript_iff in I. rewrite I. cbn [bind text_of]. apply subscript_iff in M. rewrite M. cbn [bind is_str check].
    apply get_iff in O. rewrite O. cbn [bind].
    assert (K : is_str s || is_none s = true) by (destruct T as [->|(x & ->)]; reflexivity). rewrite K. cbn [check bind]. now rewrite L.
Qed.
Lemma call_rest_json v t : call CRestJson1 v = Ok t <->
  exists d h e, v = ADoc d /\ versions d h /\ event_versions d e /\ t = mkTrait CRestJson1 d (FVersions h e).
Proof.
  cbn [call]. split.
  - intros H. step H. step H. step H. step H. step H. step H. step H.
    destruct v as [d|i d]; [|discriminate]. injection E as <-. injection E0 as <-.
    apply check_iff in E1. apply get_iff in E2. apply elements_iff in E3. apply check_iff in E4. apply texts_iff in E4. apply get_iff in E5.
    destruct (truthy d) eqn:T.
    + apply truthy_true in T.
      assert (V : versions d x3) by (apply versions_iff; left; split; [exact T|]; exists x2; auto).
      destruct (negb (truthy x5)) eqn:T5.
      * apply negb_true_iff in T5. apply truthy_iff in T5. injection H as <-. exists d, x3, x3. split; [reflexivity|]. split; [exact V|]. split; [|reflexivity].
        apply (events_iff d x3 x3 V). left. split; [exact T|]. exists x5. auto.
      * apply negb_false_iff in T5. apply truthy_true in T5. step H. step H. apply elements_iff in E. apply check_iff in E0. apply texts_iff in E0.
        injection H as <-. exists d, x3, x. split; [reflexivity|]. split; [exact V|]. split; [|reflexivity].
        apply (events_iff d x3 x V). left. split; [exact T|]. exists x5. auto.
    + apply truthy_iff in T.
      assert (x2 = DList [DStr (lit "http/1.1")]) as -> by (destruct E2 as [A|(_ & ->)]; [apply at_map in A; discriminate | reflexivity]).
      assert (x5 = DNull) as -> by (destruct E5 as [A|(_ & ->)]; [apply at_map in A; discriminate | reflexivity]).
      assert (x3 = [DStr (lit "http/1.1")]) as -> by (inversion E3; reflexivity). cbn [truthy negb] in H.
      apply ok_eq in H. subst t.
      assert (V : versions d [DStr (lit "http/1.1")]) by now apply versions_empty.
      exists d, [DStr (lit "http/1.1")], [DStr (lit "http/1.1")].
      split; [reflexivity|]. split; [exact V|]. split; [now apply events_empty | reflexivity].
  - intros (d & h & e & -> & V & Ev & ->). cbn [base_init bind].
    pose proof (versions_texts _ _ V) as Tx. apply texts_iff in Tx. apply (events_iff d h e V) in Ev. apply versions_iff in V.
    destruct V as [(Ne & v & A & H & _) | (Em & ->)].
    + apply truthy_true in Ne. rewrite Ne. cbn [bind].
      assert (I : is_map d = true).
      { destruct A as [A|(A & _)]; [apply at_inv in A as (m & -> & _) | apply no_inv in A as (m & -> & _)]; reflexivity. }
      rewrite I. cbn [check bind]. apply get_iff in A. rewrite A. cbn [bind]. apply elements_iff in H. rewrite H. cbn [bind]. rewrite Tx. cbn [check bind].
      destruct Ev as [(_ & w & B & C) | (Em & _)]; [|apply truthy_iff in Em; congruence].
      apply get_iff in B. rewrite B. cbn [bind]. destruct C as [(Em & ->)|(Nw & Hw & Tw)].
      * apply truthy_iff in Em. now rewrite Em.
      * apply truthy_true in Nw. rewrite Nw. cbn [negb]. apply elements_iff in Hw. rewrite Hw. cbn [bind]. apply texts_iff in Tw. now rewrite Tw.
    + assert (e = [DStr (lit "http/1.1")]) as -> by (destruct Ev as [(Ne & _)|(_ & ->)]; [destruct (Ne Em) | reflexivity]).
      apply truthy_iff in Em. rewrite Em. reflexivity.
Qed.
Lemma call_aws_query v t : call CAwsQuery v = Ok t <-> v = ADoc DNull /\ t = mkTrait CAwsQuery DNull FNone.
Proof.
  cbn [call]. destruct v as [d|i d]; [|split; [discriminate | intros ([=] & _)]].
  rewrite bind_iff. split.
  - intros (u & C & [= <-]). apply check_iff in C. destruct d; try discriminate. auto.
  - intros ([= ->] & ->). exists tt. auto.
Qed.

(** A class is one of the six with a check of its own, or not. *)
Lemma checked_or_not c : unchecked c \/ In c [CTimestampFormat; CError; CHTTP; CHTTPAPIKeyAuth; CRestJson1; CAwsQuery].
Proof. destruct c; cbn; tauto. Qed.

Lemma fits_doc c d x : fits c (ADoc d) x <-> x = d.
Proof. unfold fits. cbn. tauto. Qed.

Lemma accepts_iff c d : (exists t, call c (ADoc d) = Ok t) <-> accepts c d.
Proof.
  destruct (checked_or_not c) as [U|I].
  - split; [intros _; now apply ok_other|]. intros _. exists (mkTrait c d FNone). apply call_plain; [exact U|]. exists d. split; [now apply fits_doc | reflexivity].
  - destruct I as [<-|[<-|[<-|[<-|[<-|[<-|[]]]]]]]; split.
    + intros (t & H). apply call_format in H as (s & f & F & E & _). apply fits_doc in F. subst d. constructor.
      apply format_iff in E. cbn. intuition.
    + intros H. inversion H as [t I| | | | | |c d1 U]; subst; [|destruct U].
      assert (exists f, format_of t = Ok f) as (f & E) by (destruct I as [<-|[<-|[<-|[]]]]; eexists; reflexivity).
      eexists. apply call_format. exists t, f. split; [now apply fits_doc|]. split; [exact E | reflexivity].
    + intros (t & H). apply call_error in H as (s & f & F & E & _). apply fits_doc in F. subst d. constructor.
      apply fault_iff in E. cbn. intuition.
    + intros H. inversion H as [|t I| | | | |c d1 U]; subst; [|destruct U].
      assert (exists f, fault_of t = Ok f) as (f & E) by (destruct I as [<-|[<-|[]]]; eexists; reflexivity).
      eexists. apply call_error. exists t, f. split; [now apply fits_doc|]. split; [exact E | reflexivity].
    + intros (t & H). apply call_http in H as (x & m & c & u & F & M & C & W & U & _). apply fits_doc in F. subst x.
      apply (ok_http d m u M U). intros c1 A. destruct C as [C|(C & _)]; [now rewrite (at_functional _ _ _ _ A C) | destruct (at_no _ _ _ A C)].
    + intros H. inversion H as [| |d1 m u M U W| | | |c d1 U]; subst; [|destruct U].
      destruct (at_or_no _ _ _ M (lit "code")) as [(c & A)|A].
      * eexists. apply call_http. exists d, m, c, u. split; [now apply fits_doc|]. split; [exact M|]. split; [now left|]. split; [now apply W|]. split; [exact U | reflexivity].
      * eexists. apply call_http. exists d, m, (DInt 200), u. split; [now apply fits_doc|]. split; [exact M|]. split; [now right|].
        split; [left; now eexists|]. split; [exact U | reflexivity].
    + intros (t & H). apply call_api_key in H as (x & i & n & s & l & F & I & M & O & T & L & _). apply fits_doc in F. subst x.
      apply (ok_api_key d i n I); [apply location_iff in L; cbn; intuition | exact M|].
      intros s1 A. destruct O as [O|(O & _)]; [now rewrite (at_functional _ _ _ _ A O) | destruct (at_no _ _ _ A O)].
    + intros H. inversion H as [| | |d1 i n I J M S1| | |c d1 U]; subst; [|destruct U].
      assert (exists l, location_of i = Ok l) as (l & L) by (destruct J as [<-|[<-|[]]]; eexists; reflexivity).
      destruct (at_or_no _ _ _ M (lit "scheme")) as [(s & A)|A].
      * eexists. apply call_api_key. exists d, i, n, s, l. split; [now apply fits_doc|]. split; [exact I|]. split; [exact M|]. split; [now left|]. split; [now apply S1|]. split; [exact L | reflexivity].
      * eexists. apply call_api_key. exists d, i, n, DNull, l. split; [now apply fits_doc|]. split; [exact I|]. split; [exact M|]. split; [now right|]. split; [now left|]. split; [exact L | reflexivity].
    + intros (t & H). apply call_rest_json in H as (x & h & e & [= ->] & V & E & _). exact (ok_rest_json x h e V E).
    + intros H. inversion H as [| | | |d1 h e V E| |c d1 U]; subst; [|destruct U].
      eexists. apply call_rest_json. exists d, h, e. split; [reflexivity|]. split; [exact V|]. split; [exact E | reflexivity].
    + intros (t & H). apply call_aws_query in H as ([= ->] & _). constructor.
    + intros H. inversion H as [| | | | | |c d1 U]; subst; [|destruct U]. eexists. apply call_aws_query. split; reflexivity.
Qed.

Lemma events_functional d e e1 : event_versions d e -> event_versions d e1 -> e = e1.
Proof.
  intros E E1.
  assert (V : (exists h, versions d h) \/ ((forall h, ~ versions d h) /\ exists v, at_key d (lit "eventStreamHttp") v /\ ~ empty v /\ holds v e /\ texts e)).
  { inversion E as [d1 v l A Nv H Tx | d1 v l A Em V1 | d1 l N1 V1 | d1 l Em V1]; subst; try (left; eexists; eassumption).
    destruct (at_or_no _ _ _ A (lit "http")) as [(w & B)|B]; [|left; eexists; now apply versions_absent].
    destruct (elements w) as [l|x] eqn:El.
    - destruct (forallb is_str l) eqn:Fl.
      + left. exists l. apply (versions_given d w); [exact B | now apply elements_iff | now apply texts_iff].
      + right. split; [|exists v; auto]. intros h V. apply versions_iff in V as [(_ & w1 & [B1|(B1 & _)] & H1 & T1) | (Em & _)].
        * rewrite (at_functional _ _ _ _ B1 B) in H1. apply elements_iff in H1. apply texts_iff in T1. congruence.
        * exact (at_no _ _ _ B B1).
        * exact (empty_not_at _ _ _ Em A).
    - right. split; [|exists v; auto]. intros h V. apply versions_iff in V as [(_ & w1 & [B1|(B1 & _)] & H1 & T1) | (Em & _)].
      * rewrite (at_functional _ _ _ _ B1 B) in H1. apply elements_iff in H1. congruence.
      * exact (at_no _ _ _ B B1).
      * exact (empty_not_at _ _ _ Em A). }
  destruct V as [(h & V)|(NV & v & A & Nv & H & Tx)].
  - apply (events_iff d h e V) in E. apply (events_iff d h e1 V) in E1.
    destruct E as [(Ne & v & A & C) | (Em & ->)], E1 as [(Ne1 & v1 & A1 & C1) | (Em1 & ->)]; try tauto.
    assert (v = v1) as <-.
    { destruct A as [A|(N1 & ->)], A1 as [A1|(N2 & ->)]; auto; [now apply (at_functional d (lit "eventStreamHttp")) | destruct (at_no _ _ _ A N2) | destruct (at_no _ _ _ A1 N1)]. }
    destruct C as [(Em & ->)|(Nv & H & Tx)], C1 as [(Em1 & ->)|(Nv1 & H1 & Tx1)]; try tauto.
    apply elements_iff in H. apply elements_iff in H1. congruence.
  - inversion E1 as [d1 v1 l A1 Nv1 H1 Tx1 | d1 v1 l A1 Em V1 | d1 l N1 V1 | d1 l Em V1]; subst.
    + rewrite (at_functional _ _ _ _ A1 A) in H1. apply elements_iff in H. apply elements_iff in H1. congruence.
    + destruct (NV _ V1).
    + destruct (NV _ V1).
    + destruct (NV _ V1).
Qed.

Lemma call_class c v t : call c v = Ok t -> t_class t = c /\ t_doc t = arg_doc v.
Proof.
  intros H. destruct (checked_or_not c) as [U|I].
  - apply call_plain in H as (d & (E & _) & ->); [|exact U]. now split.
  - destruct I as [<-|[<-|[<-|[<-|[<-|[<-|[]]]]]]].
    + apply call_format in H as (s & f & (E & _) & _ & ->). now split.
    + apply call_error in H as (s & f & (E & _) & _ & ->). now split.
    + apply call_http in H as (d & m & c & u & (E & _) & _ & _ & _ & _ & ->). now split.
    + apply call_api_key in H as (d & i & n & s & l & (E & _) & _ & _ & _ & _ & _ & ->). now split.
    + apply call_rest_json in H as (d & h & e & -> & _ & _ & ->). now split.
    + apply call_aws_query in H as (-> & ->). now split.
Qed.

Lemma doc_eq a b : VDoc a = VDoc b -> a = b.
Proof. congruence. Qed.
Lemma text_inj a b : DStr a = DStr b -> a = b.
Proof. congruence. Qed.
Lemma cut_at_two p q p1 q1 : ~ In 63 p -> ~ In 63 p1 -> p ++ 63 :: q = p1 ++ 63 :: q1 -> p = p1 /\ q = q1.
Proof.
  intros N1 N2 E. pose proof (cut_at_app 63 p q N1) as A. pose proof (cut_at_app 63 p1 q1 N2) as B. rewrite E in A.
  rewrite A in B. injection B as -> ->. now split.
Qed.

(** An attribute read from a trait is shown by it, and the other way round. *)
Lemma sub_shows d k v :
  (do x <- subscript d k; Ok (VDoc x)) = Ok v <-> exists x, at_key d k x /\ v = VDoc x.
Proof.
  rewrite bind_iff. split; intros (x & A & B); exists x; (split; [now apply subscript_iff | congruence]).
Qed.
Lemma opt_shows d k v :
  (do x <- get d k DNull; Ok (VDoc x)) = Ok v <-> exists x, optional d k x /\ v = VDoc x.
Proof.
  rewrite bind_iff. split; intros (x & A & B); exists x; (split; [now apply get_iff | congruence]).
Qed.

Lemma shows_plain c d a v : unchecked c -> read (mkTrait c d FNone) a = Ok v <-> shows c d a v.
Proof.
  intros U. split.
  - destruct c; try destruct U; destruct a; cbn [read t_class t_fields t_doc]; intros H; try discriminate H;
      try (apply ok_eq in H; subst v; constructor; cbn; tauto);
      try (apply sub_shows in H as (x & A & ->); constructor; first [exact A | cbn; tauto]);
      try (apply opt_shows in H as (x & A & ->); constructor; exact A).
  - intros H. revert U. destruct H as [c d I| | | | | |d v A|d v A|d v A|d A|d p A N1|d p A N1|d p q A N1|d p q A N1|d|c d I|d|d v A|d A|d A
        |c d v I A|d v A|d v A|d v A|d l V|d l V|d v A|d v A]; intros U; try destruct U;
      try (cbn [In] in I; repeat (destruct I as [<-|I]); [..|destruct I]; try destruct U); cbn [read t_class t_fields t_doc];
      try reflexivity; try (apply sub_shows; eexists; split; [exact A | reflexivity]);
      try (apply opt_shows; eexists; split; [exact A | reflexivity]).
Qed.

Ltac none H := inversion H; subst; try (match goal with I : In _ _ |- _ => cbn in I; intuition discriminate end).

Lemma views c d t :
  call c (ADoc d) = Ok t \/ (exists i, call c (ADyn i d) = Ok t) ->
  t_class t = c /\ t_doc t = d /\ forall a v, read t a = Ok v <-> shows c d a v.
Proof.
  intros H0. assert (exists v, call c v = Ok t /\ arg_doc v = d) as (w & H & <-).
  { destruct H0 as [H|(i & H)]; eexists; (split; [exact H | reflexivity]). }
  clear H0. destruct (call_class c w t H) as (Ec & Ed). split; [exact Ec|]. split; [exact Ed|].
  intros a v. destruct (checked_or_not c) as [U|I].
  - apply call_plain in H as (d & (E & _) & ->); [|exact U]. subst d. now apply shows_plain.
  - clear Ec Ed. destruct I as [<-|[<-|[<-|[<-|[<-|[<-|[]]]]]]].
    + apply call_format in H as (s & f & (E & _) & F & ->). rewrite <- E. split.
      * destruct a; cbn [read t_class t_fields t_doc]; intros H; try discriminate H. apply ok_eq in H. subst v.
        apply format_iff in F. destruct F as [(-> & ->)|[(-> & ->)|(-> & ->)]]; constructor.
      * intros H. apply format_iff in F. clear E. destruct F as [(-> & ->)|[(-> & ->)|(-> & ->)]]; none H; try reflexivity; discriminate.
    + apply call_error in H as (s & f & (E & _) & F & ->). rewrite <- E. split.
      * destruct a; cbn [read t_class t_fields t_doc]; intros H; try discriminate H. apply ok_eq in H. subst v.
        apply fault_iff in F. destruct F as [(-> & ->)|(-> & ->)]; constructor.
      * intros H. apply fault_iff in F. clear E. destruct F as [(-> & ->)|(-> & ->)]; none H; try reflexivity; discriminate.
    + apply call_http in H as (d & m & c & u & (E & _) & M & C & W & U & ->). subst d. set (d := arg_doc w) in *. clearbody d.
      split.
      * destruct a; cbn [read t_class t_fields t_doc]; intros H; try discriminate H.
        -- apply ok_eq in H. subst v. destruct (cut_cases u) as [(p & q & -> & N1 & Eq) | (N1 & Eq)]; rewrite Eq; cbn [fst].
           ++ exact (s_path_of d p q U N1).
           ++ exact (s_path d u U N1).
        -- apply ok_eq in H. subst v. destruct C as [C|(C & ->)]; [now apply s_code | now apply s_code_default].
        -- apply ok_eq in H. subst v. destruct (cut_cases u) as [(p & q & -> & N1 & Eq) | (N1 & Eq)]; rewrite Eq; cbn [snd].
           ++ exact (s_query_of d p q U N1).
           ++ exact (s_no_query d u U N1).
        -- apply sub_shows in H as (x & A & ->). now apply s_method.
      * intros H. none H; cbn [read t_class t_fields t_doc].
        -- apply sub_shows. eexists. split; [eassumption | reflexivity].
        -- destruct C as [C|(C & _)]; [|exfalso; eapply at_no; [eassumption | exact C]]. do 2 f_equal. eapply at_functional; [exact C | assumption].
        -- destruct C as [C|(_ & ->)]; [exfalso; exact (at_no _ _ _ C ltac:(assumption)) | reflexivity].
        -- match goal with A : at_key d (lit "uri") (DStr ?p), N1 : ~ In 63 ?p |- _ =>
             pose proof (text_inj _ _ (at_functional _ _ _ _ U A)) as ->; rewrite (cut_at_none 63 p N1) end. reflexivity.
        -- match goal with A : at_key d (lit "uri") (DStr ?p), N1 : ~ In 63 ?p |- _ =>
             pose proof (text_inj _ _ (at_functional _ _ _ _ U A)) as ->; rewrite (cut_at_none 63 p N1) end. reflexivity.
        -- match goal with A : at_key d (lit "uri") (DStr (?p ++ 63 :: ?q)), N1 : ~ In 63 ?p |- _ =>
             pose proof (text_inj _ _ (at_functional _ _ _ _ U A)) as ->; rewrite (cut_at_app 63 p q N1) end. reflexivity.
        -- match goal with A : at_key d (lit "uri") (DStr (?p ++ 63 :: ?q)), N1 : ~ In 63 ?p |- _ =>
             pose proof (text_inj _ _ (at_functional _ _ _ _ U A)) as ->; rewrite (cut_at_app 63 p q N1) end. reflexivity.
    + apply call_api_key in H as (d & i & n & s & l & (E & _) & Ai & An & O & Ts & L & ->). subst d. set (d := arg_doc w) in *. clearbody d.
      apply location_iff in L. split.
      * destruct a; cbn [read t_class t_fields t_doc]; intros H; try discriminate H.
        -- apply ok_eq in H. subst v. destruct L as [(-> & ->)|(-> & ->)]; [now apply s_header | now apply s_query].
        -- apply sub_shows in H as (x & A & ->). apply s_name; [now left | exact A].
        -- apply opt_shows in H as (x & A & ->). now apply s_scheme.
      * intros H. none H; cbn [read t_class t_fields t_doc].
        -- match goal with A : at_key d (lit "in") _ |- _ => pose proof (text_inj _ _ (at_functional _ _ _ _ A Ai)) as Q end.
           destruct L as [(-> & ->)|(-> & ->)]; [reflexivity | discriminate].
        -- match goal with A : at_key d (lit "in") (DStr (lit "query")) |- _ => pose proof (text_inj _ _ (at_functional _ _ _ _ A Ai)) as Q end.
           destruct L as [(-> & ->)|(-> & ->)]; [discriminate | reflexivity].
        -- apply sub_shows. eexists. split; [eassumption | reflexivity].
        -- apply opt_shows. eexists. split; [eassumption | reflexivity].
    + apply call_rest_json in H as (d & h & e & -> & V & Ev & ->). cbn [arg_doc]. split.
      * destruct a; cbn [read t_class t_fields t_doc]; intros H; try discriminate H; apply ok_eq in H; subst v; now constructor.
      * intros H. none H; cbn [read t_class t_fields t_doc]; do 2 f_equal; [eapply versions_functional | eapply events_functional]; eassumption.
    + apply call_aws_query in H as (-> & ->). cbn [arg_doc]. split.
      * destruct a; cbn [read t_class t_fields t_doc]; intros H; discriminate H.
      * intros H. none H.
Qed.

Lemma dynamic_same c d : takes_dynamic c ->
  call c (ADyn (class_id c) d) = call c (ADoc d) /\ forall i, i <> class_id c -> call c (ADyn i d) = Err ValueError.
Proof.
  intros (N1 & N2).
  assert (B : base_init c (ADyn (class_id c) d) = base_init c (ADoc d)) by (cbn; now rewrite text_eqb_refl).
  assert (B1 : forall i, i <> class_id c -> base_init c (ADyn i d) = Err ValueError).
  { intros i Ne. cbn. apply text_eqb_neq in Ne. now rewrite Ne. }
  split.
  - destruct c; try congruence; unfold call; rewrite B; reflexivity.
  - intros i Ne. specialize (B1 i Ne). destruct c; try congruence; unfold call; rewrite B1; reflexivity.
Qed.

Lemma dynamic_refused c : ~ takes_dynamic c ->
  (forall i d t, call c (ADyn i d) <> Ok t) /\ exists t, call c (ADoc DNull) = Ok t.
Proof.
  intros H. assert (In c [CRestJson1; CAwsQuery]) as [<-|[<-|[]]].
  { unfold takes_dynamic in H. destruct c; try (destruct H; split; discriminate); cbn; tauto. }
  - split; [intros i d t E; apply call_rest_json in E as (x & h & e & [=] & _)|]. eexists. reflexivity.
  - split; [discriminate|]. eexists. reflexivity.
Qed.

Section Keyed.
  Context {A : Type} (key : A -> text).
  Let put := fun (d : list (text * A)) x => dict_set (key x) x d.
  Lemma fold_other k l : forall d, (forall x, In x l -> key x <> k) -> dict_get k (fold_left put l d) = dict_get k d.
  Proof.
    induction l as [|x l IH]; intros d H; [reflexivity|]. cbn [fold_left]. rewrite IH by (intros y I; apply H; now right).
    unfold put. apply dict_get_set_ne. intros E. exact (H x (or_introl eq_refl) (eq_sym E)).
  Qed.
  Lemma fold_last before x after d : (forall y, In y after -> key y <> key x) ->
    dict_get (key x) (fold_left put (before ++ x :: after) d) = Some x.
  Proof.
    intros H. rewrite fold_left_app. cbn [fold_left]. rewrite fold_other by exact H. unfold put. apply dict_get_set_eq.
  Qed.
  Lemma fold_some k l : forall d x, dict_get k (fold_left put l d) = Some x -> (In x l /\ key x = k) \/ dict_get k d = Some x.
  Proof.
    induction l as [|y l IH]; intros d x H; [now right|]. cbn [fold_left] in H. destruct (IH _ _ H) as [(I & E)|G].
    - left. split; [now right | exact E].
    - unfold put in G. destruct (text_eqb k (key y)) eqn:E.
      + apply text_eqb_eq in E. subst k. rewrite dict_get_set_eq in G. injection G as ->. left. split; [now left | reflexivity].
      + rewrite dict_get_set_ne in G; [now right|]. intros ->. now rewrite text_eqb_refl in E.
  Qed.
  Lemma fold_none k l : dict_get k (fold_left put l []) = None -> forall x, In x l -> key x <> k.
  Proof.
    intros H. assert (G : forall l d, dict_get k (fold_left put l d) = None -> dict_get k d = None /\ forall x, In x l -> key x <> k).
    { clear. induction l as [|y l IH]; intros d H; [split; [exact H | intros x []]|]. cbn [fold_left] in H.
      apply IH in H as (D & N1). unfold put in D. destruct (text_eqb k (key y)) eqn:E.
      - apply text_eqb_eq in E. subst k. now rewrite dict_get_set_eq in D.
      - assert (Ne : k <> key y) by (intros ->; now rewrite text_eqb_refl in E). rewrite dict_get_set_ne in D by exact Ne.
        split; [exact D|]. intros x [<-|I]; [congruence | now apply N1]. }
    exact (proj2 (G l [] H)).
  Qed.
End Keyed.

Lemma new_known before c after d : (forall x, In x after -> class_id x <> class_id c) ->
  new (registry (before ++ c :: after)) (class_id c) d = match call c (ADoc d) with Ok t => Ok (Known t) | Err e => Err e end.
Proof. intros H. unfold new, registry. rewrite (fold_last class_id) by exact H. now destruct (call c (ADoc d)). Qed.
Lemma new_unknown l i d : (forall x, In x l -> class_id x <> i) -> new (registry l) i d = Ok (Dynamic i d).
Proof. intros H. unfold new, registry. now rewrite (fold_other class_id). Qed.

Definition library := core_classes ++ aws_classes.
Lemma ids_distinct : NoDup (map class_id library).
Proof.
  assert (D : forall l : list text, (fix nd l := match l with [] => true | x :: r => negb (existsb (text_eqb x) r) && nd r end) l = true -> NoDup l).
  { induction l as [|x l IH]; [constructor|]. intros H. apply andb_prop in H as (N1 & H). constructor; [|now apply IH].
    intros I. apply negb_true_iff in N1. assert (existsb (text_eqb x) l = true) by (apply existsb_exists; exists x; split; [exact I | apply text_eqb_refl]). congruence. }
  apply D. vm_compute. reflexivity.
Qed.
Lemma library_split c : In c library -> exists b a, library = b ++ c :: a /\ forall x, In x a -> class_id x <> class_id c.
Proof.
  intros I. destruct (in_split _ _ I) as (b & a & E). exists b, a. split; [exact E|]. intros x J Eq.
  pose proof ids_distinct as D. rewrite E, map_app in D. cbn [map] in D. apply NoDup_remove_2 in D. apply D. apply in_or_app. right.
  rewrite <- Eq. now apply in_map.
Qed.
Lemma well_named_id c : well_named c -> class_id c = smithy_name c.
Proof. intros (N1 & N2 & N3). destruct c; try congruence; reflexivity. Qed.
Lemma misnamed c : ~ well_named c -> In c [CDefault; CIdempotencyToken; CUnitType].
Proof. unfold well_named. destruct c; intros H; try (destruct H; repeat split; discriminate); cbn; tauto. Qed.

Lemma names c own d : In c (core_classes ++ aws_classes) -> well_named c -> (forall x, In x own -> class_id x <> smithy_name c) ->
  new (registry ((core_classes ++ aws_classes) ++ own)) (smithy_name c) d = match call c (ADoc d) with Ok t => Ok (Known t) | Err e => Err e end.
Proof.
  intros I W O. rewrite <- (well_named_id c W) in *. destruct (library_split c I) as (b & a & E & D).
  change (core_classes ++ aws_classes) with library. rewrite E. rewrite <- app_assoc. cbn [app]. apply new_known.
  intros x J. apply in_app_or in J as [J|J]; [now apply D | now apply O].
Qed.
Lemma not_an_id i : existsb (fun c => text_eqb (class_id c) i) library = false -> forall x, In x library -> class_id x <> i.
Proof.
  intros H x I E. assert (existsb (fun c => text_eqb (class_id c) i) library = true); [|congruence].
  apply existsb_exists. exists x. split; [exact I|]. rewrite E. apply text_eqb_refl.
Qed.
Lemma names_refuted c own d : In c (core_classes ++ aws_classes) -> ~ well_named c -> (forall x, In x own -> class_id x <> smithy_name c) ->
  new (registry ((core_classes ++ aws_classes) ++ own)) (smithy_name c) d = Ok (Dynamic (smithy_name c) d).
Proof.
  intros _ W O. apply new_unknown. intros x I. apply in_app_or in I as [I|I]; [|now apply O].
  apply misnamed in W. revert x I. apply not_an_id. destruct W as [<-|[<-|[<-|[]]]]; vm_compute; reflexivity.
Qed.

(** Members by trait. *)
Lemma get_trait_plain c l : unchecked c ->
  exists r, get_trait c (traits_of l) = Ok r /\ (fst r <> None <-> exists t, In t l /\ any_id t = class_id c).
Proof.
  intros U. unfold get_trait, traits_of. destruct (dict_get (class_id c) (fold_left _ l [])) as [[t|i d]|] eqn:G.
  - eexists. split; [reflexivity|]. cbn [fst]. split; [|discriminate]. intros _.
    destruct (fold_some any_id _ _ _ _ G) as [H|H]; [now eexists | discriminate].
  - destruct (fold_some any_id _ _ _ _ G) as [(H & E)|H]; [|discriminate]. cbn [any_id] in E. subst i.
    assert (call c (ADyn (class_id c) d) = Ok (mkTrait c d FNone)) as ->.
    { apply call_plain; [exact U|]. exists d. split; [split; reflexivity | reflexivity]. }
    eexists. split; [reflexivity|]. cbn [fst]. split; [|discriminate]. intros _. eexists. split; [exact H | reflexivity].
  - eexists. split; [reflexivity|]. cbn [fst]. split; [intros H; now destruct H|]. intros (t & I & E). exfalso.
    exact (fold_none any_id _ _ G t I E).
Qed.

Definition has_id (i : text) (l : list any_trait) : Prop := exists t, In t l /\ any_id t = i.
Lemma member_with_spec c : unchecked c -> forall ms : list (text * list any_trait),
  (forall before name l after,
     ms = before ++ (name, l) :: after -> has_id (class_id c) l ->
     (forall m, In m before -> ~ has_id (class_id c) (snd m)) ->
     member_with c (map (fun m => (fst m, traits_of (snd m))) ms) = Ok (Some name)) /\
  ((forall m, In m ms -> ~ has_id (class_id c) (snd m)) -> member_with c (map (fun m => (fst m, traits_of (snd m))) ms) = Ok None).
Proof.
  intros U ms. split.
  - intros before name l after -> B N1. induction before as [|[k x] before IH]; cbn [app map member_with fst snd].
    + destruct (get_trait_plain c l U) as (r & -> & R). cbn [bind]. destruct (fst r) eqn:F; [reflexivity|].
      destruct (proj2 R B eq_refl).
    + destruct (get_trait_plain c x U) as (r & -> & R). cbn [bind]. destruct (fst r) eqn:F.
      * exfalso. apply (N1 (k, x)); [now left|]. apply R. discriminate.
      * apply IH. intros m I. apply N1. now right.
  - induction ms as [|[k x] ms IH]; intros N1; [reflexivity|]. cbn [map member_with fst snd].
    destruct (get_trait_plain c x U) as (r & -> & R). cbn [bind]. destruct (fst r) eqn:F.
    + exfalso. apply (N1 (k, x)); [now left|]. apply R. discriminate.
    + apply IH. intros m I. apply N1. now right.
Qed.
Lemma long_poll_spec l :
  exists b, long_polling (traits_of l) = Ok b /\ (b = true <-> has_id (lit "smithy.api#longPoll") l).
Proof.
  unfold long_polling. destruct (get_trait_plain CLongPoll l I) as (r & -> & R). cbn [bind]. destruct (fst r) eqn:F.
  - exists true. split; [reflexivity|]. split; [intros _; apply R; discriminate | reflexivity].
  - exists false. split; [reflexivity|]. split; [discriminate|]. intros H. exfalso. exact (proj2 R H eq_refl).
Qed.

Lemma new_id reg i d t : (forall c, dict_get i reg = Some c -> class_id c = i) -> new reg i d = Ok t -> any_id t = i.
Proof.
  unfold new. intros H. destruct (dict_get i reg) as [c|] eqn:G.
  - intros E. apply bind_iff in E as (x & C & E). injection E as <-. cbn [any_id]. rewrite (proj1 (call_class _ _ _ C)). now apply H.
  - now intros [= <-].
Qed.
Lemma registry_id l i c : dict_get i (registry l) = Some c -> class_id c = i.
Proof. intros G. destruct (fold_some class_id _ _ _ _ G) as [(_ & E)|H]; [exact E | discriminate]. Qed.
Lemma token_never own (ms : list (text * list any_trait)) :
  (forall m t, In m ms -> In t (snd m) -> exists i d, i <> lit "smithy.api#IdempotencyToken" /\
     new (registry ((core_classes ++ aws_classes) ++ own)) i d = Ok t) ->
  idempotency_token_member (map (fun m => (fst m, traits_of (snd m))) ms) = Ok None.
Proof.
  intros H. apply (member_with_spec CIdempotencyToken I). intros m J (t & K & E). destruct (H m t J K) as (i & d & Ne & N1).
  apply Ne. pose proof (new_id _ i d t (fun c => registry_id _ i c) N1) as Q. rewrite <- Q. exact E.
Qed.

Lemma no_attribute c v t a : call c v = Ok t -> ~ has_attribute c a -> read t a = Err AttributeError.
Proof.
  intros H N1. destruct (call_class _ _ _ H) as (E & _). unfold read. rewrite E.
  destruct c, a; try reflexivity; destruct N1; exact I.
Qed.

Lemma declared_accepts c d : declared c d -> accepts c d.
Proof.
  intros [c1 A|d1|c1 t A|t A|t A|d1 z A|d1 m u M U C|z|d1 p A|d1 i n A J B S1|d1 u U P|m H E| |d1 x z A B|d1 n A|n i d1];
    try (apply ok_other; exact I).
  - unfold annotation in A. cbn [In] in A. destruct (checked_or_not c1) as [U|J]; [now apply ok_other|].
    destruct J as [<-|[<-|[<-|[<-|[<-|[<-|[]]]]]]]; try (exfalso; repeat (destruct A as [A|A]; [discriminate|]); exact A).
    constructor.
  - cbn [In] in A. destruct (checked_or_not c1) as [U|J]; [now apply ok_other|].
    exfalso. destruct J as [<-|[<-|[<-|[<-|[<-|[<-|[]]]]]]]; repeat (destruct A as [A|A]; [discriminate|]); exact A.
  - now constructor.
  - now constructor.
  - apply (ok_http d1 m u M U). intros c2 A. left. exact (C c2 A).
  - apply (ok_api_key d1 i n A J B). intros s Q. right. exact (S1 s Q).
  - assert (exists h, versions (DMap m) h) as (h & V).
    { destruct (dict_get (lit "http") m) as [v|] eqn:G.
      - apply at_map in G. destruct (H v G) as (l & -> & T). exists l. exact (versions_given _ _ _ G (holds_list l) T).
      - apply no_map in G. eexists. now apply versions_absent. }
    destruct (dict_get (lit "eventStreamHttp") m) as [v|] eqn:G.
    + apply at_map in G. destruct (E v G) as (l & -> & T). destruct (empty_dec (DList l)) as [Em|Ne].
      * apply (ok_rest_json _ h h V). exact (events_nothing _ _ _ G Em V).
      * apply (ok_rest_json _ h l V). exact (events_given _ _ _ G Ne (holds_list l) T).
    + apply no_map in G. apply (ok_rest_json _ h h V). now apply events_absent.
  - apply (ok_rest_json _ [DStr (lit "http/1.1")] [DStr (lit "http/1.1")]); [apply versions_empty; constructor|].
    apply events_empty; [constructor | apply versions_empty; constructor].
Qed.

Lemma opt_text d k w : at_key d k w -> forall k1, (forall s, at_key d k1 s -> exists t, s = DStr t) ->
  exists v, optional d k1 v /\ (plain_text (VDoc v) \/ VDoc v = VDoc DNull).
Proof.
  intros A k1 H. destruct (at_or_no _ _ _ A k1) as [(v & B)|B].
  - exists v. split; [now left|]. destruct (H v B) as (t & ->). left. now exists t.
  - exists DNull. split; [now right | now right].
Qed.
Lemma events_texts d e : event_versions d e -> texts e.
Proof. intros []; auto; eapply versions_texts; eassumption. Qed.

Lemma declared_shows c d a : declared c d -> has_attribute c a -> exists v, shows c d a v /\ typed c a v.
Proof.
  intros D Ha. pose proof (declared_accepts c d D) as Ac.
  destruct D as [c1 A|d1|c1 t A|t A|t A|d1 z A|d1 m u M U C|z|d1 p A|d1 i n A J B S1|d1 u U P|m H E| |d1 x z A B|d1 n A|n i d1].
  - exfalso. unfold annotation in A. cbn [In] in A. repeat (destruct A as [<-|A]; [destruct a; exact Ha|]). exact A.
  - destruct a; try destruct Ha. eexists. split; [apply s_value; now left | exact I].
  - cbn [In] in A. repeat (destruct A as [<-|A]; [destruct a; try destruct Ha; eexists; (split; [constructor; cbn; tauto | now exists t])|]). destruct A.
  - destruct a; try destruct Ha. destruct A as [<-|[<-|[<-|[]]]]; eexists; (split; [constructor | now eexists]).
  - destruct a; try destruct Ha. destruct A as [<-|[<-|[]]]; eexists; (split; [constructor | now eexists]).
  - destruct a; try destruct Ha. eexists. split; [now apply s_timeout; exact A | now eexists].
  - destruct a; try destruct Ha.
    + destruct (cut_cases u) as [(p & q & -> & N1 & _)|(N1 & _)]; 
        [exists (VPattern p) | exists (VPattern u)]; (split; [|now eexists]); [exact (s_path_of _ p q U N1) | exact (s_path _ u U N1)].
    + destruct (at_or_no _ _ _ M (lit "code")) as [(v & B)|B].
      * exists (VDoc v). split; [now apply s_code|]. destruct (C v B) as (z & ->). now exists z.
      * eexists. split; [now apply s_code_default | now eexists].
    + destruct (cut_cases u) as [(p & q & -> & N1 & _)|(N1 & _)]; eexists.
      * split; [exact (s_query_of _ p q U N1)|]. left. now eexists.
      * split; [exact (s_no_query _ u U N1)|]. now right.
    + eexists. split; [apply s_method; exact M | now eexists].
  - destruct a; try destruct Ha. eexists. split; [constructor | now eexists].
  - destruct a; try destruct Ha. eexists. split; [apply s_host_prefix; exact A | now eexists].
  - destruct a; try destruct Ha.
    + destruct J as [<-|[<-|[]]]; eexists; (split; [constructor; exact A | now eexists]).
    + eexists. split; [apply s_name; [now left | exact B] | now eexists].
    + destruct (opt_text _ _ _ A (lit "scheme") S1) as (v & O & T). exists (VDoc v). split; [now apply s_scheme | exact T].
  - destruct a; try destruct Ha.
    + destruct (opt_text _ _ _ U (lit "prefix") P) as (v & O & T). exists (VDoc v). split; [now apply s_xml_prefix | exact T].
    + eexists. split; [apply s_uri; exact U | now eexists].
  - inversion Ac as [| | | |d1 h e V Ev| |c1 d1 Un]; subst; [|destruct Un]. destruct a; try destruct Ha.
    + eexists. split; [apply s_http; exact V|]. exists h. split; [reflexivity | exact (versions_texts _ _ V)].
    + eexists. split; [apply s_event_http; exact Ev|]. exists e. split; [reflexivity | exact (events_texts _ _ Ev)].
  - inversion Ac as [| | | |d1 h e V Ev| |c1 d1 Un]; subst; [|destruct Un]. destruct a; try destruct Ha.
    + eexists. split; [apply s_http; exact V|]. exists h. split; [reflexivity | exact (versions_texts _ _ V)].
    + eexists. split; [apply s_event_http; exact Ev|]. exists e. split; [reflexivity | exact (events_texts _ _ Ev)].
  - destruct a; try destruct Ha.
    + eexists. split; [apply s_query_code; exact A | now eexists].
    + eexists. split; [apply s_query_status; exact B | now eexists].
  - destruct a; try destruct Ha. eexists. split; [apply s_name; [right; now left | exact A] | now eexists].
  - destruct a; destruct Ha.
Qed.

Lemma declared_typed c d : declared c d ->
  exists t, call c (ADoc d) = Ok t /\
    forall a, (has_attribute c a -> exists v, read t a = Ok v /\ typed c a v) /\ (~ has_attribute c a -> read t a = Err AttributeError).
Proof.
  intros D. destruct (proj2 (accepts_iff c d) (declared_accepts c d D)) as (t & H). exists t. split; [exact H|]. intros a. split.
  - intros Ha. destruct (declared_shows c d a D Ha) as (v & Sh & Ty). exists v. split; [|exact Ty].
    apply (proj2 (proj2 (views c d t (or_introl H))) a v). exact Sh.
  - intros N1. exact (no_attribute _ _ _ _ H N1).
Qed.

Lemma get_dynamic c before d after k :
  takes_dynamic c -> (forall t, In t after -> any_id t <> class_id c) -> call c (ADoc d) = Ok k ->
  exists traits, get_trait c (traits_of (before ++ Dynamic (class_id c) d :: after)) = Ok (Some (Known k), traits) /\
    get_trait c traits = Ok (Some (Known k), traits) /\
    forall i, i <> class_id c -> dict_get i traits = dict_get i (traits_of (before ++ Dynamic (class_id c) d :: after)).
Proof.
  intros T H K. unfold get_trait, traits_of. pose proof (fold_last any_id before (Dynamic (class_id c) d) after [] H) as G. cbn [any_id] in G.
  rewrite G. rewrite (proj1 (dynamic_same c d T)), K. cbn [bind]. eexists. split; [reflexivity|].
  rewrite dict_get_set_eq. split; [reflexivity|]. intros i Ne. now apply dict_get_set_ne.
Qed.
