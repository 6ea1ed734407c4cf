(** Shapes to documents and back. *)
From Verif Require Import Base Base_Proofs PyDict_Model PyDict_Proofs Doc_Model Doc_Spec Doc_Proofs.

Lemma value_ind2 (P : value -> Prop) : P VNull -> (forall x, P (VScalar x)) -> (forall d, P (VDoc d)) ->
  (forall l, Forall P l -> P (VList l)) -> (forall l, Forall (fun kv => P (snd kv)) l -> P (VMap l)) ->
  (forall l, Forall (fun kv => P (snd kv)) l -> P (VStruct l)) -> forall v, P v.
Proof.
  intros H1 H2 H3 H4 H5 H6. fix IH 1. intros [|x|l|l|l|d]; [exact H1|apply H2| | | |apply H3].
  - apply H4. induction l as [|x l IHl]; constructor; [apply IH|exact IHl].
  - apply H5. induction l as [|[k x] l IHl]; constructor; [apply IH|exact IHl].
  - apply H6. induction l as [|[k x] l IHl]; constructor; [apply IH|exact IHl].
Qed.

(** The document a value becomes, whatever its schemas. *)
Inductive holds : value -> doc -> Prop :=
| h_null s : holds VNull (Doc s INone None)
| h_scalar s x : holds (VScalar x) (Doc s (IScalar x) None)
| h_doc d e : content d = content e -> holds (VDoc e) d
| h_list s l ds : Forall2 holds l ds -> holds (VList l) (Doc s (IList ds) None)
| h_map s l ds : Forall2 (fun a b => fst a = fst b /\ holds (snd a) (snd b)) l ds -> holds (VMap l) (Doc s (IDict ds) None)
| h_struct s l ds : Forall2 (fun a b => fst a = fst b /\ holds (snd a) (snd b)) l ds -> holds (VStruct l) (Doc s (IDict ds) None).

Section Shapes.
  Variable kind_of : N -> kind.
  Variable member_name : N -> option text.

  Definition item (m : N) (x : value) : Prop :=
    match x with VNull => False | VDoc d => fits kind_of member_name m x /\ content d <> PNull | _ => fits kind_of member_name m x end.
  Definition element (sparse : bool) (m : N) (x : value) : Prop := (x = VNull /\ sparse = true) \/ item m x.
  Definition entry (sparse : bool) (m : N) (kv : text * value) : Prop :=
    (snd kv = VNull /\ sparse = true /\ is_container (kind_of m) = false) \/ item m (snd kv).
  Definition member (ms : list (text * N)) (kv : text * value) : Prop :=
    exists m, dict_get (fst kv) ms = Some m /\ fits kind_of member_name m (snd kv).

  Lemma fits_list s l : fits kind_of member_name s (VList l) <-> exists sparse m, kind_of s = KList sparse m /\ Forall (element sparse m) l.
  Proof.
    cbn [fits]. split; intros (sp & m & K & A); exists sp, m; (split; [exact K|]).
    - induction l as [|x l IH]; constructor; [apply A|apply IH, A].
    - induction A as [|x l Hx A IH]; [exact I|]. exact (conj Hx IH).
  Qed.
  Lemma fits_map s l : fits kind_of member_name s (VMap l) <->
    exists sparse m, kind_of s = KMap sparse m /\ NoDup (map fst l) /\ Forall (entry sparse m) l.
  Proof.
    cbn [fits]. split; intros (sp & m & K & D & A); exists sp, m; (split; [exact K|]; split; [exact D|]); clear D.
    - induction l as [|[k x] l IH]; constructor; [apply A|apply IH, A].
    - induction A as [|[k x] l Hx A IH]; [exact I|]. exact (conj Hx IH).
  Qed.
  Lemma fits_struct s l : fits kind_of member_name s (VStruct l) <->
    exists ms, (kind_of s = KStruct ms \/ (kind_of s = KUnion ms /\ exists kv, l = [kv])) /\ good_members member_name ms /\
      subsequence (map fst l) (map fst ms) /\ Forall (member ms) l.
  Proof.
    cbn [fits]. split; intros (ms & K & G & D & A); exists ms; (split; [exact K|]; split; [exact G|]; split; [exact D|]); clear D K.
    - induction l as [|[k x] l IH]; constructor; [apply A|apply IH, A].
    - induction A as [|[k x] l Hx A IH]; [exact I|]. exact (conj Hx IH).
  Qed.

  Lemma sub_in {A} (l m : list A) x : subsequence l m -> In x l -> In x m.
  Proof. induction 1; cbn; intuition. Qed.
  Lemma sub_nodup {A} (l m : list A) : subsequence l m -> NoDup m -> NoDup l.
  Proof.
    induction 1; intros N; [constructor| |]; inversion N; subst; [|auto]. constructor; [|auto].
    intros I. apply H2. exact (sub_in _ _ _ H I).
  Qed.

  (** What [write] leaves in its place. *)
  Definition shown (s : N) (v : value) (d : doc) : Prop :=
    holds v d /\ match v with VDoc e => d = e | _ => d_schema d = s end.

  Lemma with_schema_shown s s' v d : shown s v d ->
    fits kind_of member_name s v \/ (v = VNull /\ is_container (kind_of s) = false) ->
    exists d', with_schema kind_of s' d = Ok d' /\ holds v d'.
  Proof.
    intros [H S] F. destruct H as [s0|s0 x|d e C|s0 l ds H|s0 l ds H|s0 l ds H]; cbn in S; subst.
    - destruct F as [[]|[_ F]]. unfold with_schema, shape_type. cbn [d_schema d_value d_raw].
      destruct (kind_of s); try discriminate F; eexists; (split; [reflexivity|constructor]).
    - destruct F as [F|[? _]]; [|discriminate]. cbn in F. unfold with_schema, shape_type. cbn [d_schema d_value]. rewrite F.
      eexists. split; [reflexivity|constructor].
    - destruct F as [F|[? _]]; [|discriminate]. cbn in F. destruct F as (_ & K & R).
      assert (Y : exists d', with_schema kind_of s' e = Ok d').
      { unfold with_schema, shape_type. rewrite K. destruct e as [s1 v raw]. cbn [d_schema d_value d_raw] in *. destruct v as [|x|m|l].
        - destruct raw as [[| |p|p]|]; try contradiction; cbn.
          + eexists; reflexivity.
          + unfold wrap_map. rewrite K. eexists; reflexivity.
          + eexists; reflexivity.
        - eexists; reflexivity.
        - eexists; reflexivity.
        - eexists; reflexivity. }
      destruct Y as [d' Y]. exists d'. split; [exact Y|]. constructor. apply (with_schema_content kind_of s' e d' Y).
      unfold sensible_doc. destruct (d_raw e) as [[| | |]|]; try exact R; intros t X; congruence.
    - destruct F as [F|[? _]]; [|discriminate]. apply fits_list in F. destruct F as (sp & m & K & _).
      unfold with_schema, shape_type. cbn [d_schema]. rewrite K. eexists. split; [reflexivity|]. constructor. exact H.
    - destruct F as [F|[? _]]; [|discriminate]. apply fits_map in F. destruct F as (sp & m & K & _).
      unfold with_schema, shape_type. cbn [d_schema]. rewrite K. eexists. split; [reflexivity|]. constructor. exact H.
    - destruct F as [F|[? _]]; [|discriminate]. apply fits_struct in F. destruct F as (ms & K & _).
      unfold with_schema, shape_type. cbn [d_schema]. destruct K as [K|[K _]]; rewrite K; (eexists; split; [reflexivity|]; constructor; exact H).
  Qed.

  Lemma setitem_new s k a x done sc : slot_schema kind_of s (KStr k) = Ok sc -> to_doc kind_of sc a = Ok x -> ~ In k (map fst done) ->
    setitem kind_of (KStr k) a (Doc s (IDict done) None) = (Doc s (IDict (done ++ [(k, x)])) None, None).
  Proof.
    intros E X N. unfold setitem. cbn [d_schema]. rewrite E, X. cbn [as_map]. do 3 f_equal. apply dict_set_new. exact N.
  Qed.

  Lemma put_same r v g : put r v g r = v.
  Proof. unfold put. destruct r; reflexivity. Qed.

  Lemma write_shown v : forall r s g, v = VNull \/ fits kind_of member_name s v ->
    exists g1 d, write kind_of member_name r s v g = (g1, None) /\ g1 r = Some d /\ shown s v d.
  Proof.
    induction v as [|x|e|l IH|l IH|l IH] using value_ind2; intros r s g F.
    - cbn. do 2 eexists. split; [reflexivity|]. split; [apply put_same|]. split; [constructor|reflexivity].
    - cbn. do 2 eexists. split; [reflexivity|]. split; [apply put_same|]. split; [constructor|reflexivity].
    - cbn. do 2 eexists. split; [reflexivity|]. split; [apply put_same|]. split; [constructor; reflexivity|reflexivity].
    - destruct F as [|F]; [discriminate|]. apply fits_list in F. destruct F as (sp & m & K & F). cbn [write]. rewrite K.
      set (go := fix go (l : list value) (acc : list doc) (g : regs) : regs * result (list doc) :=
          match l with
          | [] => (g, Ok acc)
          | x :: rest =>
            match write kind_of member_name RList m x g with
            | (g1, Some e) => (g1, Err e)
            | (g1, None) =>
              match g1 RList with
              | Some d => go rest (acc ++ [d]) (put RList None g1)
              | None => (g1, Err ExpectationNotMet)
              end
            end
          end).
      assert (G : forall acc g, exists g1 ds, go l acc g = (g1, Ok (acc ++ ds)) /\ Forall2 holds l ds).
      { induction l as [|x l IHl]; intros acc g0.
        - exists g0, []. split; [cbn; rewrite app_nil_r; reflexivity|constructor].
        - inversion IH as [|? ? Ix IH']; subst. inversion F as [|? ? Fx F']; subst. cbn [go]. fold go.
          assert (Fx' : x = VNull \/ fits kind_of member_name m x).
          { destruct Fx as [[-> _]|Fx]; [auto|]. right. destruct x; cbn in Fx; try contradiction; try exact Fx. apply Fx. }
          destruct (Ix RList m g0 Fx') as (g1 & d & -> & -> & [H _]).
          destruct (IHl IH' F' (acc ++ [d]) (put RList None g1)) as (g2 & ds & -> & Hs).
          exists g2, (d :: ds). rewrite <- app_assoc. split; [reflexivity|]. constructor; assumption. }
      destruct (G [] g) as (g1 & ds & -> & H). do 2 eexists. split; [reflexivity|]. split; [apply put_same|].
      split; [constructor; exact H|reflexivity].
    - destruct F as [|F]; [discriminate|]. apply fits_map in F. destruct F as (sp & m & K & N & F). cbn [write]. rewrite K.
      set (go := fix go (l : list (text * value)) (acc : doc) (g : regs) : regs * result doc :=
          match l with
          | [] => (g, Ok acc)
          | (k, x) :: rest =>
            match write kind_of member_name RMap m x g with
            | (g1, Some e) => (g1, Err e)
            | (g1, None) =>
              match g1 RMap with
              | Some d =>
                match setitem kind_of (KStr k) (ADoc d) acc with
                | (acc', None) => go rest acc' (put RMap None g1)
                | (_, Some e) => (g1, Err e)
                end
              | None => (g1, Err ExpectationNotMet)
              end
            end
          end).
      assert (G : forall done g, (forall k, In k (map fst l) -> ~ In k (map fst done)) ->
        exists g1 ds, go l (Doc s (IDict done) None) g = (g1, Ok (Doc s (IDict (done ++ ds)) None))
          /\ Forall2 (fun a b => fst a = fst b /\ holds (snd a) (snd b)) l ds).
      { induction l as [|[k x] l IHl]; intros done g0 Dj.
        - exists g0, []. split; [cbn; rewrite app_nil_r; reflexivity|constructor].
        - inversion IH as [|? ? Ix IH']; subst. inversion F as [|? ? Fx F']; subst. inversion N as [|? ? Nk N']; subst. cbn [snd] in Ix. cbn [go]. fold go.
          assert (Fx' : x = VNull \/ fits kind_of member_name m x).
          { destruct Fx as [[Fx _]|Fx]; cbn in Fx; [auto|]. right. destruct x; cbn in Fx; try contradiction; try exact Fx. apply Fx. }
          assert (Fx2 : fits kind_of member_name m x \/ (x = VNull /\ is_container (kind_of m) = false)).
          { destruct Fx as [(Fx & _ & Fc)|Fx]; cbn in *; [right; split; assumption|]. left. destruct x; cbn in Fx; try contradiction; try exact Fx. apply Fx. }
          destruct (Ix RMap m g0 Fx') as (g1 & d & -> & -> & H).
          destruct (with_schema_shown m m x d H Fx2) as (d' & W & H').
          rewrite (setitem_new s k (ADoc d) d' done m); [|unfold slot_schema; rewrite K; reflexivity|exact W|apply Dj; left; reflexivity].
          destruct (IHl IH' N' F' (done ++ [(k, d')]) (put RMap None g1)) as (g2 & ds & -> & Hs).
          { intros k2 I2. rewrite map_app, in_app_iff. cbn. intros [Q|[<-|[]]]; [apply (Dj k2); [right; exact I2|exact Q]|contradiction]. }
          exists g2, ((k, d') :: ds). rewrite <- app_assoc. split; [reflexivity|]. constructor; [split; [reflexivity|exact H']|exact Hs]. }
      destruct (G [] g) as (g1 & ds & -> & H); [intros k _ []|]. do 2 eexists. split; [reflexivity|]. split; [apply put_same|].
      split; [constructor; exact H|reflexivity].
    - destruct F as [|F]; [discriminate|]. apply fits_struct in F. destruct F as (ms & K & [Nm Gm] & Sub & F). cbn [write].
      set (go := fix go (l : list (text * value)) (acc : doc) (g : regs) : regs * result doc :=
          match l with
          | [] => (g, Ok acc)
          | (k, x) :: rest =>
            match mem ms k with
            | Err e => (g, Err e)
            | Ok m =>
              match write kind_of member_name RStruct m x g with
              | (g1, Some e) => (g1, Err e)
              | (g1, None) =>
                match member_name m, g1 RStruct with
                | Some name, Some d =>
                  match setitem kind_of (KStr name) (ADoc d) acc with
                  | (acc', None) => go rest acc' (put RStruct None g1)
                  | (_, Some e) => (g1, Err e)
                  end
                | _, _ => (g1, Err ExpectationNotMet)
                end
              end
            end
          end).
      assert (Sl : forall k m, dict_get k ms = Some m -> exists sc, slot_schema kind_of s (KStr k) = Ok sc).
      { intros k m E. unfold slot_schema, mem. destruct K as [K|[K _]]; rewrite K; [rewrite E|]; eexists; reflexivity. }
      pose proof (sub_nodup _ _ Sub Nm) as N. clear Sub.
      assert (G : forall done g, (forall k, In k (map fst l) -> ~ In k (map fst done)) ->
        exists g1 ds, go l (Doc s (IDict done) None) g = (g1, Ok (Doc s (IDict (done ++ ds)) None))
          /\ Forall2 (fun a b => fst a = fst b /\ holds (snd a) (snd b)) l ds).
      { clear K g r. induction l as [|[k x] l IHl]; intros done g0 Dj.
        - exists g0, []. split; [cbn; rewrite app_nil_r; reflexivity|constructor].
        - inversion IH as [|? ? Ix IH']; subst. inversion F as [|? ? Fx F']; subst. inversion N as [|? ? Nk N']; subst. cbn [snd] in Ix. cbn [go]. fold go.
          destruct Fx as (m & Em & Fx). cbn [fst snd] in Em, Fx. unfold mem. rewrite Em.
          destruct (Ix RStruct m g0 (or_intror Fx)) as (g1 & d & -> & -> & H).
          rewrite (Gm k m (dict_get_In _ _ _ Em)). destruct (Sl k m Em) as [sc Esc].
          destruct (with_schema_shown m sc x d H (or_introl Fx)) as (d' & W & H').
          rewrite (setitem_new s k (ADoc d) d' done sc Esc W) by (apply Dj; left; reflexivity).
          destruct (IHl IH' F' N' (done ++ [(k, d')]) (put RStruct None g1)) as (g2 & ds & -> & Hs).
          { intros k2 I2. rewrite map_app, in_app_iff. cbn. intros [Q|[<-|[]]]; [apply (Dj k2); [right; exact I2|exact Q]|contradiction]. }
          exists g2, ((k, d') :: ds). rewrite <- app_assoc. split; [reflexivity|]. constructor; [split; [reflexivity|exact H']|exact Hs]. }
      destruct (G [] g) as (g1 & ds & E & H); [intros k _ []|]. cbn [app] in E. unfold go in E.
      destruct K as [K|[K _]]; rewrite K; cbv beta iota; rewrite E; (do 2 eexists; split; [reflexivity|]; split; [apply put_same|]; split; [constructor; exact H|reflexivity]).
  Qed.

  Lemma not_none v d : holds v d -> v <> VNull -> (forall e, v = VDoc e -> content e <> PNull) -> is_none d = false.
  Proof.
    intros H Nn Nd. destruct H as [| |d e C| | |]; try reflexivity; [congruence|].
    specialize (Nd e eq_refl). destruct d as [s [| | |] [p|]]; try reflexivity. cbn in C. congruence.
  Qed.

  Lemma read_holds v : forall t d, holds v d -> fits kind_of member_name t v -> exists v', read_doc kind_of t d = Ok v' /\ same v v'.
  Proof.
    induction v as [|x|e|l IH|l IH|l IH] using value_ind2; intros t d H F.
    - destruct F.
    - inversion H as [|s y| | | |]; subst. cbn in F. cbn [read_doc]. rewrite F. destruct x; (eexists; split; [reflexivity|constructor]).
    - inversion H as [| |d' e' C| | |]; subst. cbn in F. destruct F as [K _]. destruct d as [s v raw].
      destruct v; [destruct raw as [p|]|..]; cbn [read_doc]; rewrite ?K; try (eexists; split; [reflexivity|constructor; symmetry; exact C]).
      assert (E : read_new kind_of t s p = Ok (VDoc (new s p))) by (destruct p; cbn [read_new]; rewrite K; reflexivity).
      rewrite E. eexists. split; [reflexivity|]. constructor. rewrite content_new. symmetry. exact C.
    - inversion H as [| | |s l' ds H2| |]; subst. apply fits_list in F. destruct F as (sp & m & K & F). cbn [read_doc]. rewrite K.
      set (elements := fix elements (sparse : bool) (t : BinNums.N) (l : list doc) : result (list value) :=
        match l with
        | [] => Ok []
        | x :: r =>
          do y <- (if is_none x then Ok (if sparse then Some VNull else None) else do v <- read_doc kind_of t x; Ok (Some v));
          do ys <- elements sparse t r; Ok (opt_cons y ys)
        end).
      assert (G : exists l', elements sp m ds = Ok l' /\ Forall2 same l l').
      { clear H K. induction H2 as [|x d l ds Hx H2 IHl]; [exists []; split; [reflexivity|constructor]|].
        inversion IH as [|? ? Ix IH']; subst. inversion F as [|? ? Fx F']; subst. destruct (IHl IH' F') as (l' & E & S).
        cbn [elements]. fold elements. destruct Fx as [[-> ->]|Fx].
        - inversion Hx; subst. cbn [is_none d_value d_raw bind]. rewrite E. cbn. eexists. split; [reflexivity|]. constructor; [constructor|exact S].
        - assert (Fx2 : fits kind_of member_name m x /\ x <> VNull /\ forall e, x = VDoc e -> content e <> PNull).
          { destruct x; cbn in Fx; try contradiction; (split; [apply Fx|]); (split; [discriminate|]); intros e Q; try discriminate Q. injection Q as <-. apply Fx. }
          destruct Fx2 as (Fx2 & Nn & Nd). rewrite (not_none x d Hx Nn Nd). destruct (Ix m d Hx Fx2) as (v' & Ev & Sv). rewrite Ev. cbn [bind].
          rewrite E. cbn. eexists. split; [reflexivity|]. constructor; assumption. }
      destruct G as (l' & -> & S). cbn. eexists. split; [reflexivity|]. constructor. exact S.
    - inversion H as [| | | |s l' ds H2|]; subst. apply fits_map in F. destruct F as (sp & m & K & N & F). cbn [read_doc]. rewrite K.
      set (entries := fix entries (sparse : bool) (t : BinNums.N) (l : list (text * doc)) : result (list (text * value)) :=
      match l with
      | [] => Ok []
      | (k, x) :: r =>
        do y <- (if is_none x then Ok (if sparse then Some (k, VNull) else None) else do v <- read_doc kind_of t x; Ok (Some (k, v)));
        do ys <- entries sparse t r; Ok (opt_cons y ys)
      end).
      assert (G : exists l', entries sp m ds = Ok l' /\ Forall2 (fun a b => fst a = fst b /\ same (snd a) (snd b)) l l').
      { clear H K N. induction H2 as [|[k x] [k' d] l ds Hx H2 IHl]; [exists []; split; [reflexivity|constructor]|].
        inversion IH as [|? ? Ix IH']; subst. inversion F as [|? ? Fx F']; subst. destruct (IHl IH' F') as (l' & E & S).
        destruct Hx as [Hk Hx]. cbn [fst snd] in *. subst k'.
        cbn [entries]. fold entries. destruct Fx as [(Fx & -> & _)|Fx]; cbn [snd] in Fx.
        - subst x. inversion Hx; subst. cbn [is_none d_value d_raw bind]. rewrite E. cbn. eexists. split; [reflexivity|].
          constructor; [split; [reflexivity|constructor]|exact S].
        - assert (Fx2 : fits kind_of member_name m x /\ x <> VNull /\ forall e, x = VDoc e -> content e <> PNull).
          { destruct x; cbn in Fx; try contradiction; (split; [apply Fx|]); (split; [discriminate|]); intros e Q; try discriminate Q. injection Q as <-. apply Fx. }
          destruct Fx2 as (Fx2 & Nn & Nd). rewrite (not_none x d Hx Nn Nd). destruct (Ix m d Hx Fx2) as (v' & Ev & Sv). rewrite Ev. cbn [bind].
          rewrite E. cbn. eexists. split; [reflexivity|]. constructor; [split; [reflexivity|exact Sv]|exact S]. }
      destruct G as (l' & -> & S). cbn. eexists. split; [reflexivity|]. constructor. exact S.
    - inversion H as [| | | | |s l' ds H2]; subst. apply fits_struct in F. destruct F as (ms & K & [Nm Gm] & Sub & F). cbn [read_doc].
      set (find := fix find (t : BinNums.N) (k : text) (l : list (text * doc)) : result (option value) :=
      match l with
      | [] => Ok None
      | (k', x) :: r => if text_eqb k' k then do v <- read_doc kind_of t x; Ok (Some v) else find t k r
      end).
      set (members := fix members (ms : list (text * BinNums.N)) : result (list (text * value)) :=
                      match ms with
                      | [] => Ok []
                      | (k, m) :: r =>
                        do y <- find m k ds;
                        do ys <- members r; Ok (opt_cons (option_map (pair k) y) ys)
                      end).
      (* each member is found, with its value, or is not there *)
      assert (Fi : forall k m, dict_get k ms = Some m ->
        match dict_get k l with
        | Some x => exists v', find m k ds = Ok (Some v') /\ same x v'
        | None => find m k ds = Ok None end).
      { intros k m Em. clear K Sub H members. induction H2 as [|[k1 x] [k' d] l ds Hx H2 IHl]; [reflexivity|].
        inversion IH as [|? ? Ix IH']; subst. inversion F as [|? ? Fx F']; subst. destruct Hx as [Hk Hx]. cbn [fst snd] in *. subst k'.
        cbn [find dict_get]. fold find. destruct (text_eqb k k1) eqn:T.
        - apply text_eqb_eq in T. subst k1. rewrite text_eqb_refl. destruct Fx as (m' & Em' & Fx). cbn [fst snd] in *.
          assert (m' = m) by congruence. subst m'. destruct (Ix m d Hx Fx) as (v' & Ev & Sv). rewrite Ev. eexists. split; [reflexivity|exact Sv].
        - assert (text_eqb k1 k = false) as ->.
          { destruct (text_eqb k1 k) eqn:T2; [|reflexivity]. apply text_eqb_eq in T2. subst. rewrite text_eqb_refl in T. discriminate T. }
          exact (IHl IH' F'). }
      assert (Nl : NoDup (map fst l)) by exact (sub_nodup _ _ Sub Nm).
      assert (G : exists l', members ms = Ok l' /\ Forall2 (fun a b => fst a = fst b /\ same (snd a) (snd b)) l l').
      { assert (Q : forall ms' lv, (forall k m, In (k, m) ms' -> dict_get k ms = Some m) -> NoDup (map fst ms') ->
          (forall k x, In (k, x) lv -> dict_get k l = Some x) -> (forall k, In k (map fst ms') -> ~ In k (map fst lv) -> dict_get k l = None) ->
          subsequence (map fst lv) (map fst ms') ->
          exists l', members ms' = Ok l' /\ Forall2 (fun a b => fst a = fst b /\ same (snd a) (snd b)) lv l').
        { induction ms' as [|[k m] ms' IHm]; intros lv A Nd B C S.
          - inversion S. destruct lv; [|discriminate]. exists []. split; [reflexivity|constructor].
          - cbn [members]. fold members. specialize (Fi k m (A k m (or_introl eq_refl))). cbn [map fst] in S, Nd. inversion Nd as [|? ? Nk Nd']; subst.
            inversion S as [|y l0 m0 S' Q1 Q2|y l0 m0 S' Q1 Q2]; subst.
            + destruct lv as [|[k1 x] lv]; [discriminate|]. cbn in Q1. injection Q1 as Q1 Q3; subst k1 l0.
              rewrite (B k x (or_introl eq_refl)) in Fi. destruct Fi as (v' & -> & Sv). cbn [bind].
              destruct (IHm lv) as (l' & -> & S2).
              * intros k2 m2 I2. apply A. right. exact I2.
              * exact Nd'.
              * intros k2 x2 I2. apply B. right. exact I2.
              * intros k2 I2 J2. apply C; [right; exact I2|]. cbn. intros [<-|J3]; [contradiction|contradiction].
              * exact S'.
              * cbn. eexists. split; [reflexivity|]. constructor; [split; [reflexivity|exact Sv]|exact S2].
            + assert (Nin : ~ In k (map fst lv)) by (intros J; exact (Nk (sub_in _ _ _ S' J))).
              rewrite (C k (or_introl eq_refl) Nin) in Fi. rewrite Fi. cbn [bind].
              destruct (IHm lv) as (l' & -> & S2).
              * intros k2 m2 I2. apply A. right. exact I2.
              * exact Nd'.
              * exact B.
              * intros k2 I2 J2. apply C; [right; exact I2|exact J2].
              * exact S'.
              * cbn. eexists. split; [reflexivity|exact S2]. }
        apply Q.
        - intros k m I. apply dict_In_get; assumption.
        - exact Nm.
        - intros k x I. apply dict_In_get; assumption.
        - intros k _ J. destruct (dict_get k l) as [x|] eqn:E; [|reflexivity]. exfalso. apply J. apply dict_get_In in E. apply (in_map fst) in E. exact E.
        - exact Sub. }
      destruct G as (l' & E & S). destruct K as [K|[K [kv Kl]]]; rewrite K, E; cbn [bind one_member].
      + eexists. split; [reflexivity|]. constructor. exact S.
      + subst l. inversion S as [|? y ? ys Sy Sys]; subst. inversion Sys; subst. eexists. split; [reflexivity|]. constructor. exact S.
  Qed.

  Lemma holds_content v : forall d, holds v d -> content d = plain_of v.
  Proof.
    induction v as [|x|e|l IH|l IH|l IH] using value_ind2; intros d H; inversion H as [|s y|d' e' C|s l' ds H2|s l' ds H2|s l' ds H2]; subst; try reflexivity.
    - exact C.
    - cbn. f_equal. induction H2 as [|x d l ds Hx H2 IHl]; [reflexivity|]. inversion IH; subst. cbn. f_equal; [auto|].
      apply IHl; [assumption|constructor; assumption].
    - cbn. f_equal. induction H2 as [|[k x] [k' d] l ds [Hk Hx] H2 IHl]; [reflexivity|]. inversion IH; subst. cbn in *. f_equal; [f_equal; auto|].
      apply IHl; [assumption|constructor; assumption].
    - cbn. f_equal. induction H2 as [|[k x] [k' d] l ds [Hk Hx] H2 IHl]; [reflexivity|]. inversion IH; subst. cbn in *. f_equal; [f_equal; auto|].
      apply IHl; [assumption|constructor; assumption].
  Qed.
End Shapes.
