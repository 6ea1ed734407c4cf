(** Documents made from shapes serialize as the shapes. *)
From Verif Require Import Base Base_Proofs PyDict_Model PyDict_Proofs Doc_Model Doc_Spec Doc_Proofs DocShape_Proofs.

Section Serial.
  Variable kind_of : N -> kind.
  Variable member_name : N -> option text.

  (** The document a value becomes, with its schemas. *)
  Inductive typed : N -> value -> doc -> Prop :=
  | t_null s : typed s VNull (Doc s INone None)
  | t_scalar s x : kind_of s = KScalar (scalar_type x) -> typed s (VScalar x) (Doc s (IScalar x) None)
  | t_doc s d e : untyped kind_of d -> content d = content e -> typed s (VDoc e) d
  | t_list s sp m l ds : kind_of s = KList sp m -> Forall2 (typed m) l ds -> typed s (VList l) (Doc s (IList ds) None)
  | t_map s sp m l ds : kind_of s = KMap sp m -> Forall2 (fun a b => fst a = fst b /\ typed m (snd a) (snd b)) l ds ->
      typed s (VMap l) (Doc s (IDict ds) None)
  | t_struct s ms l ds : kind_of s = KStruct ms ->
      Forall2 (fun a b => fst a = fst b /\ exists m, dict_get (fst a) ms = Some m /\ member_name m = Some (fst a) /\ d_schema (snd b) = m /\ typed m (snd a) (snd b)) l ds ->
      typed s (VStruct l) (Doc s (IDict ds) None).
  Definition is_member (ms : list (text * N)) (a : text * value) (b : text * doc) : Prop :=
    fst a = fst b /\ exists m, dict_get (fst a) ms = Some m /\ member_name m = Some (fst a) /\ d_schema (snd b) = m /\ typed m (snd a) (snd b).

  Definition placed (s : N) (v : value) (d : doc) : Prop :=
    typed s v d /\ match v with VDoc e => d = e | _ => d_schema d = s end.

  Lemma with_schema_placed s v d : placed s v d ->
    fits kind_of member_name s v \/ (v = VNull /\ is_container (kind_of s) = false) ->
    exists d', with_schema kind_of s d = Ok d' /\ typed s v d' /\ d_schema d' = s.
  Proof.
    intros [H S] F. destruct H as [s|s x K|s d e U C|s sp m l ds K H|s sp m l ds K H|s ms l ds K H]; cbn in S.
    - destruct F as [[]|[_ F]]. unfold with_schema, shape_type. cbn [d_schema d_value d_raw].
      destruct (kind_of s) eqn:Ks; try discriminate F; eexists; (split; [reflexivity|split; [constructor|reflexivity]]).
    - unfold with_schema, shape_type. cbn [d_schema d_value]. rewrite K. eexists. split; [reflexivity|]. split; [constructor; exact K|reflexivity].
    - subst d. destruct F as [F|[? _]]; [|discriminate]. cbn in F. destruct F as (Ks & _ & _).
      destruct (with_schema_inv kind_of member_name false s e Ks) as (d' & W & [U' _]); [split; [exact U|discriminate]|].
      exists d'. split; [exact W|]. split.
      + constructor; [exact U'|]. exact (with_schema_content kind_of s e d' W (untyped_sensible kind_of e U)).
      + clear - W. unfold with_schema in W. destruct (shape_type kind_of e); try (injection W as <-; reflexivity);
          (destruct (snd (as_map kind_of e)) + destruct (snd (as_list kind_of e))); cbn in W; try discriminate W; injection W as <-; reflexivity.
    - unfold with_schema, shape_type. cbn [d_schema]. rewrite K. eexists. split; [reflexivity|]. split; [econstructor; eassumption|reflexivity].
    - unfold with_schema, shape_type. cbn [d_schema]. rewrite K. eexists. split; [reflexivity|]. split; [econstructor; eassumption|reflexivity].
    - unfold with_schema, shape_type. cbn [d_schema]. rewrite K. eexists. split; [reflexivity|]. split; [econstructor; eassumption|reflexivity].
  Qed.

  Lemma write_typed v : forall r s g, v = VNull \/ fits kind_of member_name s v -> serializable kind_of s v ->
    exists g1 d, write kind_of member_name r s v g = (g1, None) /\ g1 r = Some d /\ placed s v d.
  Proof.
    induction v as [|x|e|l IH|l IH|l IH] using value_ind2; intros r s g F U.
    - cbn. do 2 eexists. split; [reflexivity|]. split; [apply put_same|]. split; [constructor|reflexivity].
    - destruct F as [|F]; [discriminate|]. cbn in F. cbn. do 2 eexists. split; [reflexivity|]. split; [apply put_same|]. split; [constructor; exact F|reflexivity].
    - cbn. do 2 eexists. split; [reflexivity|]. split; [apply put_same|]. split; [constructor; [exact U|reflexivity]|reflexivity].
    - destruct F as [|F]; [discriminate|]. apply (fits_list kind_of member_name) in F. destruct F as (sp & m & K & F). cbn [serializable] in U. rewrite K in U. cbn [write]. rewrite K.
      set (go := fix go (l : list value) (acc : list doc) (g : regs) : regs * result (list doc) :=
          match l with
          | [] => (g, Ok acc)
          | x :: rest =>
            match write kind_of member_name RList m x g with
            | (g1, Some e) => (g1, Err e)
            | (g1, None) =>
              match g1 RList with
              | Some d => go rest (acc ++ [d]) (put RList None g1)
              | None => (g1, Err ExpectationNotMet)
              end
            end
          end).
      assert (G : forall acc g, exists g1 ds, go l acc g = (g1, Ok (acc ++ ds)) /\ Forall2 (typed m) l ds).
      { induction l as [|x l IHl]; intros acc g0.
        - exists g0, []. split; [cbn; rewrite app_nil_r; reflexivity|constructor].
        - inversion IH as [|? ? Ix IH']; subst. inversion F as [|? ? Fx F']; subst. destruct U as [Ux U']. cbn [go]. fold go.
          assert (Fx' : x = VNull \/ fits kind_of member_name m x).
          { destruct Fx as [[-> _]|Fx]; [auto|]. right. destruct x; cbn in Fx; try contradiction; try exact Fx. apply Fx. }
          destruct (Ix RList m g0 Fx' Ux) as (g1 & d & -> & -> & [H _]).
          destruct (IHl IH' F' U' (acc ++ [d]) (put RList None g1)) as (g2 & ds & -> & Hs).
          exists g2, (d :: ds). rewrite <- app_assoc. split; [reflexivity|]. constructor; assumption. }
      destruct (G [] g) as (g1 & ds & -> & H). do 2 eexists. split; [reflexivity|]. split; [apply put_same|].
      split; [econstructor; [exact K|exact H]|reflexivity].
    - destruct F as [|F]; [discriminate|]. apply fits_map in F. destruct F as (sp & m & K & N & F). cbn [serializable] in U. rewrite K in U. cbn [write]. rewrite K.
      set (go := fix go (l : list (text * value)) (acc : doc) (g : regs) : regs * result doc :=
          match l with
          | [] => (g, Ok acc)
          | (k, x) :: rest =>
            match write kind_of member_name RMap m x g with
            | (g1, Some e) => (g1, Err e)
            | (g1, None) =>
              match g1 RMap with
              | Some d =>
                match setitem kind_of (KStr k) (ADoc d) acc with
                | (acc', None) => go rest acc' (put RMap None g1)
                | (_, Some e) => (g1, Err e)
                end
              | None => (g1, Err ExpectationNotMet)
              end
            end
          end).
      assert (G : forall done g, (forall k, In k (map fst l) -> ~ In k (map fst done)) ->
        exists g1 ds, go l (Doc s (IDict done) None) g = (g1, Ok (Doc s (IDict (done ++ ds)) None))
          /\ Forall2 (fun a b => fst a = fst b /\ typed m (snd a) (snd b)) l ds).
      { induction l as [|[k x] l IHl]; intros done g0 Dj.
        - exists g0, []. split; [cbn; rewrite app_nil_r; reflexivity|constructor].
        - inversion IH as [|? ? Ix IH']; subst. inversion F as [|? ? Fx F']; subst. inversion N as [|? ? Nk N']; subst. destruct U as [Ux U']. cbn [snd] in Ix. cbn [go]. fold go.
          assert (Fx' : x = VNull \/ fits kind_of member_name m x).
          { destruct Fx as [[Fx _]|Fx]; cbn in Fx; [auto|]. right. destruct x; cbn in Fx; try contradiction; try exact Fx. apply Fx. }
          assert (Fx2 : fits kind_of member_name m x \/ (x = VNull /\ is_container (kind_of m) = false)).
          { destruct Fx as [(Fx & _ & Fc)|Fx]; cbn in *; [right; split; assumption|]. left. destruct x; cbn in Fx; try contradiction; try exact Fx. apply Fx. }
          destruct (Ix RMap m g0 Fx' Ux) as (g1 & d & -> & -> & H).
          destruct (with_schema_placed m x d H Fx2) as (d' & W & H' & _).
          rewrite (setitem_new kind_of s k (ADoc d) d' done m); [|unfold slot_schema; rewrite K; reflexivity|exact W|apply Dj; left; reflexivity].
          destruct (IHl IH' N' F' U' (done ++ [(k, d')]) (put RMap None g1)) as (g2 & ds & -> & Hs).
          { intros k2 I2. rewrite map_app, in_app_iff. cbn. intros [Q|[<-|[]]]; [apply (Dj k2); [right; exact I2|exact Q]|contradiction]. }
          exists g2, ((k, d') :: ds). rewrite <- app_assoc. split; [reflexivity|]. constructor; [split; [reflexivity|exact H']|exact Hs]. }
      destruct (G [] g) as (g1 & ds & -> & H); [intros k _ []|]. do 2 eexists. split; [reflexivity|]. split; [apply put_same|].
      split; [econstructor; [exact K|exact H]|reflexivity].
    - destruct F as [|F]; [discriminate|]. apply fits_struct in F. destruct F as (ms & K & [Nm Gm] & Sub & F). cbn [write].
      assert (K' : kind_of s = KStruct ms).
      { destruct K as [K|[K _]]; [exact K|]. cbn [serializable] in U. rewrite K in U. destruct U. }
      clear K. rename K' into K. cbn [serializable] in U. rewrite K in U.
      set (go := fix go (l : list (text * value)) (acc : doc) (g : regs) : regs * result doc :=
          match l with
          | [] => (g, Ok acc)
          | (k, x) :: rest =>
            match mem ms k with
            | Err e => (g, Err e)
            | Ok m =>
              match write kind_of member_name RStruct m x g with
              | (g1, Some e) => (g1, Err e)
              | (g1, None) =>
                match member_name m, g1 RStruct with
                | Some name, Some d =>
                  match setitem kind_of (KStr name) (ADoc d) acc with
                  | (acc', None) => go rest acc' (put RStruct None g1)
                  | (_, Some e) => (g1, Err e)
                  end
                | _, _ => (g1, Err ExpectationNotMet)
                end
              end
            end
          end).
      assert (Sl : forall k m, dict_get k ms = Some m -> slot_schema kind_of s (KStr k) = Ok m).
      { intros k m E. unfold slot_schema, mem. rewrite K. rewrite E. reflexivity. }
      pose proof (sub_nodup _ _ Sub Nm) as N. clear Sub.
      assert (G : forall done g, (forall k, In k (map fst l) -> ~ In k (map fst done)) ->
        exists g1 ds, go l (Doc s (IDict done) None) g = (g1, Ok (Doc s (IDict (done ++ ds)) None))
          /\ Forall2 (is_member ms) l ds).
      { clear K g r. induction l as [|[k x] l IHl]; intros done g0 Dj.
        - exists g0, []. split; [cbn; rewrite app_nil_r; reflexivity|constructor].
        - inversion IH as [|? ? Ix IH']; subst. inversion F as [|? ? Fx F']; subst. inversion N as [|? ? Nk N']; subst. destruct U as [Ux U']. cbn [snd] in Ix. cbn [go]. fold go.
          destruct Fx as (m & Em & Fx). cbn [fst snd] in Em, Fx. unfold mem. rewrite Em.
          destruct (Ix RStruct m g0 (or_intror Fx) (Ux m Em)) as (g1 & d & -> & -> & H).
          rewrite (Gm k m (dict_get_In _ _ _ Em)). pose proof (Sl k m Em) as Esc.
          destruct (with_schema_placed m x d H (or_introl Fx)) as (d' & W & H' & Hs').
          rewrite (setitem_new kind_of s k (ADoc d) d' done m Esc W) by (apply Dj; left; reflexivity).
          destruct (IHl IH' F' U' N' (done ++ [(k, d')]) (put RStruct None g1)) as (g2 & ds & -> & Hs).
          { intros k2 I2. rewrite map_app, in_app_iff. cbn. intros [Q|[<-|[]]]; [apply (Dj k2); [right; exact I2|exact Q]|contradiction]. }
          exists g2, ((k, d') :: ds). rewrite <- app_assoc. split; [reflexivity|]. constructor; [|exact Hs]. split; [reflexivity|]. exists m. exact (conj Em (conj (Gm k m (dict_get_In _ _ _ Em)) (conj Hs' H'))). }
      destruct (G [] g) as (g1 & ds & E & H); [intros k _ []|]. cbn [app] in E. unfold go in E.
      rewrite K; cbv beta iota; rewrite E; (do 2 eexists; split; [reflexivity|]; split; [apply put_same|]; split; [econstructor; [exact K|exact H]|reflexivity]).
  Qed.


  Lemma visit_typed v : forall s d, typed s v d -> visit kind_of member_name d = Ok (plain_of v).
  Proof.
    induction v as [|x|e|l IH|l IH|l IH] using value_ind2; intros s d H;
      inversion H as [s'|s' x' K|s' d' e' U C|s' sp m l' ds K H2|s' sp m l' ds K H2|s' ms l' ds K H2]; subst.
    - reflexivity.
    - cbn [visit]. unfold shape_type. cbn [d_schema]. rewrite K. destruct x; reflexivity.
    - rewrite (visit_untyped kind_of member_name d U), C. reflexivity.
    - cbn [visit]. unfold shape_type. cbn [d_schema]. rewrite K. cbv beta iota.
      assert (E : (fix go (l : list doc) : result (list plain) :=
                      match l with [] => Ok [] | x :: r => do y <- visit kind_of member_name x; do ys <- go r; Ok (y :: ys) end) ds = Ok (map plain_of l)).
      { clear K H. induction H2 as [|x d l ds Hx H2 IHl]; [reflexivity|]. inversion IH as [|? ? Ix IH']; subst.
        rewrite (Ix m d Hx). cbn [bind]. rewrite (IHl IH'). reflexivity. }
      rewrite E. reflexivity.
    - cbn [visit]. unfold shape_type. cbn [d_schema]. rewrite K. cbv beta iota.
      assert (E : (fix go (l : list (text * doc)) : result (list (text * plain)) :=
                      match l with [] => Ok [] | (k, x) :: r => do y <- visit kind_of member_name x; do ys <- go r; Ok ((k, y) :: ys) end) ds
                  = Ok (map (fun kv => (fst kv, plain_of (snd kv))) l)).
      { clear K H. induction H2 as [|[k x] [k' d] l ds Hx H2 IHl]; [reflexivity|]. inversion IH as [|? ? Ix IH']; subst.
        destruct Hx as [Hk Hx]. cbn [fst snd] in *. subst k'. rewrite (Ix m d Hx). cbn [bind]. rewrite (IHl IH'). reflexivity. }
      rewrite E. reflexivity.
    - cbn [visit]. unfold shape_type. cbn [d_schema]. rewrite K. cbv beta iota.
      assert (E : (fix go (l : list (text * doc)) : result (list (text * plain)) :=
                      match l with
                      | [] => Ok []
                      | (_, x) :: r =>
                        do name <- match member_name (d_schema x) with Some n => Ok n | None => Err ExpectationNotMet end;
                        do y <- visit kind_of member_name x; do ys <- go r; Ok ((name, y) :: ys)
                      end) ds = Ok (map (fun kv => (fst kv, plain_of (snd kv))) l)).
      { clear K H. induction H2 as [|[k x] [k' d] l ds Hx H2 IHl]; [reflexivity|]. inversion IH as [|? ? Ix IH']; subst.
        destruct Hx as (Hk & m & _ & Em & Es & Hx). cbn [fst snd] in *. subst k'. rewrite Es, Em. cbn [bind]. rewrite (Ix m d Hx). cbn [bind].
        rewrite (IHl IH'). reflexivity. }
      rewrite E. reflexivity.
  Qed.
End Serial.
