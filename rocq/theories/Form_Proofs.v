(** Form bodies: the parameters are the leaves. *)
From Verif Require Import Base Base_Proofs Utf8_Model Utf8_Proofs PyText_Model PyText_Proofs PySort_Model PySort_Proofs Base64_Model HttpVal_Model.
From Verif Require Import Form_Model Form_Spec.
From Verif Require Http_Spec Http_Proofs HttpBind_Props Time_Model PyDecimal_Proofs.
Local Open Scope N_scope.

Lemma value_ind2 (P : value -> Prop) : P QNull -> (forall v, P (QScalar v)) -> P QDocument ->
  (forall l, Forall P l -> P (QList l)) -> (forall l, Forall (fun kv => P (snd kv)) l -> P (QMap l)) ->
  (forall l, Forall (fun mv => P (snd mv)) l -> P (QStruct l)) -> forall v, P v.
Proof.
  intros H1 H2 H3 H4 H5 H6. fix IH 1. intros [|x| |l|l|l]; [exact H1|apply H2|exact H3| | |].
  - apply H4. induction l as [|x l IHl]; constructor; [apply IH|exact IHl].
  - apply H5. induction l as [|[k x] l IHl]; constructor; [apply IH|exact IHl].
  - apply H6. induction l as [|[m x] l IHl]; constructor; [apply IH|exact IHl].
Qed.
Lemma nodup_app {A} (l m : list A) : NoDup l -> NoDup m -> (forall x, In x l -> ~ In x m) -> NoDup (l ++ m).
Proof.
  induction 1 as [|x l Nx N IH]; intros M D; cbn; [exact M|]. constructor.
  - rewrite in_app_iff. intros [I|I]; [contradiction|]. exact (D x (or_introl eq_refl) I).
  - apply IH; [exact M|]. intros y I. apply D. right. exact I.
Qed.
Lemma nodup_map {A B} (f : A -> B) l : (forall x y, In x l -> In y l -> f x = f y -> x = y) -> NoDup l -> NoDup (map f l).
Proof.
  intros I. induction 1 as [|x l Nx N IH]; cbn; constructor.
  - intros J. apply in_map_iff in J. destruct J as (y & E & J). apply Nx. rewrite (I x y); [exact J|now left|now right|now symmetry].
  - apply IH. intros a b Ia Ib. apply I; now right.
Qed.
Lemma dec_nodot n : ~ In 46 (dec n).
Proof. intros I. pose proof (PyDecimal_Proofs.dec_all n 46 I) as [H _]. apply H. reflexivity. Qed.

Lemma snoc_ne {A} (p : list A) x : p ++ [x] <> [].
Proof. destruct p; discriminate. Qed.
Lemma snoc_ne2 {A} (p a : list A) x : p ++ a ++ [x] <> [].
Proof. rewrite app_assoc. apply snoc_ne. Qed.

Section Form.
  Variable pads_year : bool.
  Variable repr : Time_Model.float -> text.
  Variable xml_name : N -> option text.
  Variable member_name : N -> option text.
  Variable flattened : N -> bool.
  Variable ts_format : N -> option format.
  Variable list_member map_key map_value : N -> option N.
  Notation write := (write pads_year repr xml_name member_name flattened ts_format list_member map_key map_value).
  Notation leaf := (leaf pads_year repr xml_name member_name flattened ts_format list_member map_key map_value).
  Notation good := (good pads_year repr xml_name member_name ts_format list_member map_key map_value).

  Notation way := (list text).
  Definition at_path (path : way) (q : way * text) : text * text := (join [46] (path ++ fst q), snd q).
  Definition below (p : way) (q : way * text) : way * text := (p ++ fst q, snd q).
  Lemma at_path_below path p q : at_path path (below p q) = at_path (path ++ p) q.
  Proof. unfold at_path, below. cbn. rewrite app_assoc. reflexivity. Qed.
  Lemma at_path_map path p qs : map (at_path path) (map (below p) qs) = map (at_path (path ++ p)) qs.
  Proof. rewrite map_map. apply map_ext. intros q. apply at_path_below. Qed.

  Definition clean (q : way * text) : Prop := Forall plain_name (fst q) /\ encodable (snd q).
  (** The parameters of [v] at [path] are those of [qs], its leaves. *)
  Definition shows (s : N) (v : value) (path : way) : Prop :=
    exists qs, write s v path = Ok (map (at_path path) qs) /\ NoDup (map fst qs) /\ Forall clean qs
      /\ forall w t, In (w, t) qs <-> leaf s v w t.

  Lemma name_is m d : is_named xml_name m d (resolve_name xml_name m d).
  Proof. unfold is_named, resolve_name. destruct (xml_name m); reflexivity. Qed.
  Lemma name_unique m d n : is_named xml_name m d n -> n = resolve_name xml_name m d.
  Proof. unfold is_named, resolve_name. destruct (xml_name m); auto. Qed.

  Lemma below_in p qs w t : In (w, t) (map (below p) qs) <-> exists w', w = p ++ w' /\ In (w', t) qs.
  Proof.
    rewrite in_map_iff. split.
    - intros ([w' t'] & E & I). cbn in E. injection E as <- <-. exists w'. auto.
    - intros (w' & -> & I). exists (w', t). auto.
  Qed.
  Lemma below_fst p qs : map fst (map (below p) qs) = map (app p) (map fst qs).
  Proof. rewrite !map_map. reflexivity. Qed.
  Lemma below_nodup p qs : NoDup (map fst qs) -> NoDup (map fst (map (below p) qs)).
  Proof. intros N. rewrite below_fst. apply nodup_map; [|exact N]. intros x y _ _ E. exact (app_inv_head _ _ _ E). Qed.
  Lemma below_clean p qs : Forall plain_name p -> Forall clean qs -> Forall clean (map (below p) qs).
  Proof.
    intros P C. apply Forall_map. eapply Forall_impl; [|exact C]. intros [w t] [A B]. split; [|exact B]. cbn. apply Forall_app. auto.
  Qed.
  Lemma fst_in (qs : list (way * text)) w : In w (map fst qs) -> exists t, In (w, t) qs.
  Proof. intros I. apply in_map_iff in I. destruct I as ([w' t] & <- & I). exists t. exact I. Qed.

  Lemma dec_plain i : plain_name (dec i).
  Proof.
    split; [apply dec_nodot|]. unfold encodable, valid_text. apply forallb_forall. intros c I.
    pose proof (PyDecimal_Proofs.dec_all i c I) as [D1 D2]. unfold is_scalar. assert ((c <? 55296) = true) as -> by (apply N.ltb_lt; lia). reflexivity.
  Qed.

  Lemma write_shows v : forall s path, good s v -> path <> [] \/ (exists l, v = QStruct l) -> shows s v path.
  Proof.
    induction v as [|x| |l IH|l IH|l IH] using value_ind2; intros s path G P.
    - exists []. split; [reflexivity|]. split; [constructor|]. split; [constructor|]. intros w t. split; [intros []|]. intros L. inversion L.
    - destruct P as [P|(l & P)]; [|discriminate]. destruct G as (t & E & V). exists [([], t)]. cbn [Form_Model.write]. rewrite E. cbn [bind].
      split; [unfold append; destruct path; [congruence|]; unfold at_path; cbn [map fst snd]; rewrite app_nil_r; reflexivity|].
      split; [repeat constructor; intros []|]. split; [repeat constructor; exact V|].
      intros w u. split.
      + intros [[= <- <-]|[]]. constructor. exact E.
      + intros L. inversion L; subst. left. congruence.
    - destruct G.
    - destruct P as [P|(l' & P)]; [|discriminate]. destruct G as (m & Em & Pn & G). unfold shows. cbn [Form_Model.write].
      set (go := fix go (i : N) (l : list value) : result (list (text * text)) :=
         match l with
         | [] => Ok []
         | x :: r =>
           do ps <- write m x (path ++ (if flattened s then [dec i] else [resolve_name xml_name m (lit "member"); dec i]));
           do rest <- go (i + 1) r; Ok (ps ++ rest)
         end).
      set (n := resolve_name xml_name m (lit "member")) in *.
      set (pre := if flattened s then [] else [n]).
      assert (Pre : forall i, (if flattened s then [dec i] else [n; dec i]) = pre ++ [dec i]) by (intros i; unfold pre; destruct (flattened s); reflexivity).
      assert (PreP : Forall plain_name pre) by (unfold pre; destruct (flattened s); repeat constructor; apply Pn).
      assert (H : forall i, exists qs, go i l = Ok (map (at_path path) qs) /\ NoDup (map fst qs) /\ Forall clean qs
        /\ forall w t, In (w, t) qs <-> exists j x w', nth_error l j = Some x /\ w = (pre ++ [dec (i + N.of_nat j)]) ++ w' /\ leaf m x w' t).
      { clear P Em. induction l as [|x l IHl]; intros i.
        - exists []. split; [reflexivity|]. split; [constructor|]. split; [constructor|]. intros w t. split; [intros []|]. intros ([|j] & x & w' & E & _); discriminate E.
        - inversion IH as [|? ? Ix IH']; subst. destruct G as [Gx G].
          destruct (Ix m (path ++ pre ++ [dec i]) Gx (or_introl (snoc_ne2 _ _ _))) as (qx & Ex & Nx & Cx & Lx).
          destruct (IHl IH' G (i + 1)) as (qr & Er & Nr & Cr & Lr).
          exists (map (below (pre ++ [dec i])) qx ++ qr). cbn [go]. fold go. rewrite Pre, Ex. cbn [bind]. rewrite Er. cbn [bind].
          split; [rewrite map_app, at_path_map; reflexivity|]. rewrite map_app.
          split; [|split].
          + apply nodup_app; [apply below_nodup; exact Nx|exact Nr|]. intros w I1 I2. rewrite below_fst in I1. apply in_map_iff in I1. destruct I1 as (w1 & <- & _).
            apply fst_in in I2. destruct I2 as (t & I2). apply Lr in I2. destruct I2 as (j & y & w2 & _ & E & _).
            rewrite <- !app_assoc in E. apply app_inv_head in E. cbn in E. injection E as E _. apply dec_inj in E. lia.
          + apply Forall_app. split; [|exact Cr]. apply below_clean; [|exact Cx]. apply Forall_app. split; [exact PreP|]. constructor; [apply dec_plain|constructor].
          + intros w t. rewrite in_app_iff, below_in, Lr. split.
            * intros [(w' & -> & I)|(j & y & w' & E & -> & L)].
              -- exists O, x, w'. split; [reflexivity|]. split; [rewrite N.add_0_r; reflexivity|]. apply Lx. exact I.
              -- exists (S j), y, w'. split; [exact E|]. split; [|exact L]. replace (i + N.of_nat (S j)) with (i + 1 + N.of_nat j) by lia. reflexivity.
            * intros ([|j] & y & w' & E & -> & L).
              -- left. exists w'. cbn in E. injection E as <-. split; [rewrite N.add_0_r; reflexivity|]. apply Lx. exact L.
              -- right. exists j, y, w'. split; [exact E|]. split; [|exact L]. replace (i + N.of_nat (S j)) with (i + 1 + N.of_nat j) by lia. reflexivity. }
      destruct (H 1) as (qs & E & Nq & Cq & Lq). rewrite Em. cbn [expect_schema bind]. cbv zeta. fold n. fold go. rewrite E. destruct l as [|x0 l0] eqn:El.
      + cbn in E. injection E as E. symmetry in E. apply map_eq_nil in E. subst qs.
        exists [([], [])]. unfold append. destruct path as [|p0 path]; [congruence|]. cbn [bind]. split; [unfold at_path; cbn [map fst snd]; rewrite !app_nil_r; reflexivity|].
        split; [repeat constructor; intros []|]. split; [repeat constructor|]. intros w t. split.
        * intros [[= <- <-]|[]]. constructor.
        * intros L. inversion L as [| |? ? ? ? i ? ? ? ? ? ? E0| | |]; subst; [left; reflexivity|]. destruct i; discriminate E0.
      + exists qs. cbn [bind app]. split; [reflexivity|]. split; [exact Nq|]. split; [exact Cq|]. intros w t. rewrite Lq.
        change (1%N) with (N.of_nat 1). split.
        * intros (j & y & w' & Ej & -> & L). apply (leaf_element _ _ _ _ _ _ _ _ _ s m n (x0 :: l0) j y); [exact Em|apply name_is|exact Ej| |exact L].
          unfold numbered, pre. rewrite <- Nnat.Nat2N.inj_add. reflexivity.
        * intros L. inversion L as [| |? m' n' ? i y segs w' ? Em' Nn Ei Sg L'| | |]; subst. rewrite Em in Em'. injection Em' as <-.
          apply name_unique in Nn. fold n in Nn. subst n'. exists i, y, w'. split; [exact Ei|]. split; [|exact L']. f_equal. unfold numbered in Sg. rewrite Sg.
          rewrite <- Nnat.Nat2N.inj_add. reflexivity.
    - destruct P as [P|(l' & P)]; [|discriminate]. destruct G as (k & e & Ek & Ee & Pk & Pe & Dne & G). unfold shows. cbn [Form_Model.write]. rewrite Ek, Ee. cbn [expect_schema bind].
      set (go := fix go (i : N) (l : list (text * value)) : result (list (text * text)) :=
         match l with
         | [] => Ok []
         | (key, x) :: r =>
           let entry := path ++ (if flattened s then [dec i] else [lit "entry"; dec i]) in
           do kp <- append (entry ++ [resolve_name xml_name k (lit "key")]) key;
           do ps <- write e x (entry ++ [resolve_name xml_name e (lit "value")]);
           do rest <- go (i + 1) r; Ok (kp ++ ps ++ rest)
         end).
      set (nk := resolve_name xml_name k (lit "key")) in *. set (ne := resolve_name xml_name e (lit "value")) in *.
      assert (Dn : nk <> ne) by exact Dne.
      set (pre := if flattened s then [] else [lit "entry"]).
      assert (Pre : forall i, (if flattened s then [dec i] else [lit "entry"; dec i]) = pre ++ [dec i]) by (intros i; unfold pre; destruct (flattened s); reflexivity).
      assert (PreP : Forall plain_name pre).
      { unfold pre. destruct (flattened s); [constructor|]. constructor; [|constructor]. split; [|reflexivity]. intros I. vm_compute in I. intuition discriminate. }
      assert (H : forall i, exists qs, go i l = Ok (map (at_path path) qs) /\ NoDup (map fst qs) /\ Forall clean qs
        /\ forall w t, In (w, t) qs <-> exists j key x, nth_error l j = Some (key, x) /\
             ((w = (pre ++ [dec (i + N.of_nat j)]) ++ [nk] /\ t = key)
              \/ exists w', w = (pre ++ [dec (i + N.of_nat j)]) ++ ne :: w' /\ leaf e x w' t)).
      { clear P Ek Ee Dne. induction l as [|[key x] l IHl]; intros i.
        - exists []. split; [reflexivity|]. split; [constructor|]. split; [constructor|]. intros w t. split; [intros []|]. intros ([|j] & key & x & E & _); discriminate E.
        - inversion IH as [|? ? Ix IH']; subst. destruct G as [[Gx Gk] G]. cbn [snd] in Ix.
          destruct (Ix e ((path ++ pre ++ [dec i]) ++ [ne]) Gx (or_introl (snoc_ne _ _))) as (qx & Ex & Nx & Cx & Lx).
          destruct (IHl IH' G (i + 1)) as (qr & Er & Nr & Cr & Lr).
          exists (((pre ++ [dec i]) ++ [nk], key) :: map (below ((pre ++ [dec i]) ++ [ne])) qx ++ qr). cbn [go]. fold go. cbv zeta. rewrite Pre, Ex.
          unfold append. destruct ((path ++ pre ++ [dec i]) ++ [nk]) as [|z0 z] eqn:Ez; [destruct (snoc_ne _ _ Ez)|]. rewrite <- Ez.
          cbn [bind]. rewrite Er. cbn [bind].
          split; [cbn [map app]; rewrite map_app, at_path_map; unfold at_path at 1; cbn [fst snd]; rewrite <- !app_assoc; reflexivity|].
          cbn [map fst]. rewrite map_app.
          assert (Far : forall w1 t1 a, In (w1, t1) qr -> w1 <> (pre ++ [dec i]) ++ a).
          { intros w1 t1 a I1 E1. apply Lr in I1. destruct I1 as (j & key1 & y & _ & D). subst w1.
            destruct D as [[D _]|(w' & D & _)]; rewrite <- !app_assoc in D; apply app_inv_head in D; cbn in D; injection D as D _; apply dec_inj in D; lia. }
          split; [|split].
          + constructor.
            * rewrite in_app_iff. intros [I1|I2].
              -- rewrite below_fst in I1. apply in_map_iff in I1. destruct I1 as (w1 & E1 & _). rewrite <- app_assoc in E1. apply app_inv_head in E1. cbn in E1. congruence.
              -- apply fst_in in I2. destruct I2 as (t & I2). exact (Far _ _ _ I2 eq_refl).
            * apply nodup_app; [apply below_nodup; exact Nx|exact Nr|]. intros w I1 I2. rewrite below_fst in I1. apply in_map_iff in I1. destruct I1 as (w1 & <- & _).
              apply fst_in in I2. destruct I2 as (t & I2). apply (Far _ _ ([ne] ++ w1) I2). rewrite <- !app_assoc. reflexivity.
          + constructor; [split; [cbn; rewrite !Forall_app; split; [split; [exact PreP|]|]; apply Forall_cons; try apply Forall_nil; [apply dec_plain|exact Pk]|exact Gk]|].
            apply Forall_app. split; [|exact Cr]. apply below_clean; [|exact Cx]. rewrite !Forall_app. split; [split; [exact PreP|]|]; apply Forall_cons; try apply Forall_nil; [apply dec_plain|exact Pe].
          + intros w t. cbn [In]. rewrite in_app_iff, below_in, Lr. split.
            * intros [[= <- <-]|[(w' & -> & I)|(j & key1 & y & E & D)]].
              -- exists O, key, x. split; [reflexivity|]. left. rewrite N.add_0_r. auto.
              -- exists O, key, x. split; [reflexivity|]. right. exists w'. rewrite N.add_0_r, <- !app_assoc. split; [reflexivity|]. apply Lx. exact I.
              -- exists (S j), key1, y. split; [exact E|]. replace (i + N.of_nat (S j)) with (i + 1 + N.of_nat j) by lia. exact D.
            * intros ([|j] & key1 & y & E & D).
              -- cbn in E. injection E as <- <-. rewrite N.add_0_r in D. destruct D as [[-> ->]|(w' & -> & L)]; [left; reflexivity|].
                 right. left. exists w'. rewrite <- !app_assoc. split; [reflexivity|]. apply Lx. exact L.
              -- right. right. exists j, key1, y. split; [exact E|]. replace (i + N.of_nat (S j)) with (i + 1 + N.of_nat j) in D by lia. exact D. }
      destruct (H 1) as (qs & E & Nq & Cq & Lq). exists qs. split; [exact E|]. split; [exact Nq|]. split; [exact Cq|]. intros w t. rewrite Lq.
      change (1%N) with (N.of_nat 1). split.
      + intros (j & key & y & Ej & [[-> ->]|(w' & -> & L)]).
        * apply (leaf_key _ _ _ _ _ _ _ _ _ s k e nk l j key y); [exact Ek|exact Ee|apply name_is|exact Ej|].
          unfold numbered, pre. rewrite <- Nnat.Nat2N.inj_add. reflexivity.
        * apply (leaf_value _ _ _ _ _ _ _ _ _ s k e ne l j key y); [exact Ek|exact Ee|apply name_is|exact Ej| |exact L].
          unfold numbered, pre. rewrite <- Nnat.Nat2N.inj_add. reflexivity.
      + intros L. inversion L as [| | |? k' e' n' ? i key y segs Ek' Ee' Nn Ei Sg|? k' e' n' ? i key y segs w' ? Ek' Ee' Nn Ei Sg L'|]; subst;
          rewrite Ek in Ek'; injection Ek' as <-; rewrite Ee in Ee'; injection Ee' as <-; apply name_unique in Nn; subst n'; unfold numbered in Sg; subst segs.
        * exists i, t, y. split; [exact Ei|]. left. rewrite <- Nnat.Nat2N.inj_add. auto.
        * exists i, key, y. split; [exact Ei|]. right. exists w'. rewrite <- Nnat.Nat2N.inj_add. auto.
    - destruct G as (names & F2 & Nn & Pn & G). unfold shows. cbn [Form_Model.write].
      set (go := fix go (l : list (N * value)) : result (list (text * text)) :=
         match l with
         | [] => Ok []
         | (m, x) :: r =>
           do n <- expect_name member_name m;
           do ps <- write m x (path ++ [resolve_name xml_name m n]);
           do rest <- go r; Ok (ps ++ rest)
         end).
      assert (H : exists qs, go l = Ok (map (at_path path) qs) /\ NoDup (map fst qs) /\ Forall clean qs
        /\ (forall w t, In (w, t) qs -> exists n w', w = n :: w' /\ In n names)
        /\ forall w t, In (w, t) qs <-> exists m x name n w', In (m, x) l /\ member_name m = Some name /\ is_named xml_name m name n /\ w = n :: w' /\ leaf m x w' t).
      { clear P. revert names F2 Nn Pn. induction l as [|[m x] l IHl]; intros names F2 Nn Pn.
        - exists []. split; [reflexivity|]. split; [constructor|]. split; [constructor|]. split; [intros w t []|]. intros w t. split; [intros []|]. intros (m & x & ? & ? & ? & [] & _).
        - inversion IH as [|? ? Ix IH']; subst. destruct G as [Gx G]. cbn [snd] in Ix.
          inversion F2 as [|? n ? names' Hn F2']; subst. destruct Hn as (name & Em & Hn). cbn [fst] in Em, Hn.
          inversion Nn as [|? ? Nnn Nn']; subst. inversion Pn as [|? ? Pnn Pn']; subst.
          apply name_unique in Hn.
          destruct (Ix m (path ++ [n]) Gx (or_introl (snoc_ne _ _))) as (qx & Ex & Nx & Cx & Lx).
          destruct (IHl IH' G names' F2' Nn' Pn') as (qr & Er & Nr & Cr & Hr & Lr).
          exists (map (below [n]) qx ++ qr). cbn [go]. fold go. unfold expect_name. rewrite Em. cbn [bind]. rewrite <- Hn, Ex. cbn [bind]. rewrite Er. cbn [bind].
          split; [rewrite map_app, at_path_map; reflexivity|]. rewrite map_app. split; [|split; [|split]].
          + apply nodup_app; [apply below_nodup; exact Nx|exact Nr|]. intros w I1 I2. rewrite below_fst in I1. apply in_map_iff in I1. destruct I1 as (w1 & <- & _).
            apply fst_in in I2. destruct I2 as (t & I2). apply Hr in I2. destruct I2 as (n2 & w2 & E2 & I2). cbn in E2. injection E2 as <- _. contradiction.
          + apply Forall_app. split; [|exact Cr]. apply below_clean; [|exact Cx]. constructor; [exact Pnn|constructor].
          + intros w t I. apply in_app_iff in I. destruct I as [I|I].
            * apply below_in in I. destruct I as (w' & -> & _). exists n, w'. split; [reflexivity|now left].
            * apply Hr in I. destruct I as (n2 & w2 & -> & I2). exists n2, w2. split; [reflexivity|now right].
          + intros w t. rewrite in_app_iff, below_in, Lr. split.
            * intros [(w' & -> & I)|(m2 & y & name2 & n2 & w' & I & Em2 & Hn2 & -> & L)].
              -- exists m, x, name, n, w'. split; [now left|]. split; [exact Em|]. split; [rewrite Hn; apply name_is|]. split; [reflexivity|]. apply Lx. exact I.
              -- exists m2, y, name2, n2, w'. split; [now right|]. auto.
            * intros (m2 & y & name2 & n2 & w' & [[= <- <-]|I] & Em2 & Hn2 & -> & L).
              -- left. exists w'. rewrite Em in Em2. injection Em2 as <-. apply name_unique in Hn2. rewrite Hn2, <- Hn. split; [reflexivity|]. apply Lx. exact L.
              -- right. exists m2, y, name2, n2, w'. auto. }
      destruct H as (qs & E & Nq & Cq & _ & Lq). exists qs. split; [exact E|]. split; [exact Nq|]. split; [exact Cq|]. intros w t. rewrite Lq. split.
      + intros (m & x & name & n & w' & I & Em & Hn & -> & L). eapply leaf_member; eassumption.
      + intros L. inversion L as [| | | | |? m n name ? x w' ? I Em Hn L']; subst. exists m, x, name, n, w'. auto 6.
  Qed.

End Form.

  (** ** Rendering *)
  Lemma safe_query : Http_Proofs.safe_ok [45; 95; 46; 126].
  Proof. intros c I. cbn in I. destruct I as [<-|[<-|[<-|[<-|[]]]]]; (split; [reflexivity|discriminate]). Qed.
  Lemma encode_query_clean s q c : percent_encode_query s = Ok q -> is_unreserved c = false -> ~ In c [45; 95; 46; 126] -> c <> 37 -> ~ In c q.
  Proof. apply Http_Proofs.urlquote_clean. Qed.

  Lemma render_ok ps : forall l, render ps = Ok l ->
    (forall p, In p l -> ~ In 38 p) /\ Http_Spec.all_some (map Http_Spec.decode_param l) = Some (map (fun p => (fst p, Some (snd p))) ps).
  Proof.
    induction ps as [|[k v] ps IH]; intros l; cbn [render].
    - intros [= <-]. split; [intros p []|reflexivity].
    - destruct (percent_encode_query k) as [a|] eqn:Ea; [|discriminate]. destruct (percent_encode_query v) as [b|] eqn:Eb; [|discriminate]. cbn [bind].
      destruct (render ps) as [r|] eqn:Er; [|discriminate]. cbn [bind]. intros [= <-]. destruct (IH r eq_refl) as [A D].
      assert (N : forall q c, In c [38; 61] -> (percent_encode_query k = Ok q \/ percent_encode_query v = Ok q) -> ~ In c q).
      { intros q c Ic [H|H]; (eapply encode_query_clean; [exact H| | |]); cbn in Ic; destruct Ic as [<-|[<-|[]]]; try reflexivity; try discriminate; cbn; intuition discriminate. }
      split.
      + intros p [<-|I]; [|exact (A p I)]. rewrite in_app_iff. intros [I|[I|I]]; [|discriminate I|].
        * revert I. apply N; [now left|now left].
        * revert I. apply N; [now left|now right].
      + cbn [map Http_Spec.all_some]. rewrite D. unfold Http_Spec.decode_param. rewrite cut_at_app by (apply N; [right; now left|now left]).
        rewrite (Http_Proofs.decode_urlquote _ _ _ safe_query Ea), (Http_Proofs.decode_urlquote _ _ _ safe_query Eb). reflexivity.
  Qed.

  Lemma render_total ps : Forall (fun p => encodable (fst p) /\ encodable (snd p)) ps -> exists l, render ps = Ok l.
  Proof.
    induction 1 as [|[k v] ps [A B] F (l & IH)]; [eexists; reflexivity|]. cbn [render fst snd] in *. unfold percent_encode_query.
    destruct (Http_Proofs.urlquote_valid [45; 95; 46; 126] k A) as (a & ->). destruct (Http_Proofs.urlquote_valid [45; 95; 46; 126] v B) as (b & ->).
    cbn [bind]. rewrite IH. eexists; reflexivity.
  Qed.
  Lemma render_ascii ps : forall l, render ps = Ok l -> forall p c, In p l -> In c p -> c < 128.
  Proof.
    induction ps as [|[k v] ps IH]; intros l; cbn [render]; [intros [= <-] p c []|].
    destruct (percent_encode_query k) as [a|] eqn:Ea; [|discriminate]. destruct (percent_encode_query v) as [b|] eqn:Eb; [|discriminate]. cbn [bind].
    destruct (render ps) as [r|] eqn:Er; [|discriminate]. cbn [bind]. intros [= <-] p c [<-|I] J; [|exact (IH r eq_refl p c I J)].
    assert (U : forall d, is_unreserved d = true \/ In d [45; 95; 46; 126] \/ d = 37 -> d < 128).
    { intros d [H|[H|H]].
      - unfold is_unreserved in H. rewrite !orb_true_iff, !andb_true_iff in H. rewrite ?N.leb_le, ?N.eqb_eq in H. lia.
      - cbn in H. lia.
      - lia. }
    apply in_app_iff in J. destruct J as [J|[J|J]].
    - apply U. exact (urlquote_chars _ _ _ _ Ea J).
    - lia.
    - apply U. exact (urlquote_chars _ _ _ _ Eb J).
  Qed.
  Lemma join_ascii l : (forall p c, In p l -> In c p -> c < 128) -> forall c, In c (join [38] l) -> c < 128.
  Proof.
    induction l as [|p l IH]; intros H c I; [destruct I|]. destruct l as [|q l].
    - cbn in I. exact (H p c (or_introl eq_refl) I).
    - rewrite join_cons2 in I. apply in_app_iff in I. destruct I as [I|I]; [exact (H p c (or_introl eq_refl) I)|].
      apply in_app_iff in I. destruct I as [[<-|[]]|I]; [lia|]. apply IH; [|exact I]. intros r d J. apply H. right. exact J.
  Qed.
  Lemma join_encodable w : Forall encodable w -> encodable (join [46] w).
  Proof.
    unfold encodable. induction w as [|n w IH]; intros F; [reflexivity|]. inversion F as [|? ? Fn Fw]; subst. destruct w as [|m w]; [exact Fn|].
    rewrite join_cons2. unfold valid_text in *. rewrite !forallb_app, Fn, (IH Fw). reflexivity.
  Qed.
  Lemma join_inj v w : v <> [] -> w <> [] -> Forall plain_name v -> Forall plain_name w -> join [46] v = join [46] w -> v = w.
  Proof.
    intros A B P Q E. rewrite <- (split_on_join 46 v A), <- (split_on_join 46 w B), E; [reflexivity| |]; intros p I.
    - rewrite Forall_forall in Q. apply (Q p I).
    - rewrite Forall_forall in P. apply (P p I).
  Qed.
  Lemma flush_ok a v ps : encodable a -> encodable v -> Forall (fun p => encodable (fst p) /\ encodable (snd p)) ps ->
    exists body, flush (Some a) (Some v) ps = Ok body /\ (forall c, In c body -> c < 128)
      /\ form_of body ((lit "Action", a) :: (lit "Version", v) :: ps).
  Proof.
    intros A V F. unfold flush. cbv zeta. cbn [app].
    destruct (render_total ((lit "Action", a) :: (lit "Version", v) :: ps)) as (l & E).
    { constructor; [split; [reflexivity|exact A]|]. constructor; [split; [reflexivity|exact V]|exact F]. }
    rewrite E. cbn [bind]. assert (R := join_ascii l (render_ascii _ l E)). destruct (render_ok _ l E) as [N38 D].
    rewrite HttpBind_Props.encode_plain by exact R. eexists. split; [reflexivity|]. split; [exact R|].
    unfold form_of, Http_Spec.parse_query. 
    assert (Lne : l <> []). { intros ->. discriminate D. }
    assert (S38 : split_on 38 (join [38] l) = l) by (apply split_on_join; assumption).
    destruct (join [38] l) as [|c0 r0] eqn:Ej; [|rewrite S38; exact D].
    rewrite <- S38 in D. vm_compute in D. discriminate D.
  Qed.

Section Top.
  Variable pads_year : bool.
  Variable repr : Time_Model.float -> text.
  Variable xml_name : N -> option text.
  Variable member_name : N -> option text.
  Variable flattened : N -> bool.
  Variable ts_format : N -> option format.
  Variable list_member map_key map_value : N -> option N.
  Notation write := (write pads_year repr xml_name member_name flattened ts_format list_member map_key map_value).
  Notation leaf := (leaf pads_year repr xml_name member_name flattened ts_format list_member map_key map_value).
  Notation good := (good pads_year repr xml_name member_name ts_format list_member map_key map_value).

  Notation way := (list text).
  Lemma struct_way s l w t : leaf s (QStruct l) w t -> w <> [].
  Proof. intros L. inversion L. discriminate. Qed.

  (** The parameters of a structure at the top. *)
  Lemma top_params s members : good s (QStruct members) ->
    exists ps, write s (QStruct members) [] = Ok ps /\ NoDup (map fst ps)
      /\ Forall (fun p => encodable (fst p) /\ encodable (snd p)) ps
      /\ forall name t, In (name, t) ps <-> exists w, leaf s (QStruct members) w t /\ name = join [46] w.
  Proof.
    intros G. destruct (write_shows pads_year repr xml_name member_name flattened ts_format list_member map_key map_value _ s [] G) as (qs & E & Nq & Cq & L); [right; eauto|].
    exists (map (at_path []) qs). split; [exact E|]. split; [|split].
    - rewrite map_map. change (NoDup (map (fun x : way * text => join [46] (fst x)) qs)). rewrite <- (map_map fst (join [46])). apply nodup_map; [|exact Nq].
      assert (W : forall x, In x (map fst qs) -> x <> [] /\ Forall plain_name x).
      { intros x I. destruct (fst_in qs x I) as (t & J). split; [apply L in J; exact (struct_way _ _ _ _ J)|].
        rewrite Forall_forall in Cq. apply (Cq _ J). }
      intros x y Ix Iy. apply join_inj; try apply W; assumption.
    - apply Forall_map. eapply Forall_impl; [|exact Cq]. intros [w t] [A B]. split; [|exact B]. cbn. apply join_encodable.
      eapply Forall_impl; [|exact A]. intros n Hn. apply Hn.
    - intros name t. rewrite in_map_iff. split.
      + intros ([w u] & Ew & I). cbn in Ew. injection Ew as <- <-. exists w. split; [apply L; exact I|reflexivity].
      + intros (w & Lw & ->). exists (w, t). split; [reflexivity|]. apply L. exact Lw.
  Qed.

End Top.
