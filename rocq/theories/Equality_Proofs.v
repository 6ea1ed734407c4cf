(** Proofs about [==]. *)
From Verif Require Import Base Base_Proofs PyDict_Model PyDict_Proofs Equality_Model Equality_Spec.
From Verif Require Fields_Model Http_Model EventStream_Model EventStream_Spec EventStream_Proofs.
From Verif Require Import Doc_Model Doc_Spec Doc_Proofs.
From Coq Require Import Lia.

Lemma list_eqb_eq {A} (eqb : A -> A -> bool) : (forall x y, eqb x y = true <-> x = y) -> forall a b, list_eqb eqb a b = true <-> a = b.
Proof.
  intros E. induction a as [|x a IH]; intros [|y b]; cbn; try (split; congruence).
  rewrite andb_true_iff, E, IH. split; [intros [-> ->]; reflexivity|]. intros H. injection H. auto.
Qed.
Lemma opt_eqb_eq {A} (eqb : A -> A -> bool) : (forall x y, eqb x y = true <-> x = y) -> forall a b, opt_eqb eqb a b = true <-> a = b.
Proof.
  intros E [x|] [y|]; cbn; try (split; congruence). rewrite E. split; [intros ->; reflexivity|]. intros H. injection H. auto.
Qed.

Lemma odict_eqb_eq {A} (eqb : A -> A -> bool) : (forall x y, eqb x y = true <-> x = y) ->
  forall a b : list (text * A), NoDup (dict_keys a) -> NoDup (dict_keys b) -> odict_eqb eqb a b = true <-> a = b.
Proof.
  intros E a b Na Nb. unfold odict_eqb. rewrite andb_true_iff, (list_eqb_eq text_eqb text_eqb_eq). split.
  - intros [D K]. unfold dict_eqb in D. apply andb_true_iff in D as [_ D]. rewrite forallb_forall in D.
    assert (V : forall x, In x a -> In x b).
    { intros [k v] I. specialize (D _ I). cbn [fst snd] in D. destruct (dict_get k b) as [w|] eqn:G; [|discriminate].
      apply E in D. subst w. apply dict_get_In. exact G. }
    clear D. revert b Na Nb K V. induction a as [|[k v] a IH]; intros [|[k' w] b] Na Nb K V; try discriminate K; [reflexivity|].
    cbn [dict_keys map fst] in *. injection K as <- K. inversion Na as [|? ? Na1 Na2]; subst. inversion Nb as [|? ? Nb1 Nb2]; subst.
    assert (v = w).
    { destruct (V (k, v) (or_introl eq_refl)) as [X|X]; [congruence|]. destruct Nb1. apply (in_map fst) in X. exact X. }
    subst w. f_equal. apply IH; auto. intros [k2 v2] I. destruct (V (k2, v2) (or_intror I)) as [X|X]; [|exact X].
    injection X as -> ->. destruct Na1. apply (in_map fst) in I. exact I.
  - intros <-. split; [|reflexivity]. unfold dict_eqb. rewrite Nat.eqb_refl. cbn [andb]. apply forallb_forall.
    intros [k v] I. cbn [fst snd]. rewrite (dict_In_get _ _ _ Na I). apply E. reflexivity.
Qed.

Lemma position_eqb_eq a b : Fields_Model.position_eqb a b = true <-> a = b.
Proof. destruct a, b; cbn; split; congruence. Qed.
Lemma field_eqb_eq a b : field_eqb a b = true <-> a = b.
Proof.
  destruct a as [n v k], b as [n' v' k']. unfold field_eqb. cbn [Fields_Model.f_name Fields_Model.f_kind Fields_Model.f_values].
  rewrite !andb_true_iff, text_eqb_eq, position_eqb_eq, (list_eqb_eq text_eqb text_eqb_eq).
  split; [intros [[-> ->] ->]; reflexivity|]. intros H. injection H. auto.
Qed.
Lemma uri_eqb_eq a b : uri_eqb a b = true <-> a = b.
Proof.
  destruct a, b. unfold uri_eqb. cbn [Http_Model.u_scheme Http_Model.u_host Http_Model.u_port Http_Model.u_path Http_Model.u_query
    Http_Model.u_username Http_Model.u_password Http_Model.u_fragment].
  rewrite !andb_true_iff, !text_eqb_eq, !(opt_eqb_eq text_eqb text_eqb_eq), (opt_eqb_eq N.eqb N.eqb_eq).
  split; [intros (((((((-> & ->) & ->) & ->) & ->) & ->) & ->) & ->); reflexivity|]. intros H. injection H as -> -> -> -> -> -> -> ->. tauto.
Qed.

(** ** Event messages *)
Import EventStream_Model EventStream_Spec EventStream_Proofs.

Lemma headers_bytes_ok hs b : get_headers_bytes hs = Ok b -> encode_headers [] hs = Ok b.
Proof.
  unfold get_headers_bytes. destruct (encode_headers [] hs) as [c|e]; cbn [bind]; [|discriminate].
  destruct (N.ltb MAX_HEADERS_LENGTH (len c)); [discriminate|]. auto.
Qed.
Lemma headers_bytes_inj hs ks b : Forall (fun h => value_typed (snd h)) hs -> Forall (fun h => value_typed (snd h)) ks ->
  get_headers_bytes hs = Ok b -> get_headers_bytes ks = Ok b -> hs = ks.
Proof.
  intros T U H K. apply headers_bytes_ok in H, K.
  pose proof (decode_headers_encoded [] hs b (List.length b) [] H T ltac:(intros ? []) (le_n _)) as D.
  pose proof (decode_headers_encoded [] ks b (List.length b) [] K U ltac:(intros ? []) (le_n _)) as D'.
  rewrite D in D'. cbn in D'. congruence.
Qed.
Lemma hvalue_eqb_refl v : v <> HOther -> hvalue_eqb v v = true.
Proof.
  destruct v; intros H; cbn; try apply text_eqb_refl; try apply Z.eqb_refl; try congruence.
Qed.
Lemma headers_eqb_refl hs b : get_headers_bytes hs = Ok b -> dict_eqb hvalue_eqb hs hs = true.
Proof.
  intros H. apply headers_bytes_ok in H. destruct (encode_headers_keys _ _ _ H) as [N _].
  destruct (encode_headers_props _ _ _ H) as (F & _). unfold dict_eqb. rewrite Nat.eqb_refl. cbn [andb]. apply forallb_forall.
  intros [k v] I. cbn [fst snd]. rewrite (dict_In_get _ _ _ N I). apply hvalue_eqb_refl.
  rewrite Forall_forall in F. destruct (F _ I) as (_ & _ & O). cbn in O. intros ->. exact O.
Qed.

Lemma message_eq_true m n : message_typed m -> message_typed n ->
  message_eq m n = Ok true <-> m = n /\ exists b, get_headers_bytes (m_headers m) = Ok b.
Proof.
  intros [_ T] [_ U]. unfold message_eq. split.
  - destruct (get_headers_bytes (m_headers m)) as [x|] eqn:X; cbn [bind]; [|discriminate].
    destruct (get_headers_bytes (m_headers n)) as [y|] eqn:Y; cbn [bind]; [|discriminate].
    intros H. injection H as H. apply andb_true_iff in H as [H Z]. apply andb_true_iff in H as [P _].
    apply text_eqb_eq in Z, P. subst y. split; [|exists x; reflexivity].
    pose proof (headers_bytes_inj _ _ _ T U X Y) as E. destruct m, n. cbn in *. congruence.
  - intros [<- [b B]]. rewrite B. cbn [bind]. rewrite !text_eqb_refl, (headers_eqb_refl _ _ B). reflexivity.
Qed.

Lemma encode_inj m n : message_typed m -> message_typed n -> (exists f, encode_message m = Ok f) ->
  encode_message m = encode_message n -> m = n.
Proof.
  intros T U [f F] E. rewrite F in E. symmetry in E.
  destruct (roundtrip m f T F []) as (a & A & <-). destruct (roundtrip n f U E []) as (b & B & <-). rewrite A in B. congruence.
Qed.
Lemma encode_headers_bytes m f : encode_message m = Ok f -> exists b, get_headers_bytes (m_headers m) = Ok b.
Proof. unfold encode_message. destruct (get_headers_bytes (m_headers m)); cbn [bind]; [eauto|discriminate]. Qed.

(** ** Documents *)
  Lemma whole_iff x z : whole x = Some z <-> whole_number x z.
  Proof.
    unfold whole_number. destruct x as [[]| | | | | |]; cbn; split; intros H;
      repeat match goal with H : _ \/ _ |- _ => destruct H | H : _ /\ _ |- _ => destruct H end; subst; try discriminate; auto;
      try (injection H as <-; auto); congruence.
  Qed.
  Lemma is_number_iff x : is_number x = true <-> some_number x.
  Proof.
    unfold some_number, fraction. split.
    - destruct x as [b| |z|f|d| |]; cbn; try discriminate; intros _; eauto.
      + right. exists (if b then 1 else 0)%Z. apply whole_iff. destruct b; reflexivity.
      + right. exists z. apply whole_iff. reflexivity.
    - intros [[[f ->]|[d ->]]|[z W]]; [reflexivity|reflexivity|]. apply whole_iff in W. destruct x; cbn in *; congruence.
  Qed.
  Lemma fraction_iff x : is_number x = true -> (whole x = None <-> fraction x).
  Proof.
    unfold fraction. destruct x; cbn; try discriminate; intros _; split; try congruence; eauto;
      intros [[f H]|[d H]]; congruence.
  Qed.

  Lemma keys_same {A} (l m : list (text * A)) : NoDup (map fst l) -> List.length l = List.length m -> NoDup (map fst m) ->
    (forall k, In k (map fst l) -> In k (map fst m)) -> forall k, In k (map fst l) <-> In k (map fst m).
  Proof.
    intros N L M I k. split; [apply I|]. apply (NoDup_length_incl N); [|exact I]. rewrite !map_length. lia.
  Qed.

Section Documents.
  Variable number_eqb : scalar -> scalar -> bool.
  Notation equal_scalar := (equal_scalar (fun a b => number_eqb a b = true)).
  Notation alike := (alike equal_scalar).

  Lemma scalar_eqb_iff x y : scalar_eqb number_eqb x y = true <-> equal_scalar x y.
  Proof.
    unfold scalar_eqb. destruct (whole x) as [a|] eqn:X, (whole y) as [b|] eqn:Y.
    1: { rewrite Z.eqb_eq. split; intros H.
      - subst b. apply (same_whole _ x y a); apply whole_iff; assumption.
      - inversion H as [? ? z A B|? ? A B C D| | |]; subst; try discriminate.
        + apply whole_iff in A, B. congruence.
        + assert (A' : whole x = None \/ whole y = None); [|destruct A'; congruence].
          apply is_number_iff in A, B. destruct C as [C|C]; [left|right]; apply fraction_iff; assumption. }
    all: assert (N : whole x = None \/ whole y = None) by auto; clear X Y.
    all: destruct (is_number x && is_number y) eqn:E.
    all: try (apply andb_true_iff in E as [E1 E2]; split; intros H;
      [ apply same_fraction; [apply is_number_iff, E1|apply is_number_iff, E2| |exact H];
        destruct N as [N|N]; [left|right]; apply fraction_iff; assumption
      | inversion H as [? ? z A B|? ? A B C D| | |]; subst; try discriminate; [|assumption];
        apply whole_iff in A, B; destruct N; congruence ]).
    all: split; intros H.
    all: try solve [destruct x, y; try discriminate; try (apply text_eqb_eq in H); try (apply Z.eqb_eq in H); subst; constructor].
    all: inversion H as [? ? z A B|? ? A B C D| | |]; subst; try apply text_eqb_refl; try apply Z.eqb_refl.
    all: try (apply whole_iff in A, B; destruct N; congruence).
    all: apply is_number_iff in A, B; rewrite A, B in E; discriminate.
  Qed.

  Lemma plain_eqb_iff a : forall b, proper a -> proper b -> plain_eqb number_eqb a b = true <-> alike a b.
  Proof.
    induction a as [|v|l IH|l IH] using plain_ind2; intros b Pa Pb.
    - destruct b; cbn; split; intros H; try discriminate; try constructor; inversion H.
    - destruct b; cbn; try (split; intros H; try discriminate; inversion H; fail).
      rewrite scalar_eqb_iff. split; [apply alike_scalar|]. intros H. now inversion H.
    - destruct b as [|w|m|m]; cbn [plain_eqb]; try (split; intros H; try discriminate; inversion H; fail).
      assert (G : (fix go (l m : list plain) : bool :=
         match l, m with [], [] => true | x :: l', y :: m' => plain_eqb number_eqb x y && go l' m' | _, _ => false end) l m = true
         <-> Forall2 alike l m).
      { cbn [proper] in Pa, Pb. revert m Pa Pb. induction IH as [|x l Hx _ IHl]; intros [|y m] Pa Pb;
          try (split; intros H; try discriminate; inversion H; fail).
        - split; [constructor|reflexivity].
        - rewrite andb_true_iff, (Hx y (proj1 Pa) (proj1 Pb)), (IHl m (proj2 Pa) (proj2 Pb)).
          split; [intros []; constructor; assumption|]. intros H. inversion H; subst; auto. }
      rewrite G. split; [apply alike_list|]. intros H. now inversion H.
    - destruct b as [|w|m|m]; cbn [plain_eqb]; try (split; intros H; try discriminate; inversion H; fail).
      cbn [proper] in Pa, Pb. destruct Pa as [Na Pa], Pb as [Nb Pb].
      assert (Pm : forall k w, In (k, w) m -> proper w).
      { clear -Pb. induction m as [|[k w] m IHm]; [intros ? ? []|]. destruct Pb as [P1 P2]. intros k' w' [E|I]; [congruence|eauto]. }
      assert (G : (fix go (l : list (text * plain)) : bool :=
            match l with
            | [] => true
            | (k, v) :: l' => match dict_get k m with Some w => plain_eqb number_eqb v w | None => false end && go l'
            end) l = true <-> (forall k v, In (k, v) l -> exists w, In (k, w) m /\ alike v w)).
      { clear Na. revert Pa. induction IH as [|[k v] l Hx _ IHl]; intros Pa.
        - split; [intros _ ? ? []|reflexivity].
        - rewrite andb_true_iff, (IHl (proj2 Pa)). cbn [snd] in Hx. split.
          + intros [H1 H2] k' v' [E|I]; [|apply H2; exact I]. injection E as <- <-.
            destruct (dict_get k m) as [w|] eqn:D; [|discriminate]. apply dict_get_In in D. exists w. split; [exact D|].
            apply (Hx w (proj1 Pa) (Pm _ _ D)). exact H1.
          + intros H. split; [|intros k' v' I; apply H; right; exact I].
            destruct (H k v (or_introl eq_refl)) as (w & I & A). rewrite (dict_In_get _ _ _ Nb I).
            apply (Hx w (proj1 Pa) (Pm _ _ I)). exact A. }
      rewrite andb_true_iff, Nat.eqb_eq, G. split.
      + intros [L H]. apply alike_map.
        * apply keys_same; auto. intros k I. apply in_map_iff in I as ([k' v] & <- & I).
          destruct (H _ _ I) as (w & J & _). apply (in_map fst) in J. exact J.
        * intros k v w I J. destruct (H _ _ I) as (w' & J' & A). apply (dict_In_get _ _ _ Nb) in J, J'. congruence.
      + intros H. inversion H as [| | |? ? K V]; subst. split.
        * rewrite <- (map_length fst l), <- (map_length fst m). apply PeanoNat.Nat.le_antisymm; apply NoDup_incl_length; auto; intros k; apply K.
        * intros k v I. assert (J : In k (map fst m)) by (apply K, (in_map fst _ (k, v)), I).
          apply in_map_iff in J as ([k' w] & E & J). cbn in E. subst k'. exists w. split; [exact J|]. eapply V; eauto.
  Qed.
End Documents.
