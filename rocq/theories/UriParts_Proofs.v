(** The authority and the parts of a URI are read back in one way only. *)
From Verif Require Import Base Base_Proofs PyText_Model PyText_Proofs PySort_Model PySort_Proofs Http_Model Uri_Model Uri_Spec Uri_Proofs.
Local Open Scope N_scope.

Lemma first_cut (c : N) a b x y : ~ In c a -> ~ In c x -> a ++ c :: b = x ++ c :: y -> a = x /\ b = y.
Proof.
  revert x. induction a as [|h a IH]; intros [|k x] Ha Hx E; cbn in E.
  - injection E as E. auto.
  - injection E as E1 E2. elim Hx. now left.
  - injection E as E1 E2. elim Ha. now left.
  - injection E as -> E. destruct (IH x) as [-> ->]; auto; intros I; [apply Ha | apply Hx]; now right.
Qed.
Lemma no_cut (c : N) a x y : ~ In c a -> a = x ++ c :: y -> False.
Proof. intros H ->. apply H. apply in_or_app. right. now left. Qed.

Definition info_char (c : N) : Prop := unreserved c \/ sub_delim c \/ c = 58.
Lemma info_chars s : encoded info_char s -> Forall literal_char s.
Proof. intros H. apply encoded_chars in H. eapply Forall_impl; [|exact H]. unfold info_char, literal_char. cbn beta. tauto. Qed.
Lemma Forall_notin (P : N -> Prop) c s : Forall P s -> ~ P c -> ~ In c s.
Proof. intros F H I. rewrite Forall_forall in F. auto. Qed.
Lemma lit_no c : literal_char c -> c <> 64 /\ c <> 91 /\ c <> 93 /\ c <> 47 /\ c <> 63 /\ c <> 35.
Proof. intros H. apply literal_no in H. destruct H as (H & _). repeat split; intros ->; apply H; cbn; tauto. Qed.
Lemma literal_lacks c s : Forall literal_char s -> In c [64; 91; 93; 47; 63; 35] -> ~ In c s.
Proof. intros F I. eapply Forall_notin; [exact F|]. intros H. apply lit_no in H. cbn in I. lia. Qed.
Lemma name_literal s : Forall name_char s -> Forall literal_char s /\ ~ In 58 s.
Proof.
  intros F. split; [eapply Forall_impl; [|exact F]; unfold name_char, literal_char; tauto|].
  eapply Forall_notin; [exact F|]. intros H. apply name_no in H. destruct H as (H & _). apply H. cbn. tauto.
Qed.
(** A host is a name or stands in brackets. *)
Lemma code_host_cases h : code_host h -> (Forall literal_char h /\ ~ In 58 h) \/ (exists a, Forall literal_char a /\ h = [91] ++ a ++ [93]).
Proof. intros [H|(a & A & ->)]; [left; now apply name_literal, reg_chars|]. right. exists a. split; [now apply literal_inner | reflexivity]. Qed.
Lemma host_lacks c h : code_host h -> In c [64; 47; 63; 35] -> ~ In c h.
Proof.
  intros H I. apply code_host_cases in H. destruct H as [[H _]|(a & A & ->)].
  - apply literal_lacks; [exact H|]. cbn in I |- *. tauto.
  - intros J. apply in_app_or in J. destruct J as [J|J]; [cbn in I, J; lia|]. apply in_app_or in J. destruct J as [J|J].
    + revert J. apply literal_lacks; [exact A|]. cbn in I |- *. tauto.
    + cbn in I, J. lia.
Qed.
Definition port_text (p : option text) : text := match p with Some p => lit ":" ++ p | None => [] end.
Lemma port_digits p c : match p with Some p => Forall a_digit p | None => True end -> In c (port_text p) -> c = 58 \/ a_digit c.
Proof. destruct p as [p|]; [|intros _ []]. intros F [<-|I]; [now left|]. right. rewrite Forall_forall in F. auto. Qed.
Lemma host_port_unique h p h' p' : code_host h -> code_host h' ->
  match p with Some p => Forall a_digit p | None => True end -> match p' with Some p => Forall a_digit p | None => True end ->
  h ++ port_text p = h' ++ port_text p' -> h = h' /\ p = p'.
Proof.
  intros H H' P P' E. apply code_host_cases in H, H'.
  assert (Br : forall h p a q, Forall literal_char h -> match p with Some p => Forall a_digit p | None => True end ->
    h ++ port_text p = ([91] ++ a ++ [93]) ++ q -> False).
  { intros x y a q F Y EE. destruct x as [|c x].
    - destruct y as [y|]; discriminate EE.
    - cbn in EE. injection EE as -> _. inversion F as [|? ? L]; subst. apply lit_no in L. lia. }
  destruct H as [[F C]|(a & A & ->)], H' as [[F' C']|(a' & A' & ->)].
  - assert (X : forall q q', port_text q = port_text q' -> q = q').
    { intros [q|] [q'|] Q; cbn in Q; try discriminate Q; [injection Q as ->; reflexivity | reflexivity]. }
    destruct p as [p|], p' as [p'|]; cbn [port_text] in E.
    + destruct (first_cut 58 h p h' p' C C' E) as [-> ->]. auto.
    + rewrite app_nil_r in E. symmetry in E. now apply no_cut in E.
    + rewrite app_nil_r in E. now apply no_cut in E.
    + rewrite !app_nil_r in E. auto.
  - exfalso. eapply Br; [exact F | exact P | exact E].
  - exfalso. eapply Br; [exact F' | exact P' | symmetry; exact E].
  - cbn [app] in E. injection E as E. rewrite <- !app_assoc in E. cbn [app] in E.
    apply first_cut in E; [|apply literal_lacks; [exact A|cbn; tauto] | apply literal_lacks; [exact A' | cbn; tauto]].
    destruct E as [-> E]. split; [reflexivity|]. destruct p as [p|], p' as [p'|]; cbn [port_text] in E; try discriminate E; [injection E as ->; reflexivity | reflexivity].
Qed.
Lemma authority_unique s ui h p ui' h' p' : authority s ui h p -> authority s ui' h' p' -> ui = ui' /\ h = h' /\ p = p'.
Proof.
  intros (E & U & H & P) (E' & U' & H' & P'). rewrite E in E'. clear E.
  assert (HP : forall h p, code_host h -> match p with Some p => Forall a_digit p | None => True end -> ~ In 64 (h ++ port_text p)).
  { intros x y X Y I. apply in_app_or in I. destruct I as [I|I]; [revert I; apply host_lacks; [exact X | cbn; tauto]|].
    apply port_digits in I; [|exact Y]. unfold a_digit in I. lia. }
  assert (UI : forall x, encoded (fun c => unreserved c \/ sub_delim c \/ c = 58) x -> ~ In 64 x).
  { intros x X. apply literal_lacks; [now apply info_chars | cbn; tauto]. }
  fold (port_text p) in E'. fold (port_text p') in E'.
  destruct ui as [ui|], ui' as [ui'|]; cbn [app] in E'.
  - rewrite <- !app_assoc in E'. cbn [lit app] in E'. change (N_of_ascii "@") with 64 in E'.
    apply first_cut in E'; [|now apply UI | now apply UI]. destruct E' as [-> E']. destruct (host_port_unique _ _ _ _ H H' P P' E') as [-> ->]. auto.
  - exfalso. rewrite <- !app_assoc in E'. symmetry in E'. now apply no_cut in E'; [|apply HP].
  - exfalso. rewrite <- !app_assoc in E'. now apply no_cut in E'; [|apply HP].
  - destruct (host_port_unique _ _ _ _ H H' P P' E') as [-> ->]. auto.
Qed.

(** ** Parts *)
Lemma upto_any_app stop a b : (forall c, In c a -> ~ In c stop) -> match b with [] => True | c :: _ => In c stop end ->
  upto_any stop (a ++ b) = (a, b).
Proof.
  intros Ha Hb. induction a as [|c a IH]; cbn [app].
  - destruct b as [|c b]; [reflexivity|]. cbn [upto_any]. replace (existsb (N.eqb c) stop) with true; [reflexivity|].
    symmetry. apply existsb_exists. exists c. split; [exact Hb | apply N.eqb_refl].
  - cbn [upto_any]. destruct (existsb (N.eqb c) stop) eqn:E.
    + exfalso. apply existsb_exists in E. destruct E as (d & I & D). apply N.eqb_eq in D. subst d. apply (Ha c); [now left | exact I].
    + rewrite IH; [reflexivity|]. intros d I. apply Ha. now right.
Qed.
(** A part after a mark, absent when empty. *)
Definition part_text (mark : N) (q : option text) : text := match q with Some q => mark :: q | None => [] end.
Lemma parts_of_text sch auth path query frag :
  sch <> [] -> (forall c, In c sch -> ~ In c (lit ":/?#")) -> (forall c, In c auth -> ~ In c (lit "/?#")) ->
  (path = [] \/ exists r, path = 47 :: r) -> (forall c, In c path -> ~ In c (lit "?#")) ->
  (forall q c, query = Some q -> In c q -> c <> 35) ->
  parts_of (sch ++ [58] ++ lit "//" ++ auth ++ path ++ part_text 63 query ++ part_text 35 frag) = mkParts (Some sch) (Some auth) path query frag.
Proof.
  intros Ns Hs Ha Hp Hc Hq. unfold parts_of.
  rewrite (upto_any_app (lit ":/?#") sch); [| exact Hs | cbn; tauto].
  destruct sch as [|c0 sch]; [now elim Ns|]. change (lit "//") with [47; 47]. cbn [app].
  assert (M : match path ++ part_text 63 query ++ part_text 35 frag with [] => True | c :: _ => In c (lit "/?#") end).
  { destruct Hp as [->|(r & ->)]; [|cbn; tauto]. destruct query; [cbn; tauto|]. destruct frag; [cbn; tauto | exact I]. }
  rewrite (upto_any_app (lit "/?#") auth _ Ha M).
  assert (M2 : match part_text 63 query ++ part_text 35 frag with [] => True | c :: _ => In c (lit "?#") end).
  { destruct query; [cbn; tauto|]. destruct frag; [cbn; tauto | exact I]. }
  rewrite (upto_any_app (lit "?#") path _ Hc M2).
  assert (M3 : match part_text 35 frag with [] => True | c :: _ => In c (lit "#") end) by (destruct frag; [cbn; tauto | exact I]).
  destruct query as [q|]; cbn [part_text app].
  - rewrite (upto_any_app (lit "#") q _); [| |exact M3].
    + destruct frag; reflexivity.
    + intros c I J. destruct J as [J|[]]. apply (Hq q c eq_refl I). now rewrite <- J.
  - destruct frag; reflexivity.
Qed.
