(** Standardising and merging. *)
From Verif Require Import Base Base_Proofs PyText_Model PyText_Proofs PyDict_Model PyDict_Proofs
  ConfigFile_Model ConfigFile_Spec ConfigFile_Proofs ConfigDoc_Proofs ConfigDoc2_Proofs.
Local Open Scope N_scope.

(** ** Dictionaries *)

Lemma update_get {A} (e : list (text * A)) k : NoDup (dict_keys e) -> forall d,
  dict_get k (update d e) = match dict_get k e with Some v => Some v | None => dict_get k d end.
Proof.
  induction e as [|[x v] e IH]; intros Hn d; [reflexivity|].
  cbn [dict_keys map fst] in Hn. inversion Hn as [|? ? Hx Hr]; subst.
  change (update d ((x, v) :: e)) with (update (dict_set x v d) e). rewrite IH by exact Hr. cbn [dict_get].
  destruct (text_eqb k x) eqn:E.
  - apply text_eqb_eq in E as ->.
    assert (dict_get x e = None) as -> by (apply dict_get_None; exact Hx). apply dict_get_set_eq.
  - destruct (dict_get k e); [reflexivity|]. apply text_eqb_neq in E. apply dict_get_set_ne. exact E.
Qed.
Lemma update_NoDup {A} (e : list (text * A)) : forall d, NoDup (dict_keys d) -> NoDup (dict_keys (update d e)).
Proof.
  induction e as [|[x v] e IH]; intros d H; [exact H|].
  change (update d ((x, v) :: e)) with (update (dict_set x v d) e). apply IH, dict_set_NoDup, H.
Qed.

(** What every nested dictionary satisfies. *)
Definition wf (m : sections) : Prop :=
  NoDup (dict_keys m) /\ forall n ps, dict_get n m = Some ps -> NoDup (dict_keys ps).

Lemma wf_set m n ps : wf m -> NoDup (dict_keys ps) -> wf (dict_set n ps m).
Proof.
  intros [H1 H2] Hp. split; [apply dict_set_NoDup, H1|]. intros x q Hq. destruct (text_eq_dec x n) as [->|Hx].
  - rewrite dict_get_set_eq in Hq. injection Hq as <-. exact Hp.
  - rewrite dict_get_set_ne in Hq by exact Hx. eapply H2; exact Hq.
Qed.
Lemma wf_put n k v m : wf m -> wf (put n k v m).
Proof.
  intros H. unfold put. destruct (dict_get n m) as [ps|] eqn:E; [|exact H]. apply wf_set; [exact H|].
  apply dict_set_NoDup. eapply (proj2 H). exact E.
Qed.
Lemma wf_meaning d : wf (meaning d).
Proof.
  induction d as [|[n es] d IH] using rev_ind.
  - split; [constructor|]. intros n ps H. discriminate H.
  - rewrite meaning_snoc. assert (Ho : wf (open n (meaning d))).
    { unfold open. destruct (dict_has n (meaning d)); [exact IH|]. apply wf_set; [exact IH|constructor]. }
    clear IH. revert Ho. generalize (open n (meaning d)). induction es as [|e es IH]; intros m Hm; [exact Hm|].
    apply (IH (add n e m)). destruct e; cbn [add]; auto using wf_put.
Qed.

(** ** Merging sections into profiles *)

Definition gather (f : text -> option text) (raw : sections) (t : sections) : sections :=
  fold_left (fun t kv => match f (fst kv) with Some p => merge_properties t p (snd kv) | None => t end) raw t.

Lemma gather_cons f n ps raw t : gather f ((n, ps) :: raw) t
  = gather f raw (match f n with Some p => merge_properties t p ps | None => t end).
Proof. reflexivity. Qed.

(** The last section of the list that [f] gives to [p] and that has the key. *)
Fixpoint last_in (f : text -> option text) (p k : text) (raw : sections) : option pvalue :=
  match raw with
  | [] => None
  | (n, ps) :: r =>
    match last_in f p k r with
    | Some v => Some v
    | None => match f n with
              | Some p' => if text_eqb p p' then dict_get k ps else None
              | None => None
              end
    end
  end.

Lemma look_merge t n ps p k : NoDup (dict_keys ps) ->
  look p k (merge_properties t n ps)
  = if text_eqb p n then match dict_get k ps with Some v => Some v | None => look p k t end else look p k t.
Proof.
  intros Hp. unfold look, merge_properties. destruct (text_eqb p n) eqn:E.
  - apply text_eqb_eq in E as ->. rewrite dict_get_set_eq, update_get by exact Hp.
    destruct (dict_get n t); reflexivity.
  - apply text_eqb_neq in E. rewrite dict_get_set_ne by exact E. reflexivity.
Qed.
Lemma wf_merge t n ps : wf t -> wf (merge_properties t n ps).
Proof.
  intros H. unfold merge_properties. apply wf_set; [exact H|]. apply update_NoDup.
  destruct (dict_get n t) as [q|] eqn:E; [eapply (proj2 H); exact E|constructor].
Qed.

Lemma look_gather f raw p k : (forall n ps, In (n, ps) raw -> NoDup (dict_keys ps)) -> forall t,
  look p k (gather f raw t) = match last_in f p k raw with Some v => Some v | None => look p k t end.
Proof.
  induction raw as [|[n ps] raw IH]; intros Hp t; [reflexivity|].
  change (gather f ((n, ps) :: raw) t)
    with (gather f raw (match f n with Some p => merge_properties t p ps | None => t end)).
  rewrite IH by (intros x q Hq; eapply Hp; right; exact Hq). cbn [last_in].
  destruct (last_in f p k raw); [reflexivity|]. destruct (f n) as [p'|]; [|reflexivity].
  rewrite look_merge by (eapply Hp; left; reflexivity). destruct (text_eqb p p'); [|reflexivity].
  destruct (dict_get k ps); reflexivity.
Qed.
Lemma gather_wf f raw t : wf t -> wf (gather f raw t).
Proof.
  revert t. induction raw as [|[n ps] raw IH]; intros t H; [exact H|].
  change (gather f ((n, ps) :: raw) t)
    with (gather f raw (match f n with Some p => merge_properties t p ps | None => t end)).
  apply IH. destruct (f n); auto using wf_merge.
Qed.
Lemma gather_has f raw p : forall t, dict_has p (gather f raw t)
  = (dict_has p t || existsb (fun kv => match f (fst kv) with Some p' => text_eqb p p' | None => false end) raw)%bool.
Proof.
  induction raw as [|[n ps] raw IH]; intros t; [rewrite Bool.orb_false_r; reflexivity|].
  change (gather f ((n, ps) :: raw) t)
    with (gather f raw (match f n with Some p => merge_properties t p ps | None => t end)).
  rewrite IH. cbn [existsb fst]. rewrite Bool.orb_assoc. f_equal. destruct (f n) as [p'|].
  - unfold dict_has, merge_properties. destruct (text_eqb p p') eqn:E.
    + apply text_eqb_eq in E as ->. rewrite dict_get_set_eq, Bool.orb_true_r. reflexivity.
    + apply text_eqb_neq in E. rewrite dict_get_set_ne by exact E. rewrite Bool.orb_false_r. reflexivity.
  - rewrite Bool.orb_false_r. reflexivity.
Qed.

(** Which section goes where. *)
Definition named (prefix s : text) : option text :=
  match extract_prefixed_name s prefix with Some t => if ident_re t then Some t else None | None => None end.
Definition to_sso (name : text) : option text :=
  let s := strip name in if starts_with (lit "sso-session") s then named (lit "sso-session") s else None.
Definition to_services (name : text) : option text :=
  let s := strip name in
  if starts_with (lit "sso-session") s then None
  else if starts_with (lit "services") s then named (lit "services") s else None.
Definition to_profile (hpd : bool) (name : text) : option text :=
  let s := strip name in
  if starts_with (lit "sso-session") s then None
  else if starts_with (lit "services") s then None
  else if text_eqb s (lit "default") then if hpd then None else Some (lit "default")
  else if starts_with (lit "profile") s then named (lit "profile") s else None.
Definition to_credentials (name : text) : option text := if ident_re (strip name) then Some (strip name) else None.

Lemma merge_named_spec t prefix s ps :
  merge_named t (extract_prefixed_name s prefix) ps
  = match named prefix s with Some p => merge_properties t p ps | None => t end.
Proof.
  unfold merge_named, named. destruct (extract_prefixed_name s prefix); [|reflexivity].
  destruct (ident_re t0); reflexivity.
Qed.
Lemma standardize_config raw :
  let hpd := existsb (fun kv => is_profile_prefixed_default (fst kv)) raw in
  standardize raw CONFIG = mkStd (gather (to_profile hpd) raw []) (gather to_sso raw []) (gather to_services raw []).
Proof.
  intros hpd. unfold standardize. fold hpd.
  assert (H : forall raw p s v,
    fold_left (fun st kv => classify_config_section (fst kv) (snd kv) hpd st) raw (mkStd p s v)
    = mkStd (gather (to_profile hpd) raw p) (gather to_sso raw s) (gather to_services raw v)); [|apply H].
  clearbody hpd. clear. induction raw as [|[n ps] raw IH]; intros p s v; [reflexivity|].
  cbn [fold_left fst snd]. rewrite !gather_cons.
  unfold classify_config_section. cbn [s_profiles s_sso s_services].
  assert (E1 : to_profile hpd n = to_profile hpd n) by reflexivity. unfold to_profile at 2 in E1.
  assert (E2 : to_sso n = to_sso n) by reflexivity. unfold to_sso at 2 in E2.
  assert (E3 : to_services n = to_services n) by reflexivity. unfold to_services at 2 in E3.
  cbn zeta in E1, E2, E3. rewrite E1, E2, E3. clear E1 E2 E3.
  rewrite !merge_named_spec.
  destruct (starts_with (lit "sso-session") (strip n)); [apply IH|].
  destruct (starts_with (lit "services") (strip n)); [apply IH|].
  destruct (text_eqb (strip n) (lit "default")); [destruct hpd; apply IH|].
  destruct (starts_with (lit "profile") (strip n)); apply IH.
Qed.
Lemma standardize_credentials raw :
  standardize raw CREDENTIALS = mkStd (gather to_credentials raw []) [] [].
Proof.
  unfold standardize.
  assert (H : forall raw p, fold_left (fun st kv => classify_credentials_section (fst kv) (snd kv) st) raw (mkStd p [] [])
    = mkStd (gather to_credentials raw p) [] []); [|apply H].
  clear. induction raw as [|[n ps] raw IH]; intros p; [reflexivity|].
  cbn [fold_left fst snd]. rewrite gather_cons.
  unfold classify_credentials_section. cbn [s_profiles s_sso s_services].
  assert (E1 : to_credentials n = to_credentials n) by reflexivity. unfold to_credentials at 2 in E1. rewrite E1. clear E1.
  destruct (ident_re (strip n)); apply IH.
Qed.

(** ** The names *)

Lemma id_char_nonspace c : id_char c -> is_space c = false.
Proof.
  intros H. unfold is_space.
  assert (Hc : c < 133 /\ 33 <= c).
  { destruct H as [H|[H|[H|H]]]; [lia|lia|lia|].
    change (lit "_-/.%@:+") with [95; 45; 47; 46; 37; 64; 58; 43] in H. cbn [In] in H.
    repeat (destruct H as [<-|H]; [lia|]). destruct H. }
  repeat match goal with
         | |- context[?a <=? ?b] => destruct (N.leb_spec a b); try lia
         | |- context[?a =? ?b] => destruct (N.eqb_spec a b); try lia
         end; reflexivity.
Qed.
Lemma identifier_trim s : identifier s -> strip s = s.
Proof.
  intros [_ H]. apply Trim_strip. exists [], []. rewrite app_nil_r.
  split; [reflexivity|]. split; [intros ? []|]. split; [intros ? []|]. split.
  - intros c r ->. apply id_char_nonspace, H. left; reflexivity.
  - intros r c ->. apply id_char_nonspace, H, in_or_app. right; left; reflexivity.
Qed.
Lemma last_nonspace s a b : strip s = s -> s = a ++ b -> white b -> b = [].
Proof.
  intros Hs E Hb. destruct b as [|c b _] using rev_ind; [reflexivity|exfalso].
  rewrite app_assoc in E. rewrite <- Hs in E. pose proof (strip_by_last is_space s _ _ E) as H.
  rewrite (Hb c) in H by (apply in_or_app; right; left; reflexivity). discriminate.
Qed.

Lemma named_spec prefix s p : strip s = s ->
  ((starts_with prefix s = true /\ named prefix s = Some p) <-> prefixed prefix s p).
Proof.
  intros Hs. unfold named, extract_prefixed_name. split.
  - intros [H1 H2]. apply starts_with_spec in H1. destruct H1 as [rest E].
    assert (Esk : skipn (List.length prefix) s = rest) by (rewrite E; apply skipn_app_exact; reflexivity).
    rewrite Esk in H2. destruct rest as [|c r]; [discriminate|]. destruct (is_blank c) eqn:Eb; [|discriminate].
    destruct (strip (c :: r)) as [|y t] eqn:Et; [discriminate|].
    destruct (ident_re (y :: t)) eqn:Ei; [|discriminate]. injection H2 as <-.
    assert (Hid : identifier (y :: t)) by (rewrite <- Et in Ei |- *; apply ident_re_strip; exact Ei).
    apply is_blank_spec in Eb.
    destruct (proj2 (Trim_strip (c :: r) _) Et) as (a & b & Ecr & Ha & Hb & Hf & Hl).
    assert (b = []) as ->.
    { apply (last_nonspace s (prefix ++ a ++ y :: t) b Hs); [|exact Hb]. rewrite E, Ecr, <- !app_assoc. reflexivity. }
    rewrite app_nil_r in Ecr. destruct a as [|x w].
    + cbn [app] in Ecr. injection Ecr as -> _. exfalso. pose proof (Hf y t eq_refl) as H.
      rewrite (blank_space y Eb) in H. discriminate.
    + cbn [app] in Ecr. injection Ecr as <- Er. exists c, w. rewrite E, Er. cbn [app].
      split; [reflexivity|]. split; [exact Eb|]. split; [|exact Hid].
      intros z Hz. apply Ha. right; exact Hz.
  - intros (c & w & E & Hc & Hw & Hid).
    assert (Esk : skipn (List.length prefix) s = c :: w ++ p) by (rewrite E; apply skipn_app_exact; reflexivity).
    split; [apply starts_with_spec; exists (c :: w ++ p); exact E|]. rewrite Esk.
    pose proof Hc as Hb. apply is_blank_spec in Hb. rewrite Hb.
    assert (Et : strip (c :: w ++ p) = p).
    { apply Trim_strip. exists (c :: w), []. rewrite app_nil_r. cbn [app]. split; [reflexivity|].
      split. { intros z [<-|Hz]; [apply blank_space, Hc|apply Hw, Hz]. }
      split; [intros ? []|]. destruct Hid as [_ Hid]. split.
      - intros z r ->. apply id_char_nonspace, Hid. left; reflexivity.
      - intros r z ->. apply id_char_nonspace, Hid, in_or_app. right; left; reflexivity. }
    rewrite Et. pose proof (identifier_trim p Hid) as Htp. rewrite <- Htp in Hid. apply ident_re_strip in Hid.
    rewrite Htp in Hid. destruct p as [|y t]; [discriminate Hid|]. rewrite Hid. reflexivity.
Qed.

Lemma prefixed_default_spec name : strip name = name ->
  (is_profile_prefixed_default name = true <-> prefixed (lit "profile") name (lit "default")).
Proof.
  intros Hs. rewrite <- (named_spec (lit "profile") name (lit "default") Hs).
  unfold is_profile_prefixed_default, named, extract_prefixed_name. rewrite Hs.
  destruct (starts_with (lit "profile") name); cbn [negb]; [|split; [discriminate|intros [H _]; discriminate H]].
  change (List.length (lit "profile")) with 7%nat.
  destruct (skipn 7 name) as [|c r]; [split; [discriminate|intros [_ H]; discriminate H]|].
  destruct (is_blank c); [|split; [discriminate|intros [_ H]; discriminate H]].
  destruct (strip (c :: r)) as [|y t]; [split; [discriminate|intros [_ H]; discriminate H]|].
  destruct (text_eqb (y :: t) (lit "default")) eqn:E.
  - apply text_eqb_eq in E. rewrite E. split; auto.
  - split; [discriminate|]. intros [_ H]. destruct (ident_re (y :: t)); [|discriminate]. injection H as H1 H2.
    subst. discriminate E.
Qed.

Lemma prefixed_start prefix s p : prefixed prefix s p -> exists r, s = prefix ++ r.
Proof. intros (c & w & -> & _). eexists. reflexivity. Qed.

Lemma to_profile_spec names name p : (forall n, In n names -> strip n = n) -> strip name = name -> 
  (to_profile (existsb is_profile_prefixed_default names) name = Some p <-> config_section names name p).
Proof.
  intros Hn Hs. unfold to_profile, config_section. rewrite Hs.
  set (hpd := existsb is_profile_prefixed_default names).
  assert (Hhpd : hpd = false <-> forall s, In s names -> ~ prefixed (lit "profile") s (lit "default")).
  { unfold hpd. split.
    - intros H s Hin Hp. apply (prefixed_default_spec s (Hn s Hin)) in Hp.
      assert (existsb is_profile_prefixed_default names = true) by (apply existsb_exists; eauto). congruence.
    - intros H. destruct (existsb is_profile_prefixed_default names) eqn:E; [|reflexivity].
      apply existsb_exists in E. destruct E as (s & Hin & Hp). apply (prefixed_default_spec s (Hn s Hin)) in Hp.
      exfalso. exact (H s Hin Hp). }
  split.
  - destruct (starts_with (lit "sso-session") name); [discriminate|].
    destruct (starts_with (lit "services") name); [discriminate|].
    destruct (text_eqb name (lit "default")) eqn:Ed.
    + apply text_eqb_eq in Ed. destruct hpd; [discriminate|]. intros [= <-]. right.
      split; [reflexivity|]. split; [exact Ed|]. apply Hhpd. reflexivity.
    + destruct (starts_with (lit "profile") name) eqn:Ep; [|discriminate]. intros H. left.
      apply (named_spec (lit "profile") name p Hs). auto.
  - intros [H|(-> & -> & H)].
    + destruct (prefixed_start _ _ _ H) as [r Er]. apply (named_spec (lit "profile") name p Hs) in H.
      destruct H as [H1 H2]. rewrite H1, H2. rewrite Er. reflexivity.
    + apply Hhpd in H. rewrite H. reflexivity.
Qed.
Lemma to_sso_spec name p : strip name = name -> (to_sso name = Some p <-> prefixed (lit "sso-session") name p).
Proof.
  intros Hs. unfold to_sso. rewrite Hs, <- (named_spec _ name p Hs).
  destruct (starts_with (lit "sso-session") name); [|split; [discriminate|intros [H _]; discriminate H]].
  split; [auto|intros [_ H]; exact H].
Qed.
Lemma to_services_spec name p : strip name = name -> (to_services name = Some p <-> prefixed (lit "services") name p).
Proof.
  intros Hs. unfold to_services. rewrite Hs. split.
  - destruct (starts_with (lit "sso-session") name); [discriminate|].
    destruct (starts_with (lit "services") name) eqn:E; [|discriminate].
    intros H. apply (named_spec _ name p Hs). auto.
  - intros H. destruct (prefixed_start _ _ _ H) as [r Er]. apply (named_spec _ name p Hs) in H.
    destruct H as [H1 H2]. rewrite H1, H2. rewrite Er. reflexivity.
Qed.
Lemma to_credentials_spec name p : strip name = name -> (to_credentials name = Some p <-> name = p /\ identifier p).
Proof.
  intros Hs. unfold to_credentials. pose proof (ident_re_strip name) as H. rewrite Hs in *.
  destruct (ident_re name).
  - split; [intros [= <-]; split; [reflexivity|apply H; reflexivity]|intros [-> _]; reflexivity].
  - split; [discriminate|]. intros [-> Hi]. apply H in Hi. discriminate Hi.
Qed.

(** The names of a document are trimmed. *)
Lemma Doc_names ls d : Doc ls d -> forall n, In n (map fst d) -> strip n = n.
Proof.
  assert (Hsame : forall (d : doc) n es es' x, In x (map fst (d ++ [(n, es)])) <-> In x (map fst (d ++ [(n, es')]))).
  { intros. rewrite !map_app. reflexivity. }
  induction 1; intros x Hx; try (apply IHDoc; eapply Hsame; exact Hx).
  - destruct Hx.
  - apply IHDoc, Hx.
  - rewrite map_app in Hx. apply in_app_or in Hx. destruct Hx as [Hx|[<-|[]]]; [apply IHDoc, Hx|].
    destruct H0 as (_ & _ & w & inner & junk & _ & _ & _ & Ht). cbn [fst]. apply Trim_strip in Ht. rewrite <- Ht. apply strip_idem.
Qed.

(** ** Merging the files *)

Lemma fold_set_get (c : sections) k : NoDup (dict_keys c) -> forall m,
  dict_get k (fold_left (fun m kv => dict_set (fst kv) (snd kv) m) c m)
  = match dict_get k c with Some v => Some v | None => dict_get k m end.
Proof. intros H m. exact (update_get c k H m). Qed.

Lemma look_merge_profiles a b p k : wf a -> wf b ->
  look p k (merge_profiles a b) = match look p k b with Some v => Some v | None => look p k a end.
Proof.
  intros [Ha Ha2] [Hb Hb2]. unfold merge_profiles.
  set (m0 := fold_left (fun m kv => dict_set (fst kv) (snd kv) m) a []).
  assert (H0 : look p k m0 = look p k a).
  { unfold look, m0. rewrite fold_set_get by exact Ha. destruct (dict_get p a); reflexivity. }
  assert (Hb2' : forall n ps, In (n, ps) b -> NoDup (dict_keys ps)).
  { intros n ps Hi. eapply Hb2. apply dict_In_get; eassumption. }
  rewrite <- H0. clearbody m0. clear Ha Ha2 H0 a Hb2. revert m0.
  induction b as [|[n ps] b IH]; intros m; [reflexivity|]. cbn [fold_left fst snd].
  cbn [dict_keys map fst] in Hb. inversion Hb as [|? ? Hn Hr]; subst.
  rewrite IH; [|exact Hr|intros x q Hq; eapply Hb2'; right; exact Hq].
  assert (Hps : NoDup (dict_keys ps)) by (eapply Hb2'; left; reflexivity).
  assert (Estep : look p k (match dict_get n m with Some q => dict_set n (update q ps) m | None => dict_set n ps m end)
    = if text_eqb p n then match dict_get k ps with Some v => Some v | None => look p k m end else look p k m).
  { unfold look. destruct (text_eqb p n) eqn:E.
    - apply text_eqb_eq in E as ->. destruct (dict_get n m) as [q|] eqn:Eq; rewrite dict_get_set_eq.
      + rewrite update_get by exact Hps. reflexivity.
      + destruct (dict_get k ps); reflexivity.
    - apply text_eqb_neq in E. destruct (dict_get n m) as [q|]; rewrite dict_get_set_ne by exact E; reflexivity. }
  rewrite Estep.
  assert (Econs : look p k ((n, ps) :: b) = if text_eqb p n then dict_get k ps else look p k b)
    by (unfold look; cbn [dict_get]; destruct (text_eqb p n); reflexivity).
  rewrite Econs. destruct (text_eqb p n) eqn:E; [|reflexivity].
  apply text_eqb_eq in E as ->. assert (Eb : look n k b = None).
  { unfold look. assert (dict_get n b = None) as -> by (apply dict_get_None; exact Hn). reflexivity. }
  rewrite Eb. reflexivity.
Qed.
Lemma merge_profiles_has a b p : NoDup (dict_keys a) ->
  dict_has p (merge_profiles a b) = (dict_has p a || dict_has p b)%bool.
Proof.
  intros Ha. unfold merge_profiles. set (m0 := fold_left (fun m kv => dict_set (fst kv) (snd kv) m) a []).
  assert (H0 : dict_has p m0 = dict_has p a).
  { unfold dict_has, m0. rewrite fold_set_get by exact Ha. destruct (dict_get p a); reflexivity. }
  rewrite <- H0. clearbody m0. clear Ha H0 a. revert m0.
  induction b as [|[n ps] b IH]; intros m; [rewrite Bool.orb_false_r; reflexivity|]. cbn [fold_left fst snd].
  rewrite IH. unfold dict_has at 1 3 4. cbn [dict_get]. destruct (text_eqb p n) eqn:E.
  - apply text_eqb_eq in E as ->. rewrite !Bool.orb_true_r. destruct (dict_get n m); rewrite dict_get_set_eq; reflexivity.
  - apply text_eqb_neq in E. fold (dict_has p b). destruct (dict_get n m); rewrite dict_get_set_ne by exact E; reflexivity.
Qed.

(** ** From documents to profiles *)

Lemma last_in_single f p k (raw : sections) s : NoDup (dict_keys raw) ->
  (forall n, In n (dict_keys raw) -> (f n = Some p <-> n = s)) ->
  last_in f p k raw = look s k raw.
Proof.
  unfold look. induction raw as [|[n ps] raw IH]; intros Hn Hf; [reflexivity|].
  cbn [dict_keys map fst] in Hn. inversion Hn as [|? ? Hx Hr]; subst. cbn [last_in dict_get].
  rewrite IH; [|exact Hr|intros x Hi; apply Hf; right; exact Hi].
  pose proof (Hf n (or_introl eq_refl)) as Hfn.
  destruct (text_eqb s n) eqn:E.
  - apply text_eqb_eq in E as ->. assert (dict_get n raw = None) as -> by (apply dict_get_None; exact Hx).
    rewrite (proj2 Hfn eq_refl), text_eqb_refl. reflexivity.
  - apply text_eqb_neq in E. destruct (dict_get s raw) as [q|].
    + destruct (dict_get k q); [reflexivity|]. destruct (f n) as [p'|] eqn:Ef; [|reflexivity].
      destruct (text_eqb p p') eqn:Ep; [|reflexivity]. apply text_eqb_eq in Ep as ->.
      exfalso. apply E. symmetry. apply Hfn. reflexivity.
    + destruct (f n) as [p'|] eqn:Ef; [|reflexivity].
      destruct (text_eqb p p') eqn:Ep; [|reflexivity]. apply text_eqb_eq in Ep as ->.
      exfalso. apply E. symmetry. apply Hfn. reflexivity.
Qed.
Lemma last_in_none f p k (raw : sections) : (forall n, In n (dict_keys raw) -> f n <> Some p) -> last_in f p k raw = None.
Proof.
  induction raw as [|[n ps] raw IH]; intros H; [reflexivity|]. cbn [last_in].
  rewrite IH by (intros x Hx; apply H; right; exact Hx). destruct (f n) as [p'|] eqn:E; [|reflexivity].
  destruct (text_eqb p p') eqn:Ep; [|reflexivity]. apply text_eqb_eq in Ep as ->.
  exfalso. exact (H n (or_introl eq_refl) E).
Qed.
Lemma existsb_map {A B} (f : A -> B) g l : existsb g (map f l) = existsb (fun x => g (f x)) l.
Proof. induction l as [|x l IH]; [reflexivity|]. cbn [map existsb]. rewrite IH. reflexivity. Qed.
Lemma property_of_ext f g k d : (forall n, In n (map fst d) -> f n = g n) -> property_of f k d = property_of g k d.
Proof.
  intros H. unfold property_of, entries_of. f_equal. induction d as [|[n es] d IH]; [reflexivity|]. cbn [flat_map fst snd].
  rewrite (H n) by (left; reflexivity). rewrite IH by (intros x Hx; apply H; right; exact Hx). reflexivity.
Qed.
Lemma property_of_none f k d : (forall n, In n (map fst d) -> f n = false) -> property_of f k d = None.
Proof.
  intros H. unfold property_of, entries_of. 
  replace (flat_map (fun s : text * list entry => if f (fst s) then snd s else []) d) with (@nil entry); [reflexivity|].
  induction d as [|[n es] d IH]; [reflexivity|]. cbn [flat_map fst snd].
  rewrite (H n) by (left; reflexivity). cbn [app]. apply IH. intros x Hx; apply H; right; exact Hx.
Qed.

(** One spelling: the sections chosen for [p] all have the same name. *)
Lemma gathered_value f sel p k ls d : Doc ls d ->
  (forall n, In n (map fst d) -> (f n = Some p <-> sel n = true)) ->
  (forall a b, In a (map fst d) -> In b (map fst d) -> sel a = true -> sel b = true -> a = b) ->
  opt_same (look p k (gather f (meaning d) [])) (property_of sel k d).
Proof.
  intros HD Hf Hone.
  assert (Hin : forall n, In n (dict_keys (meaning d)) <-> In n (map fst d)).
  { intros n. rewrite keys_meaning. apply first_occurrences_In. }
  destruct (wf_meaning d) as [W1 W2].
  rewrite look_gather by (intros n ps Hi; eapply W2; apply dict_In_get; eassumption).
  assert (Hl : match last_in f p k (meaning d) with Some v => Some v | None => look p k [] end = last_in f p k (meaning d))
    by (destruct (last_in f p k (meaning d)); reflexivity).
  rewrite Hl. clear Hl.
  destruct (existsb sel (map fst d)) eqn:E.
  - apply existsb_exists in E. destruct E as (s & Hs & Es).
    rewrite (last_in_single f p k _ s W1).
    + rewrite (property_of_ext sel (text_eqb s)); [apply look_meaning|].
      intros n Hn. destruct (text_eqb s n) eqn:En.
      * apply text_eqb_eq in En as <-. exact Es.
      * apply text_eqb_neq in En. destruct (sel n) eqn:Esn; [|reflexivity]. exfalso. apply En. eapply Hone; eassumption.
    + intros n Hn. apply Hin in Hn. rewrite (Hf n Hn). split; [intros H; eapply Hone; eassumption|intros ->; exact Es].
  - assert (Hno : forall n, In n (map fst d) -> sel n = false).
    { intros n Hn. destruct (sel n) eqn:En; [|reflexivity]. 
      assert (existsb sel (map fst d) = true) by (apply existsb_exists; eauto). congruence. }
    rewrite last_in_none, property_of_none; [exact I|exact Hno|].
    intros n Hn He. apply Hin in Hn. apply (Hf n Hn) in He. rewrite (Hno n Hn) in He. discriminate.
Qed.

(** ** Any number of spellings *)

Lemma last_in_keys f p k (raw : sections) : NoDup (dict_keys raw) ->
  last_in f p k raw
  = last_some (fun n => match f n with Some p' => if text_eqb p p' then look n k raw else None | None => None end) (dict_keys raw).
Proof.
  unfold look. induction raw as [|[n ps] raw IH]; intros Hn; [reflexivity|].
  cbn [dict_keys map fst] in Hn. inversion Hn as [|? ? Hx Hr]; subst. cbn [last_in dict_keys map fst last_some].
  rewrite IH by exact Hr. clear IH. change (map fst raw) with (dict_keys raw).
  assert (E : forall l, ~ In n l ->
    last_some (fun n0 => match f n0 with Some p' => if text_eqb p p' then match dict_get n0 raw with Some q => dict_get k q | None => None end else None | None => None end) l
    = last_some (fun n0 => match f n0 with Some p' => if text_eqb p p' then match dict_get n0 ((n, ps) :: raw) with Some q => dict_get k q | None => None end else None | None => None end) l).
  { induction l as [|x l IH]; intros Hl; [reflexivity|]. cbn [last_some]. rewrite IH by (intros H; apply Hl; right; exact H).
    cbn [dict_get]. destruct (text_eqb x n) eqn:Ex; [|reflexivity].
    apply text_eqb_eq in Ex as ->. destruct (Hl (or_introl eq_refl)). }
  rewrite <- E by exact Hx. destruct (last_some _ (dict_keys raw)); [reflexivity|].
  cbn [dict_get]. rewrite text_eqb_refl. reflexivity.
Qed.
Lemma last_some_same {A} (f : A -> option pvalue) (g : A -> option content) l :
  (forall x, In x l -> opt_same (f x) (g x)) -> opt_same (last_some f l) (last_some g l).
Proof.
  induction l as [|x l IH]; intros H; [exact I|]. cbn [last_some].
  assert (IH' : opt_same (last_some f l) (last_some g l)) by (apply IH; intros y Hy; apply H; right; exact Hy).
  destruct (last_some f l), (last_some g l); try exact IH'; try (destruct IH'; fail). apply H. left. reflexivity.
Qed.
Lemma gathered_values f sel p k ls d : Doc ls d ->
  (forall n, In n (map fst d) -> (f n = Some p <-> sel n = true)) ->
  opt_same (look p k (gather f (meaning d) []))
    (last_some (fun n => if sel n then property_of (text_eqb n) k d else None) (first_occurrences (map fst d))).
Proof.
  intros HD Hf. destruct (wf_meaning d) as [W1 W2].
  rewrite look_gather by (intros n ps Hi; eapply W2; apply dict_In_get; eassumption).
  assert (Hl : match last_in f p k (meaning d) with Some v => Some v | None => look p k [] end = last_in f p k (meaning d))
    by (destruct (last_in f p k (meaning d)); reflexivity).
  rewrite Hl, last_in_keys, keys_meaning by exact W1. apply last_some_same. intros n Hn.
  rewrite first_occurrences_In in Hn. specialize (Hf n Hn). destruct (sel n).
  - rewrite (proj2 Hf eq_refl), text_eqb_refl. apply look_meaning.
  - destruct (f n) as [p'|] eqn:E; [|exact I]. destruct (text_eqb p p') eqn:Ep; [|exact I].
    apply text_eqb_eq in Ep as ->. discriminate (proj1 Hf eq_refl).
Qed.

Lemma last_some_none {A B} (f : A -> option B) l : (forall x, In x l -> f x = None) -> last_some f l = None.
Proof.
  induction l as [|x l IH]; intros H; [reflexivity|]. cbn [last_some]. rewrite IH by (intros y Hy; apply H; right; exact Hy).
  apply H. left. reflexivity.
Qed.
Lemma last_some_single {A B} (f : A -> option B) l s : In s l -> (forall x, In x l -> x <> s -> f x = None) ->
  (forall x y : A, {x = y} + {x <> y}) -> last_some f l = f s.
Proof.
  intros Hs H dec. induction l as [|x l IH]; [destruct Hs|]. cbn [last_some].
  destruct (in_dec dec s l) as [Hi|Hi].
  - rewrite IH by (exact Hi || (intros y Hy; apply H; right; exact Hy)). destruct (f s) eqn:E; [reflexivity|].
    destruct (dec x s) as [->|n]; [exact E|]. apply H; [left; reflexivity|exact n].
  - destruct Hs as [->|Hs]; [|destruct (Hi Hs)]. rewrite last_some_none; [reflexivity|].
    intros y Hy. apply H; [right; exact Hy|]. intros ->. exact (Hi Hy).
Qed.
Lemma one_spelling sel k d :
  (forall a b, In a (map fst d) -> In b (map fst d) -> sel a = true -> sel b = true -> a = b) ->
  profile_value sel k d = property_of sel k d.
Proof.
  intros Hone. unfold profile_value. destruct (existsb sel (map fst d)) eqn:E.
  - apply existsb_exists in E. destruct E as (s & Hs & Es).
    rewrite (last_some_single _ _ s).
    + rewrite Es. apply property_of_ext. intros n Hn. destruct (text_eqb s n) eqn:En.
      * apply text_eqb_eq in En as <-. auto.
      * apply text_eqb_neq in En. destruct (sel n) eqn:Esn; [|reflexivity]. exfalso. apply En. eapply Hone; eassumption.
    + apply first_occurrences_In, Hs.
    + intros n Hn Hne. rewrite first_occurrences_In in Hn. destruct (sel n) eqn:Esn; [|reflexivity].
      exfalso. apply Hne. eapply Hone; eassumption.
    + exact text_eq_dec.
  - assert (Hno : forall n, In n (map fst d) -> sel n = false).
    { intros n Hn. destruct (sel n) eqn:En; [|reflexivity].
      assert (existsb sel (map fst d) = true) by (apply existsb_exists; eauto). congruence. }
    rewrite property_of_none by exact Hno. apply last_some_none. intros n Hn. rewrite first_occurrences_In in Hn.
    rewrite (Hno n Hn). reflexivity.
Qed.
