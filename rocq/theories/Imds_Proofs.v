(** Proofs about credentials from the instance metadata service. *)
From Verif Require Import Base Base_Proofs PySort_Model Imds_Model Imds_Spec.
From Coq Require Import ZArith Lia.

Section P.
Variable clock : nat -> Z.
Variable replies : nat -> reply.
Variable decode : bytes -> option text.
Variable json_loads : text -> option document.
Variable fromisoformat : text -> option datetime.
Variable c : config.
Hypothesis positive : (0 < c_ttl c)%Z.

Notation answers := (answers decode).
Notation put := (put_token (c_endpoint c) (c_ttl c)).
Notation getm := (get_metadata (c_endpoint c)).
Notation good := (token_good decode (c_endpoint c) (c_ttl c)).

Definition text_of (r : reply) : result text :=
  match r with
  | Failure e => Err e
  | Response _ body => match decode body with Some t => Ok t | None => Err UnicodeError end
  end.
Lemma text_answers r : answers r (text_of r).
Proof. destruct r as [st body|e]; cbn; [|constructor]. destruct (decode body) eqn:E; now constructor. Qed.
Lemma answers_fun r x : answers r x -> x = text_of r.
Proof. destruct 1 as [? ? ? E|? ? E|]; cbn; rewrite ?E; reflexivity. Qed.

Definition TI (w : world) : Prop :=
  match w_token w with
  | None => True
  | Some (v, t0) => exists start r mid, w_log w = start ++ [Exchange put r; Clock t0] ++ mid /\ answers r (Ok v) /\
      (forall r' t', In (Exchange put r') mid -> ~ answers r' (Ok t'))
  end.
Definition fine (before : list occurrence) (q : http_request) : Prop :=
  q = put \/ exists path token, q = getm path token /\ good before token.
Definition AG (log : list occurrence) : Prop :=
  forall before q r after, log = before ++ Exchange q r :: after -> fine before q.

Lemma split_end {A} (l : list A) x before y after : l ++ [x] = before ++ y :: after ->
  (after = [] /\ l = before /\ x = y) \/ (exists a, after = a ++ [x] /\ l = before ++ y :: a).
Proof.
  intros E. destruct (@exists_last _ (y :: after)) as [a [z Z]]; [discriminate|]. rewrite Z, app_assoc in E.
  apply app_inj_tail in E. destruct E as [E <-]. destruct a as [|y' a].
  - injection Z as -> ->. left. rewrite app_nil_r in E. now repeat split.
  - injection Z as -> ->. right. exists a. now split.
Qed.
Lemma AG_other log o : AG log -> (forall q r, o <> Exchange q r) -> AG (log ++ [o]).
Proof.
  intros A N before q r after E. apply split_end in E. destruct E as [[_ [_ E]] | [a [_ E]]]; [now elim (N q r)|].
  now apply (A before q r a).
Qed.
Lemma AG_exchange log q r : AG log -> fine log q -> AG (log ++ [Exchange q r]).
Proof.
  intros A F before q' r' after E. apply split_end in E. destruct E as [[_ [<- E]] | [a [_ E]]]; [now injection E as <- <-|].
  now apply (A before q' r' a).
Qed.
(** Whatever happens later, but no new token. *)
Lemma TI_more w w' o : TI w -> w_token w' = w_token w -> w_log w' = w_log w ++ [o] ->
  (forall r t, o = Exchange put r -> ~ answers r (Ok t)) -> TI w'.
Proof.
  unfold TI. intros H E1 E2 N. rewrite E1. destruct (w_token w) as [[v t0]|]; [|exact I].
  destruct H as [start [r [mid [E [A B]]]]]. exists start, r, (mid ++ [o]). split; [|split; [exact A|]].
  - rewrite E2, E, <- !app_assoc. reflexivity.
  - intros r' t' I. apply in_app_or in I. destruct I as [I | [I | []]]; [now apply B | now apply N].
Qed.

(** What an action does to the state. *)
Record did {A} (w : world) (seg : list occurrence) (res : result A) (w' : world) : Prop := mkDid {
  d_log : w_log w' = w_log w ++ seg;
  d_inside : inside seg;
  d_creds : w_credentials w' = w_credentials w;
  d_token : TI w';
  d_good : AG (w_log w) -> AG (w_log w') }.

Lemma did_nil {A} w (res : result A) : TI w -> did w [] res w.
Proof. intros T. constructor; [now rewrite app_nil_r | constructor | reflexivity | exact T | auto]. Qed.
Lemma did_seq {A B} w s1 (r1 : result A) w1 s2 (r2 : result B) w2 :
  did w s1 r1 w1 -> did w1 s2 r2 w2 -> did w (s1 ++ s2) r2 w2.
Proof.
  intros [A1 A2 A3 A4 A5] [B1 B2 B3 B4 B5]. constructor; [now rewrite B1, A1, app_assoc | now apply Forall_app | congruence | exact B4 | auto].
Qed.
Lemma clock_did w : TI w -> did w [Clock (clock (w_readings w))] (fst (read_clock clock w)) (snd (read_clock clock w)).
Proof.
  intros T. constructor; cbn; [reflexivity | repeat constructor | reflexivity | |].
  - eapply TI_more; [exact T | reflexivity | reflexivity | discriminate].
  - intros G. apply AG_other; [exact G | discriminate].
Qed.

(** M 111-112. *)
Lemma refresh_due w b w' : TI w -> should_refresh clock c w = (Ok b, w') ->
  exists seg, did w seg (Ok b) w' /\ exchanges seg = [] /\ w_token w' = w_token w /\
    (b = false -> exists v t0 t, w_token w = Some (v, t0) /\ seg = [Clock t] /\ (t - t0 < c_ttl c)%Z) /\
    (w_token w = None -> b = true).
Proof.
  intros T. unfold should_refresh. destruct (w_token w) as [[v t0]|] eqn:E.
  - cbn. intros X. injection X as <- <-. exists [Clock (clock (w_readings w))]. split; [|split; [reflexivity|split; [cbn; now rewrite E | split; [|discriminate]]]].
    + destruct (clock_did w T) as [B1 B2 B3 B4 B5]. cbn in *. now constructor.
    + intros L. exists v, t0, (clock (w_readings w)). repeat split. apply Z.leb_gt in L. exact L.
  - intros [= <- <-]. exists []. split; [now apply did_nil|]. split; [reflexivity|]. split; [exact E|]. split; [discriminate | reflexivity].
Qed.
Lemma should_total w : exists b w', should_refresh clock c w = (Ok b, w').
Proof. unfold should_refresh. destruct (w_token w) as [[v t0]|]; cbn; [unfold ret|]; do 2 eexists; reflexivity. Qed.

Lemma good_of w w' v t0 t : TI w -> w_token w = Some (v, t0) -> w_log w' = w_log w ++ [Clock t] -> (t - t0 < c_ttl c)%Z -> good (w_log w') v.
Proof.
  unfold TI. intros H E L B. rewrite E in H. destruct H as [start [r [mid [H1 [H2 H3]]]]].
  exists start, r, t0, (mid ++ [Clock t]), t. split; [rewrite L, H1, <- !app_assoc; reflexivity|]. split; [exact H2|]. split; [|split; [|exact B]].
  - intros r' t' I. apply in_app_or in I. destruct I as [I | [I | []]]; [now apply H3 | discriminate I].
  - exists (w_log w). exact L.
Qed.

(** M 141-145. *)
Lemma token_got w res w' : TI w -> get_token clock replies decode c w = (res, w') ->
  exists seg, did w seg res w' /\ (forall v, res = Ok v -> good (w_log w') v) /\
    ((exchanges seg = [] /\ exists v, res = Ok v) \/ exists r, exchanges seg = [(put, r)] /\ answers r res).
Proof.
  intros T. unfold get_token, seq at 1. destruct (should_total w) as [b [w1 E1]]. rewrite E1.
  destruct (refresh_due w b w1 T E1) as [s1 [D1 [X1 [K1 [F1 N1]]]]]. assert (T1 := d_token _ _ _ _ D1).
  destruct b.
  - unfold seq at 1. unfold refresh, seq at 1. destruct (should_total w1) as [b2 [w2 E2]]. rewrite E2.
    destruct (refresh_due w1 b2 w2 T1 E2) as [s2 [D2 [X2 [K2 [F2 N2]]]]]. assert (T2 := d_token _ _ _ _ D2).
    destruct b2.
    + set (r := replies (w_requests w2)).
      assert (PUT : mkHttp (lit "PUT") (c_endpoint c) TOKEN_PATH (lit "x-aws-ec2-metadata-token-ttl-seconds", show_ttl (c_ttl c)) = put) by reflexivity.
      rewrite PUT. unfold seq at 1, exchange. fold r. fold (text_of r). assert (AR := text_answers r). destruct (text_of r) as [v|e] eqn:TR.
      * cbn. intros X. injection X as <- <-. set (t := clock (w_readings w2)).
        exists (s1 ++ s2 ++ [Exchange put r; Clock t]). split; [|split].
        -- apply (did_seq w s1 (Ok true) w1 _ _ _ D1). apply (did_seq w1 s2 (Ok true) w2 _ _ _ D2).
           constructor; cbn; [now rewrite <- app_assoc | repeat constructor | reflexivity | |].
           ++ exists (w_log w2), r, []. cbn. rewrite <- app_assoc. cbn. split; [reflexivity|]. split; [exact AR | intros r' t' []].
           ++ intros G. apply AG_other; [|discriminate]. apply AG_exchange; [exact G | now left].
        -- intros v' [= <-]. exists (w_log w2), r, t, [], t. cbn. rewrite <- app_assoc. cbn. split; [reflexivity|]. split; [exact AR|]. split; [intros r' t' []|].
           split; [|lia]. exists (w_log w2 ++ [Exchange put r]). now rewrite <- app_assoc.
        -- right. exists r. split; [|exact AR]. unfold exchanges in *. rewrite !flat_map_app, X1, X2. reflexivity.
      * cbn. intros X. injection X as <- <-. exists (s1 ++ s2 ++ [Exchange put r]). split; [|split; [discriminate|]].
        -- apply (did_seq w s1 (Ok true) w1 _ _ _ D1). apply (did_seq w1 s2 (Ok true) w2 _ _ _ D2).
           constructor; cbn; [reflexivity | repeat constructor | reflexivity | |].
           ++ eapply TI_more; [exact T2 | reflexivity | reflexivity|]. intros r' t' [= <-] A. apply answers_fun in A. congruence.
           ++ intros G. apply AG_exchange; [exact G | now left].
        -- right. exists r. split; [|exact AR]. unfold exchanges in *. rewrite !flat_map_app, X1, X2. reflexivity.
    + destruct (F2 eq_refl) as [v [t0 [t [E3 [-> Lt]]]]]. rewrite <- K2 in E3. cbn. rewrite E3. intros X. injection X as <- <-.
      exists (s1 ++ [Clock t]). split; [|split].
      * apply (did_seq w s1 (Ok true) w1 _ _ _ D1). destruct D2 as [B1 B2 B3 B4 B5]. now constructor.
      * intros v' [= <-]. apply (good_of w1 w2 v t0 t T1); [now rewrite <- K2 | apply (d_log _ _ _ _ D2) | exact Lt].
      * left. split; [|now exists v]. unfold exchanges in *. now rewrite flat_map_app, X1, X2.
  - destruct (F1 eq_refl) as [v [t0 [t [E3 [-> Lt]]]]]. rewrite <- K1 in E3. cbn. rewrite E3. intros X. injection X as <- <-.
    exists [Clock t]. split; [|split].
    + destruct D1 as [B1 B2 B3 B4 B5]. now constructor.
    + intros v' [= <-]. apply (good_of w w1 v t0 t T); [now rewrite <- K1 | apply (d_log _ _ _ _ D1) | exact Lt].
    + left. split; [reflexivity | now exists v].
Qed.

(** M 156-179. *)
Lemma get_got path w res w' : TI w -> get clock replies decode c path w = (res, w') ->
  exists seg, did w seg res w' /\ Got decode (c_endpoint c) (c_ttl c) path (exchanges seg) res.
Proof.
  intros T. unfold get, seq. destruct (get_token clock replies decode c w) as [r1 w1] eqn:E.
  destruct (token_got w r1 w1 T E) as [s1 [D1 [G1 X1]]]. assert (T1 := d_token _ _ _ _ D1). destruct r1 as [v|e].
  - set (r := replies (w_requests w1)). assert (GET : mkHttp (lit "GET") (c_endpoint c) path (lit "x-aws-ec2-metadata-token", v) = getm path v) by reflexivity.
    rewrite GET. unfold exchange. fold r. fold (text_of r). intros X. injection X as <- <-. exists (s1 ++ [Exchange (getm path v) r]). split.
    + apply (did_seq w s1 (Ok v) w1 _ _ _ D1). constructor; cbn; [reflexivity | repeat constructor | reflexivity | |].
      * eapply TI_more; [exact T1 | reflexivity | reflexivity|]. intros r' t' X. discriminate X.
      * intros G. apply AG_exchange; [exact G|]. right. exists path, v. split; [reflexivity | now apply G1].
    + unfold exchanges in *. rewrite flat_map_app. destruct X1 as [[-> _] | [r0 [-> A]]]; cbn.
      * constructor. apply text_answers.
      * constructor; [exact A | apply text_answers].
  - intros X. injection X as <- <-. exists s1. split; [destruct D1 as [B1 B2 B3 B4 B5]; now constructor|].
    destruct X1 as [[_ [v V]] | [r [-> A]]]; [discriminate V | now constructor].
Qed.

Lemma means_of t : Means json_loads fromisoformat t (credentials_of json_loads fromisoformat t).
Proof.
  unfold credentials_of. destruct (json_loads t) as [[k s tok acc e|]|] eqn:E; [|now constructor|now constructor].
  destruct e as [|x|]; cbn [bind].
  - destruct k as [k|], s as [s|]; try (eapply Means_missing; [exact E | auto | now left]). now apply Means_forever.
  - destruct (fromisoformat x) as [d|] eqn:F; cbn [bind]; [|eapply Means_bad_expiry; [exact E | exact F]].
    destruct k as [k|], s as [s|]; try (eapply Means_missing; [exact E | auto | right; eauto]).
    replace (ensure_utc (replace_utc d)) with (dt_local d) by (unfold ensure_utc, replace_utc; cbn; lia). eapply Means_until; [exact E | exact F].
  - eapply Means_other_expiry. exact E.
Qed.
Lemma means_fun t r : Means json_loads fromisoformat t r -> r = credentials_of json_loads fromisoformat t.
Proof.
  unfold credentials_of. destruct 1 as [t E|t E|t k s tok acc x E F|t k s tok acc E|t k s tok acc e E K X|t k s tok acc E|t k s tok acc x d E F]; rewrite E; cbn [bind]; rewrite ?F; cbn [bind]; try reflexivity.
  - destruct X as [-> | [x [d [-> F]]]]; rewrite ?F; cbn [bind]; destruct K as [-> | ->]; try reflexivity; destruct k; reflexivity.
  - unfold ensure_utc, replace_utc; cbn. now rewrite Z.sub_0_r.
Qed.

(** M 197-234. *)
Lemma identity_got w res w' : TI w -> get_identity clock replies decode json_loads fromisoformat c w = (res, w') ->
  exists seg, w_log w' = w_log w ++ seg /\ inside seg /\ TI w' /\ (AG (w_log w) -> AG (w_log w')) /\
    w_credentials w' = match res with Ok v => Some v | Err _ => w_credentials w end /\
    ((exists v e now, seg = [Clock now] /\ w_credentials w = Some v /\ expiration v = Some e /\ (now < e)%Z /\ res = Ok v) \/
     (Resolved decode json_loads fromisoformat (c_endpoint c) (c_ttl c) (c_profile c) (exchanges seg) res /\
      forall v e, w_credentials w = Some v -> expiration v = Some e -> exists now rest, seg = Clock now :: rest /\ (e <= now)%Z)).
Proof.
  intros T. unfold get_identity, seq at 1.
  assert (S : (exists v e now, still_good clock w = (Ok (Some v), snd (read_clock clock w)) /\ now = clock (w_readings w) /\ w_credentials w = Some v /\ expiration v = Some e /\ (now < e)%Z) \/
     (exists s0 w0, still_good clock w = (Ok None, w0) /\ did w s0 (Ok tt) w0 /\ exchanges s0 = [] /\
        forall v e, w_credentials w = Some v -> expiration v = Some e -> exists now, s0 = [Clock now] /\ (e <= now)%Z)).
  { unfold still_good. destruct (w_credentials w) as [v|] eqn:E.
    - destruct (expiration v) as [e|] eqn:X.
      + unfold seq, read_clock, ret. cbn. destruct (Z.ltb_spec (clock (w_readings w)) e) as [Lt|Ge].
        * left. exists v, e, (clock (w_readings w)). repeat split; assumption.
        * right. do 2 eexists. split; [reflexivity|]. destruct (clock_did w T) as [B1 B2 B3 B4 B5]. cbn in *. split; [constructor; eassumption|].
          split; [reflexivity|]. intros v' e' [= <-] X'. rewrite X in X'. injection X' as <-. exists (clock (w_readings w)). now split.
      + right. exists [], w. split; [reflexivity|]. split; [now apply did_nil|]. split; [reflexivity|]. intros v' e' [= <-] X'. congruence.
    - right. exists [], w. split; [reflexivity|]. split; [now apply did_nil|]. split; [reflexivity|]. intros v' e' X'. discriminate X'. }
  destruct S as [[v [e [now [S [-> [C [X Lt]]]]]]] | [s0 [w0 [S [D0 [X0 NR]]]]]]; rewrite S.
  - cbn. intros Y. injection Y as <- <-. destruct (clock_did w T) as [B1 B2 B3 B4 B5]. cbn in *.
    exists [Clock (clock (w_readings w))]. split; [reflexivity|]. split; [exact B2|]. split; [exact B4|]. split; [exact B5|]. split; [exact C|].
    left. exists v, e, (clock (w_readings w)). repeat split; assumption.
  - assert (T0 := d_token _ _ _ _ D0).
    assert (PR : exists r1 w1 s1, (match c_profile c with Some p => ret p | None => get clock replies decode c BASE_PATH end) w0 = (r1, w1) /\ did w0 s1 r1 w1 /\
       match r1 with
       | Ok p => Profile decode (c_endpoint c) (c_ttl c) (c_profile c) p (exchanges s1)
       | Err e => c_profile c = None /\ Got decode (c_endpoint c) (c_ttl c) BASE_PATH (exchanges s1) (Err e)
       end).
    { destruct (c_profile c) as [p|] eqn:CP.
      - exists (Ok p), w0, []. split; [reflexivity|]. split; [now apply did_nil|]. now constructor.
      - destruct (get clock replies decode c BASE_PATH w0) as [r1 w1] eqn:G. destruct (get_got _ _ _ _ T0 G) as [s1 [D1 G1]].
        exists r1, w1, s1. split; [reflexivity|]. split; [exact D1|]. destruct r1; [now apply Profile_asked | now split]. }
    destruct PR as [r1 [w1 [s1 [E1 [D1 P1]]]]]. unfold seq at 1. rewrite E1. assert (T1 := d_token _ _ _ _ D1).
    assert (D01 := did_seq _ _ _ _ _ _ _ D0 D1).
    assert (NR' : forall s, forall v e, w_credentials w = Some v -> expiration v = Some e -> exists now rest, s0 ++ s = Clock now :: rest /\ (e <= now)%Z).
    { intros s v e Cv Xe. destruct (NR v e Cv Xe) as [now [-> Le]]. now exists now, s. }
    destruct r1 as [p|e].
    + unfold seq at 1. destruct (get clock replies decode c (BASE_PATH ++ [47%N] ++ p) w1) as [r2 w2] eqn:G.
      destruct (get_got _ _ _ _ T1 G) as [s2 [D2 G2]]. assert (D := did_seq _ _ _ _ _ _ _ D01 D2). clear E1 G.
      destruct D as [B1 B2 B3 B4 B5].
      assert (EX : exchanges ((s0 ++ s1) ++ s2) = exchanges s1 ++ exchanges s2).
      { unfold exchanges in *. now rewrite !flat_map_app, X0. }
      destruct r2 as [t|e2].
      * destruct (credentials_of json_loads fromisoformat t) as [v|e3] eqn:CO; cbn; intros Y; injection Y as <- <-; exists ((s0 ++ s1) ++ s2); cbn;
          (split; [exact B1|]; split; [exact B2|]; split; [exact B4|]; split; [exact B5|]; split; [first [reflexivity | exact B3]|]; right;
           split; [rewrite EX; eapply Resolved_text; [exact P1 | exact G2 | rewrite <- CO; apply means_of] | rewrite <- app_assoc; apply NR']).
      * cbn; intros Y; injection Y as <- <-; exists ((s0 ++ s1) ++ s2); cbn.
        split; [exact B1|]; split; [exact B2|]; split; [exact B4|]; split; [exact B5|]; split; [exact B3|]; right.
        split; [rewrite EX; eapply Resolved_no_text; [exact P1 | exact G2] | rewrite <- app_assoc; apply NR'].
    + cbn. intros Y; injection Y as <- <-. destruct P1 as [CN P1]. destruct D01 as [B1 B2 B3 B4 B5]. exists (s0 ++ s1).
      split; [exact B1|]; split; [exact B2|]; split; [exact B4|]; split; [exact B5|]; split; [exact B3|]; right.
      split; [|apply NR']. unfold exchanges in *. rewrite flat_map_app, X0. apply Resolved_no_profile; [exact CN | exact P1].
Qed.

(** ** Histories *)
Notation uses := (uses clock replies decode json_loads fromisoformat c).
Definition Inv (w : world) : Prop := TI w /\ AG (w_log w) /\ w_credentials w = last_returned (w_log w).
Lemma last_inside l seg : inside seg -> last_returned (l ++ seg) = last_returned l.
Proof.
  unfold last_returned. rewrite fold_left_app. generalize (fold_left (fun v o => match o with Ended (Ok x) => Some x | Discarded => None | _ => v end) l None) as v.
  intros v H. revert v. induction H as [|o seg O _ IH]; intros v; [reflexivity|]. cbn [fold_left]. rewrite IH. destruct o; [reflexivity | reflexivity | destruct O | destruct O | destruct O].
Qed.
Lemma last_one l o : last_returned (l ++ [o]) = match o with Ended (Ok x) => Some x | Discarded => None | _ => last_returned l end.
Proof. unfold last_returned. rewrite fold_left_app. reflexivity. Qed.

Definition described (before seg : list occurrence) (r : result credentials) : Prop :=
  inside seg /\ (reused before seg r \/
    (Resolved decode json_loads fromisoformat (c_endpoint c) (c_ttl c) (c_profile c) (exchanges seg) r /\ not_reusable before seg)).

Lemma step_inv w u : Inv w -> let w' := use_step clock replies decode json_loads fromisoformat c w u in
  Inv w' /\ match u with
            | Ask => exists seg r, w_log w' = w_log w ++ Began :: seg ++ [Ended r] /\ described (w_log w) seg r
            | Discard => w_log w' = w_log w ++ [Discarded]
            end.
Proof.
  intros (T & G & C) w'. destruct u.
  - unfold w', use_step. set (w0 := snd (note Began w)).
    assert (T0 : TI w0) by (eapply TI_more; [exact T | reflexivity | reflexivity | discriminate]).
    assert (G0 : AG (w_log w0)) by (apply AG_other; [exact G | discriminate]).
    destruct (get_identity clock replies decode json_loads fromisoformat c w0) as [r w1] eqn:E.
    destruct (identity_got w0 r w1 T0 E) as (seg & L & I1 & T1 & G1 & C1 & D). cbn [snd note].
    assert (L0 : w_log w0 = w_log w ++ [Began]) by reflexivity.
    assert (C0 : w_credentials w0 = last_returned (w_log w)) by exact C.
    split.
    + split; [|split].
      * eapply TI_more; [exact T1 | reflexivity | reflexivity | discriminate].
      * apply AG_other; [now apply G1 | discriminate].
      * cbn [w_credentials w_log]. rewrite last_one. rewrite C1. destruct r as [v|e]; [reflexivity|].
        rewrite C0, L, last_inside, L0, last_one by exact I1. reflexivity.
    + exists seg, r. split; [cbn [w_log]; rewrite L, L0, <- !app_assoc; reflexivity|]. split; [exact I1|].
      rewrite C0 in D. exact D.
  - split; [|reflexivity]. split; [|split].
    + eapply (TI_more w); [exact T | reflexivity | reflexivity | discriminate].
    + apply AG_other; [exact G | discriminate].
    + unfold w'. cbn [use_step snd note invalidate set_credentials w_credentials w_log]. now rewrite last_one.
Qed.
Lemma uses_snoc us u : uses (us ++ [u]) = use_step clock replies decode json_loads fromisoformat c (uses us) u.
Proof. unfold Imds_Model.uses. now rewrite fold_left_app. Qed.
Lemma uses_inv us : Inv (uses us).
Proof.
  induction us as [|u us IH] using rev_ind.
  - split; [exact I|]. split; [|reflexivity]. intros before q r after E. destruct before; discriminate E.
  - rewrite uses_snoc. now apply step_inv.
Qed.
End P.
