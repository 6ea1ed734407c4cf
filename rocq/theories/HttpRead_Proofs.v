(** Reading what the response serializer wrote. *)
From Verif Require Import Base Base_Proofs Utf8_Model Utf8_Proofs PyText_Model PyText_Proofs PySort_Model PyDecimal_Model PyDecimal_Proofs PyDict_Model PyDict_Proofs.
From Verif Require Import Header_Model Header_Spec Fields_Model Fields_Proofs Base64_Model Base64_Proofs.
From Verif Require Import HttpVal_Model HttpVal_Spec HttpVal_Proofs HttpBind_Model HttpBind_Spec HttpBind_Proofs HttpRead_Spec.
From Verif Require Form_Proofs Header_Props Fields_Props HttpVal_Props HttpBind_Props Time_Model Time_Spec Time_Props JsonNum_Proofs.
Local Open Scope N_scope.

(** ** A single text as a list *)
Definition plain (t : text) : Prop := t <> [] /\ forall c, In c t -> is_space c = false /\ c <> 44 /\ c <> 34.
Lemma plain_trimmed t : (forall c, In c t -> is_space c = false) -> trimmed t.
Proof.
  intros H. split.
  - intros c r ->. apply H. now left.
  - intros r c ->. apply H, in_or_app. right. now left.
Qed.
Lemma plain_lone t : plain t -> HeaderList t [t].
Proof.
  intros [N H]. constructor. rewrite <- (app_nil_r t) at 1. apply (El_plain [] t []).
  - intros c [].
  - intros c [].
  - apply plain_trimmed. intros c I. now apply H.
  - exact N.
  - intros I. now apply H in I.
  - intros r ->. now destruct (H 34 (or_introl eq_refl)).
Qed.
Lemma number_plain neg i f e : JsonNum_Proofs.int_ok i -> all_digits f -> JsonNum_Proofs.exp_ok e -> plain (JsonNum_Proofs.num_text neg i f e).
Proof.
  intros I F E. split.
  - unfold JsonNum_Proofs.num_text. destruct neg; [discriminate|]. cbn [app]. intros X. apply app_eq_nil in X as [X _]. subst i.
    destruct I as [I|(h & t & I & _)]; discriminate I.
  - intros c C. apply (num_text_chars neg i f e c I F E) in C. split; [now apply number_char_solid|]. unfold number_char in C. lia.
Qed.

Lemma digits_chars n v t : Time_Spec.digits n v t -> List.length t = n /\ forall c, In c t -> 48 <= c <= 57.
Proof.
  intros H. induction H as [|n v t k H [L IH] B]; [split; [reflexivity|intros c []]|]. split.
  - rewrite app_length, L. cbn. lia.
  - intros c I. apply in_app_or in I as [I|[<-|[]]]; [now apply IH|lia].
Qed.
Ltac chars H := repeat (apply in_app_or in H as [H|H]).
Lemma rfc_plain t y mo d h mi s us : Time_Spec.rfc3339_text t y mo d h mi s us -> plain t.
Proof.
  intros (ty & tmo & td & th & tmi & ts & tf & A & B & C & D & E & F & G & ->).
  apply digits_chars in A, B, C, D, E, F. split.
  - destruct ty; [destruct A; discriminate|discriminate].
  - assert (G' : forall c, In c tf -> 48 <= c <= 57 \/ c = 46).
    { destruct G as [[_ ->]|(tu & U & ->)]; [intros c []|]. apply digits_chars in U. intros c I. apply in_app_or in I as [[<-|[]]|I]; [now right|].
      left. now apply U. }
    intros c I. assert (X : 48 <= c <= 57 \/ c = 46 \/ c = 45 \/ c = 84 \/ c = 58 \/ c = 90).
    { chars I;
      try (left; (now apply A) || (now apply B) || (now apply C) || (now apply D) || (now apply E) || (now apply F));
      try (apply G' in I; tauto); cbn in I; lia. }
    clear - X. unfold is_space. split; [|lia]. lia.
Qed.
Lemma imf_date_like t y mo d h mi s : (1 <= mo <= 12)%Z -> Time_Spec.imf_fixdate t y mo d h mi s -> date_like t.
Proof.
  intros Hm (ty & td & th & tmi & ts & A & B & C & D & E & ->).
  apply digits_chars in A, B, C, D, E.
  set (dn := Time_Spec.day_name _).
  assert (Hd : exists c1 c2 c3, dn = [c1; c2; c3] /\ forall c, In c dn -> 65 <= c <= 122).
  { subst dn. unfold Time_Spec.day_name. set (k := Z.to_nat _).
    assert (Hk : (k < 7)%nat) by (subst k; pose proof (Z.mod_pos_bound (Time_Spec.day_number y mo d - 1) 7 ltac:(lia)); lia).
    clearbody k. do 7 (destruct k as [|k]; [eexists _, _, _; split; [reflexivity|]; intros c I; cbn in I; lia|]). lia. }
  assert (Hn : forall c, In c (Time_Spec.month_name mo) -> 65 <= c <= 122).
  { unfold Time_Spec.month_name. set (k := Z.to_nat _). assert (Hk : (k < 12)%nat) by lia. clearbody k.
    do 12 (destruct k as [|k]; [intros c I; cbn in I; lia|]). lia. }
  destruct Hd as (c1 & c2 & c3 & Ed & Hd).
  exists dn, (lit " " ++ td ++ lit " " ++ Time_Spec.month_name mo ++ lit " " ++ ty ++ lit " " ++ th ++ lit ":" ++ tmi ++ lit ":" ++ ts ++ lit " GMT").
  split; [reflexivity|]. split; [rewrite Ed; discriminate|]. split; [intros I; apply Hd in I; lia|]. split.
  { intros I. chars I; try (apply A in I; lia); try (apply B in I; lia); try (apply C in I; lia); try (apply D in I; lia);
      try (apply E in I; lia); try (apply Hn in I; lia); cbn in I; lia. }
  split; [intros r X; assert (I : In 34 dn) by (rewrite X; now left); apply Hd in I; lia|].
  split.
  - intros c r X. rewrite Ed in X. injection X as <- _. assert (I : In c1 dn) by (rewrite Ed; now left).
    apply Hd in I. unfold is_space. lia.
  - intros r c X. rewrite !app_assoc in X. change (lit " GMT") with ([32; 71; 77] ++ [84]) in X. rewrite app_assoc in X.
    apply app_inj_tail in X as [_ <-]. reflexivity.
Qed.

Definition dates_of (k : kind) (lf : leaf) : bool :=
  match k with
  | KTime => match lf_ts lf with None | Some Time_Model.HTTP_DATE => true | _ => false end
  | _ => false
  end.
Lemma dec_Z_plain z : plain (dec_Z z).
Proof.
  rewrite JsonNum_Proofs.dec_Z_text. apply number_plain; [apply JsonNum_Proofs.dec_int|intros c []|exact I].
Qed.
Lemma b64_no_comma bs c : all_bytes bs = true -> In c (b64encode bs) -> c <> 44.
Proof.
  intros B I ->. destruct (b64encode_chars bs 44 B I) as [X|(v & Hv & X)]; [discriminate X|].
  destruct (b64_val_char v Hv) as (Y & _). rewrite <- X in Y. vm_compute in Y. discriminate Y.
Qed.
Lemma alone pads repr nearest lf s t : (forall x, plain (repr x)) -> carried pads nearest lf s ->
  (forall x, s = HText x -> if lf_media lf then x <> [] else HeaderList x [x]) ->
  header_text pads repr lf s = Ok t -> split_header t (dates_of (kind_of s) lf) = Ok [t].
Proof.
  intros Hr C L H.
  assert (P : plain t -> split_header t false = Ok [t]) by (intros P; apply Header_Props.C21_exact, plain_lone, P).
  assert (W : forall x, plain (lit x) -> t = lit x -> split_header t false = Ok [t]) by (intros x X ->; now apply P).
  destruct s as [b|z|f|d|s|tm|bs]; cbn [kind_of dates_of header_text] in *.
  - destruct b; (injection H as <-; apply P; split; [discriminate|intros c I; cbn in I; unfold is_space; split; lia]).
  - injection H as <-. apply P, dec_Z_plain.
  - injection H as <-. apply P. destruct f as [| | |d]; try (split; [discriminate|intros c I; cbn in I; unfold is_space; split; lia]).
    cbn [carried] in C. destruct C as [_ Z]. destruct (serialize_float_form d Z) as (i & f & e & -> & I & F & E & _). now apply number_plain.
  - injection H as <-. apply P. destruct d as [| | |d]; try (split; [discriminate|intros c I; cbn in I; unfold is_space; split; lia]).
    destruct (serialize_decimal_form d) as (i & f & e & -> & I & F & E & _). now apply number_plain.
  - specialize (L s eq_refl). destruct (lf_media lf).
    + destruct (utf8_encode s) as [bs|] eqn:U; [|discriminate H]. cbn [bind] in H. injection H as <-.
      assert (B := utf8_encode_bytes s bs U). apply P. split.
      * destruct bs as [|x bs]; [|destruct bs as [|y [|z bs]]; discriminate].
        destruct s as [|c s]; [congruence|]. cbn [utf8_encode] in U. destruct (utf8_encode_cp c) as [l|] eqn:Ec; [|discriminate U]. cbn [bind] in U.
        destruct (utf8_encode s); [|discriminate U]. cbn [bind] in U. injection U as U. apply app_eq_nil in U as [-> _].
        unfold utf8_encode_cp in Ec. repeat match type of Ec with context [if ?b then _ else _] => destruct b end; discriminate Ec.
      * intros c I. destruct (b64encode_ascii bs c B I) as (X & Y & _). assert (Z := b64_no_comma bs c B I). split; [unfold is_space; lia|auto].
    + injection H as <-. now apply Header_Props.C21_exact.
  - unfold time_text in H. cbn [carried] in C. destruct C as (R & Y & C).
    assert (Dt : Time_Model.serialize pads Time_Model.HTTP_DATE tm = Ok (Time_Model.SText t) -> split_header t true = Ok [t]).
    { intros S. destruct (Time_Props.C73_text pads tm R Y) as (t' & y & mo & dd & h & mi & s & us & S' & Rd & _ & I & _).
      rewrite S in S'. injection S' as <-. destruct Rd as (_ & Hm & _).
      exact (Header_Props.C21_dates [t] (Forall_cons _ (imf_date_like _ _ _ _ _ _ _ Hm I) (Forall_nil _)) ltac:(discriminate)). }
    destruct (lf_ts lf) as [[]|] eqn:E.
    + destruct (Time_Props.C53_text pads tm R Y C) as (t' & y & mo & dd & h & mi & s & us & S' & _ & _ & I & _).
      rewrite S' in H. cbn [bind stamp_text] in H. injection H as <-. apply P. eapply rfc_plain; exact I.
    + destruct (Time_Props.C73_text pads tm R Y) as (t' & y & mo & dd & h & mi & s & us & S' & _).
      rewrite S' in H. cbn [bind stamp_text] in H. injection H as <-. now apply Dt.
    + destruct (Time_Model.serialize pads Time_Model.EPOCH_SECONDS tm) as [v|] eqn:S; [|discriminate H]. cbn [bind] in H. injection H as <-.
      apply P. unfold Time_Model.serialize in S. destruct (Time_Model.ensure_utc tm) as [u|]; [|discriminate S]. cbn [bind] in S. injection S as <-.
      unfold Time_Model.serialize_epoch_seconds. destruct (Z.eqb _ _); [apply dec_Z_plain|apply Hr].
    + destruct (Time_Props.C73_text pads tm R Y) as (t' & y & mo & dd & h & mi & s & us & S' & _).
      rewrite S' in H. cbn [bind stamp_text] in H. injection H as <-. now apply Dt.
  - discriminate H.
Qed.

(** ** The fields *)
Section Fields.
  Variable lower : text -> text.
  Lemma tuples_nonempty l : forall d, (forall k f, In (k, f) d -> f_values f <> []) ->
    forall k f, In (k, f) (tuples_loop lower Header l d) -> f_values f <> [].
  Proof.
    induction l as [|[n v] l IH]; intros d D; cbn [tuples_loop]; [exact D|]. apply IH.
    intros k f I. destruct (dict_get (lower n) d) as [g|] eqn:E; apply dict_set_In in I as [I|I]; try (now apply D in I).
    - apply (f_equal snd) in I. cbn [snd] in I. subst f. cbn [field_add f_values]. intros X. apply app_eq_nil in X as [_ X]. discriminate X.
    - apply (f_equal snd) in I. cbn [snd] in I. subst f. discriminate.
  Qed.
  (** The field of a name. *)
  Lemma field_named l name : let fs := lines_named lower name l in
    match dict_get (lower name) (tuples_loop lower Header l []) with
    | Some f => f_values f = fs /\ fs <> []
    | None => fs = []
    end.
  Proof.
    cbv zeta. destruct (Fields_Props.C22_tuples lower Header l) as (_ & _ & C). specialize (C name). unfold lines_named.
    destruct (dict_get _ _) as [f|] eqn:E; [|now rewrite C]. split; [exact C|]. rewrite <- C.
    apply dict_get_In in E. eapply tuples_nonempty; [|exact E]. intros k g [].
  Qed.

  (** Some of the fields by their folded names. *)
  Variable P : text -> bool.
  Lemma filter_set {A} k (x : A) d : filter (fun e => P (fst e)) (dict_set k x d) =
    if P k then dict_set k x (filter (fun e => P (fst e)) d) else filter (fun e => P (fst e)) d.
  Proof.
    induction d as [|[k' y] d IH]; cbn [dict_set filter fst].
    - destruct (P k) eqn:E; reflexivity.
    - destruct (text_eqb k k') eqn:E.
      + apply text_eqb_eq in E as <-. cbn [filter fst]. destruct (P k) eqn:Ek; [|reflexivity]. cbn [dict_set]. now rewrite text_eqb_refl.
      + cbn [filter fst]. rewrite IH. destruct (P k'), (P k); try reflexivity. cbn [dict_set]. now rewrite E.
  Qed.
  Lemma filter_get {A} k (d : list (text * A)) : P k = true -> dict_get k (filter (fun e => P (fst e)) d) = dict_get k d.
  Proof.
    intros Hk. induction d as [|[k' y] d IH]; [reflexivity|]. cbn [filter fst dict_get]. destruct (text_eqb k k') eqn:E.
    - apply text_eqb_eq in E as <-. rewrite Hk. cbn [dict_get]. now rewrite text_eqb_refl.
    - destruct (P k'); [cbn [dict_get]; rewrite E|]; exact IH.
  Qed.
  Lemma filter_tuples l : forall d, filter (fun e => P (fst e)) (tuples_loop lower Header l d) =
    tuples_loop lower Header (filter (fun nv => P (lower (fst nv))) l) (filter (fun e => P (fst e)) d).
  Proof.
    induction l as [|[n v] l IH]; intros d; [reflexivity|]. cbn [tuples_loop filter fst]. rewrite IH.
    destruct (P (lower n)) eqn:E.
    - cbn [tuples_loop]. rewrite filter_get by exact E. destruct (dict_get (lower n) d); now rewrite filter_set, E.
    - f_equal. destruct (dict_get (lower n) d); now rewrite filter_set, E.
  Qed.
  (** Lines with different names are a field each. *)
  Lemma tuples_distinct l : forall d, NoDup (dict_keys d ++ map (fun nv => lower (fst nv)) l) ->
    tuples_loop lower Header l d = d ++ map (fun nv => (lower (fst nv), mkField (fst nv) [snd nv] Header)) l.
  Proof.
    induction l as [|[n v] l IH]; intros d N; cbn [tuples_loop map fst snd]; [now rewrite app_nil_r|].
    assert (X : ~ In (lower n) (dict_keys d)).
    { intros I. cbn [map fst] in N. apply NoDup_remove_2 in N. apply N, in_or_app. now left. }
    rewrite (proj2 (dict_get_None _ _) X), (dict_set_new _ _ _ X). rewrite IH.
    - now rewrite <- app_assoc.
    - unfold dict_keys in *. rewrite map_app, <- app_assoc. exact N.
  Qed.
End Fields.

(** ** What a response holds *)
Lemma placed_same l p q : placed l p -> placed l q -> p = q.
Proof. intros [->|[-> ->]] [E|[E F]]; try congruence; try discriminate E. Qed.
Lemma ascii_app a b : ascii a -> ascii b -> ascii (a ++ b).
Proof. intros A B. unfold ascii. apply Forall_app. auto. Qed.
Lemma folds_app lower a b : folds lower -> ascii a -> ascii b -> lower (a ++ b) = lower a ++ lower b.
Proof. intros F A B. rewrite (F _ (ascii_app _ _ A B)), (F a A), (F b B). apply map_app. Qed.
Lemma entries_inj (a b : list (text * text)) :
  map (fun e => (fst e, IText (snd e))) a = map (fun e => (fst e, IText (snd e))) b -> a = b.
Proof.
  revert b. induction a as [|[k s] a IH]; intros [|[k' s'] b] E; try discriminate E; [reflexivity|].
  injection E as -> -> E. now rewrite (IH b E).
Qed.

(** Parts of a whole of which one, if any, counts. *)
Section Parts.
  Context {X Y : Type}.
  Variable places : member -> list place.
  Variable ms : list member.
  Variable f : member -> place -> value -> list X -> Prop.
  Variable F : list X -> list Y.
  Hypothesis F_nil : F [] = [].
  Hypothesis F_app : forall a b, F (a ++ b) = F a ++ F b.
  Lemma parts_none vals l : contributions places ms f vals l ->
    (forall j v m p part, In (j, v) vals -> nth_error ms j = Some m -> placed (places m) p -> f m p v part -> F part = []) ->
    F l = [].
  Proof.
    intros (parts & -> & C) H. induction C as [|[j v] part vals parts (m & p & N & P & Q) _ IH]; [exact F_nil|].
    cbn [List.concat]. rewrite F_app, (H j v m p part (or_introl eq_refl) N P Q), IH; [reflexivity|].
    intros j' v' m' p' part' I. apply H. now right.
  Qed.
  Lemma parts_one vals l i v : contributions places ms f vals l -> NoDup (map fst vals) -> In (i, v) vals ->
    (forall j w m p part, In (j, w) vals -> nth_error ms j = Some m -> placed (places m) p -> f m p w part -> j <> i -> F part = []) ->
    exists m p part, nth_error ms i = Some m /\ placed (places m) p /\ f m p v part /\ F l = F part.
  Proof.
    intros (parts & -> & C) N I H. induction C as [|[j w] part vals parts (m & p & Nj & P & Q) C IH]; [destruct I|].
    cbn [map fst] in N. inversion N as [|? ? N1 N2]; subst. cbn [List.concat]. rewrite F_app. destruct I as [E|I].
    - injection E as -> ->. exists m, p, part. split; [exact Nj|]. split; [exact P|]. split; [exact Q|].
      rewrite (parts_none vals (List.concat parts)); [apply app_nil_r|exists parts; auto|].
      intros j' v' m' p' part' I' N' P' Q'. apply (H j' v' m' p' part' (or_intror I') N' P' Q'). intros ->. apply N1.
      apply in_map_iff. now exists (i, v').
    - rewrite (H j w m p part (or_introl eq_refl) Nj P Q).
      + cbn [app]. apply IH; [exact N2|exact I|]. intros j' v' m' p' part' I'. apply H. now right.
      + intros ->. apply N1. apply in_map_iff. now exists (i, v).
  Qed.
End Parts.

Section Main.
  Variable pads : bool.
  Variable repr : Time_Model.float -> text.
  Variable tf : text -> option Time_Model.float.
  Variable nearest : decimal -> float.
  Variable lower : text -> text.
  Variable media_type : text.
  Variable cv : nat * value -> result bytes.
  Variable cs : list (nat * value) -> result bytes.
  Variable dv : nat -> bytes -> result value.
  Variable ds : bytes -> result (list (nat * value)).
  Variable o : operation.
  Variable es : Z.
  Variable ms : list member.
  Variable vals : list (nat * value).
  Variable r : response.
  Hypothesis Floats : floats_ok repr tf nearest.
  Hypothesis Rp : forall x, plain (repr x).
  Hypothesis Fold : folds lower.
  Hypothesis G : good_schema response_places ms.
  Hypothesis W : written ms vals.
  Hypothesis A : apart lower ms.
  Hypothesis PP : plain_payload ms.
  Hypothesis Ret : forall i v m p, In (i, v) vals -> nth_error ms i = Some m -> placed (response_places m) p -> returns pads nearest m p v.
  Hypothesis Uns : forall i m, nth_error ms i = Some m -> placed (response_places m) AsPayload -> ~ In i (map fst vals) -> may_be_unset m.
  Hypothesis CB : codec_back cv cs dv ds vals.
  Variable hl : list (text * text).
  Variable ct : option text.
  Variable cl : option N.
  Hypothesis Lines : contributions response_places ms (header_lines pads repr) vals hl.
  Hypothesis Body : body_of media_type cv cs false (o_omit_empty o) response_places ms vals (r_body r) ct cl.
  Hypothesis Fields : r_fields r = tuples_loop lower Header (all_headers hl ct cl) [].
  Let b := make_matcher response_match ms.

  Lemma prefix_part j v m q part : In (j, v) vals -> nth_error ms j = Some m -> placed (response_places m) (AtHeaders q) ->
    header_lines pads repr m (AtHeaders q) v part ->
    exists es, v = VMap (map (fun e => (fst e, IText (snd e))) es) /\ part = map (fun e => (q ++ fst e, snd e)) es /\
      ascii q /\ Forall (fun e => ascii (fst e)) es /\ NoDup (map (fun e => map fold_char (fst e)) es).
  Proof.
    intros I N P (es0 & Ev & ->). assert (R := Ret j v m _ I N P). cbn [returns] in R. destruct R as (es1 & Ev' & As & Nd).
    rewrite Ev in Ev'. injection Ev' as Ev'. apply entries_inj in Ev' as <-. exists es0. split; [exact Ev|]. split; [reflexivity|].
    split; [|auto]. eapply (ap_prefix _ _ A); [eapply nth_error_In; exact N|exact P].
  Qed.
  (** The lines of a member that has nothing to do with a name. *)
  Lemma foreign j v m p part name : In (j, v) vals -> nth_error ms j = Some m -> placed (response_places m) p ->
    header_lines pads repr m p v part ->
    (forall k, p = AtHeader k -> lower k <> lower name) -> (forall q, p = AtHeaders q -> ~ under lower q name) ->
    lines_named lower name part = [].
  Proof.
    intros I N P H Hk Hq. apply HttpBind_Props.no_such_lines. intros k t It. destruct p; cbn [header_lines] in H; try (subst part; destruct It).
    - destruct H as (ts & -> & _). apply in_map_iff in It as (t' & E & _). injection E as <- <-. now apply Hk.
    - destruct (prefix_part j v m prefix part I N P H) as (es0 & _ & -> & As & Fs & _).
      apply in_map_iff in It as ([k' s'] & E & Ie). cbn [fst snd] in E. injection E as <- <-. intros X. apply (Hq _ eq_refl).
      rewrite Forall_forall in Fs. specialize (Fs _ Ie). cbn [fst] in Fs. exists (lower k'). rewrite <- X. now apply folds_app.
  Qed.
  Lemma added_apart name : lower name <> lower (lit "content-type") -> lower name <> lower (lit "content-length") ->
    lines_named lower name (all_headers hl ct cl) = lines_named lower name hl.
  Proof.
    intros N1 N2. unfold all_headers. rewrite HttpBind_Props.lines_named_app, (HttpBind_Props.no_such_lines lower name (_ ++ _)); [apply app_nil_r|].
    intros k t I. apply in_app_or in I as [I|I].
    - destruct ct; [|destruct I]. destruct I as [E|[]]. injection E as <- _. intros X. apply N1. now symmetry.
    - destruct cl; [|destruct I]. destruct I as [E|[]]. injection E as <- _. intros X. apply N2. now symmetry.
  Qed.
  Lemma two_names : lower (lit "content-type") <> lower (lit "content-length").
  Proof. rewrite !Fold; [discriminate| |]; repeat (constructor; [reflexivity|]); constructor. Qed.
  Lemma length_lines : lines_named lower (lit "content-length") (all_headers hl ct cl) = match cl with Some n => [dec n] | None => [] end.
  Proof.
    unfold all_headers. rewrite !HttpBind_Props.lines_named_app.
    rewrite (parts_none response_places ms (header_lines pads repr) (lines_named lower (lit "content-length")) eq_refl
               (HttpBind_Props.lines_named_app lower _) vals hl Lines).
    - rewrite (HttpBind_Props.no_such_lines lower (lit "content-length") (match ct with Some t => _ | None => _ end)).
      + cbn [app]. destruct cl as [n|]; [|reflexivity]. unfold lines_named. cbn [filter fst]. change CONTENT_LENGTH with (lit "content-length").
        now rewrite text_eqb_refl.
      + intros k t I. destruct ct; [|destruct I]. destruct I as [E|[]]. injection E as <- _. exact two_names.
    - intros j v m p part I N P H. apply (foreign j v m p part _ I N P H).
      + intros k ->. apply (ap_added _ _ A m k (nth_error_In _ _ N) P).
      + intros q ->. apply (ap_prefix _ _ A m q (nth_error_In _ _ N) P).
  Qed.
  Lemma empty_body : has_empty_body lower r = Ok (match cl with Some n => n =? 0 | None => match r_body r with BBytes [] => true | _ => false end end).
  Proof.
    unfold has_empty_body. rewrite Fields. assert (X := field_named lower (all_headers hl ct cl) (lit "content-length")). cbv zeta in X.
    rewrite length_lines in X. change CONTENT_LENGTH with (lit "content-length").
    destruct (dict_get _ _) as [f|].
    - destruct X as [-> X]. destruct cl as [n|]; [|congruence]. cbn [as_string].
      assert (py_int (dec n) = Ok (Z.of_N n)) as ->.
      { rewrite <- py_int_dec. f_equal. destruct n; reflexivity. }
      cbn [bind]. f_equal. destruct n; reflexivity.
    - destruct cl; [discriminate X|reflexivity].
  Qed.

  (** The lines of a header. *)
  Lemma lines_set i v m k : nth_error ms i = Some m -> placed (response_places m) (AtHeader k) -> In (i, v) vals ->
    exists ts, header_lines pads repr m (AtHeader k) v (map (fun t => (k, t)) ts) /\ lines_named lower k (all_headers hl ct cl) = ts.
  Proof.
    intros N P I. assert (Ap := ap_added _ _ A m k (nth_error_In _ _ N) P). rewrite added_apart by apply Ap.
    destruct (parts_one response_places ms (header_lines pads repr) (lines_named lower k) eq_refl
                (HttpBind_Props.lines_named_app lower k) vals hl i v Lines (proj1 W) I) as (m' & p & part & N' & P' & H & E).
    - intros j w m' p part I' N' P' H Ne. apply (foreign j w m' p part k I' N' P' H).
      + intros k' -> X. apply Ne. eapply (ap_header _ _ A j i); eauto.
      + intros q -> X. exact (proj2 (proj2 (proj2 (ap_prefix _ _ A m' q (nth_error_In _ _ N') P'))) m k (nth_error_In _ _ N) P X).
    - rewrite N in N'. injection N' as <-. rewrite (placed_same _ _ _ P' P) in H. rewrite E. destruct H as (ts & -> & H).
      exists ts. split; [exists ts; auto|]. unfold lines_named. clear. induction ts as [|t ts IH]; [reflexivity|].
      cbn [map filter fst]. rewrite text_eqb_refl. cbn [map snd]. now rewrite IH.
  Qed.
  Lemma lines_unset i m k : nth_error ms i = Some m -> placed (response_places m) (AtHeader k) -> ~ In i (map fst vals) ->
    lines_named lower k (all_headers hl ct cl) = [].
  Proof.
    intros N P I. assert (Ap := ap_added _ _ A m k (nth_error_In _ _ N) P). rewrite added_apart by apply Ap.
    apply (parts_none response_places ms (header_lines pads repr) (lines_named lower k) eq_refl
               (HttpBind_Props.lines_named_app lower _) vals hl Lines).
    intros j w m' p part I' N' P' H. apply (foreign j w m' p part k I' N' P' H).
    - intros k' -> X. apply I. assert (j = i) as <- by (eapply (ap_header _ _ A j i); eauto). apply in_map_iff. now exists (j, w).
    - intros q -> X. exact (proj2 (proj2 (proj2 (ap_prefix _ _ A m' q (nth_error_In _ _ N') P'))) m k (nth_error_In _ _ N) P X).
  Qed.

  Lemma read_each_back k lf ss ts : Forall2 (fun s t => header_text pads repr lf s = Ok t) ss ts ->
    Forall (fun s => carried pads nearest lf s /\ kind_of s = k) ss ->
    exists ss', read_each tf nearest k lf ts = Ok (map Some ss') /\ Forall2 same ss ss'.
  Proof.
    intros H. induction H as [|s t ss ts E _ IH]; intros C; [exists []; split; [reflexivity|constructor]|].
    inversion C as [|? ? [C1 C2] C3]; subst. destruct (IH C3) as (ss' & R & S). clear IH.
    destruct (HttpVal_Props.C60_header pads repr tf nearest lf s Floats C1) as (t' & s' & E' & R' & S').
    rewrite E in E'. injection E' as <-. exists (s' :: ss'). cbn [read_each map]. rewrite R'. cbn [bind]. rewrite R. cbn [bind].
    split; [reflexivity|]. now constructor.
  Qed.
  Lemma read_header_set i v m k : nth_error ms i = Some m -> placed (response_places m) (AtHeader k) -> In (i, v) vals ->
    exists v', read_member tf nearest lower dv b r i m = Ok [(i, v')] /\ back v v'.
  Proof.
    intros N P I. destruct (lines_set i v m k N P I) as (ts & (us & Eu & H) & L).
    assert (us = ts) as ->. { clear - Eu. revert us Eu. induction ts as [|t ts IH]; intros [|u us] E; try discriminate E; [reflexivity|].
      cbn [map] in E. injection E as -> E. f_equal. now apply IH. }
    assert (R := Ret i v m _ I N P). cbn [returns] in R. destruct (proj2 W i v I) as (m' & N' & S). rewrite N in N'. injection N' as <-.
    destruct (response_placed m _ P) as [M Nm]. cbn [named binding_of] in M, Nm.
    unfold read_member, b. rewrite (matches_some response_match ms i m N), M, Nm. cbn [bind expect]. rewrite Fields.
    assert (Fn := field_named lower (all_headers hl ct cl) k). cbv zeta in Fn. rewrite L in Fn.
    unfold header_carries in R. unfold has_shape in S. destruct v as [s|l|l|d|n].
    - destruct H as (t & -> & E). destruct (dict_get _ _) as [f|]; [|discriminate Fn]. destruct Fn as [-> _]. cbn [as_string].
      unfold read_scalar. destruct (m_shape m) as [kd| |kd lf| | | |]; try contradiction.
      + assert (kind_of s = kd) as <- by (destruct kd; exact S).
        destruct (HttpVal_Props.C60_header pads repr tf nearest _ s Floats R) as (t' & s' & E' & R' & S').
        rewrite E in E'. injection E' as <-. rewrite R'. cbn [bind]. exists (VOne s'). split; [reflexivity|]. now constructor.
      + destruct s; try contradiction.
        destruct (HttpVal_Props.C60_header pads repr tf nearest _ _ Floats R) as (t' & s' & E' & R' & S').
        rewrite E in E'. injection E' as <-. cbn [kind_of] in R'. rewrite R'. cbn [bind]. exists (VOne s'). split; [reflexivity|]. now constructor.
    - unfold elements in H. destruct (m_shape m) as [[]| |kd lf| | | |]; try contradiction. destruct R as (Ne & R & R1).
      assert (X : exists ss, l = map Some ss /\ Forall2 (fun s t => header_text pads repr lf s = Ok t) ss ts /\
                             Forall (fun s => carried pads nearest lf s /\ kind_of s = kd) ss).
      { clear - H R S. induction H as [|e t l ts (s & -> & E) H IH]; [exists []; repeat constructor|].
        destruct IH as (ss & -> & F & C); [intros e I'; apply R; now right|intros s' I'; apply S; now right|].
        exists (s :: ss). split; [reflexivity|]. split; [now constructor|]. constructor; [|exact C].
        destruct (R (Some s) (or_introl eq_refl)) as (s' & Es & Cs). injection Es as <-. split; [exact Cs|]. apply S. now left. }
      destruct X as (ss & -> & F & C). destruct (read_each_back kd lf ss ts F C) as (ss' & Re & Sa).
      destruct (dict_get _ _) as [f|].
      2: { rewrite Fn in F. inversion F. subst ss. now elim Ne. }
      destruct Fn as [-> _]. exists (VList (map Some ss')). split; [|now constructor]. unfold read_values. cbv zeta.
      assert ((match ts with [v] => split_header v (dates_of kd lf) | _ => Ok ts end) = Ok ts) as Sp.
      { destruct ts as [|t [|t2 ts]]; try reflexivity. inversion F as [|s ? ss0 ? E F0]; subst. inversion F0; subst.
        inversion C as [|? ? [C1 C2] _]; subst. eapply alone; eauto. intros x ->. now apply R1. }
      unfold dates_of in Sp. rewrite Sp. cbn [bind]. rewrite Re. reflexivity.
    - contradiction.
    - contradiction.
    - contradiction.
  Qed.
  Lemma read_header_unset i m k : nth_error ms i = Some m -> placed (response_places m) (AtHeader k) -> ~ In i (map fst vals) ->
    read_member tf nearest lower dv b r i m = Ok [].
  Proof.
    intros N P I. destruct (response_placed m _ P) as [M Nm]. cbn [named binding_of] in M, Nm.
    unfold read_member, b. rewrite (matches_some response_match ms i m N), M, Nm. cbn [bind expect]. rewrite Fields.
    assert (Fn := field_named lower (all_headers hl ct cl) k). cbv zeta in Fn. rewrite (lines_unset i m k N P I) in Fn.
    destruct (dict_get _ _); [now destruct Fn|reflexivity].
  Qed.

  (** Headers under a prefix. *)
  Lemma prefix_of_fields q : ascii q -> read_prefix lower q (r_fields r) =
    VMap (map (fun e => (skipn (List.length q) (f_name (snd e)), IText (as_string (f_values (snd e)))))
      (tuples_loop lower Header (filter (fun nv => starts_with (lower q) (lower (fst nv))) (all_headers hl ct cl)) [])).
  Proof.
    intros Aq. unfold read_prefix. cbv zeta. f_equal. rewrite Fields.
    change (tuples_loop lower Header (filter _ _) []) with
      (tuples_loop lower Header (filter (fun nv => starts_with (lower q) (lower (fst nv))) (all_headers hl ct cl)) (filter (fun e : text * field => starts_with (lower q) (fst e)) [])).
    rewrite <- (filter_tuples lower (starts_with (lower q)) (all_headers hl ct cl) []).
    destruct (Fields_Props.C22_tuples lower Header (all_headers hl ct cl)) as (_ & K & _).
    set (d := tuples_loop lower Header (all_headers hl ct cl) []) in *. clear Fields. clearbody d.
    assert (Lq : List.length (lower q) = List.length q) by (rewrite (Fold q Aq); apply map_length). rewrite Lq. clear Lq.
    induction d as [|[k f] d IH]; [reflexivity|]. cbn [flat_map snd filter fst].
    rewrite <- (K k f (or_introl eq_refl)). rewrite IH by (intros k' f' I; apply K; now right).
    destruct (starts_with (lower q) k); reflexivity.
  Qed.
  Lemma under_spec q name : under lower q name <-> starts_with (lower q) (lower name) = true.
  Proof. unfold under. now rewrite starts_with_spec. Qed.
  Lemma not_under q name : ~ under lower q name -> starts_with (lower q) (lower name) = false.
  Proof. intros H. destruct (starts_with _ _) eqn:E; [|reflexivity]. elim H. now apply under_spec. Qed.
  Lemma prefix_foreign q (l : list (text * text)) : (forall k t, In (k, t) l -> ~ under lower q k) ->
    filter (fun nv => starts_with (lower q) (lower (fst nv))) l = [].
  Proof.
    induction l as [|[k t] l IH]; intros H; [reflexivity|]. cbn [filter fst]. rewrite (not_under q k) by (apply (H k t); now left).
    apply IH. intros k' t' I. apply (H k' t'). now right.
  Qed.
  Lemma prefix_other i m q : nth_error ms i = Some m -> placed (response_places m) (AtHeaders q) ->
    forall j w m' p part, In (j, w) vals -> nth_error ms j = Some m' -> placed (response_places m') p ->
      header_lines pads repr m' p w part -> j <> i -> filter (fun nv => starts_with (lower q) (lower (fst nv))) part = [].
  Proof.
    intros N P j w m' p part I' N' P' H Ne. apply prefix_foreign. intros k t It.
    destruct (ap_prefix _ _ A m q (nth_error_In _ _ N) P) as (_ & _ & _ & Hq).
    destruct p; cbn [header_lines] in H; try (subst part; destruct It).
    - destruct H as (ts & -> & _). apply in_map_iff in It as (t' & E & _). injection E as <- <-.
      exact (Hq m' name (nth_error_In _ _ N') P').
    - elim Ne. eapply (ap_one _ _ A j i); eauto.
  Qed.
  Lemma added_not_under i m q : nth_error ms i = Some m -> placed (response_places m) (AtHeaders q) ->
    filter (fun nv => starts_with (lower q) (lower (fst nv))) (all_headers hl ct cl) = filter (fun nv => starts_with (lower q) (lower (fst nv))) hl.
  Proof.
    intros N P. destruct (ap_prefix _ _ A m q (nth_error_In _ _ N) P) as (_ & H1 & H2 & _).
    unfold all_headers. rewrite filter_app, (prefix_foreign q (_ ++ _)); [apply app_nil_r|].
    intros k t I. apply in_app_or in I as [I|I].
    - destruct ct; [|destruct I]. destruct I as [E|[]]. injection E as <- _. exact H1.
    - destruct cl; [|destruct I]. destruct I as [E|[]]. injection E as <- _. exact H2.
  Qed.
  Lemma read_prefix_set i v m q : nth_error ms i = Some m -> placed (response_places m) (AtHeaders q) -> In (i, v) vals ->
    read_member tf nearest lower dv b r i m = Ok [(i, v)].
  Proof.
    intros N P I. destruct (response_placed m _ P) as [M Nm]. cbn [named binding_of] in M, Nm.
    unfold read_member, b. rewrite (matches_some response_match ms i m N), M, Nm. cbn [bind expect].
    destruct (ap_prefix _ _ A m q (nth_error_In _ _ N) P) as (Aq & _). rewrite (prefix_of_fields q Aq), (added_not_under i m q N P).
    destruct (parts_one response_places ms (header_lines pads repr) (filter (fun nv => starts_with (lower q) (lower (fst nv)))) eq_refl
                (filter_app _) vals hl i v Lines (proj1 W) I (prefix_other i m q N P)) as (m' & p & part & N' & P' & H & E).
    rewrite N in N'. injection N' as <-. rewrite (placed_same _ _ _ P' P) in H. rewrite E. clear E.
    destruct (prefix_part i v m q part I N P H) as (es0 & -> & -> & _ & Fs & Nd).
    match goal with |- context [filter ?f ?l] => assert (filter f l = l) as -> end.
    { clear - Fs Fold Aq. induction Fs as [|e es0 Fe _ IH]; [reflexivity|]. cbn [map filter fst].
      assert (S : starts_with (lower q) (lower (q ++ fst e)) = true).
      { rewrite (folds_app lower q (fst e) Fold Aq Fe). apply starts_with_spec. eauto. }
      match goal with |- (if ?c then _ else _) = _ => change c with (starts_with (lower q) (lower (q ++ fst e))) end. rewrite S.
      apply f_equal2; [reflexivity|exact IH]. }
    rewrite tuples_distinct.
    - cbn [app]. rewrite !map_map. do 4 f_equal. apply map_ext. intros [k s]. cbn [fst snd f_name f_values as_string].
      now rewrite skipn_app_exact.
    - cbn [dict_keys map app]. rewrite map_map. clear - Fs Nd Fold Aq. induction Fs as [|e es0 Fe Fs IH]; [constructor|].
      cbn [map fst] in *. inversion Nd as [|? ? N1 N2]; subst. constructor; [|now apply IH].
      intros X. apply N1. apply in_map_iff in X as (e' & X & I'). apply in_map_iff. exists e'. split; [|exact I'].
      rewrite Forall_forall in Fs. rewrite !folds_app in X by auto. apply app_inv_head in X. rewrite <- !Fold by auto. exact X.
  Qed.
  Lemma read_prefix_unset i m q : nth_error ms i = Some m -> placed (response_places m) (AtHeaders q) -> ~ In i (map fst vals) ->
    read_member tf nearest lower dv b r i m = Ok [(i, VMap [])].
  Proof.
    intros N P I. destruct (response_placed m _ P) as [M Nm]. cbn [named binding_of] in M, Nm.
    unfold read_member, b. rewrite (matches_some response_match ms i m N), M, Nm. cbn [bind expect].
    destruct (ap_prefix _ _ A m q (nth_error_In _ _ N) P) as (Aq & _). rewrite (prefix_of_fields q Aq), (added_not_under i m q N P).
    rewrite (parts_none response_places ms (header_lines pads repr) (filter (fun nv => starts_with (lower q) (lower (fst nv)))) eq_refl
                (filter_app _) vals hl Lines); [reflexivity|].
    intros j w m' p part I' N' P' H. apply (prefix_other i m q N P j w m' p part I' N' P' H). intros ->. apply I. apply in_map_iff. now exists (i, w).
  Qed.

  (** The status. *)
  Hypothesis Status : (exists z m, set_at response_places ms vals AtStatus m (VOne (HInt z)) /\ r_status r = z) \/
    (forall m v, ~ set_at response_places ms vals AtStatus m v).
  Lemma read_status i m : nth_error ms i = Some m -> placed (response_places m) AtStatus ->
    read_member tf nearest lower dv b r i m = Ok [(i, VOne (HInt (r_status r)))].
  Proof.
    intros N P. destruct (response_placed m _ P) as [M _]. cbn [binding_of] in M.
    unfold read_member, b. now rewrite (matches_some response_match ms i m N), M.
  Qed.
  Lemma one_value i v w : In (i, v) vals -> In (i, w) vals -> v = w.
  Proof.
    destruct W as [N _]. clear - N. induction vals as [|[j u] l IH]; [intros []|]. cbn [map fst] in N. inversion N as [|? ? N1 N2]; subst.
    assert (X : forall x, In (j, x) l -> False) by (intros x I; apply N1, in_map_iff; now exists (j, x)).
    intros [E|I] [E'|I'].
    - congruence.
    - injection E as -> ->. elim (X _ I').
    - injection E' as -> ->. elim (X _ I).
    - now apply IH.
  Qed.
  Lemma status_set i v m : nth_error ms i = Some m -> placed (response_places m) AtStatus -> In (i, v) vals -> v = VOne (HInt (r_status r)).
  Proof.
    intros N P I. destruct Status as [(z & m' & (j & J & Nj & Pj) & ->)|S]; [|elim (S m v); exists i; auto].
    assert (j = i) as -> by (eapply (ap_status _ _ A j i); eauto). eapply one_value; eauto.
  Qed.

  (** The payload. *)
  Lemma no_events : b_events b = None.
  Proof.
    destruct (matcher_spec response_match ms) as (_ & _ & _ & _ & E). fold b in E. destruct (b_events b) as [[j m]|]; [|reflexivity].
    destruct E as [I E]. apply is_events_spec in E. elim (proj1 PP m I E).
  Qed.
  Lemma resp_match m p : placed (response_places m) p -> response_match m = binding_of p.
  Proof. intros P. apply (response_placed m p P). Qed.
  Lemma payload_member i m : nth_error ms i = Some m -> placed (response_places m) AsPayload -> b_payload b = Some (i, m).
  Proof.
    intros N P. destruct (matcher_spec response_match ms) as (_ & _ & _ & E & _). fold b in E. destruct (b_payload b) as [[j m']|].
    - destruct E as [N' E]. assert (P' := is_pl_spec response_places ms response_match G resp_match m' (nth_error_In _ _ N') E).
      assert (i = j) as -> by (eapply (g_payload _ _ G i j); eauto). rewrite N in N'. injection N' as <-. reflexivity.
    - specialize (E m (nth_error_In _ _ N)). rewrite (resp_match m _ P) in E. discriminate E.
  Qed.
  Lemma read_as_payload i m : nth_error ms i = Some m -> placed (response_places m) AsPayload ->
    read_member tf nearest lower dv b r i m = read_payload lower dv i m r.
  Proof.
    intros N P. unfold read_member. rewrite no_events, (payload_member i m N P). unfold b.
    rewrite (matches_some response_match ms i m N), (resp_match m _ P). reflexivity.
  Qed.
  Lemma size_zero bs : bs <> [] -> size bs =? 0 = false.
  Proof. intros H. destruct bs; [congruence|reflexivity]. Qed.
  Lemma not_raw m : m_shape m <> ShEnum -> ~ sent_raw false m -> is_text_or_blob true (m_shape m) = false.
  Proof.
    intros E H. destruct (is_text_or_blob true (m_shape m)) eqn:X; [|reflexivity]. elim H. apply raw_shape in X. unfold sent_raw in *.
    destruct X as [X|[X|[_ X]]]; auto. congruence.
  Qed.
  Lemma read_payload_set i v m : nth_error ms i = Some m -> placed (response_places m) AsPayload -> In (i, v) vals ->
    exists v', read_payload lower dv i m r = Ok [(i, v')] /\ back v v'.
  Proof.
    intros N P I. destruct (proj2 PP m (nth_error_In _ _ N) P) as [Ne St]. assert (Eb := empty_body).
    destruct (proj2 W i v I) as (m1 & N1 & Sh). rewrite N in N1. injection N1 as <-.
    assert (Me : forall j m', nth_error ms j = Some m' -> placed (response_places m') AsPayload -> j = i /\ m' = m).
    { intros j m' N' P'. assert (j = i) as -> by (eapply (g_payload _ _ G j i); eauto). rewrite N in N'. now injection N' as <-. }
    unfold read_payload, body_bytes. remember (r_body r) as bd eqn:Ebd. destruct Body as [m' I' E' _|j m' v' bs _ N' P' R' I' B'|j m' s _ N' P' R' I'|j m' _ N' P' R' I'|j m' v' bs _ N' P' R' I' B'|j m' _ N' P' R' I'|keep0 bs H1 _ _ _|H1 _].
    - elim (proj1 PP m' I' E').
    - destruct (Me j m' N' P') as [-> ->]. assert (v' = v) as -> by (eapply one_value; eauto).
      assert (Rw : is_text_or_blob true (m_shape m) = true) by (apply raw_shape; unfold sent_raw in *; destruct R' as [R'|[R'|[R' _]]]; [auto|auto|discriminate R']).
      rewrite Rw. unfold has_shape in Sh. destruct B' as [s bs U|bs|bs].
      + destruct (m_streaming m) eqn:Es.
        { rewrite (St eq_refl) in Sh. discriminate Sh. }
        cbn [bind]. destruct (m_shape m) as [[]| | | | | |]; try discriminate Sh; try discriminate Rw; try congruence.
        rewrite (utf8_roundtrip s bs U). cbn [bind]. eexists. split; [reflexivity|]. constructor.
      + destruct (m_streaming m) eqn:Es; [eexists; split; [reflexivity|]; constructor|].
        cbn [bind]. destruct (m_shape m) as [[]| | | | | |]; try discriminate Sh; try discriminate Rw; try contradiction.
        eexists. split; [reflexivity|]. constructor.
      + destruct (m_streaming m) eqn:Es; [eexists; split; [reflexivity|]; constructor|].
        destruct (m_shape m) as [[]| | | | | |]; try discriminate Sh; try contradiction.
    - destruct (Me j m' N' P') as [-> ->]. assert (VData (DStream s) = v) as <- by (eapply one_value; eauto).
      assert (Rw : is_text_or_blob true (m_shape m) = true) by (apply raw_shape; unfold sent_raw in *; destruct R' as [R'|[R'|[R' _]]]; [auto|auto|discriminate R']).
      rewrite Rw. unfold has_shape in Sh. destruct (m_shape m) as [[]| | | | | |]; try contradiction. rewrite Sh.
      eexists. split; [reflexivity|]. constructor.
    - destruct (Me j m' N' P') as [-> ->]. elim I'. apply in_map_iff. now exists (i, v).
    - destruct (Me j m' N' P') as [-> ->]. assert (v' = v) as -> by (eapply one_value; eauto).
      rewrite (not_raw m Ne R'). destruct (proj1 CB i v bs I B') as (Nb & v' & D & Bk).
      rewrite Eb, (size_zero bs Nb). replace (match m_shape m with ShList _ _ | ShMap | ShUnion | ShStruct => Ok false | _ => Ok false end) with (@Ok bool false) by (destruct (m_shape m); reflexivity).
      cbn [bind]. rewrite D. cbn [bind]. eauto.
    - destruct (Me j m' N' P') as [-> ->]. elim I'. apply in_map_iff. now exists (i, v).
    - elim (proj2 (H1 m (nth_error_In _ _ N)) P).
    - discriminate (proj2 (H1 m (nth_error_In _ _ N)) _ P).
  Qed.
  Lemma read_payload_unset i m : nth_error ms i = Some m -> placed (response_places m) AsPayload -> ~ In i (map fst vals) ->
    read_payload lower dv i m r = Ok [] \/ exists v', read_payload lower dv i m r = Ok [(i, v')] /\ unset_reads (r_status r) m AsPayload v'.
  Proof.
    intros N P I. destruct (proj2 PP m (nth_error_In _ _ N) P) as [Ne St]. assert (Eb := empty_body). assert (U := Uns i m N P I).
    assert (Me : forall j m', nth_error ms j = Some m' -> placed (response_places m') AsPayload -> j = i /\ m' = m).
    { intros j m' N' P'. assert (j = i) as -> by (eapply (g_payload _ _ G j i); eauto). rewrite N in N'. now injection N' as <-. }
    assert (No : forall v, ~ In (i, v) vals) by (intros v X; apply I, in_map_iff; now exists (i, v)).
    unfold read_payload, body_bytes. remember (r_body r) as bd eqn:Ebd. destruct Body as [m' I' E' _|j m' v' bs _ N' P' R' I' B'|j m' s _ N' P' R' I'|j m' _ N' P' R' I'|j m' v' bs _ N' P' R' I' B'|j m' _ N' P' R' I'|keep0 bs H1 _ _ _|H1 _].
    - elim (proj1 PP m' I' E').
    - destruct (Me j m' N' P') as [-> ->]. elim (No _ I').
    - destruct (Me j m' N' P') as [-> ->]. elim (No _ I').
    - destruct (Me j m' N' P') as [-> ->]. right.
      assert (Rw : is_text_or_blob true (m_shape m) = true) by (apply raw_shape; unfold sent_raw in *; destruct R' as [R'|[R'|[R' _]]]; [auto|auto|discriminate R']).
      rewrite Rw. unfold unset_reads. destruct (m_streaming m).
      + rewrite (St eq_refl). eexists. split; [reflexivity|]. now right.
      + cbn [bind]. destruct (m_shape m) as [[]| | | | | |]; try discriminate Rw; try congruence; eexists; (split; [reflexivity|]); auto.
    - destruct (Me j m' N' P') as [-> ->]. elim (No _ I').
    - destruct (Me j m' N' P') as [-> ->]. left. rewrite (not_raw m Ne R'), Eb. unfold may_be_unset in U. unfold sent_raw in R'.
      destruct (m_shape m) as [[]| | | | | |]; try contradiction; try reflexivity; elim R'; auto.
    - elim (proj2 (H1 m (nth_error_In _ _ N)) P).
    - discriminate (proj2 (H1 m (nth_error_In _ _ N)) _ P).
  Qed.

  (** Each member, then all. *)
  Definition got (i : nat) (m : member) (x : list (nat * value)) : Prop :=
    forall p, placed (response_places m) p ->
      (p = InBody -> x = []) /\
      (p <> InBody -> forall v, In (i, v) vals -> exists v', x = [(i, v')] /\ back v v') /\
      (~ In i (map fst vals) -> x = [] \/ exists v', x = [(i, v')] /\ unset_reads (r_status r) m p v').
  Lemma set_or_not i : (exists v, In (i, v) vals) \/ ~ In i (map fst vals).
  Proof.
    destruct (in_dec Nat.eq_dec i (map fst vals)) as [I|I]; [left|now right]. apply in_map_iff in I as ([j v] & <- & I). eauto.
  Qed.
  Lemma got_of i m x p : placed (response_places m) p ->
    (p = InBody -> x = []) ->
    (p <> InBody -> forall v, In (i, v) vals -> exists v', x = [(i, v')] /\ back v v') ->
    (~ In i (map fst vals) -> x = [] \/ exists v', x = [(i, v')] /\ unset_reads (r_status r) m p v') -> got i m x.
  Proof. intros P H1 H2 H3 q Q. rewrite (placed_same _ _ _ Q P). auto. Qed.
  Lemma each_member i m : nth_error ms i = Some m -> exists x, read_member tf nearest lower dv b r i m = Ok x /\ got i m x.
  Proof.
    intros N. destruct (g_one _ _ G m (nth_error_In _ _ N)) as (p & P).
    assert (No : forall v, In (i, v) vals -> ~ In i (map fst vals) -> False) by (intros v X Y; apply Y, in_map_iff; now exists (i, v)).
    destruct p as [k|q|k| | | | | |].
    - destruct (set_or_not i) as [(v & I)|I].
      + destruct (read_header_set i v m k N P I) as (v' & R & B). exists [(i, v')]. split; [exact R|].
        apply (got_of _ _ _ _ P); [discriminate| |intros X; elim (No v I X)].
        intros _ w Iw. rewrite <- (one_value i v w I Iw). eauto.
      + exists []. split; [now apply (read_header_unset i m k)|]. apply (got_of _ _ _ _ P); [discriminate| |now left].
        intros _ v X. elim (No v X I).
    - destruct (set_or_not i) as [(v & I)|I].
      + exists [(i, v)]. split; [now apply (read_prefix_set i v m q)|]. apply (got_of _ _ _ _ P); [discriminate| |intros X; elim (No v I X)].
        intros _ w Iw. rewrite <- (one_value i v w I Iw). exists v. split; [reflexivity|constructor].
      + exists [(i, VMap [])]. split; [now apply (read_prefix_unset i m q)|]. apply (got_of _ _ _ _ P); [discriminate| |right; eexists; split; reflexivity].
        intros _ v X. elim (No v X I).
    - elim (response_no_query m _ P).
    - elim (response_no_query m _ P).
    - elim (response_no_query m _ P).
    - elim (response_no_query m _ P).
    - exists [(i, VOne (HInt (r_status r)))]. split; [now apply read_status|]. apply (got_of _ _ _ _ P); [discriminate| |right; eexists; split; reflexivity].
      intros _ v I. eexists. split; [reflexivity|]. rewrite (status_set i v m N P I). constructor.
    - rewrite (read_as_payload i m N P). destruct (set_or_not i) as [(v & I)|I].
      + destruct (read_payload_set i v m N P I) as (v' & R & B). exists [(i, v')]. split; [exact R|].
        apply (got_of _ _ _ _ P); [discriminate| |intros X; elim (No v I X)].
        intros _ w Iw. rewrite <- (one_value i v w I Iw). eauto.
      + destruct (read_payload_unset i m N P I) as [R|(v' & R & U)]; (eexists; split; [exact R|]; apply (got_of _ _ _ _ P); [discriminate|intros _ v X; elim (No v X I)|eauto]).
    - exists []. split; [|apply (got_of _ _ _ _ P); auto; congruence].
      unfold read_member, b. now rewrite (matches_some response_match ms i m N), (resp_match m _ P).
  Qed.
  Lemma members_read ms' : forall n, (forall k m, nth_error ms' k = Some m -> exists x, read_member tf nearest lower dv b r (n + k) m = Ok x /\ got (n + k) m x) ->
    exists xs, read_members tf nearest lower dv b r n ms' = Ok (List.concat xs) /\ List.length xs = List.length ms' /\
      forall k m, nth_error ms' k = Some m -> exists x, nth_error xs k = Some x /\ got (n + k) m x.
  Proof.
    induction ms' as [|m ms' IH]; intros n H; [exists []; split; [reflexivity|split; [reflexivity|intros [|k] m X; discriminate X]]|].
    destruct (H 0%nat m eq_refl) as (x & R & Gx). rewrite Nat.add_0_r in R, Gx.
    destruct (IH (S n)) as (xs & Rs & Ls & Gs).
    { intros k m' N. replace (S n + k)%nat with (n + S k)%nat by lia. exact (H (S k) m' N). }
    exists (x :: xs). cbn [read_members]. rewrite R. cbn [bind]. rewrite Rs. split; [reflexivity|]. split; [cbn; now rewrite Ls|].
    intros [|k] m' N; cbn [nth_error] in N.
    - injection N as <-. exists x. rewrite Nat.add_0_r. auto.
    - destruct (Gs k m' N) as (y & Ny & Gy). exists y. split; [exact Ny|]. now replace (n + S k)%nat with (S n + k)%nat by lia.
  Qed.
  Lemma indexed (xs : list (list (nat * value))) : forall n,
    (forall k x, nth_error xs k = Some x -> x = [] \/ exists v, x = [((n + k)%nat, v)]) ->
    NoDup (map fst (List.concat xs)) /\
    forall i v, In (i, v) (List.concat xs) -> (n <= i)%nat /\ nth_error xs (i - n) = Some [(i, v)].
  Proof.
    induction xs as [|x xs IH]; intros n H; [split; [constructor|intros i v []]|].
    destruct (IH (S n)) as [Nd Ix].
    { intros k y N. replace (S n + k)%nat with (n + S k)%nat by lia. exact (H (S k) y N). }
    assert (Tl : forall i v, In (i, v) (List.concat xs) -> (n <= i)%nat /\ nth_error (x :: xs) (i - n) = Some [(i, v)]).
    { intros i v I. destruct (Ix i v I) as [L E]. split; [lia|]. replace (i - n)%nat with (S (i - S n)) by lia. exact E. }
    destruct (H 0%nat x eq_refl) as [->|(v0 & ->)]; [split; [exact Nd|exact Tl]|]. rewrite Nat.add_0_r in *. cbn [List.concat app map fst]. split.
    - constructor; [|exact Nd]. intros I. apply in_map_iff in I as ([j v] & E & I). cbn [fst] in E. subst j. apply Ix in I. lia.
    - intros i v [E|I]; [|now apply Tl]. injection E as <- <-. split; [lia|]. now rewrite Nat.sub_diag.
  Qed.

  Theorem reads_back : exists back_vals, read_response tf nearest lower dv ds ms r = Ok back_vals /\ NoDup (map fst back_vals) /\
    (forall i v, In (i, v) vals -> exists v', In (i, v') back_vals /\ back v v') /\
    (forall i v', In (i, v') back_vals -> In i (map fst vals) \/
       exists m p, nth_error ms i = Some m /\ placed (response_places m) p /\ unset_reads (r_status r) m p v').
  Proof.
    destruct (members_read ms 0 (fun k m N => each_member k m N)) as (xs & R & Lx & Gx). cbn [Nat.add] in Gx.
    unfold read_response. fold b. rewrite R. cbn [bind].
    assert (Xs : forall k x, nth_error xs k = Some x -> exists m, nth_error ms k = Some m /\ got k m x).
    { intros k x N. destruct (nth_error ms k) as [m|] eqn:Nm.
      - destruct (Gx k m Nm) as (y & Ny & Gy). rewrite N in Ny. injection Ny as <-. eauto.
      - apply nth_error_None in Nm. assert (X : (k < List.length xs)%nat) by (apply nth_error_Some; congruence). lia. }
    destruct (indexed xs 0) as [Nd Ix].
    { intros k x N. destruct (Xs k x N) as (m & Nm & Gm). destruct (g_one _ _ G m (nth_error_In _ _ Nm)) as (p & P).
      destruct (Gm p P) as (G1 & G2 & G3). cbn [Nat.add]. destruct (set_or_not k) as [(v & I)|I].
      - destruct p; try (destruct (G2 ltac:(discriminate) v I) as (v' & -> & _); right; eauto). left. now apply G1.
      - destruct (G3 I) as [->|(v' & -> & _)]; eauto. }
    assert (In1 : forall i v m p, In (i, v) vals -> nth_error ms i = Some m -> placed (response_places m) p -> p <> InBody ->
              exists v', In (i, v') (List.concat xs) /\ back v v').
    { intros i v m p I N P Np. destruct (Gx i m N) as (x & Nx & Gm). destruct (Gm p P) as (_ & G2 & _). destruct (G2 Np v I) as (v' & -> & B).
      exists v'. split; [|exact B]. apply in_concat. exists [(i, v')]. split; [eapply nth_error_In; exact Nx|now left]. }
    assert (In2 : forall i v', In (i, v') (List.concat xs) ->
              (forall m, nth_error ms i = Some m -> ~ placed (response_places m) InBody) /\
              (In i (map fst vals) \/ exists m p, nth_error ms i = Some m /\ placed (response_places m) p /\ unset_reads (r_status r) m p v')).
    { intros i v' I. destruct (Ix i v' I) as [_ Nx]. rewrite Nat.sub_0_r in Nx. destruct (Xs i _ Nx) as (m & Nm & Gm). split.
      - intros m' Nm' P. rewrite Nm in Nm'. injection Nm' as <-. destruct (Gm _ P) as (G1 & _). discriminate (G1 eq_refl).
      - destruct (g_one _ _ G m (nth_error_In _ _ Nm)) as (p & P). destruct (set_or_not i) as [(v & Iv)|Iv].
        + left. apply in_map_iff. now exists (i, v).
        + right. exists m, p. split; [exact Nm|]. split; [exact P|]. destruct (Gm p P) as (_ & _ & G3).
          destruct (G3 Iv) as [X|(v1 & X & U)]; [discriminate X|]. injection X as ->. exact U. }
    destruct (matcher_spec response_match ms) as (_ & Hb & _). fold b in Hb. destruct (b_has_body b).
    - symmetry in Hb. apply existsb_exists in Hb as (mb & Ib & Eb).
      destruct (g_one _ _ G mb Ib) as (pb & Pb). rewrite (resp_match mb _ Pb) in Eb.
      assert (pb = InBody) as ->. { destruct pb; try discriminate Eb; [elim (response_no_query mb _ Pb)|reflexivity]. }
      destruct (In_nth_error _ _ Ib) as (nb & Nb).
      assert (NoP : forall j m', nth_error ms j = Some m' -> placed (response_places m') AsPayload -> False).
      { intros j m' N' P'. assert (j = nb) as -> by (eapply (g_payload _ _ G j nb); eauto). rewrite Nb in N'. injection N' as <-.
        discriminate (placed_same _ _ _ P' Pb). }
      rewrite empty_body. cbn [bind]. unfold body_bytes. remember (r_body r) as bd eqn:Ebd.
      destruct Body as [m' I' E' _|j m' v' bs _ N' P' R' I' B'|j m' s _ N' P' R' I'|j m' _ N' P' R' I'|j m' v' bs _ N' P' R' I' B'|j m' _ N' P' R' I'|keep0 bs _ _ Kp E|H1 _];
        try (now elim (NoP _ _ N' P')).
      + elim (proj1 PP m' I' E').
      + destruct (proj2 CB _ bs (fun iv I => proj1 (proj1 (filter_In _ _ _) I)) E) as (Ne & ys & D & F).
        rewrite (size_zero bs Ne). cbn [bind]. rewrite D. cbn [bind].
        assert (Ys : map fst ys = map fst (filter (fun iv => keep0 (fst iv)) vals)).
        { clear - F. induction F as [|a c l l' [E _] _ IH]; [reflexivity|]. cbn [map]. now rewrite E, IH. }
        assert (Kb : forall i v, In (i, v) vals -> keep0 i = true -> exists m, nth_error ms i = Some m /\ placed (response_places m) InBody).
        { intros i v I K. destruct (proj2 W i v I) as (m & N & _). destruct (g_one _ _ G m (nth_error_In _ _ N)) as (p & P).
          rewrite (Kp i m p N P) in K. exists m. split; [exact N|]. destruct p; try discriminate K; [elim (response_no_query m _ P)|elim (NoP i m N P)|exact P]. }
        exists (List.concat xs ++ ys). split; [reflexivity|]. split; [|split].
        * rewrite map_app. apply Form_Proofs.nodup_app; [exact Nd| |].
          -- rewrite Ys. destruct W as [Wn _]. clear - Wn. induction vals as [|[i v] l IH]; [constructor|]. cbn [map fst] in Wn. inversion Wn as [|? ? N1 N2]; subst.
             cbn [filter fst]. destruct (keep0 i); [|now apply IH]. cbn [map fst]. constructor; [|now apply IH].
             intros X. apply N1. apply in_map_iff in X as (y & <- & X). apply filter_In in X as [X _]. now apply in_map.
          -- intros i I1 I2. apply in_map_iff in I1 as ([j v] & Ej & I1). cbn [fst] in Ej. subst j. rewrite Ys in I2.
             apply in_map_iff in I2 as ([j w] & Ej & I2). cbn [fst] in Ej. subst j. apply filter_In in I2 as [I2 K].
             destruct (Kb i w I2 K) as (m & N & P). destruct (In2 i v I1) as [X _]. exact (X m N P).
        * intros i v I. destruct (proj2 W i v I) as (m & N & _). destruct (g_one _ _ G m (nth_error_In _ _ N)) as (p & P).
          destruct (in_body p) eqn:Ip.
          -- assert (K : In (i, v) (filter (fun iv => keep0 (fst iv)) vals)) by (apply filter_In; split; [exact I|]; cbn [fst]; now rewrite (Kp i m p N P)).
             clear - F K. induction F as [|[a1 a2] [c1 c2] l l' [E B] F IH]; [destruct K|]. cbn [fst snd] in E, B. destruct K as [K|K].
             ++ injection K as -> ->. subst c1. exists c2. split; [apply in_or_app; right; now left|exact B].
             ++ destruct (IH K) as (v' & I' & B'). exists v'. split; [|exact B']. apply in_app_or in I' as [I'|I']; apply in_or_app; [now left|right; now right].
          -- destruct (In1 i v m p I N P) as (v' & I' & B); [intros ->; discriminate Ip|]. exists v'. split; [|exact B]. apply in_or_app. now left.
        * intros i v' I. apply in_app_or in I as [I|I]; [now apply In2|]. left. apply (in_map fst) in I. cbn [fst] in I. rewrite Ys in I.
          apply in_map_iff in I as (y & <- & I). apply filter_In in I as [I _]. now apply in_map.
      + discriminate (proj2 (H1 mb Ib) _ Pb).
    - exists (List.concat xs). split; [reflexivity|]. split; [exact Nd|]. split.
      + intros i v I. destruct (proj2 W i v I) as (m & N & _). destruct (g_one _ _ G m (nth_error_In _ _ N)) as (p & P).
        apply (In1 i v m p I N P). intros ->. symmetry in Hb. assert (Z : existsb (fun m => is_bd (response_match m)) ms = true); [|congruence].
        apply existsb_exists. exists m. split; [eapply nth_error_In; exact N|]. now rewrite (resp_match m _ P).
      + intros i v' I. now apply In2.
  Qed.
End Main.

Lemma response_parts pads repr lower media cv cs o es ms vals r : good_schema response_places ms -> written ms vals ->
  serialize_response pads repr lower media cv cs o es ms vals = Ok r ->
  exists hl ct cl, contributions response_places ms (header_lines pads repr) vals hl /\
    body_of media cv cs false (o_omit_empty o) response_places ms vals (r_body r) ct cl /\
    r_fields r = tuples_loop lower Header (all_headers hl ct cl) [].
Proof.
  intros G W H. unfold serialize_response in H.
  destruct (write_all _ no_acc vals) as [a|] eqn:E1; [|discriminate H]. cbn [bind] in H.
  assert (Mt : forall m p, placed (response_places m) p -> response_match m = binding_of p) by (intros m p P; now apply response_placed).
  assert (St := fun b i v b' S => write_response_change pads repr (fun _ => false) [] ms b i v b' G S).
  destruct (write_all_spec _ _ _ _ _ _ _ _ Mt St vals no_acc a W E1) as ((hl & Hh & Ch) & _ & _ & _ & Hc & Hs).
  cbn [no_acc a_headers a_calls a_status app] in *. rewrite Hc in H.
  destruct (payload_of _ _ _ _ _ _ _) as [[[bd ct] cl]|] eqn:E2; [|discriminate H]. cbn [bind] in H.
  unfold check_length in H. destruct (length_required _ && _); [discriminate H|]. cbn [bind] in H. injection H as <-.
  cbn [r_body r_fields]. exists hl, ct, cl. split; [exact Ch|]. split; [eapply payload_of_spec; eauto|]. now rewrite Hh.
Qed.
