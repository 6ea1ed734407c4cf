(** C47: errors made from responses. *)
From Verif Require Import Base Base_Proofs PyText_Model PyText_Proofs PyDict_Model PyDict_Proofs PySort_Model Header_Model Fields_Model HttpVal_Model HttpVal_Proofs Shape_Model Shape_Spec Shape_Props.
From Verif Require Import Time_Model Time_Proofs Errors_Model Errors_Spec Errors_Proofs.
From Coq Require Import Lia.
Local Open Scope Z_scope.

(** ** The time to wait *)
Lemma digits_text_chars t v c : digits_text t v -> In c t -> (48 <= c <= 57)%N \/ c = 95%N.
Proof.
  induction 1 as [x H | t v x H IH X | t v x H IH X]; intros I.
  - destruct I as [<- | []]. now left.
  - apply in_app_or in I as [I | [<- | []]]; [now apply IH | now left].
  - apply in_app_or in I as [I | [<- | [<- | []]]]; [now apply IH | now right | now left].
Qed.
Lemma int_text_comma t n : int_text t n -> ~ In 44%N t.
Proof.
  assert (W : forall a, white a -> ~ In 44%N a) by (intros a H I; specialize (H _ I); discriminate H).
  assert (D : forall t v, digits_text t v -> ~ In 44%N t) by (intros t' v H I; destruct (digits_text_chars _ _ _ H I); [lia | discriminate]).
  intros [a u v b A B H | a u v b A B H | a u v b A B H] I; apply in_app_or in I as [I | I]; try (exact (W _ A I)).
  - apply in_app_or in I as [I | I]; [exact (D _ _ H I) | exact (W _ B I)].
  - destruct I as [I | I]; [discriminate I|]. apply in_app_or in I as [I | I]; [exact (D _ _ H I) | exact (W _ B I)].
  - destruct I as [I | I]; [discriminate I|]. apply in_app_or in I as [I | I]; [exact (D _ _ H I) | exact (W _ B I)].
Qed.
Lemma as_string_one vs : ~ In 44%N (as_string vs) -> vs = [] \/ exists t, vs = [t].
Proof.
  destruct vs as [|t [|u vs]]; intros H; [now left | right; now exists t|]. exfalso. apply H. cbn [as_string map].
  rewrite join_cons2. apply in_or_app. right. now left.
Qed.
Lemma int_text_nonempty n : ~ int_text [] n.
Proof. intros H. apply py_int_iff in H. discriminate H. Qed.
Lemma as_string_int vs n : int_text (as_string vs) n <-> exists t, vs = [t] /\ int_text t n.
Proof.
  split; [|intros (t & -> & H); exact H]. intros H. destruct (as_string_one vs (int_text_comma _ _ H)) as [-> | [t ->]].
  - elim (int_text_nonempty n H).
  - now exists t.
Qed.
Lemma ratio_one_sign n : (0 <= n -> 0 <= mant (ratio n 1)) /\ (n < 0 -> mant (ratio n 1) < 0).
Proof. split; intros; [apply ratio_nonneg | apply ratio_neg]; lia. Qed.

(** A time is given just for the text of a number that is not negative and that a float
    can hold, and it is not negative. *)
Theorem C47_retry_after fs : NoDup (map fst fs) ->
  ((exists x, parse_retry_after fs = Some x) <->
   exists t n, has_values fs (lit "x-amz-retry-after") [t] /\ int_text t n /\ 0 <= n < 2 ^ 1024 - 2 ^ 970)
  /\ (forall x, parse_retry_after fs = Some x -> 0 <= mant x).
Proof.
  intros D. unfold parse_retry_after. destruct (dict_get (lit "x-amz-retry-after") fs) as [f|] eqn:G.
  2:{ split; [split; [intros [x X]; discriminate X|]|discriminate]. intros (t & n & H & _). apply get_values in H as (f & F & _); [congruence | exact D]. }
  split; [split|].
  - intros [x X]. destruct (py_int (as_string (f_values f))) as [n|] eqn:I; [|discriminate X]. apply py_int_iff, as_string_int in I as (t & V & I).
    cbn [bind] in X. unfold to_float in X. destruct (Z.ltb_spec (Z.abs n) (2 ^ 1024 - 2 ^ 970)) as [L|L]; [|discriminate X]. cbn [bind] in X.
    destruct (Z.ltb_spec (mant (fdiv (ratio n 1) 1000)) 0) as [M|M]; [discriminate X|].
    exists t, n. split; [apply get_values; [exact D | exists f; now split]|]. split; [exact I|].
    destruct (Z.lt_ge_cases n 0) as [C|C]; [|split; [exact C | rewrite Z.abs_eq in L by exact C; exact L]].
    exfalso. pose proof (proj2 (fdiv_sign (ratio n 1)) (proj2 (ratio_one_sign n) C)). apply (Z.lt_irrefl 0). eapply Z.le_lt_trans; eassumption.
  - intros (t & n & H & I & N0 & N1). apply get_values in H as (f' & F & V); [|exact D]. rewrite G in F. injection F as <-.
    rewrite V. cbn [as_string]. rewrite (proj2 (py_int_iff t n) I). cbn [bind]. unfold to_float. rewrite Z.abs_eq by exact N0.
    rewrite (proj2 (Z.ltb_lt _ _) N1). cbn [bind]. pose proof (proj1 (fdiv_sign (ratio n 1)) (proj1 (ratio_one_sign n) N0)) as M.
    apply Z.ltb_ge in M. rewrite M. now eexists.
  - intros x X. destruct (bind _ _) as [y|]; [|discriminate X]. destruct (Z.ltb_spec (mant y) 0) as [M|M]; [discriminate X|]. injection X as <-. exact M.
Qed.
Print Assumptions C47_retry_after.
(** The time is the number of milliseconds as seconds, to the nearest float: half a unit
    of the last of 53 binary digits. *)
Theorem C47_retry_after_value fs t n k : NoDup (map fst fs) -> has_values fs (lit "x-amz-retry-after") [t] -> int_text t n ->
  0 <= k <= 43 -> 0 <= n < 1000 * 2 ^ k ->
  exists x, parse_retry_after fs = Some x
    /\ (n = 0 -> mant x = 0)
    /\ (0 < n -> expo x <= k - 53 /\ Z.abs (2 * (mant x * 1000 - n * 2 ^ (- expo x))) <= 1000).
Proof.
  intros D H I K B. assert (L : n < 2 ^ 53).
  { eapply Z.lt_le_trans; [exact (proj2 B)|]. transitivity (1000 * 2 ^ 43); [apply Z.mul_le_mono_nonneg_l; [lia | apply Z.pow_le_mono_r; lia]|].
    change (1000 * 2 ^ 43) with 8796093022208000. change (2 ^ 53) with 9007199254740992. lia. }
  assert (L' : n < 2 ^ 1024 - 2 ^ 970) by (eapply Z.lt_trans; [exact L | reflexivity]).
  destruct (proj2 (proj1 (C47_retry_after fs D)) (ex_intro _ t (ex_intro _ n (conj H (conj I (conj (proj1 B) L')))))) as [x X].
  exists x. split; [exact X|]. unfold parse_retry_after in X. apply get_values in H as (f & F & V); [|exact D]. rewrite F, V in X. cbn [as_string] in X.
  rewrite (proj2 (py_int_iff t n) I) in X. cbn [bind] in X. unfold to_float in X. rewrite Z.abs_eq, (proj2 (Z.ltb_lt _ _) L') in X by exact (proj1 B). cbn [bind] in X.
  destruct (mant (fdiv (ratio n 1) 1000) <? 0); [discriminate X|]. injection X as <-. split; intros N0.
  - subst n. reflexivity.
  - rewrite fdiv_small by (split; [exact N0 | exact L]). apply ratio_small; [lia | lia | lia|]. rewrite Z.abs_eq by lia. exact (proj2 B).
Qed.
Print Assumptions C47_retry_after_value.
Definition one_value (name v : text) : text * field := (name, mkField name [v] Header).
Example C47_retry_after_ex : map (fun v => parse_retry_after [one_value (lit "x-amz-retry-after") v]) [lit "2500"; lit " 1_000 "; lit "0"; lit "-1"; lit "1.5"; lit ""; lit "1__0"]
  = [Some (mkFloat 5629499534213120 (-51)); Some (mkFloat 4503599627370496 (-52)); Some (mkFloat 0 0); None; None; None; None].
Proof. vm_compute. reflexivity. Qed.
Example C47_retry_after_value_ex : exists fs, NoDup (map fst fs) /\ has_values fs (lit "x-amz-retry-after") [lit "2500"] /\ int_text (lit "2500") 2500 /\ 0 <= 2500 < 1000 * 2 ^ 2.
Proof.
  exists [one_value (lit "x-amz-retry-after") (lit "2500")]. split; [repeat constructor; intros []|].
  split; [eexists; split; [now left | reflexivity]|]. split; [apply py_int_iff; reflexivity | split; [lia | reflexivity]].
Qed.

(** ** restJson1 *)
Lemma header_code_iff fs code : NoDup (map fst fs) ->
  (header_code fs code <-> exists f r, dict_get (lit "x-amzn-errortype") fs = Some f /\ f_values f = code :: r).
Proof.
  intros D. split.
  - intros [r H]. apply get_values in H as (f & F & V); [|exact D]. now exists f, r.
  - intros (f & r & F & V). exists r. apply get_values; [exact D | now exists f].
Qed.
Lemma header_code_fun fs c c' : NoDup (map fst fs) -> header_code fs c -> header_code fs c' -> c = c'.
Proof.
  intros D A B. apply header_code_iff in A as (f & r & F & V); [|exact D]. apply header_code_iff in B as (f' & r' & F' & V'); [|exact D].
  rewrite F in F'. injection F' as <-. rewrite V in V'. now injection V'.
Qed.
Lemma identify_header fs ns code : NoDup (map fst fs) -> header_code fs code -> identify ns fs = parse_error_code code ns.
Proof. intros D H. apply header_code_iff in H as (f & r & F & V); [|exact D]. unfold identify. now rewrite F, V. Qed.
Lemma identify_cases fs ns : NoDup (map fst fs) ->
  (exists code, header_code fs code /\ identify ns fs = parse_error_code code ns) \/ ((forall code, ~ header_code fs code) /\ identify ns fs = Ok None).
Proof.
  intros D. destruct (dict_get (lit "x-amzn-errortype") fs) as [f|] eqn:F.
  - destruct (f_values f) as [|code r] eqn:V.
    + right. split; [|unfold identify; now rewrite F, V]. intros code H. apply header_code_iff in H as (f' & r' & F' & V'); [|exact D]. rewrite F in F'. injection F' as <-. congruence.
    + left. exists code. assert (H : header_code fs code) by (apply header_code_iff; [exact D | now exists f, r]). split; [exact H | now apply identify_header].
  - right. split; [|unfold identify; now rewrite F]. intros code H. apply header_code_iff in H as (f' & r' & F' & V'); [congruence | exact D].
Qed.
Lemma silent_iff fs ns : NoDup (map fst fs) -> (header_silent fs ns <-> identify ns fs = Ok None).
Proof.
  intros D. unfold header_silent. destruct (identify_cases fs ns D) as [(code & H & E) | [H E]]; rewrite E.
  - split; [intros S; apply nameless_iff, S, H|]. intros S c Hc. rewrite (header_code_fun _ _ _ D Hc H). now apply nameless_iff.
  - split; [reflexivity|]. intros _ c Hc. elim (H c Hc).
Qed.
Lemma json_iff fs : NoDup (map fst fs) -> (json_body fs <-> matches_content_type fs = true).
Proof.
  intros D. unfold json_body, matches_content_type. split.
  - intros H. apply get_values in H as (f & F & V); [|exact D]. rewrite F, V. apply text_eqb_refl.
  - destruct (dict_get (lit "content-type") fs) as [f|] eqn:F; [|discriminate]. intros H. apply text_eqb_eq in H.
    apply get_values; [exact D|]. exists f. split; [exact F|].
    destruct (as_string_one (f_values f)) as [E | [t E]]; [rewrite H; intros I; vm_compute in I; repeat (destruct I as [I|I]; [discriminate I|]); destruct I| |];
      rewrite E in *; [discriminate H | cbn [as_string] in H; now rewrite H].
Qed.
Lemma body_code_iff d ns : proper d ->
  (exists code, body_code d code /\ document_discriminator d ns = parse_error_code code ns) \/ ((forall code, ~ body_code d code) /\ document_discriminator d ns = Ok None).
Proof.
  intros P. destruct d as [m|t|]; [|right; split; [intros code H; inversion H | reflexivity]..]. specialize (P m eq_refl).
  cbn [document_discriminator]. destruct (dict_get (lit "__type") m) as [c|] eqn:T.
  - destruct c as [m'|c|].
    2:{ left. exists c. split; [apply B_type; now apply dict_get_In | reflexivity]. }
    all: right; (split; [|reflexivity]); intros code H; inversion H; subst;
      [apply (dict_In_get _ _ _ P) in H1; congruence | apply dict_get_In in T; elim H1; apply in_map_iff; eexists; split; [|exact T]; reflexivity].
  - assert (L : lacks m (lit "__type")) by now apply dict_get_None in T.
    destruct (dict_get (lit "code") m) as [c|] eqn:C.
    + destruct c as [m'|c|].
      2:{ left. exists c. split; [apply B_code; [exact L | now apply dict_get_In] | reflexivity]. }
      all: right; (split; [|reflexivity]); intros code H; inversion H; subst; [apply (dict_In_get _ _ _ P) in H1; congruence | apply (dict_In_get _ _ _ P) in H2; congruence].
    + right. split; [|reflexivity]. intros code H; inversion H; subst; [apply (dict_In_get _ _ _ P) in H1; congruence | apply (dict_In_get _ _ _ P) in H2; congruence].
Qed.
Lemma body_code_fun d c c' : proper d -> body_code d c -> body_code d c' -> c = c'.
Proof.
  intros P A B. destruct A as [m c A | m c L A]; specialize (P m eq_refl); inversion B; subst.
  - apply (dict_In_get _ _ _ P) in A, H0. congruence.
  - elim H0. apply in_map_iff. eexists. split; [|exact A]. reflexivity.
  - elim L. apply in_map_iff. eexists. split; [|exact H0]. reflexivity.
  - apply (dict_In_get _ _ _ P) in A, H1. congruence.
Qed.
Lemma discriminator_body d ns code : proper d -> body_code d code -> document_discriminator d ns = parse_error_code code ns.
Proof.
  intros P H. destruct (body_code_iff d ns P) as [(c & C & E) | [C E]]; [now rewrite (body_code_fun _ _ _ P H C) | elim (C _ H)].
Qed.

Lemma resolved reg errors x : sound reg ->
  let j := if reg_has (s_id x) reg then x else resolve_error_id errors x in
  (reg_has (s_id j) reg = true /\ exists s, reg_get (s_id j) reg = Ok s /\ resolves reg errors (s_id x) (s_name x) s)
  \/ (reg_has (s_id j) reg = false /\ forall s, ~ resolves reg errors (s_id x) (s_name x) s).
Proof.
  intros S. destruct (reg_cases reg (s_id x) S) as [(H & s & G & R) | [H U]]; rewrite H; cbv zeta.
  - left. split; [exact H|]. exists s. split; [exact G | now apply Direct].
  - destruct (resolve_error_id_spec errors x) as [(pre & e & post & E & P & N0 & ->) | [P ->]].
    + destruct (reg_cases reg (s_id e) S) as [(H' & s & G & R) | [H' U']]; rewrite H'.
      * left. split; [reflexivity|]. exists s. split; [exact G|]. now apply By_name with (pre := pre) (e := e) (post := post).
      * right. split; [reflexivity|]. intros s [R | pre' e' post' _ E' P' N' R]; [elim (U s R)|].
        assert (X : e' = e); [|subst e'; elim (U' s R)].
        clear -E E' P P' N0 N'. subst errors. revert pre' E' P'. induction pre as [|a pre IH]; intros [|a' pre'] E' P'; cbn [app] in E'.
        -- now injection E'.
        -- injection E' as <- _. elim (P' e); [now left | exact N0].
        -- injection E' as -> _. elim (P e'); [now left | exact N'].
        -- injection E' as -> E'. apply (IH ltac:(intros; apply P; now right) pre' E'). intros; apply P'; now right.
    + right. split; [exact H|]. intros s [R | pre' e' post' _ E' P' N' R]; [elim (U s R)|]. elim (P e'); [rewrite E'; apply in_or_app; right; now left | exact N'].
Qed.
Lemma with_after_spec after e : modeled_as e (with_after after e) after.
Proof. unfold modeled_as, with_after. destruct after; cbn; repeat split. Qed.
Lemma generic_spec status after : unmodeled status after (generic status after).
Proof.
  unfold generic. destruct (Z.eqb_spec status 408), (Z.eqb_spec status 429), (Z.ltb_spec status 500); constructor; cbn;
    repeat split; intros; try discriminate; try congruence; try lia; try tauto.
Qed.

Section Classified.
  Variable read_error : shape -> result call_error.
  Variable reg : registry.
  Variable fs : fields.
  Hypothesis reg_sound : sound reg.
  Hypothesis fs_keys : NoDup (map fst fs).

  Lemma modeled_run errors x j s after : registered (s_id j) s reg -> sh_modeled s = true ->
    resolves reg errors (s_id x) (s_name x) s -> modeled read_error reg (s_id j) after = (do e <- read_error s; Ok (with_after after e)).
  Proof. intros R M _. unfold modeled. rewrite (proj2 (reg_get_iff reg reg_sound _ _) R). cbn [bind]. now rewrite M. Qed.
  Lemma resolves_fun errors id name s s' : resolves reg errors id name s -> resolves reg errors id name s' -> s = s'.
  Proof.
    intros [R | pre e post U E P N0 R] [R' | pre' e' post' U' E' P' N' R'].
    - exact (registered_fun _ _ _ _ reg_sound R R').
    - elim (U' _ R).
    - elim (U _ R').
    - assert (X : e' = e); [|subst e'; exact (registered_fun _ _ _ _ reg_sound R R')].
      clear -E E' P P' N0 N'. subst errors. revert pre' E' P'. induction pre as [|a pre IH]; intros [|a' pre'] E' P'; cbn [app] in E'.
      + now injection E'.
      + injection E' as <- _. elim (P' e); [now left | exact N0].
      + injection E' as -> _. elim (P e'); [now left | exact N'].
      + injection E' as -> E'. apply (IH ltac:(intros; apply P; now right) pre' E'). intros; apply P'; now right.
  Qed.
  (** What is made for an identifier. *)
  Definition made (errors : list shape_id) (status : Z) (id name : text) (r : result call_error) : Prop :=
    (exists s, resolves reg errors id name s /\
       r = if sh_modeled s then (do e <- read_error s; Ok (with_after (parse_retry_after fs) e)) else Err ExpectationNotMet)
    \/ ((forall s, ~ resolves reg errors id name s) /\ r = Ok (generic status (parse_retry_after fs))).
  Lemma made_named namespace service errors status document id name :
    (forall d, document = Ok d -> proper d) -> named namespace service fs document id name ->
    made errors status id name (create_error read_error reg namespace service errors status fs document).
  Proof.
    intros Pd [code H Hd | d code H J -> B Hd].
    - apply denotes_parse in Hd as (x & E & <- & <-). unfold create_error. rewrite (identify_header _ _ _ fs_keys H), E. cbn [bind].
      destruct (resolved reg errors x reg_sound) as [(R & s & G & V) | [R U]].
      + left. exists s. split; [exact V|]. rewrite R. unfold modeled. now rewrite G.
      + right. split; [exact U|]. now rewrite R.
    - apply denotes_parse in Hd as (x & E & <- & <-). unfold create_error. rewrite (proj1 (silent_iff _ _ fs_keys) H). cbn [bind].
      rewrite (proj1 (json_iff _ fs_keys) J). unfold discriminator. rewrite (discriminator_body _ service _ (Pd d eq_refl) B), E. cbn [bind].
      destruct (resolved reg errors x reg_sound) as [(R & s & G & V) | [R U]]; rewrite R; cbn [bind].
      + left. exists s. split; [exact V|]. rewrite R. unfold modeled. now rewrite G.
      + right. split; [exact U|]. reflexivity.
  Qed.

  (** A failing response that names an error that resolves to a modeled shape yields the
      error read from it. *)
  Theorem C47_modeled namespace service errors status document id name s e0 :
    (forall d, document = Ok d -> proper d) -> ~ (200 <= status < 300) ->
    named namespace service fs document id name -> resolves reg errors id name s -> sh_modeled s = true -> read_error s = Ok e0 ->
    exists e, response_error read_error reg namespace service errors status fs document = Some (Ok e)
      /\ modeled_as e0 e (parse_retry_after fs).
  Proof.
    intros Pd St N R M E0. unfold response_error, is_success.
    destruct ((200 <=? status) && (status <? 300)) eqn:X; [apply andb_true_iff in X as [X1 X2]; apply Z.leb_le in X1; apply Z.ltb_lt in X2; elim (St (conj X1 X2))|].
    cbn [negb]. destruct (made_named _ _ errors status _ _ _ Pd N) as [(s' & R' & ->) | [U _]]; [|elim (U s R)].
    rewrite (resolves_fun _ _ _ _ _ R' R), M, E0. cbn [bind]. eexists. split; [reflexivity | apply with_after_spec].
  Qed.
  (** A failing response that names none, or one that does not resolve, yields an error
      with the flags of its status. *)
  Theorem C47_unmodeled namespace service errors status document :
    (forall d, document = Ok d -> proper d) -> ~ (200 <= status < 300) ->
    (anonymous namespace fs \/ exists id name, named namespace service fs document id name /\ forall s, ~ resolves reg errors id name s) ->
    exists e, response_error read_error reg namespace service errors status fs document = Some (Ok e) /\ unmodeled status (parse_retry_after fs) e.
  Proof.
    intros Pd St H. unfold response_error, is_success.
    destruct ((200 <=? status) && (status <? 300)) eqn:X; [apply andb_true_iff in X as [X1 X2]; apply Z.leb_le in X1; apply Z.ltb_lt in X2; elim (St (conj X1 X2))|].
    cbn [negb]. exists (generic status (parse_retry_after fs)). split; [|apply generic_spec]. f_equal. destruct H as [[H J] | (id & name & N & U)].
    - unfold create_error. rewrite (proj1 (silent_iff _ _ fs_keys) H). cbn [bind]. destruct (matches_content_type fs) eqn:Y; [elim (J (proj2 (json_iff _ fs_keys) Y))|]. reflexivity.
    - destruct (made_named _ _ errors status _ _ _ Pd N) as [(s & R & _) | [_ E]]; [elim (U s R) | exact E].
  Qed.
  (** Nothing else is made, and making one fails only for a code that is none, a JSON body
      that cannot be read or has no code, a registered shape that is not a modeled error,
      or one that cannot be read. *)
  Theorem C47_exact namespace service errors status document r :
    (forall d, document = Ok d -> proper d) -> response_error read_error reg namespace service errors status fs document = Some r ->
    ~ (200 <= status < 300) /\
    match r with
    | Ok e => unmodeled status (parse_retry_after fs) e
              \/ exists id name s e0, named namespace service fs document id name /\ resolves reg errors id name s
                   /\ sh_modeled s = true /\ read_error s = Ok e0 /\ modeled_as e0 e (parse_retry_after fs)
    | Err x => (exists code, header_code fs code /\ ~ nameless code namespace /\ forall id name, ~ denotes code namespace id name)
               \/ header_silent fs namespace /\ json_body fs /\
                    (document = Err x \/ exists d, document = Ok d /\ forall code id name, body_code d code -> ~ denotes code service id name)
               \/ exists id name s, named namespace service fs document id name /\ resolves reg errors id name s
                    /\ (sh_modeled s = false /\ x = ExpectationNotMet \/ sh_modeled s = true /\ read_error s = Err x)
    end.
  Proof.
    intros Pd H. unfold response_error, is_success in H.
    destruct ((200 <=? status) && (status <? 300)) eqn:X; [discriminate H|]. cbn [negb] in H. split.
    { intros [A B]. apply andb_false_iff in X as [X|X]; [apply Z.leb_gt in X | apply Z.ltb_ge in X]; lia. }
    assert (E : create_error read_error reg namespace service errors status fs document = r) by congruence. clear H X.
    assert (K : forall id name, named namespace service fs document id name ->
      match r with
      | Ok e => unmodeled status (parse_retry_after fs) e
              \/ exists id name s e0, named namespace service fs document id name /\ resolves reg errors id name s
                   /\ sh_modeled s = true /\ read_error s = Ok e0 /\ modeled_as e0 e (parse_retry_after fs)
      | Err x => exists id name s, named namespace service fs document id name /\ resolves reg errors id name s
                    /\ (sh_modeled s = false /\ x = ExpectationNotMet \/ sh_modeled s = true /\ read_error s = Err x)
      end).
    { intros id name N. destruct (made_named _ _ errors status _ _ _ Pd N) as [(s & R & G) | [U G]]; rewrite E in G; rewrite G; [|left; apply generic_spec].
      destruct (sh_modeled s) eqn:M; [|exists id, name, s; split; [exact N|]; split; [exact R | now left]].
      destruct (read_error s) as [e0|x] eqn:Re; cbn [bind].
      - right. exists id, name, s, e0. split; [exact N|]. split; [exact R|]. split; [exact M|]. split; [exact Re | apply with_after_spec].
      - exists id, name, s. split; [exact N|]. split; [exact R | now right]. }
    assert (K' : forall x, (exists id name, named namespace service fs document id name) -> r = Err x ->
       exists id name s, named namespace service fs document id name /\ resolves reg errors id name s
                    /\ (sh_modeled s = false /\ x = ExpectationNotMet \/ sh_modeled s = true /\ read_error s = Err x)).
    { intros x (id & name & N) ->. exact (K id name N). }
    assert (KO : forall e, (exists id name, named namespace service fs document id name) -> r = Ok e -> unmodeled status (parse_retry_after fs) e
              \/ exists id name s e0, named namespace service fs document id name /\ resolves reg errors id name s
                   /\ sh_modeled s = true /\ read_error s = Ok e0 /\ modeled_as e0 e (parse_retry_after fs)).
    { intros e (id & name & N) ->. exact (K id name N). }
    clear K. unfold create_error in E. destruct (identify namespace fs) as [[x|]|err] eqn:I.
    - assert (N : exists id name, named namespace service fs document id name).
      { destruct (identify_cases fs namespace fs_keys) as [(code & C & Ec) | [_ Ec]]; [|congruence]. rewrite I in Ec. symmetry in Ec.
        exists (s_id x), (s_name x). apply In_header with (code := code); [exact C | now apply parse_error_code_some]. }
      destruct r as [e|y]; [now apply KO | right; right; now apply K'].
    - assert (S : header_silent fs namespace) by now apply silent_iff. cbn [bind] in E. destruct (matches_content_type fs) eqn:Y.
      + assert (J : json_body fs) by now apply json_iff. destruct document as [d|y] eqn:Dd.
        2:{ cbn [bind] in E. subst r. right. left. split; [exact S|]. split; [exact J | now left]. }
        cbn [bind] in E. unfold discriminator in E. specialize (Pd d eq_refl).
        destruct (body_code_iff d service Pd) as [(c & C & Ec) | [C Ec]]; rewrite Ec in E.
        * destruct (parse_error_code c service) as [[x|]|y] eqn:Pc; cbn [bind] in E.
          -- assert (N : exists id name, named namespace service fs (Ok d) id name).
             { exists (s_id x), (s_name x). apply In_body with (d := d) (code := c); try assumption; [reflexivity | now apply parse_error_code_some]. }
             destruct r as [e|y]; [now apply KO | right; right; now apply K'].
          -- subst r. right. left. split; [exact S|]. split; [exact J|]. right. exists d. split; [reflexivity|].
             intros c' id name B Hd. rewrite (body_code_fun _ _ _ Pd B C) in Hd. apply denotes_parse in Hd as (z & Z1 & _). congruence.
          -- subst r. right. left. split; [exact S|]. split; [exact J|]. right. exists d. split; [reflexivity|].
             intros c' id name B Hd. rewrite (body_code_fun _ _ _ Pd B C) in Hd. apply denotes_parse in Hd as (z & Z1 & _). congruence.
        * cbn [bind] in E. subst r. right. left. split; [exact S|]. split; [exact J|]. right. exists d. split; [reflexivity|]. intros c' id name B. elim (C _ B).
      + cbn [bind] in E. subst r. left. apply generic_spec.
    - cbn [bind] in E. subst r. left. destruct (identify_cases fs namespace fs_keys) as [(code & C & Ec) | [_ Ec]]; [|congruence].
      rewrite I in Ec. exists code. split; [exact C|]. split; [intros Nn; apply nameless_iff in Nn; congruence|].
      intros id name Hd. apply denotes_parse in Hd as (z & Z1 & _). congruence.
  Qed.
End Classified.
Print Assumptions C47_modeled.
Print Assumptions C47_unmodeled.
Print Assumptions C47_exact.

(** A modeled error named in the header by its short name, one named in the body, which
    resolves by name to an error of the operation, and throttling without a name. *)
Definition ex_shape := mkShape 7 true.
Definition ex_reg := Registry [(lit "other#Slow", mkShape 3 true)] (Some (Registry [(lit "ns#Bad", ex_shape)] None)).
Definition ex_read (s : shape) : result call_error := Ok (mkCall (Some s) (Some Client) None None false false).
Example C47_ex :
  let h := one_value (lit "x-amzn-errortype") (lit "Bad:http://x/") in
  let w := one_value (lit "x-amz-retry-after") (lit "500") in
  let j := one_value (lit "content-type") (lit "application/json") in
  let bad := mkShapeId (lit "ns#Bad") (lit "ns") (lit "Bad") None in
  sound ex_reg
  /\ named (lit "ns") (lit "svc") [h; w] (Err ValueError) (lit "ns#Bad") (lit "Bad")
  /\ resolves ex_reg [] (lit "ns#Bad") (lit "Bad") ex_shape
  /\ named (lit "ns") (lit "svc") [j] (Ok (JMap [(lit "code", JString (lit "Bad"))])) (lit "svc#Bad") (lit "Bad")
  /\ resolves ex_reg [bad] (lit "svc#Bad") (lit "Bad") ex_shape
  /\ anonymous (lit "ns") [w]
  /\ response_error ex_read ex_reg (lit "ns") (lit "svc") [] 400 [h; w] (Err ValueError)
     = Some (Ok (mkCall (Some ex_shape) (Some Client) None (Some (mkFloat 4503599627370496 (-53))) false false))
  /\ response_error ex_read ex_reg (lit "ns") (lit "svc") [bad] 400 [j] (Ok (JMap [(lit "code", JString (lit "Bad"))]))
     = Some (Ok (mkCall (Some ex_shape) (Some Client) None None false false))
  /\ response_error ex_read ex_reg (lit "ns") (lit "svc") [] 429 [w] (Err ValueError)
     = Some (Ok (mkCall None (Some Client) (Some true) (Some (mkFloat 4503599627370496 (-53))) true false))
  /\ response_error ex_read ex_reg (lit "ns") (lit "svc") [] 204 [w] (Err ValueError) = None.
Proof.
  intros h w j bad.
  assert (F1 : id_form (lit "ns#Bad") (lit "ns") (lit "Bad") None) by (repeat split; try discriminate; intros X; vm_compute in X; repeat (destruct X as [X|X]; [discriminate X|]); destruct X).
  assert (F2 : id_form (lit "svc#Bad") (lit "svc") (lit "Bad") None) by (repeat split; try discriminate; intros X; vm_compute in X; repeat (destruct X as [X|X]; [discriminate X|]); destruct X).
  assert (S : sound ex_reg).
  { constructor; [repeat constructor; intros []|]. intros r [= <-]. constructor; [repeat constructor; intros [] | discriminate]. }
  assert (R : registered (lit "ns#Bad") ex_shape ex_reg) by (apply reg_get_iff; [exact S | reflexivity]).
  split; [exact S|]. split.
  { apply In_header with (code := lit "Bad:http://x/"); [exists []; eexists; split; [now left | reflexivity]|].
    apply Short with (b := lit "Bad") (ns := lit "ns") (m := None); try discriminate; [apply before_colon_iff; reflexivity | | reflexivity | exact F1].
    intros X. vm_compute in X. repeat (destruct X as [X|X]; [discriminate X|]). destruct X. }
  split; [now apply Direct|]. split.
  { apply In_body with (d := JMap [(lit "code", JString (lit "Bad"))]) (code := lit "Bad").
    - intros c (r & f & [X | []] & _). discriminate X.
    - eexists. split; [now left | reflexivity].
    - reflexivity.
    - apply B_code; [intros [X | []]; discriminate X | now left].
    - apply Short with (b := lit "Bad") (ns := lit "svc") (m := None); try discriminate; [apply before_colon_iff; reflexivity | | reflexivity | exact F2].
      intros X. vm_compute in X. repeat (destruct X as [X|X]; [discriminate X|]). destruct X. }
  split.
  { apply By_name with (pre := []) (e := bad) (post := []); [| reflexivity | intros x [] | reflexivity | exact R].
    intros s X. apply reg_get_iff in X; [discriminate X | exact S]. }
  split; [split; [intros c (r & f & [X | []] & _); discriminate X | intros (f & [X | []] & _); discriminate X]|].
  vm_compute. repeat split.
Qed.
(** Not every failing response is classified: a JSON body without a code, one that cannot
    be read, and a code that is no identifier make reading the error fail, also for the
    status 429. *)
Theorem C47_body_refuted : exists fs d, NoDup (map fst fs) /\ proper d /\ header_silent fs (lit "ns")
  /\ response_error ex_read ex_reg (lit "ns") (lit "svc") [] 429 fs (Ok d) = Some (Err (OtherErr 0))
  /\ response_error ex_read ex_reg (lit "ns") (lit "svc") [] 429 fs (Err ValueError) = Some (Err ValueError).
Proof.
  exists [one_value (lit "content-type") (lit "application/json")], (JMap []). split; [repeat constructor; intros []|].
  split; [intros m [= <-]; constructor|]. split; [intros c (r & f & [X | []] & _); discriminate X|]. split; reflexivity.
Qed.
Print Assumptions C47_body_refuted.
Theorem C47_code_refuted : exists fs, NoDup (map fst fs)
  /\ response_error ex_read ex_reg (lit "ns") (lit "svc") [] 429 fs (Ok (JMap [])) = Some (Err SmithyErr).
Proof. exists [one_value (lit "x-amzn-errortype") (lit "#Throttled")]. split; [repeat constructor; intros [] | reflexivity]. Qed.
Print Assumptions C47_code_refuted.

(** ** awsQuery *)
Lemma tag_name_iff t n : local_name t = Ok n <-> tag_name t n.
Proof.
  split.
  - unfold local_name. destruct t as [|c t]; [intros [= <-]; apply T_plain; discriminate|].
    destruct (N.eq_dec c 123) as [->|Hc].
    + rewrite N.eqb_refl. assert (E : cut_at 125 (123%N :: t) = (123%N :: fst (cut_at 125 t), snd (cut_at 125 t))) by (cbn [cut_at]; change (123 =? 125)%N with false; cbv iota; destruct (cut_at 125 t); reflexivity).
      rewrite E. destruct (snd (cut_at 125 t)) as [r|] eqn:Sn; [|discriminate]. intros [= <-].
      destruct (in_dec N.eq_dec 125%N t) as [I|I]; [|rewrite PyText_Proofs.cut_at_none in Sn by exact I; discriminate].
      assert (X : exists a b, t = a ++ 125%N :: b /\ ~ In 125%N a).
      { clear -I. induction t as [|x t IH]; [destruct I|]. destruct (N.eq_dec x 125) as [->|Hx]; [exists [], t; split; [reflexivity | intros []]|].
        destruct IH as (a & b & -> & H); [destruct I; [congruence | assumption]|]. exists (x :: a), b. split; [reflexivity|]. intros [|]; [congruence | contradiction]. }
      destruct X as (a & b & -> & H). rewrite cut_at_app in Sn by exact H. cbn [snd] in Sn. injection Sn as <-. now apply T_qualified.
    + apply N.eqb_neq in Hc as Hc'. rewrite Hc'. intros [= <-]. now apply T_plain.
  - intros [t' H | ns t' H].
    + unfold local_name. destruct t' as [|c t']; [reflexivity|]. cbn [hd] in H. apply N.eqb_neq in H. now rewrite H.
    + unfold local_name. rewrite N.eqb_refl. change (123%N :: ns ++ 125%N :: t') with ((123%N :: ns) ++ 125%N :: t'). rewrite cut_at_app; [reflexivity|]. intros [X|X]; [discriminate X | contradiction].
Qed.
Lemma find_child_iff n l : (forall y, In y l -> exists m, tag_name (x_tag y) m) ->
  (exists c pre post, find_child n l = Ok (Some c) /\ l = pre ++ c :: post /\ is_named n c /\ (forall y, In y pre -> ~ is_named n y))
  \/ (find_child n l = Ok None /\ forall y, In y l -> ~ is_named n y).
Proof.
  induction l as [|x l IH]; intros P; cbn [find_child]; [right; split; [reflexivity | intros y []]|].
  destruct (P x (or_introl eq_refl)) as [m M]. rewrite (proj2 (tag_name_iff _ _) M). cbn [bind]. destruct (text_eqb m n) eqn:E.
  - apply text_eqb_eq in E as ->. left. exists x, [], l. split; [reflexivity|]. split; [reflexivity|]. split; [exact M | intros y []].
  - apply text_eqb_neq in E. assert (Hx : ~ is_named n x) by (intros X; apply tag_name_iff in X, M; congruence).
    destruct IH as [(c & pre & post & F & -> & N0 & Q) | [F Q]]; [intros y Hy; apply P; now right| |].
    + left. exists c, (x :: pre), post. split; [exact F|]. split; [reflexivity|]. split; [exact N0|]. intros y [<- | Hy]; [exact Hx | now apply Q].
    + right. split; [exact F|]. intros y [<- | Hy]; [exact Hx | now apply Q].
Qed.
Lemma first_child_fun n x c c' : first_child n x c -> first_child n x c' -> c = c'.
Proof.
  intros (pre & post & E & N0 & P) (pre' & post' & E' & N' & P'). rewrite E in E'. clear E. revert pre' E' P'.
  induction pre as [|a pre IH]; intros [|a' pre'] E' P'; cbn [app] in E'.
  - now injection E'.
  - injection E' as <- _. elim (P' c); [now left | exact N0].
  - injection E' as -> _. elim (P c'); [now left | exact N'].
  - injection E' as -> E'. apply (IH ltac:(intros; apply P; now right) pre' E'). intros; apply P'; now right.
Qed.
Lemma proper_child x y : proper_xml x -> In y (x_children x) -> proper_xml y.
Proof. intros [t c l _ H] I. now apply H. Qed.
Lemma child_cases n x : proper_xml x ->
  (exists c, find_child n (x_children x) = Ok (Some c) /\ first_child n x c /\ proper_xml c)
  \/ (find_child n (x_children x) = Ok None /\ forall c, ~ first_child n x c).
Proof.
  intros P. destruct (find_child_iff n (x_children x)) as [(c & pre & post & F & E & N0 & Q) | [F Q]].
  - intros y Hy. apply (proper_child x) in Hy; [|exact P]. now destruct Hy.
  - left. exists c. split; [exact F|]. split; [now exists pre, post|]. apply (proper_child x); [exact P|]. rewrite E. apply in_or_app. right. now left.
  - right. split; [exact F|]. intros c (pre & post & E & N0 & _). apply (Q c); [rewrite E; apply in_or_app; right; now left | exact N0].
Qed.
Lemma parse_code_cases x : proper_xml x ->
  (exists code, parse_code (Some x) [lit "ErrorResponse"; lit "Error"] = Ok (Some code) /\ query_code x code)
  \/ (parse_code (Some x) [lit "ErrorResponse"; lit "Error"] = Ok None /\ forall code, ~ query_code x code).
Proof.
  intros P. cbn [parse_code]. assert (T : exists n, tag_name (x_tag x) n) by (now destruct P). destruct T as [n T].
  rewrite (proj2 (tag_name_iff _ _) T). cbn [bind]. destruct (text_eqb n (lit "ErrorResponse")) eqn:E.
  2:{ apply text_eqb_neq in E. right. split; [reflexivity|]. intros code [Nm _]. apply tag_name_iff in Nm, T. congruence. }
  apply text_eqb_eq in E as ->. cbn [descend]. destruct (child_cases (lit "Error") x P) as [(e & F & C & Pe) | [F C]]; rewrite F; cbn [bind descend].
  2:{ right. split; [reflexivity|]. intros code (_ & e & c & Ce & _). elim (C e Ce). }
  destruct (child_cases (lit "Code") e Pe) as [(c & F' & C' & _) | [F' C']]; rewrite F'; cbn [bind].
  2:{ right. split; [reflexivity|]. intros code (_ & e' & c & Ce & Cc & _). rewrite (first_child_fun _ _ _ _ Ce C) in Cc. elim (C' c Cc). }
  destruct (x_text c) as [code|] eqn:X.
  - left. exists code. split; [reflexivity|]. split; [exact T|]. now exists e, c.
  - right. split; [reflexivity|]. intros code (_ & e' & c' & Ce & Cc & Xc). rewrite (first_child_fun _ _ _ _ Ce C) in Cc. rewrite (first_child_fun _ _ _ _ Cc C') in Xc. congruence.
Qed.
Lemma query_code_fun x c c' : query_code x c -> query_code x c' -> c = c'.
Proof.
  intros (_ & e & d & A & B & X) (_ & e' & d' & A' & B' & X'). rewrite (first_child_fun _ _ _ _ A' A) in B'. rewrite (first_child_fun _ _ _ _ B' B) in X'. congruence.
Qed.
Lemma by_trait_spec reg code errors : sound reg ->
  (exists pre i post, errors = pre ++ (i, Some code) :: post /\ (forall x, In x pre -> snd x <> Some code)
     /\ by_trait reg code errors = if reg_has (s_id i) reg then Some i else None)
  \/ ((forall x, In x errors -> snd x <> Some code) /\ by_trait reg code errors = None).
Proof.
  intros S. induction errors as [|[i [c|]] errors IH]; cbn [by_trait]; [right; split; [intros x [] | reflexivity] | |].
  - destruct (text_eqb c code) eqn:E.
    + apply text_eqb_eq in E as ->. left. exists [], i, errors. split; [reflexivity|]. split; [intros x [] | reflexivity].
    + apply text_eqb_neq in E. destruct IH as [(pre & j & post & -> & P & B) | [P B]].
      * left. exists ((i, Some c) :: pre), j, post. split; [reflexivity|]. split; [|exact B]. intros x [<- | Hx]; [cbn [snd]; congruence | now apply P].
      * right. split; [|exact B]. intros x [<- | Hx]; [cbn [snd]; congruence | now apply P].
  - destruct IH as [(pre & j & post & -> & P & B) | [P B]].
    + left. exists ((i, None) :: pre), j, post. split; [reflexivity|]. split; [|exact B]. intros x [<- | Hx]; [discriminate | now apply P].
    + right. split; [|exact B]. intros x [<- | Hx]; [discriminate | now apply P].
Qed.
Lemma first_fun {A} (p : A -> Prop) (errors : list A) pre x post pre' x' post' : errors = pre ++ x :: post -> (forall y, In y pre -> ~ p y) -> p x ->
  errors = pre' ++ x' :: post' -> (forall y, In y pre' -> ~ p y) -> p x' -> x = x'.
Proof.
  intros E P N0 E' P' N'. subst errors. revert pre' E' P'. induction pre as [|a pre IH]; intros [|a' pre'] E' P'; cbn [app] in E'.
  - now injection E'.
  - injection E' as <- _. elim (P' x); [now left | exact N0].
  - injection E' as -> _. elim (P x'); [now left | exact N'].
  - injection E' as -> E'. apply (IH ltac:(intros; apply P; now right) pre' E'). intros; apply P'; now right.
Qed.
Lemma query_id_cases reg errors service code : sound reg ->
  (exists i s, resolve_query_id reg code errors service = Ok (Some i) /\ reg_get (s_id i) reg = Ok s /\ query_resolves reg errors service code s)
  \/ ((forall s, ~ query_resolves reg errors service code s) /\ (exists ns name m, id_form (service ++ [35%N] ++ code) ns name m) /\ resolve_query_id reg code errors service = Ok None)
  \/ ((forall ns name m, ~ id_form (service ++ [35%N] ++ code) ns name m) /\ (forall i post pre, errors = pre ++ (i, Some code) :: post -> (forall x, In x pre -> snd x <> Some code) -> unknown reg (s_id i))
      /\ resolve_query_id reg code errors service = Err SmithyErr).
Proof.
  intros S. unfold resolve_query_id.
  assert (G : (forall i post pre, errors = pre ++ (i, Some code) :: post -> (forall x, In x pre -> snd x <> Some code) -> unknown reg (s_id i)) ->
    by_trait reg code errors = None ->
    (exists i s, (do i <- Shape_Model.from_parts service code None; Ok (if reg_has (s_id i) reg then Some i else None)) = Ok (Some i) /\ reg_get (s_id i) reg = Ok s /\ query_resolves reg errors service code s)
    \/ ((forall s, ~ query_resolves reg errors service code s) /\ (exists ns name m, id_form (service ++ [35%N] ++ code) ns name m) /\ (do i <- Shape_Model.from_parts service code None; Ok (if reg_has (s_id i) reg then Some i else None)) = Ok None)
    \/ ((forall ns name m, ~ id_form (service ++ [35%N] ++ code) ns name m) /\ (forall i post pre, errors = pre ++ (i, Some code) :: post -> (forall x, In x pre -> snd x <> Some code) -> unknown reg (s_id i))
      /\ (do i <- Shape_Model.from_parts service code None; Ok (if reg_has (s_id i) reg then Some i else None)) = Err SmithyErr)).
  { intros U _. unfold Shape_Model.from_parts. change (service ++ 35%N :: code) with (service ++ [35%N] ++ code).
    destruct (new_id (service ++ [35%N] ++ code)) as [i|err] eqn:Ei; cbn [bind].
    - apply new_id_form in Ei as [Fi Ii]. rewrite Ii. destruct (reg_cases reg (service ++ [35%N] ++ code) S) as [(H & s & Gs & R) | [H U']]; rewrite H.
      + left. exists i, s. split; [reflexivity|]. split; [now rewrite Ii|]. apply Q_name; [intros pre j post E P; exact (U j post pre E P) | exact R].
      + right. left. split; [|split; [now exists (s_namespace i), (s_name i), (s_member i) | reflexivity]].
        intros s [pre j post E P R | _ R]; [exact (U j post pre E P s R) | exact (U' s R)].
    - right. right. split; [|split; [exact U|]].
      + intros ns name m F. apply form_new_id in F. congruence.
      + assert (Em : new_id (service ++ [35%N] ++ code) = Err SmithyErr); [|congruence]. apply C48_malformed. intros ns name m F. apply form_new_id in F. congruence. }
  destruct (by_trait_spec reg code errors S) as [(pre & i & post & E & P & B) | [P B]]; rewrite B.
  - destruct (reg_cases reg (s_id i) S) as [(H & s & Gs & R) | [H U]]; rewrite H in *.
    + left. exists i, s. split; [reflexivity|]. split; [exact Gs|]. now apply Q_trait with (pre := pre) (i := i) (post := post).
    + apply G; [|exact B]. intros j post' pre' E' P'.
      assert (X : (i, Some code) = (j, Some code)) by (eapply (first_fun (fun x => snd x = Some code)); [exact E | exact P | reflexivity | exact E' | exact P' | reflexivity]).
      injection X as <-. exact U.
  - apply G; [|exact B]. intros i post pre -> _. elim (P (i, Some code)); [apply in_or_app; right; now left | reflexivity].
Qed.
Lemma query_resolves_fun reg errors service code s s' : sound reg -> query_resolves reg errors service code s -> query_resolves reg errors service code s' -> s = s'.
Proof.
  intros S [pre i post E P R | U R] [pre' i' post' E' P' R' | U' R'].
  - assert (X : (i, Some code) = (i', Some code)) by (eapply (first_fun (fun x => snd x = Some code)); [exact E | exact P | reflexivity | exact E' | exact P' | reflexivity]).
    injection X as <-. exact (registered_fun _ _ _ _ S R R').
  - elim (U' pre i post E P s R).
  - elim (U pre' i' post' E' P' s' R').
  - exact (registered_fun _ _ _ _ S R R').
Qed.

Section Query.
  Variable read_error : shape -> result call_error.
  Variable reg : registry.
  Hypothesis reg_sound : sound reg.

  (** A failing response with a code that resolves to a modeled shape yields the error
      read from it. *)
  Theorem C47_query_modeled service errors status fs x code s e0 : proper_xml x -> ~ (200 <= status < 300) ->
    query_code x code -> query_resolves reg errors service code s ->
    sh_modeled s = true -> read_error s = Ok e0 -> (exists ns name m, id_form (service ++ [35%N] ++ code) ns name m) ->
    exists e, query_response_error read_error reg service errors status fs (Some x) = Some (Ok e) /\ modeled_as e0 e (parse_retry_after fs).
  Proof.
    intros Px St C R M E0 (ns & name & m & F). unfold query_response_error, is_success.
    destruct ((200 <=? status) && (status <? 300)) eqn:X; [apply andb_true_iff in X as [X1 X2]; apply Z.leb_le in X1; apply Z.ltb_lt in X2; elim (St (conj X1 X2))|].
    cbn [negb]. unfold create_query_error. destruct (parse_code_cases x Px) as [(code' & E & C') | [_ C']]; [|elim (C' _ C)].
    rewrite E, (query_code_fun _ _ _ C' C). cbn [bind].
    destruct (query_id_cases reg errors service code reg_sound) as [(i & s' & Ei & Gi & R') | [(U & _ & _) | (U & _ & _)]]; [|elim (U s R) | elim (U ns name m F)].
    rewrite Ei. cbn [bind]. unfold modeled. rewrite Gi. cbn [bind]. rewrite (query_resolves_fun _ _ _ _ _ _ reg_sound R' R), M, E0. cbn [bind].
    eexists. split; [reflexivity | apply with_after_spec].
  Qed.
  (** One without a code, with a body that is not XML, or with a code that does not
      resolve yields an error with the flags of its status. *)
  Theorem C47_query_unmodeled service errors status fs body : (forall x, body = Some x -> proper_xml x) -> ~ (200 <= status < 300) ->
    (forall x code, body = Some x -> query_code x code ->
       (forall s, ~ query_resolves reg errors service code s) /\ exists ns name m, id_form (service ++ [35%N] ++ code) ns name m) ->
    exists e, query_response_error read_error reg service errors status fs body = Some (Ok e) /\ unmodeled status (parse_retry_after fs) e.
  Proof.
    intros Px St H. unfold query_response_error, is_success.
    destruct ((200 <=? status) && (status <? 300)) eqn:X; [apply andb_true_iff in X as [X1 X2]; apply Z.leb_le in X1; apply Z.ltb_lt in X2; elim (St (conj X1 X2))|].
    cbn [negb]. exists (generic status (parse_retry_after fs)). split; [|apply generic_spec]. f_equal. unfold create_query_error. destruct body as [x|]; [|reflexivity].
    destruct (parse_code_cases x (Px x eq_refl)) as [(code & E & C) | [E _]]; rewrite E; cbn [bind]; [|reflexivity].
    destruct (H x code eq_refl C) as [U (ns & name & m & F)].
    destruct (query_id_cases reg errors service code reg_sound) as [(i & s' & Ei & Gi & R') | [(_ & _ & Ei) | (U' & _ & _)]]; [elim (U s' R') | now rewrite Ei | elim (U' ns name m F)].
  Qed.
  (** Nothing else is made, and making one fails only for a code that is no name, a shape
      that is not a modeled error, or one that cannot be read. *)
  Theorem C47_query_exact service errors status fs body r : (forall x, body = Some x -> proper_xml x) ->
    query_response_error read_error reg service errors status fs body = Some r ->
    ~ (200 <= status < 300) /\
    match r with
    | Ok e => unmodeled status (parse_retry_after fs) e
              \/ exists x code s e0, body = Some x /\ query_code x code /\ query_resolves reg errors service code s
                   /\ sh_modeled s = true /\ read_error s = Ok e0 /\ modeled_as e0 e (parse_retry_after fs)
    | Err y => exists x code, body = Some x /\ query_code x code /\
                 ((forall ns name m, ~ id_form (service ++ [35%N] ++ code) ns name m)
                  \/ exists s, query_resolves reg errors service code s
                     /\ (sh_modeled s = false /\ y = ExpectationNotMet \/ sh_modeled s = true /\ read_error s = Err y))
    end.
  Proof.
    intros Px H. unfold query_response_error, is_success in H.
    destruct ((200 <=? status) && (status <? 300)) eqn:X; [discriminate H|]. cbn [negb] in H. split.
    { intros [A B]. apply andb_false_iff in X as [X|X]; [apply Z.leb_gt in X | apply Z.ltb_ge in X]; lia. }
    assert (E : create_query_error read_error reg service errors status fs body = r) by congruence. clear H X. unfold create_query_error in E.
    destruct body as [x|]; [|cbn [parse_code bind] in E; subst r; left; apply generic_spec].
    destruct (parse_code_cases x (Px x eq_refl)) as [(code & Ec & C) | [Ec _]]; rewrite Ec in E; cbn [bind] in E; [|subst r; left; apply generic_spec].
    destruct (query_id_cases reg errors service code reg_sound) as [(i & s & Ei & Gi & R) | [(_ & _ & Ei) | (U & _ & Ei)]]; rewrite Ei in E; cbn [bind] in E.
    - unfold modeled in E. rewrite Gi in E. cbn [bind] in E. destruct (sh_modeled s) eqn:M.
      + destruct (read_error s) as [e0|y] eqn:Re; cbn [bind] in E; subst r.
        * right. exists x, code, s, e0. split; [reflexivity|]. split; [exact C|]. split; [exact R|]. split; [exact M|]. split; [exact Re | apply with_after_spec].
        * exists x, code. split; [reflexivity|]. split; [exact C|]. right. exists s. split; [exact R | right; now split].
      + subst r. exists x, code. split; [reflexivity|]. split; [exact C|]. right. exists s. split; [exact R | left; now split].
    - subst r. left. apply generic_spec.
    - subst r. exists x, code. split; [reflexivity|]. split; [exact C|]. left. exact U.
  Qed.
End Query.
Print Assumptions C47_query_modeled.
Print Assumptions C47_query_unmodeled.
Print Assumptions C47_query_exact.

Definition ex_body (code : text) : xml :=
  Elem (lit "{http://x}ErrorResponse") None [Elem (lit "{http://x}Error") None [Elem (lit "Type") (Some (lit "Sender")) []; Elem (lit "{http://x}Code") (Some code) []]].
Example C47_query_ex :
  let bad := mkShapeId (lit "ns#Bad") (lit "ns") (lit "Bad") None in
  proper_xml (ex_body (lit "Broken")) /\ query_code (ex_body (lit "Broken")) (lit "Broken")
  /\ query_resolves ex_reg [(bad, Some (lit "Broken"))] (lit "ns") (lit "Broken") ex_shape
  /\ query_response_error ex_read ex_reg (lit "ns") [(bad, Some (lit "Broken"))] 500 [] (Some (ex_body (lit "Broken"))) = Some (Ok (mkCall (Some ex_shape) (Some Client) None None false false))
  /\ query_response_error ex_read ex_reg (lit "ns") [] 400 [] (Some (ex_body (lit "Bad"))) = Some (Ok (mkCall (Some ex_shape) (Some Client) None None false false))
  /\ query_response_error ex_read ex_reg (lit "ns") [] 503 [] (Some (ex_body (lit "None"))) = Some (Ok (mkCall None (Some Server) None None false false))
  /\ query_response_error ex_read ex_reg (lit "ns") [] 408 [] None = Some (Ok (mkCall None (Some Client) (Some true) None false true)).
Proof.
  intros bad. assert (Px : proper_xml (ex_body (lit "Broken"))).
  { constructor; [eexists; apply tag_name_iff; reflexivity|]. intros y [<- | []]. constructor; [eexists; apply tag_name_iff; reflexivity|].
    intros y [<- | [<- | []]]; (constructor; [eexists; apply tag_name_iff; reflexivity | intros y []]). }
  split; [exact Px|]. split.
  { destruct (parse_code_cases _ Px) as [(code & E & C) | [E _]]; [|discriminate E]. vm_compute in E. injection E as <-. exact C. }
  split; [|vm_compute; repeat split].
  apply Q_trait with (pre := []) (i := bad) (post := []); [reflexivity | intros x [] |]. apply Below; [intros [X | []]; discriminate X | apply Here; now left].
Qed.
(** A code that is no name of a shape makes reading the error fail. *)
Theorem C47_query_refuted : exists x, proper_xml x /\
  query_response_error ex_read ex_reg (lit "ns") [] 429 [] (Some x) = Some (Err SmithyErr).
Proof.
  exists (ex_body (lit "Throttled$")). split; [|reflexivity].
  constructor; [eexists; apply tag_name_iff; reflexivity|]. intros y [<- | []]. constructor; [eexists; apply tag_name_iff; reflexivity|].
  intros y [<- | [<- | []]]; (constructor; [eexists; apply tag_name_iff; reflexivity | intros y []]).
Qed.
Print Assumptions C47_query_refuted.
