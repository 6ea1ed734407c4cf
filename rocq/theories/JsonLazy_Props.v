(** C107: strings and blobs that hold JSON. *)
From Verif Require Import Base Base_Proofs Utf8_Model Utf8_Proofs PyText_Model PyDecimal_Model Json_Model Json_Spec Json_Proofs JsonLazy_Model JsonLazy_Spec JsonLazy_Proofs.
Local Open Scope N_scope.

(** What [from_json] makes is JSON that says the value, and as a blob it is the UTF-8 of
    such a text. *)
Theorem C107_text : forall float_of v r, json_able float_of v ->
  exists t j bs, from_json_string v r = mkLazy (SText t) (Some r) /\ from_json_blob v r = Ok (mkLazy (SBlob bs) (Some r)) /\
    utf8_decode bs = Ok t /\ read_json t = Some j /\ says j v.
Proof.
  intros float_of v r J. destruct (dumped _ _ J) as (j & R & S). destruct (utf8_encode_valid _ (dumps_scal _ _ J)) as [bs B].
  exists (dumps v), j, bs. split; [reflexivity|]. unfold from_json_blob. rewrite B. split; [reflexivity|]. split; [exact (utf8_roundtrip _ _ B)|].
  split; [now apply reading_json|exact S].
Qed.
Print Assumptions C107_text.

(** However often it is asked, a string or blob of JSON gives the value its text says,
    be it made from the value (then the object given is the one returned, unless it is
    empty, zero, false or null) or from a text. *)
Theorem C107_from_json : forall float_of v r h n, json_able float_of v -> nth_error h r = Some v ->
  forall s, s = from_json_string v r \/ from_json_blob v r = Ok s ->
  exists h' s' rs, calls float_of n h s = (h', s', rs, None) /\ List.length rs = n /\ l_source s' = l_source s /\
    Forall (fun q => nth_error h' q = Some v) rs /\ (~ falsy v -> Forall (eq r) rs).
Proof.
  intros float_of v r h n J Hr s Hs. destruct (dumped _ _ J) as (j & R & S). destruct (utf8_encode_valid _ (dumps_scal _ _ J)) as [bs B].
  assert (Lv : loads float_of (dumps v) = Ok v) by (unfold loads; rewrite (reading_json _ _ R); f_equal; exact (says_value _ _ _ J S)).
  assert (H : holds float_of h s v /\ l_cache s = Some r).
  { destruct Hs as [->|Hs].
    - split; [|reflexivity]. split; [exact Lv|]. cbn. intros q [= <-]. exact Hr.
    - unfold from_json_blob in Hs. rewrite B in Hs. injection Hs as <-. split; [|reflexivity]. split; [|cbn; intros q [= <-]; exact Hr].
      unfold source_loads. cbn. rewrite (utf8_roundtrip _ _ B). exact Lv. }
  destruct H as [H C]. destruct (calls_hold _ n _ _ _ H) as (new & s' & rs & E & L & Sr & F & T). exists (h ++ new), s', rs.
  rewrite truthy_solid in T. auto 10.
Qed.
Print Assumptions C107_from_json.
Theorem C107_from_text : forall float_of t j v h n src, read_json t = Some j -> says j v -> json_able float_of v ->
  src = SText t \/ (exists bs, src = SBlob bs /\ utf8_decode bs = Ok t) ->
  exists h' s' rs, calls float_of n h (mkLazy src None) = (h', s', rs, None) /\ List.length rs = n /\ l_source s' = src /\
    Forall (fun q => nth_error h' q = Some v) rs.
Proof.
  intros float_of t j v h n src R S J Hs. assert (Lv : loads float_of t = Ok v) by (unfold loads; rewrite R; f_equal; exact (says_value _ _ _ J S)).
  assert (H : holds float_of h (mkLazy src None) v).
  { split; [|discriminate]. unfold source_loads. cbn. destruct Hs as [->|(bs & -> & B)]; [exact Lv|]. rewrite B. exact Lv. }
  destruct (calls_hold _ n _ _ _ H) as (new & s' & rs & E & L & Sr & F & _). exists (h ++ new), s', rs. auto 10.
Qed.
Print Assumptions C107_from_text.

(** It is not true that the string and its value stay the same: the value is shared.  If
    the list or dict that [as_json] returned, or that [from_json] was given, is changed,
    the text stays, and the next value is the changed one; but if it is made empty, the
    next value is that of the text again. *)
Theorem C107_shared_refuted : forall float_of h s r v v' h', l_cache s = Some r -> nth_error h r = Some v -> change r v' h = Some h' ->
  (~ falsy v' -> as_json float_of h' s = Ok (h', s, r) /\ nth_error h' r = Some v') /\
  (falsy v' -> forall t w, l_source s = SText t -> loads float_of t = Ok w ->
     exists s' q, as_json float_of h' s = Ok (h' ++ [w], s', q) /\ nth_error (h' ++ [w]) q = Some w /\ q <> r).
Proof.
  intros float_of h s r v v' h' C Nr Ch. assert (R : (r < List.length h)%nat) by (apply nth_error_Some; congruence).
  assert (E : h' = firstn r h ++ v' :: skipn (S r) h).
  { unfold change in Ch. rewrite Nr in Ch. destruct v; try discriminate; destruct v'; try discriminate; now injection Ch as <-. }
  assert (Lf : List.length (firstn r h) = r) by (rewrite firstn_length; lia).
  assert (N' : nth_error h' r = Some v') by (rewrite E, nth_error_app2, Lf, Nat.sub_diag by lia; reflexivity).
  unfold as_json, cached. rewrite C, N'. split; intros T; [apply truthy_solid in T|apply truthy_falsy in T]; rewrite T; [auto|]. intros t w Sr L. rewrite Sr. cbn [bind]. rewrite L. cbn [bind].
  exists (mkLazy (SText t) (Some (List.length h'))), (List.length h'). split; [reflexivity|]. split; [apply nth_last|].
  assert (r < List.length h')%nat by (apply nth_error_Some; congruence). lia.
Qed.
Print Assumptions C107_shared_refuted.

(** Nor that everything [from_json] accepts becomes JSON: a float that is not finite does
    not, wherever in a list it is; and two surrogates in a row become one character. *)
Theorem C107_nan_refuted : forall f r, f = FNaN \/ f = FInf \/ f = FNegInf ->
  exists t, from_json_string (YFloat f) r = mkLazy (SText t) (Some r) /\ read_json t = None /\ read_json ([91] ++ t ++ [93]) = None.
Proof. intros f r [->|[->| ->]]; eexists; (split; [reflexivity|]); split; reflexivity. Qed.
Print Assumptions C107_nan_refuted.
Theorem C107_pair_refuted : forall float_of hi lo, is_high hi -> is_low lo ->
  exists c, loads float_of (dumps (YStr [hi; lo])) = Ok (YStr [c]).
Proof.
  intros float_of hi lo H L. exists (0x10000 + (hi - 0xD800) * 0x400 + (lo - 0xDC00)).
  assert (Eh : ascii_escape hi = uescape hi) by (unfold ascii_escape, is_high in *;
    repeat match goal with |- context [hi =? ?k] => destruct (N.eqb_spec hi k); [lia|] end;
    destruct ((32 <=? hi) && (hi <=? 126)) eqn:?; [lia|]; destruct (N.ltb_spec hi 0x10000); [reflexivity|lia]).
  assert (El : ascii_escape lo = uescape lo) by (unfold ascii_escape, is_low in *;
    repeat match goal with |- context [lo =? ?k] => destruct (N.eqb_spec lo k); [lia|] end;
    destruct ((32 <=? lo) && (lo <=? 126)) eqn:?; [lia|]; destruct (N.ltb_spec lo 0x10000); [reflexivity|lia]).
  assert (R : reading (dumps (YStr [hi; lo])) (JStr [0x10000 + (hi - 0xD800) * 0x400 + (lo - 0xDC00)])).
  { cbn [dumps]. unfold dumps_str. cbn [flat_map]. rewrite Eh, El, app_nil_r. split; [unfold good_head, is_ws; split; [reflexivity | lia]|]. intros fuel rest Lf S.
    destruct fuel as [|f]; [cbn in Lf; lia|]. rewrite read_value_eq. cbn [app]. rewrite skip_ws_char by reflexivity.
    change (34 =? 123) with false. change (34 =? 91) with false. change (34 =? 34) with true. cbn match.
    rewrite <- !app_assoc. rewrite (read_pair hi lo) by assumption. reflexivity. }
  unfold loads. now rewrite (reading_json _ _ R).
Qed.
Print Assumptions C107_pair_refuted.

(** A dict with a list of a number, a float and a string beyond ASCII. *)
Definition ex_float (d : decimal) : float := FFin (mkDec true 5 (-1)).
Definition ex_value : pyval :=
  YDict [(lit "k", YList [YInt 1; YFloat (FFin (mkDec true 5 (-1))); YStr [0xE9; 0x10000]]); ([], YNull)].
Lemma unpaired_two c d : c < 0xD800 -> d < 0x110000 -> unpaired [c; d].
Proof.
  intros C D. split; [constructor; [lia|constructor; [exact D|constructor]]|]. intros x a b y E [H _]. unfold is_high in H.
  destruct x as [|? [|? [|? ?]]]; injection E; intros; subst; try lia; try discriminate. 
Qed.
Example C107_ex : json_able ex_float ex_value /\ ~ falsy ex_value /\
  dumps ex_value = lit "{""k"": [1, -0.5, ""\u00e9\ud800\udc00""], """": null}".
Proof.
  split; [|split; [apply truthy_solid|]; reflexivity]. constructor; [repeat constructor; cbn; intuition discriminate|]. constructor; [split; cbn [fst snd]|constructor; [split; cbn [fst snd]|constructor]].
  - split; [constructor; [reflexivity|constructor]|]. intros [|? [|? ?]] c d y; discriminate.
  - constructor. constructor; [constructor|]. constructor; [constructor; split; [discriminate|reflexivity]|]. constructor; [|constructor].
    constructor. apply unpaired_two; reflexivity.
  - split; [constructor|]. intros [|? ?] c d y; discriminate.
  - constructor.
Qed.
(** An empty dict, which is read again each time, and a list that is changed. *)
Example C107_ex_calls :
  calls ex_float 3 [YDict []] (from_json_string (YDict []) 0) = ([YDict []; YDict []; YDict []; YDict []], mkLazy (SText (lit "{}")) (Some 3%nat), [1; 2; 3]%nat, None) /\
  change 0 (YList [YNull]) [YList [YBool true]] = Some [YList [YNull]].
Proof. split; reflexivity. Qed.
