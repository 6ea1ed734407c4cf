(** [json.dumps] and [json.loads] are inverse; the cache of [as_json]. *)
From Verif Require Import Base Base_Proofs Utf8_Model Utf8_Proofs PyText_Model PySort_Model PyDict_Model PyDecimal_Model Json_Model Json_Spec JsonNum_Proofs Json_Proofs JsonLazy_Model JsonLazy_Spec.
Local Open Scope N_scope.

Lemma join_two (s t u : text) ts : join s (t :: u :: ts) = t ++ s ++ join s (u :: ts).
Proof. reflexivity. Qed.

(** ** Strings *)

Lemma hex4_u n : n < 0x10000 -> hex4 (hex_char (n / 4096 mod 16)) (hex_char (n / 256 mod 16)) (hex_char (n / 16 mod 16)) (hex_char (n mod 16)) = Some n.
Proof.
  intros H. unfold hex4. rewrite !hex_val_char by (apply N.mod_lt; lia). f_equal.
  rewrite (N.mod_small (n / 4096)) by (apply N.div_lt_upper_bound; lia).
  assert (A := N.div_mod n 16 ltac:(lia)). assert (B := N.div_mod (n / 16) 16 ltac:(lia)). assert (C := N.div_mod (n / 256) 16 ltac:(lia)).
  rewrite N.div_div in B by lia. rewrite N.div_div in C by lia. change (16 * 16) with 256 in B. change (256 * 16) with 4096 in C. lia.
Qed.

(** The text goes on with the escape of a low surrogate. *)
Definition next_low (r : text) : Prop :=
  match r with
  | b :: e :: g1 :: g2 :: g3 :: g4 :: _ => b = 92 /\ e = 117 /\ exists v, hex4 g1 g2 g3 g4 = Some v /\ is_low v
  | _ => False
  end.
Lemma read_uescape n r : n < 0x10000 -> (is_high n -> ~ next_low r) -> read_string (uescape n ++ r) = cons_char n (read_string r).
Proof.
  intros H L. unfold uescape. cbn [app]. assert (E := hex4_u n H).
  generalize dependent (hex_char (n / 4096 mod 16)). generalize dependent (hex_char (n / 256 mod 16)). generalize dependent (hex_char (n / 16 mod 16)). generalize dependent (hex_char (n mod 16)).
  intros a b c d E.
  cbn [read_string]. change (92 =? 34) with false. change (92 <? 32) with false. change (92 =? 92) with true. cbn match. change (117 =? 117) with true. cbn match. rewrite E.
  destruct ((0xD800 <=? n) && (n <? 0xDC00)) eqn:Hi; [|reflexivity].
  assert (Hn : is_high n) by (unfold is_high; lia). specialize (L Hn).
  destruct r as [|b0 [|e0 [|g1 [|g2 [|g3 [|g4 r]]]]]]; try reflexivity.
  destruct ((b0 =? 92) && (e0 =? 117)) eqn:Q; [|reflexivity]. destruct (hex4 g1 g2 g3 g4) as [v|] eqn:G; [|reflexivity].
  destruct ((0xDC00 <=? v) && (v <? 0xE000)) eqn:Lo; [|reflexivity].
  exfalso. apply L. cbn. split; [lia|]. split; [lia|]. exists v. split; [exact G|unfold is_low; lia].
Qed.
Lemma read_pair hi lo r : is_high hi -> is_low lo ->
  read_string (uescape hi ++ uescape lo ++ r) = cons_char (0x10000 + (hi - 0xD800) * 0x400 + (lo - 0xDC00)) (read_string r).
Proof.
  intros H L. assert (E := hex4_u hi ltac:(unfold is_high in H; lia)). assert (F := hex4_u lo ltac:(unfold is_low in L; lia)). unfold uescape. cbn [app].
  generalize dependent (hex_char (hi / 4096 mod 16)). generalize dependent (hex_char (hi / 256 mod 16)). generalize dependent (hex_char (hi / 16 mod 16)). generalize dependent (hex_char (hi mod 16)).
  generalize dependent (hex_char (lo / 4096 mod 16)). generalize dependent (hex_char (lo / 256 mod 16)). generalize dependent (hex_char (lo / 16 mod 16)). generalize dependent (hex_char (lo mod 16)).
  intros a b c d F a' b' c' d' E.
  cbn [read_string]. change (92 =? 34) with false. change (92 <? 32) with false. change (92 =? 92) with true. cbn match. change (117 =? 117) with true. cbn match. rewrite E.
  replace ((0xD800 <=? hi) && (hi <? 0xDC00)) with true by (unfold is_high in H; lia). cbn [andb]. rewrite F.
  now replace ((0xDC00 <=? lo) && (lo <? 0xE000)) with true by (unfold is_low in L; lia).
Qed.

(** What the escape of a character begins with. *)
Lemma next_low_escape c r : c < 0x110000 -> next_low (ascii_escape c ++ r) -> is_low c.
Proof.
  intros B. unfold ascii_escape.
  repeat match goal with |- context [c =? ?k] => destruct (N.eqb_spec c k); [intros H; exfalso; cbn in H; destruct r as [|? [|? [|? [|? ?]]]]; cbn in H; try contradiction; destruct H as (? & ? & _); discriminate|] end.
  destruct ((32 <=? c) && (c <=? 126)) eqn:P.
  { intros H. exfalso. cbn in H. destruct r as [|? [|? [|? [|? [|? ?]]]]]; try contradiction. destruct H as (H & _). lia. }
  destruct (N.ltb_spec c 0x10000) as [S|S].
  - intros H. unfold uescape in H. cbn [app next_low] in H. destruct H as (_ & _ & v & E & L). rewrite (hex4_u c S) in E. injection E as <-. exact L.
  - intros H. exfalso. set (hi := 0xD800 + (c - 0x10000) / 0x400 mod 0x400) in H.
    assert (Hi : hi < 0xDC00) by (unfold hi; assert (X := N.mod_lt ((c - 0x10000) / 0x400) 0x400 ltac:(lia)); lia).
    unfold uescape at 1 in H. cbn [app next_low] in H. destruct H as (_ & _ & v & E & L). rewrite (hex4_u hi) in E by lia. injection E as <-. unfold is_low in L. lia.
Qed.

Lemma read_ascii c r : c < 0x110000 -> (is_high c -> ~ next_low r) -> read_string (ascii_escape c ++ r) = cons_char c (read_string r).
Proof.
  intros B L. unfold ascii_escape.
  destruct (N.eqb_spec c 92); [subst; now apply read_simple|].
  destruct (N.eqb_spec c 34); [subst; now apply read_simple|].
  destruct (N.eqb_spec c 10); [subst; now apply read_simple|].
  destruct (N.eqb_spec c 13); [subst; now apply read_simple|].
  destruct (N.eqb_spec c 9); [subst; now apply read_simple|].
  destruct (N.eqb_spec c 8); [subst; now apply read_simple|].
  destruct (N.eqb_spec c 12); [subst; now apply read_simple|].
  destruct ((32 <=? c) && (c <=? 126)) eqn:P; [cbn [app]; apply read_plain_char; unfold must_escape; lia|].
  destruct (N.ltb_spec c 0x10000) as [S|S]; [now apply read_uescape|].
  set (m := c - 0x10000). assert (M : m < 0x100000) by (unfold m; lia).
  assert (Dm := N.div_mod m 0x400 ltac:(lia)). assert (Lm := N.mod_lt m 0x400 ltac:(lia)).
  assert (Q : m / 0x400 < 0x400) by (apply N.div_lt_upper_bound; lia).
  rewrite (N.mod_small (m / 0x400)) by exact Q. rewrite <- app_assoc. rewrite read_pair by (unfold is_high, is_low; lia). f_equal.
  replace (0xD800 + m / 0x400 - 0xD800) with (m / 0x400) by lia. replace (0xDC00 + m mod 0x400 - 0xDC00) with (m mod 0x400) by lia. unfold m in *. lia.
Qed.

Lemma unpaired_cons c s : unpaired (c :: s) -> c < 0x110000 /\ unpaired s /\ (is_high c -> match s with d :: _ => ~ is_low d | [] => True end).
Proof.
  intros [A B]. inversion A; subst. split; [assumption|]. split.
  - split; [assumption|]. intros x e d y E. apply (B (c :: x) e d y). now rewrite E.
  - intros H. destruct s as [|d s]; [exact I|]. intros L. exact (B [] c d s eq_refl (conj H L)).
Qed.
Lemma read_dumped s rest : unpaired s -> read_string (flat_map ascii_escape s ++ 34 :: rest) = Some (s, rest).
Proof.
  induction s as [|c s IH]; intros U; [reflexivity|]. apply unpaired_cons in U as (B & U & N).
  cbn [flat_map]. rewrite <- app_assoc, read_ascii; [now rewrite (IH U)|exact B|].
  intros H. specialize (N H). destruct s as [|d s].
  - cbn. intros X. destruct rest as [|? [|? [|? [|? [|? ?]]]]]; try contradiction. destruct X as (X & _). discriminate.
  - apply unpaired_cons in U as (Bd & _). cbn [flat_map]. rewrite <- app_assoc. intros X. apply N. exact (next_low_escape _ _ Bd X).
Qed.
Lemma reading_dumped s : unpaired s -> reading (dumps_str s) (JStr s).
Proof.
  intros U. unfold dumps_str. split; [unfold good_head, is_ws; split; [reflexivity | lia]|]. intros fuel rest L S.
  destruct fuel as [|f]; [cbn in L; lia|]. rewrite read_value_eq.
  cbn [app]. rewrite skip_ws_char by reflexivity. change (34 =? 123) with false. change (34 =? 91) with false. change (34 =? 34) with true.
  cbn match. rewrite <- app_assoc. cbn [app]. now rewrite read_dumped.
Qed.

(** ** Lists and dicts, with a space after the comma and the colon *)

Lemma read_value_space f s : read_value f (32 :: s) = read_value f s.
Proof. destruct f; [reflexivity|]. rewrite !read_value_eq. reflexivity. Qed.
Lemma read_elements_space f s : read_elements f (32 :: s) = read_elements f s.
Proof. destruct f; [reflexivity|]. rewrite !read_elements_eq, read_value_space. reflexivity. Qed.
Lemma read_members_space f s : read_members f (32 :: s) = read_members f s.
Proof. destruct f; [reflexivity|]. rewrite !read_members_eq. reflexivity. Qed.

Lemma elements_dumped ts : forall js fuel rest, Forall2 reading ts js -> ts <> [] ->
  (2 * List.length (join (lit ", ") ts) + 1 <= fuel)%nat -> read_elements fuel (join (lit ", ") ts ++ 93 :: rest) = Some (js, rest).
Proof.
  induction ts as [|t ts IH]; intros js fuel rest H N L; [now elim N|].
  inversion H as [|? j ? js' Ht Hts]; subst. destruct fuel as [|f]; [lia|]. rewrite read_elements_eq.
  destruct Ht as [_ Ht]. destruct ts as [|u ts].
  - inversion Hts; subst. cbn [join] in *. rewrite Ht by (first [lia | apply stop_char; reflexivity]).
    rewrite skip_ws_char by reflexivity. change (93 =? 93) with true. reflexivity.
  - rewrite join_two in *. rewrite !app_length in L. change (List.length (lit ", ")) with 2%nat in L.
    rewrite <- app_assoc. change (lit ", ") with [44; 32] at 1. cbn [app].
    rewrite Ht by (first [lia | apply stop_char; reflexivity]). rewrite skip_ws_char by reflexivity. change (44 =? 93) with false. change (44 =? 44) with true. cbn match.
    rewrite read_elements_space. rewrite (IH js'); [reflexivity | exact Hts | discriminate | lia].
Qed.
Definition entry_text (k : text) (t : text) : text := dumps_str k ++ lit ": " ++ t.
Lemma members_dumped l : forall fuel rest, Forall (fun a : text * (text * json) => unpaired (fst a) /\ reading (fst (snd a)) (snd (snd a))) l -> l <> [] ->
  (2 * List.length (join (lit ", ") (map (fun a => entry_text (fst a) (fst (snd a))) l)) + 1 <= fuel)%nat ->
  read_members fuel (join (lit ", ") (map (fun a => entry_text (fst a) (fst (snd a))) l) ++ 125 :: rest)
  = Some (map (fun a => (fst a, snd (snd a))) l, rest).
Proof.
  induction l as [|[k [t j]] l IH]; intros fuel rest H N L; [now elim N|].
  inversion H as [|? ? [Hu Ht] Hts]; subst. cbn [fst snd] in Hu, Ht. destruct fuel as [|f]; [lia|]. rewrite read_members_eq.
  destruct Ht as [_ Ht].
  assert (K : forall x, entry_text k t ++ x = 34 :: flat_map ascii_escape k ++ 34 :: 58 :: 32 :: t ++ x).
  { intros x. unfold entry_text, dumps_str. change (lit ": ") with [58; 32]. cbn [app]. f_equal. rewrite <- !app_assoc. cbn [app]. reflexivity. }
  assert (KL : (List.length t + 4 <= List.length (entry_text k t))%nat).
  { unfold entry_text, dumps_str. change (lit ": ") with [58; 32]. rewrite !app_length. cbn [List.length]. rewrite app_length. cbn [List.length]. lia. }
  destruct l as [|[k2 [t2 j2]] l].
  - cbn [map fst snd join] in *. rewrite K. rewrite skip_ws_char by reflexivity. change (34 =? 34) with true. cbn match.
    rewrite (read_dumped _ _ Hu). rewrite skip_ws_char by reflexivity. change (58 =? 58) with true. cbn match. rewrite read_value_space.
    rewrite Ht by (first [lia | apply stop_char; reflexivity]). rewrite skip_ws_char by reflexivity. change (125 =? 125) with true. reflexivity.
  - cbn [map fst snd] in *. rewrite join_two in *. rewrite !app_length in L. change (List.length (lit ", ")) with 2%nat in L.
    rewrite <- app_assoc. rewrite K. rewrite skip_ws_char by reflexivity. change (34 =? 34) with true. cbn match.
    rewrite (read_dumped _ _ Hu). rewrite skip_ws_char by reflexivity. change (58 =? 58) with true. cbn match. rewrite read_value_space.
    rewrite <- app_assoc. change (lit ", ") with [44; 32] at 1. cbn [app]. rewrite Ht by (first [lia | apply stop_char; reflexivity]).
    rewrite skip_ws_char by reflexivity. change (44 =? 125) with false. change (44 =? 44) with true. cbn match. rewrite read_members_space.
    rewrite IH; [reflexivity | exact Hts | discriminate | lia].
Qed.
Lemma reading_dumped_list ts js : Forall2 reading ts js -> reading ([91] ++ join (lit ", ") ts ++ [93]) (JArr js).
Proof.
  intros H. split; [repeat split; discriminate|]. intros fuel rest L S. rewrite !app_length in L. cbn [List.length] in L.
  destruct fuel as [|f]; [lia|]. rewrite read_value_eq. cbn [app]. rewrite skip_ws_char by reflexivity.
  change (91 =? 123) with false. change (91 =? 91) with true. cbn match. rewrite <- app_assoc. cbn [app].
  destruct ts as [|t ts].
  - inversion H; subst. cbn [join app]. rewrite skip_ws_char by reflexivity. reflexivity.
  - assert (G : good_head (join (lit ", ") (t :: ts))).
    { inversion H as [|? ? ? ? [Ht _] _]; subst. destruct t as [|h t']; [destruct Ht|].
      destruct ts; [exact Ht | rewrite join_two; exact Ht]. }
    rewrite skip_ws_head by exact G. assert (E := elements_dumped _ _ f rest H ltac:(discriminate) ltac:(lia)).
    destruct (join (lit ", ") (t :: ts)) as [|h u] eqn:J; [destruct G|]. cbn [app] in *. destruct G as (_ & G & _).
    replace (h =? 93) with false by lia. now rewrite E.
Qed.
Lemma reading_dumped_dict (l : list (text * (text * json))) : Forall (fun a => unpaired (fst a) /\ reading (fst (snd a)) (snd (snd a))) l ->
  reading ([123] ++ join (lit ", ") (map (fun a => entry_text (fst a) (fst (snd a))) l) ++ [125])
          (JObj (map (fun a => (fst a, snd (snd a))) l)).
Proof.
  intros H. split; [repeat split; discriminate|]. intros fuel rest L S. rewrite !app_length in L. cbn [List.length] in L.
  destruct fuel as [|f]; [lia|]. rewrite read_value_eq. cbn [app]. rewrite skip_ws_char by reflexivity.
  change (123 =? 123) with true. cbn match. rewrite <- app_assoc. cbn [app].
  destruct l as [|a l].
  - cbn [map join app]. rewrite skip_ws_char by reflexivity. reflexivity.
  - assert (E := members_dumped _ f rest H ltac:(discriminate)). specialize (E ltac:(lia)).
    assert (G : exists u, join (lit ", ") (map (fun a => entry_text (fst a) (fst (snd a))) (a :: l)) = 34 :: u).
    { destruct l; cbn [map]; [eexists; reflexivity | rewrite join_two; eexists; reflexivity]. }
    destruct G as [u G]. rewrite G in *. cbn [app] in *. rewrite skip_ws_char by reflexivity.
    change (34 =? 125) with false. cbn match. now rewrite E.
Qed.

(** ** Values *)

Section PyvalInd.
  Variable P : pyval -> Prop.
  Hypothesis Hn : P YNull.
  Hypothesis Hb : forall b, P (YBool b).
  Hypothesis Hi : forall z, P (YInt z).
  Hypothesis Hf : forall f, P (YFloat f).
  Hypothesis Hs : forall s, P (YStr s).
  Hypothesis Hl : forall l, Forall P l -> P (YList l).
  Hypothesis Hd : forall l, Forall (fun a => P (snd a)) l -> P (YDict l).
  Fixpoint pyval_ind' (v : pyval) : P v :=
    match v with
    | YNull => Hn | YBool b => Hb b | YInt z => Hi z | YFloat f => Hf f | YStr s => Hs s
    | YList l => Hl l ((fix go l : Forall P l := match l with [] => Forall_nil _ | x :: r => Forall_cons _ (pyval_ind' x) (go r) end) l)
    | YDict l => Hd l ((fix go l : Forall (fun a : text * pyval => P (snd a)) l :=
        match l with [] => Forall_nil _ | x :: r => Forall_cons _ (pyval_ind' (snd x)) (go r) end) l)
    end.
End PyvalInd.

Section Values.
  Variable float_of : decimal -> float.

  Lemma dict_set_new {A} k (v : A) d : ~ In k (map fst d) -> dict_set k v d = d ++ [(k, v)].
  Proof.
    induction d as [|[k' v'] d IH]; intros N; [reflexivity|]. cbn [dict_set app map fst] in *.
    destruct (text_eqb k k') eqn:E; [apply text_eqb_eq in E; subst; elim N; now left|]. rewrite IH; [reflexivity|]. intros I. apply N. now right.
  Qed.
  Lemma dict_of {A} (l : list (text * A)) : forall d, NoDup (map fst (d ++ l)) -> fold_left (fun d a => dict_set (fst a) (snd a) d) l d = d ++ l.
  Proof.
    induction l as [|[k v] l IH]; intros d N; [now rewrite app_nil_r|]. cbn [fold_left fst snd]. rewrite dict_set_new.
    - rewrite IH; rewrite <- app_assoc; [reflexivity|exact N].
    - rewrite map_app in N. cbn [map fst] in N. apply NoDup_remove_2 in N. intros I. apply N, in_app_iff. now left.
  Qed.

  Lemma number_says d n : integral n = false -> same_value (num_value n) (dec_value d) -> n_neg n = d_neg d -> exact float_of d -> number_of float_of n = YFloat (FFin d).
  Proof.
    intros I V Ng [_ E]. unfold number_of. destruct (num_value n) as [m e] eqn:Q. rewrite I. f_equal. apply E; [|exact Ng].
    unfold dec_value at 1. cbn [d_neg d_coeff d_exp]. replace (if n_neg n then (- Z.of_N (Z.abs_N m))%Z else Z.of_N (Z.abs_N m)) with m; [exact V|].
    unfold num_value in Q. injection Q as Q _. destruct (n_neg n); lia.
  Qed.

  Lemma says_value v j : json_able float_of v -> says j v -> value_of float_of j = v.
  Proof.
    revert j. induction v using pyval_ind'; intros j J S; inversion S; subst; cbn [value_of]; try reflexivity.
    - unfold number_of. match goal with X : num_value _ = _ |- _ => rewrite X end. match goal with X : integral _ = _ |- _ => now rewrite X end.
    - inversion J; subst. now apply number_says.
    - f_equal. inversion J as [| | | | |? Jl|]; subst. clear S J. match goal with X : Forall2 _ js l |- _ => induction X end; [reflexivity|].
      inversion H; subst. inversion Jl; subst. cbn [map]. f_equal; auto.
    - f_equal. inversion J as [| | | | | |? Nd Jl]; subst. clear S J.
      assert (E : map (fun a => (fst a, value_of float_of (snd a))) js = l).
      { clear Nd. match goal with X : Forall2 _ js l |- _ => induction X as [|[k x] [k' y] js l [Ek Sx] _ IH] end; [reflexivity|].
        cbn [fst snd] in *. subst k'. inversion H; subst. inversion Jl as [|? ? [_ Jy] ?]; subst. cbn [map fst snd] in *. f_equal; [f_equal; auto|auto]. }
      rewrite E. exact (dict_of l [] Nd).
  Qed.

  Lemma dumped v : json_able float_of v -> exists j, reading (dumps v) j /\ says j v.
  Proof.
    induction v using pyval_ind'; intros J; inversion J; subst.
    - exists JNull. split; [apply reading_null|constructor].
    - exists (JBool b). split; [apply reading_bool|constructor].
    - destruct (int_written z) as (t & n & _ & R & V & I). exists (JNum (Z_num z)). split.
      + cbn [dumps]. rewrite dec_Z_text. apply (reading_number _ _ _ None); [apply dec_int | intros c [] | exact Logic.I].
      + constructor; [reflexivity|apply Z_num_value].
    - match goal with X : exact _ _ |- _ => destruct X as [Z0 _] end. destruct (float_text_form d Z0) as (i & g & e & E & I & F & X & V & Y).
      exists (JNum (mkNum (d_neg d) i g (exp_val e))). cbn [dumps dumps_float]. rewrite E. split; [now apply reading_number|].
      constructor; [|exact V|reflexivity]. unfold integral. cbn [n_frac n_exp]. destruct g; [|reflexivity]. destruct (exp_val e); [reflexivity|]. now destruct Y as [Y|Y]; elim Y.
    - exists (JStr s). split; [now apply reading_dumped|constructor].
    - assert (G : exists js, Forall2 reading (map dumps l) js /\ Forall2 says js l).
      { clear J. induction H as [|x l Px _ IH]; [exists []; split; constructor|]. inversion H1; subst. destruct (Px ltac:(assumption)) as (j & R & S).
        destruct (IH ltac:(assumption)) as (js & Rs & Ss). exists (j :: js). split; constructor; assumption. }
      destruct G as (js & R & S). exists (JArr js). split; [apply reading_dumped_list, R|now constructor].
    - assert (G : exists q : list (text * (text * json)), map (fun a => entry_text (fst a) (fst (snd a))) q = map (fun a => dumps_str (fst a) ++ lit ": " ++ dumps (snd a)) l
          /\ Forall (fun a => unpaired (fst a) /\ reading (fst (snd a)) (snd (snd a))) q
          /\ Forall2 (fun a b => fst a = fst b /\ says (snd a) (snd b)) (map (fun a => (fst a, snd (snd a))) q) l).
      { clear J. match goal with X : NoDup _ |- _ => clear X end. induction H as [|[k x] l Px _ IH]; [exists []; repeat split; constructor|].
        match goal with X : Forall _ (_ :: _) |- _ => inversion X as [|? ? [Uk Jx] Jl]; subst end. cbn [fst snd] in *. destruct (Px Jx) as (j & R & S).
        destruct (IH Jl) as (q & E & A & B). exists ((k, (dumps x, j)) :: q). cbn [map fst snd]. split; [now rewrite E|].
        split; constructor; cbn; auto. }
      destruct G as (q & E & A & B). exists (JObj (map (fun a => (fst a, snd (snd a))) q)). split; [|now constructor].
      cbn [dumps]. rewrite <- E. now apply reading_dumped_dict.
  Qed.
End Values.

(** ** [dumps] can be encoded *)

Definition scal (t : text) : Prop := forallb is_scalar t = true.
Lemma scal_app a b : scal a -> scal b -> scal (a ++ b).
Proof. unfold scal. rewrite forallb_app. intros -> ->. reflexivity. Qed.
Lemma scal_join s l : scal s -> Forall scal l -> scal (join s l).
Proof.
  intros S. induction l as [|x [|y l] IH]; intros H; [reflexivity|inversion H; subst; assumption|].
  rewrite join_two. inversion H; subst. apply scal_app; [assumption|]. apply scal_app; auto.
Qed.
Lemma uescape_scal n : scal (uescape n).
Proof.
  unfold scal, uescape. cbn [forallb]. assert (G : forall x, is_scalar (hex_char (x mod 16)) = true).
  { intros x. assert (R := hex_char_range (x mod 16) ltac:(apply N.mod_lt; lia)). unfold is_scalar. lia. }
  rewrite !G. reflexivity.
Qed.
Lemma escape_scal c : scal (ascii_escape c).
Proof.
  unfold ascii_escape. repeat match goal with |- context [c =? ?k] => destruct (c =? k); [reflexivity|] end.
  destruct ((32 <=? c) && (c <=? 126)) eqn:P; [unfold scal, is_scalar; cbn [forallb]; lia|]. destruct (c <? 0x10000); [apply uescape_scal|apply scal_app; apply uescape_scal].
Qed.
Lemma dumps_str_scal s : scal (dumps_str s).
Proof.
  unfold dumps_str. apply (scal_app [34]); [reflexivity|]. apply scal_app; [|reflexivity]. induction s as [|c s IH]; [reflexivity|]. cbn [flat_map]. apply scal_app; [apply escape_scal|exact IH].
Qed.
Lemma dumps_scal float_of v : json_able float_of v -> scal (dumps v).
Proof.
  induction v using pyval_ind'; intros J; inversion J; subst.
  - reflexivity.
  - destruct b; reflexivity.
  - cbn [dumps]. rewrite dec_Z_text. apply num_text_ascii; [apply dec_int | intros c [] | exact I].
  - match goal with X : exact _ _ |- _ => destruct X as [Z0 _] end. destruct (float_text_form d Z0) as (i & g & e & E & Hi & F & X & _).
    cbn [dumps dumps_float]. rewrite E. now apply num_text_ascii.
  - apply dumps_str_scal.
  - cbn [dumps]. apply (scal_app [91]); [reflexivity|]. apply scal_app; [|reflexivity]. apply scal_join; [reflexivity|]. clear J.
    induction H as [|x l Px _ IH]; [constructor|]. inversion H1; subst. cbn [map]. constructor; auto.
  - cbn [dumps]. apply (scal_app [123]); [reflexivity|]. apply scal_app; [|reflexivity]. apply scal_join; [reflexivity|]. clear J.
    match goal with X : NoDup _ |- _ => clear X end. induction H as [|[k x] l Px _ IH]; [constructor|].
    match goal with X : Forall _ (_ :: _) |- _ => inversion X as [|? ? [Uk Jx] Jl]; subst end. cbn [map fst snd] in *.
    constructor; [|auto]. apply scal_app; [apply dumps_str_scal|]. apply scal_app; [reflexivity|auto].
Qed.

(** ** The cache *)

Section Cache.
  Variable float_of : decimal -> float.
  Notation as_json := (as_json float_of).
  Notation calls := (calls float_of).

  Definition source_loads (s : source) : result pyval :=
    do t <- match s with SText t => Ok t | SBlob bs => utf8_decode bs end; loads float_of t.
  Definition holds (h : heap) (s : lazy) (v : pyval) : Prop :=
    source_loads (l_source s) = Ok v /\ forall r, l_cache s = Some r -> nth_error h r = Some v.

  Lemma nth_last {A} (l : list A) x : nth_error (l ++ [x]) (List.length l) = Some x.
  Proof. now rewrite nth_error_app2, Nat.sub_diag. Qed.
  Lemma as_json_holds h s v : holds h s v ->
    exists new s' r, as_json h s = Ok (h ++ new, s', r) /\ holds (h ++ new) s' v /\ l_source s' = l_source s /\ l_cache s' = Some r /\ nth_error (h ++ new) r = Some v /\
      (if truthy v then forall r0, l_cache s = Some r0 -> r = r0 else r = List.length h).
  Proof.
    intros [L C]. unfold JsonLazy_Model.as_json, cached.
    assert (Load : forall t : text, (match l_source s with SText t => Ok t | SBlob bs => utf8_decode bs end) = Ok t -> loads float_of t = Ok v ->
      exists new s' r, Ok (h ++ [v], mkLazy (l_source s) (Some (List.length h)), List.length h) = Ok (h ++ new, s', r) /\ holds (h ++ new) s' v /\ l_source s' = l_source s
        /\ l_cache s' = Some r /\ nth_error (h ++ new) r = Some v /\ r = List.length h).
    { intros t Et Lt. exists [v], (mkLazy (l_source s) (Some (List.length h))), (List.length h). split; [reflexivity|].
      split; [split; [exact L|]; cbn; intros r [= <-]; apply nth_last|]. split; [reflexivity|]. split; [reflexivity|]. split; [apply nth_last|reflexivity]. }
    unfold source_loads in L. destruct (match l_source s with SText t => Ok t | SBlob bs => utf8_decode bs end) as [t|e] eqn:Et; [|discriminate]. cbn [bind] in L.
    cbn [bind]. rewrite L. cbn [bind]. destruct (Load t eq_refl L) as (new & s' & r & E & H1 & H2 & H3 & H4 & H5).
    destruct (l_cache s) as [r0|] eqn:Cr.
    - rewrite (C r0 eq_refl). destruct (truthy v).
      + exists [], s, r0. rewrite app_nil_r. split; [reflexivity|]. split; [split; [unfold source_loads; now rewrite Et|rewrite Cr; exact C]|].
        split; [reflexivity|]. split; [exact Cr|]. split; [exact (C r0 eq_refl)|]. intros r1 [= <-]. reflexivity.
      + exists new, s', r. auto 10.
    - exists new, s', r. split; [exact E|]. split; [exact H1|]. split; [exact H2|]. split; [exact H3|]. split; [exact H4|]. destruct (truthy v); [discriminate|exact H5].
  Qed.
  Lemma calls_hold n : forall h s v, holds h s v ->
    exists new s' rs, calls n h s = (h ++ new, s', rs, None) /\ List.length rs = n /\ l_source s' = l_source s /\ Forall (fun r => nth_error (h ++ new) r = Some v) rs /\
      (truthy v = true -> forall r, l_cache s = Some r -> Forall (eq r) rs).
  Proof.
    induction n as [|n IH]; intros h s v H.
    - exists [], s, []. rewrite app_nil_r. repeat split; constructor.
    - destruct (as_json_holds h s v H) as (new & s' & r & E & H' & Src & Ca & Nr & Tr). cbn [JsonLazy_Model.calls]. rewrite E.
      destruct (IH _ _ _ H') as (new2 & s2 & rs & E2 & Ln & Src2 & Fa & Tr2). rewrite E2. exists (new ++ new2), s2, (r :: rs). rewrite app_assoc.
      split; [reflexivity|]. split; [cbn; now rewrite Ln|]. split; [now rewrite Src2|]. split.
      + constructor; [|exact Fa]. rewrite nth_error_app1; [exact Nr|]. apply nth_error_Some. congruence.
      + intros T r0 C0. rewrite T in Tr. rewrite (Tr r0 C0) in *. constructor; [reflexivity|]. exact (Tr2 T r0 Ca).
  Qed.
End Cache.

Lemma truthy_falsy v : truthy v = false <-> falsy v.
Proof.
  unfold falsy. split.
  - destruct v as [|b|z|f|s|l|l]; cbn.
    + auto.
    + intros ->. auto.
    + destruct (Z.eqb_spec z 0); [subst; auto|discriminate].
    + destruct f as [| | |d]; try discriminate. destruct (N.eqb_spec (d_coeff d) 0); [|discriminate]. intros _. do 3 right. left. eauto.
    + destruct s; [auto 10|discriminate].
    + destruct l; [auto 10|discriminate].
    + destruct l; [auto 10|discriminate].
  - intros [->|[->|[->|[(d & -> & D)|[->|[->| ->]]]]]]; try reflexivity. cbn. now rewrite D.
Qed.
Lemma truthy_solid v : truthy v = true <-> ~ falsy v.
Proof. rewrite <- truthy_falsy. destruct (truthy v); split; congruence. Qed.
