(** The text of a value is JSON for that value. *)
From Verif Require Import Base Base_Proofs Utf8_Model Utf8_Proofs PyText_Model PyText_Proofs PySort_Model PySort_Proofs PyDict_Model PyDecimal_Model PyDecimal_Proofs Base64_Model Base64_Proofs Base64_Spec Base64Rfc_Proofs Json_Model Json_Spec JsonNum_Proofs.
Local Open Scope N_scope.

(** ** Induction over nested values *)
Section PlainInd.
  Variable P : plain -> Prop.
  Hypothesis Hn : P PNull.
  Hypothesis Hb : forall b, P (PBool b).
  Hypothesis Hi : forall z, P (PInt z).
  Hypothesis Hd : forall d, P (PDec d).
  Hypothesis Hs : forall s, P (PStr s).
  Hypothesis Hl : forall l, Forall P l -> P (PList l).
  Hypothesis Hm : forall l, Forall (fun a => P (snd a)) l -> P (PDict l).
  Fixpoint plain_ind' (p : plain) : P p :=
    match p with
    | PNull => Hn | PBool b => Hb b | PInt z => Hi z | PDec d => Hd d | PStr s => Hs s
    | PList l => Hl l ((fix go l : Forall P l := match l with [] => Forall_nil _ | x :: r => Forall_cons _ (plain_ind' x) (go r) end) l)
    | PDict l => Hm l ((fix go l : Forall (fun a : text * plain => P (snd a)) l :=
        match l with [] => Forall_nil _ | x :: r => Forall_cons _ (plain_ind' (snd x)) (go r) end) l)
    end.
End PlainInd.
Section ValueInd.
  Variable P : value -> Prop.
  Hypothesis Hn : P VNull.
  Hypothesis Hb : forall b, P (VBool b).
  Hypothesis Hi : forall z, P (VInt z).
  Hypothesis Hf : forall f, P (VFloat f).
  Hypothesis Hd : forall d, P (VDecimal d).
  Hypothesis Hs : forall s, P (VStr s).
  Hypothesis Hx : forall bs, P (VBlob bs).
  Hypothesis Ht : forall a t, P (VTime a t).
  Hypothesis Hr : forall n l, Forall (fun a => P (snd a)) l -> P (VStruct n l).
  Hypothesis Hl : forall l, Forall P l -> P (VList l).
  Hypothesis Hm : forall l, Forall (fun a => P (snd a)) l -> P (VMap l).
  Hypothesis Ho : forall p, P (VDoc p).
  Fixpoint value_ind' (v : value) : P v :=
    match v with
    | VNull => Hn | VBool b => Hb b | VInt z => Hi z | VFloat f => Hf f | VDecimal d => Hd d | VStr s => Hs s
    | VBlob bs => Hx bs | VTime a t => Ht a t
    | VStruct n l => Hr n l ((fix go l : Forall (fun a : text * value => P (snd a)) l :=
        match l with [] => Forall_nil _ | x :: r => Forall_cons _ (value_ind' (snd x)) (go r) end) l)
    | VList l => Hl l ((fix go l : Forall P l := match l with [] => Forall_nil _ | x :: r => Forall_cons _ (value_ind' x) (go r) end) l)
    | VMap l => Hm l ((fix go l : Forall (fun a : text * value => P (snd a)) l :=
        match l with [] => Forall_nil _ | x :: r => Forall_cons _ (value_ind' (snd x)) (go r) end) l)
    | VDoc p => Ho p
    end.
End ValueInd.

(** ** Writing a text *)
Definition writes (w : W) (t : text) : Prop := exists bs, utf8_encode t = Ok bs /\ w = (bs, None).
Lemma utf8_encode_app a : forall b x y, utf8_encode a = Ok x -> utf8_encode b = Ok y -> utf8_encode (a ++ b) = Ok (x ++ y).
Proof.
  induction a as [|c a IH]; intros b x y A B; cbn [app utf8_encode] in *.
  - injection A as <-. exact B.
  - destruct (utf8_encode_cp c) as [u|e]; cbn [bind] in *; [|discriminate A].
    destruct (utf8_encode a) as [v|e] eqn:E; cbn [bind] in *; [|discriminate A]. injection A as <-.
    rewrite (IH b v y eq_refl B). cbn [bind]. now rewrite app_assoc.
Qed.
Lemma writes_seq a b s t : writes a s -> writes b t -> writes (wseq a b) (s ++ t).
Proof.
  intros (x & A & ->) (y & B & ->). exists (x ++ y). split; [now apply utf8_encode_app | reflexivity].
Qed.
Lemma ascii_encode s : forallb (fun c => c <? 128) s = true -> utf8_encode s = Ok s.
Proof.
  induction s as [|c s IH]; [reflexivity|]. cbn [forallb utf8_encode]. intros H. apply andb_true_iff in H as [C H].
  unfold utf8_encode_cp. change 0x80 with 128. rewrite C. cbn [bind]. rewrite (IH H). reflexivity.
Qed.
Lemma writes_raw s : forallb (fun c => c <? 128) s = true -> writes (wraw s) s.
Proof. intros H. exists s. split; [now apply ascii_encode | reflexivity]. Qed.
Lemma writes_text s : forallb is_scalar s = true -> writes (wtext s) s.
Proof. intros H. destruct (utf8_encode_valid s H) as [b E]. exists b. split; [exact E|]. unfold wtext. now rewrite E. Qed.
Lemma writes_none : writes wnone [].
Proof. exists []. split; reflexivity. Qed.
Lemma writes_str s : forallb is_scalar s = true -> writes (write_string s) (34 :: escape_string s ++ [34]).
Proof.
  intros H. change (34 :: escape_string s ++ [34]) with ([34] ++ escape_string s ++ [34]).
  unfold write_string. apply writes_seq; [now apply writes_raw|]. apply writes_seq; [|now apply writes_raw].
  apply writes_text. now rewrite escape_valid.
Qed.
Definition key_text (k : text) : text := 34 :: escape_string k ++ [34; 58].
Lemma writes_key k : forallb is_scalar k = true -> writes (write_key k) (key_text k).
Proof.
  intros H. unfold key_text. replace (34 :: escape_string k ++ [34; 58]) with ((34 :: escape_string k ++ [34]) ++ [58]).
  - unfold write_key. apply writes_seq; [now apply writes_str | now apply writes_raw].
  - cbn [app]. f_equal. rewrite <- app_assoc. reflexivity.
Qed.
Lemma num_text_ascii neg i f e : int_ok i -> all_digits f -> exp_ok e -> forallb is_scalar (num_text neg i f e) = true.
Proof.
  intros I F E. apply forallb_forall. intros c H. assert (G : c < 128); [|unfold is_scalar; lia].
  unfold num_text in H. repeat (apply in_app_or in H as [H|H]).
  - destruct neg; [destruct H as [<-|[]]; lia | destruct H].
  - destruct I as [->|(h & t & -> & Hh & At)]; [destruct H as [<-|[]]; lia|].
    destruct H as [<-|H]; [lia|]. apply At in H. lia.
  - destruct f as [|d f]; [destruct H|]. cbn [frac_text] in H. destruct H as [<-|H]; [lia|]. apply F in H. lia.
  - destruct e as [[[x z] ds]|]; [|destruct H]. cbn [exp_part] in H. unfold exp_form in H. destruct E as (X & A & _).
    destruct H as [<-|H]; [lia|]. apply in_app_or in H as [H|H]; [|apply A in H; lia].
    destruct (Z.ltb z 0); destruct H as [<-|[]]; lia.
Qed.

(** Items with commas. *)
Section Items.
  Context {A : Type}.
  Variable f : A -> W.
  Fixpoint wlist (first : bool) (l : list A) : W :=
    match l with
    | [] => wnone
    | x :: r => wseq (if first then wnone else wraw [44]) (wseq (f x) (wlist false r))
    end.
  Variable key : text -> W.
  Fixpoint wpairs (first : bool) (l : list (text * A)) : W :=
    match l with
    | [] => wnone
    | (k, x) :: r => wseq (if first then wnone else wraw [44]) (wseq (key k) (wseq (f x) (wpairs false r)))
    end.
  Definition comma_if (first : bool) : text := if first then [] else [44].
  Definition commas (first : bool) (ts : list text) : text :=
    match ts with [] => [] | _ => comma_if first ++ join [44] ts end.
  Lemma commas_cons (first : bool) t ts : commas first (t :: ts) = comma_if first ++ t ++ commas false ts.
  Proof. destruct ts as [|u ts]; cbn [commas]; [cbn [join]; now rewrite app_nil_r | reflexivity]. Qed.
  Lemma writes_comma (first : bool) : writes (if first then wnone else wraw [44]) (comma_if first).
  Proof. destruct first; [apply writes_none | now apply writes_raw]. Qed.
  Lemma wlist_writes l : forall ts first, Forall2 (fun x t => writes (f x) t) l ts -> writes (wlist first l) (commas first ts).
  Proof.
    induction l as [|x l IH]; intros ts first H; inversion H as [|? t ? ts' Hx Hl]; subst; [apply writes_none|].
    rewrite commas_cons. cbn [wlist]. apply writes_seq; [apply writes_comma|]. apply writes_seq; [exact Hx | now apply IH].
  Qed.
  Lemma wpairs_writes l : forall ts first,
    Forall2 (fun a t => exists u v, t = u ++ v /\ writes (key (fst a)) u /\ writes (f (snd a)) v) l ts -> writes (wpairs first l) (commas first ts).
  Proof.
    induction l as [|[k x] l IH]; intros ts first H; inversion H as [|? t ? ts' Hx Hl]; subst; [apply writes_none|].
    rewrite commas_cons. cbn [wpairs]. apply writes_seq; [apply writes_comma|].
    destruct Hx as (u & v & -> & U & V). rewrite <- app_assoc.
    apply writes_seq; [exact U|]. apply writes_seq; [exact V | now apply IH].
  Qed.
End Items.

(** ** Reading a text back *)
Definition good_head (t : text) : Prop :=
  match t with [] => False | h :: _ => is_ws h = false /\ h <> 93 /\ h <> 125 end.
Definition reading (t : text) (j : json) : Prop :=
  good_head t /\ forall fuel rest, (2 * List.length t <= fuel)%nat -> stop rest -> read_value fuel (t ++ rest) = Some (j, rest).

Lemma skip_ws_head t rest : good_head t -> skip_ws (t ++ rest) = t ++ rest.
Proof. destruct t as [|h t]; [intros []|]. intros (W & _). cbn [app skip_ws]. now rewrite W. Qed.
Lemma skip_ws_char c r : is_ws c = false -> skip_ws (c :: r) = c :: r.
Proof. intros H. cbn [skip_ws]. now rewrite H. Qed.

Lemma read_value_eq f s : read_value (S f) s =
    match skip_ws s with
    | [] => None
    | c :: r =>
      if c =? 123 then
        match skip_ws r with
        | d :: r' =>
          if d =? 125 then Some (JObj [], r')
          else match read_members f (d :: r') with Some (ms, t) => Some (JObj ms, t) | None => None end
        | [] => None
        end
      else if c =? 91 then
        match skip_ws r with
        | d :: r' =>
          if d =? 93 then Some (JArr [], r')
          else match read_elements f (d :: r') with Some (es, t) => Some (JArr es, t) | None => None end
        | [] => None
        end
      else if c =? 34 then match read_string r with Some (x, t) => Some (JStr x, t) | None => None end
      else if c =? 116 then read_word (lit "true") (JBool true) (c :: r)
      else if c =? 102 then read_word (lit "false") (JBool false) (c :: r)
      else if c =? 110 then read_word (lit "null") JNull (c :: r)
      else match read_number (c :: r) with Some (n, t) => Some (JNum n, t) | None => None end
    end.
Proof. reflexivity. Qed.
Lemma read_elements_eq f s : read_elements (S f) s =
    match read_value f s with
    | None => None
    | Some (v, t) =>
      match skip_ws t with
      | c :: r =>
        if c =? 93 then Some ([v], r)
        else if c =? 44 then match read_elements f r with Some (vs, t') => Some (v :: vs, t') | None => None end
        else None
      | [] => None
      end
    end.
Proof. reflexivity. Qed.
Lemma read_members_eq f s : read_members (S f) s =
    match skip_ws s with
    | q :: s1 =>
      if q =? 34 then
        match read_string s1 with
        | None => None
        | Some (k, s2) =>
          match skip_ws s2 with
          | c :: s3 =>
            if c =? 58 then
              match read_value f s3 with
              | None => None
              | Some (v, t) =>
                match skip_ws t with
                | d :: r =>
                  if d =? 125 then Some ([(k, v)], r)
                  else if d =? 44 then match read_members f r with Some (ms, t') => Some ((k, v) :: ms, t') | None => None end
                  else None
                | [] => None
                end
              end
            else None
          | [] => None
          end
        end
      else None
    | [] => None
    end.
Proof. reflexivity. Qed.

Lemma reading_number neg i f e : int_ok i -> all_digits f -> exp_ok e ->
  reading (num_text neg i f e) (JNum (mkNum neg i f (exp_val e))).
Proof.
  intros I F E. destruct (num_text_head neg i f e I) as (h & t & Et & Hh). split.
  - rewrite Et. unfold good_head, is_ws. lia.
  - intros fuel rest L S. assert (N := read_number_text neg i f e rest I F E S).
    rewrite Et in *. cbn [List.length] in L. destruct fuel as [|fu]; [lia|].
    rewrite read_value_eq. cbn [app] in *. rewrite skip_ws_char by (unfold is_ws; lia).
    replace (h =? 123) with false by lia. replace (h =? 91) with false by lia. replace (h =? 34) with false by lia.
    replace (h =? 116) with false by lia. replace (h =? 102) with false by lia. replace (h =? 110) with false by lia.
    now rewrite N.
Qed.
Lemma reading_string s : reading (34 :: escape_string s ++ [34]) (JStr s).
Proof.
  split; [unfold good_head, is_ws; split; [reflexivity | lia]|]. intros fuel rest L S.
  destruct fuel as [|f]; [cbn in L; lia|]. rewrite read_value_eq.
  cbn [app]. rewrite skip_ws_char by reflexivity. change (34 =? 123) with false. change (34 =? 91) with false. change (34 =? 34) with true.
  cbn match. rewrite <- app_assoc. cbn [app]. now rewrite read_string_escape.
Qed.
Lemma reading_null : reading (lit "null") JNull.
Proof. split; [repeat split; discriminate|]. intros [|f] rest L S; [cbn in L; lia | reflexivity]. Qed.
Lemma reading_bool (b : bool) : reading (if b then lit "true" else lit "false") (JBool b).
Proof. destruct b; (split; [repeat split; discriminate|]; intros [|f] rest L S; [cbn in L; lia | reflexivity]). Qed.

Lemma stop_char c r : ((c =? 93) || (c =? 44) || (c =? 125)) = true -> stop (c :: r).
Proof. intros H. unfold stop, is_digit. repeat split; lia. Qed.
Lemma elements_read ts : forall js fuel rest, Forall2 reading ts js -> ts <> [] ->
  (2 * List.length (join [44%N] ts) + 1 <= fuel)%nat -> read_elements fuel (join [44] ts ++ 93 :: rest) = Some (js, rest).
Proof.
  induction ts as [|t ts IH]; intros js fuel rest H N L; [now elim N|].
  inversion H as [|? j ? js' Ht Hts]; subst. destruct fuel as [|f]; [lia|]. rewrite read_elements_eq.
  destruct Ht as [_ Ht]. destruct ts as [|u ts].
  - inversion Hts; subst. cbn [join] in *. rewrite Ht by (first [lia | apply stop_char; reflexivity]).
    rewrite skip_ws_char by reflexivity. change (93 =? 93) with true. reflexivity.
  - rewrite join_cons2 in *. rewrite !app_length in L. cbn [List.length] in L.
    rewrite <- app_assoc. rewrite Ht by (first [lia | apply stop_char; reflexivity]). rewrite <- app_assoc. cbn [app].
    rewrite skip_ws_char by reflexivity. change (44 =? 93) with false. change (44 =? 44) with true. cbn match.
    rewrite (IH js'); [reflexivity | exact Hts | discriminate | lia].
Qed.
Definition member_text (k : text) (t : text) : text := key_text k ++ t.
Lemma members_read l : forall fuel rest, Forall (fun a : text * (text * json) => reading (fst (snd a)) (snd (snd a))) l -> l <> [] ->
  (2 * List.length (join [44%N] (map (fun a => member_text (fst a) (fst (snd a))) l)) + 1 <= fuel)%nat ->
  read_members fuel (join [44] (map (fun a => member_text (fst a) (fst (snd a))) l) ++ 125 :: rest)
  = Some (map (fun a => (fst a, snd (snd a))) l, rest).
Proof.
  induction l as [|[k [t j]] l IH]; intros fuel rest H N L; [now elim N|].
  inversion H as [|? ? Ht Hts]; subst. cbn [fst snd] in Ht. destruct fuel as [|f]; [lia|]. rewrite read_members_eq.
  destruct Ht as [_ Ht].
  assert (K : forall x, member_text k t ++ x = 34 :: escape_string k ++ 34 :: 58 :: t ++ x).
  { intros x. unfold member_text, key_text. cbn [app]. f_equal. rewrite <- !app_assoc. cbn [app]. reflexivity. }
  assert (KL : (List.length t + 3 <= List.length (member_text k t))%nat).
  { unfold member_text, key_text. rewrite app_length. cbn [List.length]. rewrite app_length. cbn [List.length]. lia. }
  destruct l as [|[k2 [t2 j2]] l].
  - cbn [map fst snd join] in *. rewrite K. rewrite skip_ws_char by reflexivity. change (34 =? 34) with true. cbn match.
    rewrite read_string_escape. rewrite skip_ws_char by reflexivity. change (58 =? 58) with true. cbn match.
    rewrite Ht by (first [lia | apply stop_char; reflexivity]). rewrite skip_ws_char by reflexivity. change (125 =? 125) with true. reflexivity.
  - cbn [map fst snd] in *. rewrite join_cons2 in *. rewrite !app_length in L. cbn [List.length] in L.
    rewrite <- app_assoc. rewrite K. rewrite skip_ws_char by reflexivity. change (34 =? 34) with true. cbn match.
    rewrite read_string_escape. rewrite skip_ws_char by reflexivity. change (58 =? 58) with true. cbn match.
    rewrite <- app_assoc. cbn [app]. rewrite Ht by (first [lia | apply stop_char; reflexivity]).
    rewrite skip_ws_char by reflexivity. change (44 =? 125) with false. change (44 =? 44) with true. cbn match.
    rewrite IH; [reflexivity | exact Hts | discriminate | lia].
Qed.
Lemma reading_list ts js : Forall2 reading ts js -> reading ([91] ++ commas true ts ++ [93]) (JArr js).
Proof.
  intros H. split; [repeat split; discriminate|]. intros fuel rest L S. rewrite !app_length in L. cbn [List.length] in L.
  destruct fuel as [|f]; [lia|]. rewrite read_value_eq. cbn [app]. rewrite skip_ws_char by reflexivity.
  change (91 =? 123) with false. change (91 =? 91) with true. cbn match. rewrite <- app_assoc. cbn [app].
  destruct ts as [|t ts].
  - inversion H; subst. cbn [commas app]. rewrite skip_ws_char by reflexivity. reflexivity.
  - change (commas true (t :: ts)) with (join [44] (t :: ts)) in *.
    assert (G : good_head (join [44] (t :: ts))).
    { inversion H as [|? ? ? ? [Ht _] _]; subst. destruct t as [|h t']; [destruct Ht|].
      destruct ts; [exact Ht | rewrite join_cons2; exact Ht]. }
    rewrite skip_ws_head by exact G. assert (E := elements_read _ _ f rest H ltac:(discriminate) ltac:(lia)).
    destruct (join [44] (t :: ts)) as [|h u] eqn:J; [destruct G|]. cbn [app] in *. destruct G as (_ & G & _).
    replace (h =? 93) with false by lia. now rewrite E.
Qed.
Lemma reading_object (l : list (text * (text * json))) : Forall (fun a => reading (fst (snd a)) (snd (snd a))) l ->
  reading ([123] ++ commas true (map (fun a => member_text (fst a) (fst (snd a))) l) ++ [125])
          (JObj (map (fun a => (fst a, snd (snd a))) l)).
Proof.
  intros H. split; [repeat split; discriminate|]. intros fuel rest L S. rewrite !app_length in L. cbn [List.length] in L.
  destruct fuel as [|f]; [lia|]. rewrite read_value_eq. cbn [app]. rewrite skip_ws_char by reflexivity.
  change (123 =? 123) with true. cbn match. rewrite <- app_assoc. cbn [app].
  destruct l as [|a l].
  - cbn [map commas app]. rewrite skip_ws_char by reflexivity. reflexivity.
  - assert (E := members_read _ f rest H ltac:(discriminate)).
    change (commas true (map ?g (a :: l))) with (join [44] (map g (a :: l))) in *.
    specialize (E ltac:(lia)).
    assert (G : exists u, join [44] (map (fun a => member_text (fst a) (fst (snd a))) (a :: l)) = 34 :: u).
    { destruct l; cbn [map]; [eexists; reflexivity | rewrite join_cons2; eexists; reflexivity]. }
    destruct G as [u G]. rewrite G in *. cbn [app] in *. rewrite skip_ws_char by reflexivity.
    change (34 =? 125) with false. cbn match. now rewrite E.
Qed.

(** ** Values *)
Lemma float_written f : float_ok f -> exists t j, writes (write_float f) t /\ reading t j /\ float_is f j.
Proof.
  destruct f as [| | |d]; intros H; [destruct H| | |].
  - exists (34 :: lit "Infinity" ++ [34]), (JStr (lit "Infinity")). split; [now apply writes_raw|].
    split; [apply (reading_string (lit "Infinity")) | constructor].
  - exists (34 :: lit "-Infinity" ++ [34]), (JStr (lit "-Infinity")). split; [now apply writes_raw|].
    split; [apply (reading_string (lit "-Infinity")) | constructor].
  - destruct (float_text_form d H) as (i & g & e & E & I & F & X & V & Y).
    exists (float_text d), (JNum (mkNum (d_neg d) i g (exp_val e))). cbn [write_float]. rewrite E. split.
    + apply writes_text. now apply num_text_ascii.
    + split; [now apply reading_number|]. constructor; [exact V | reflexivity|]. unfold integral. cbn [n_frac n_exp].
      destruct g; [|reflexivity]. destruct (exp_val e); [reflexivity|]. now destruct Y as [Y|Y]; elim Y.
Qed.
Lemma decimal_written d : decimal_ok d -> exists t j, writes (write_decimal d) t /\ reading t j /\ decimal_is d j.
Proof.
  destruct d as [| | |d]; intros H; [destruct H| | |].
  - exists (34 :: lit "Infinity" ++ [34]), (JStr (lit "Infinity")). split; [now apply writes_raw|].
    split; [apply (reading_string (lit "Infinity")) | constructor].
  - exists (34 :: lit "-Infinity" ++ [34]), (JStr (lit "-Infinity")). split; [now apply writes_raw|].
    split; [apply (reading_string (lit "-Infinity")) | constructor].
  - destruct (decimal_text_form (normalize precision d)) as (i & g & e & E & I & F & X & V).
    eexists; exists (JNum (mkNum (d_neg (normalize precision d)) i g (exp_val e))). cbn [write_decimal]. rewrite E. split.
    + apply writes_text. now apply num_text_ascii.
    + split; [now apply reading_number|]. constructor. rewrite V. apply normalize_value.
      unfold digits_of, precision. cbn [decimal_ok] in H. apply dec_length; [lia | exact H].
Qed.
Lemma int_written z : exists t n, writes (write_int z) t /\ reading t (JNum n) /\ num_value n = (z, 0%Z) /\ integral n = true.
Proof.
  exists (dec_Z z), (Z_num z). rewrite dec_Z_text. unfold write_int. rewrite dec_Z_text.
  split; [apply writes_text; apply num_text_ascii; [apply dec_int | intros c [] | exact I]|].
  split; [apply (reading_number _ _ _ None); [apply dec_int | intros c [] | exact I] | split; [apply Z_num_value | reflexivity]].
Qed.

Lemma choose_list {A} (w : A -> W) (R : A -> json -> Prop) l :
  Forall (fun x => exists t j, writes (w x) t /\ reading t j /\ R x j) l ->
  exists ts js, Forall2 (fun x t => writes (w x) t) l ts /\ Forall2 reading ts js /\ Forall2 R l js.
Proof.
  induction 1 as [|x l (t & j & A1 & A2 & A3) _ (ts & js & B1 & B2 & B3)].
  - exists [], []. repeat split; constructor.
  - exists (t :: ts), (j :: js). split; [now constructor|]. split; now constructor.
Qed.
(** Pairs: the key is written as some text. *)
Lemma choose_pairs {A} (w : A -> W) (key : text -> W) (R : A -> json -> Prop) (K : text -> text -> Prop) l :
  Forall (fun a => (exists u, writes (key (fst a)) (key_text u) /\ K (fst a) u) /\ exists t j, writes (w (snd a)) t /\ reading t j /\ R (snd a) j) l ->
  exists q : list (text * (text * json)),
    Forall2 (fun a t => exists u v, t = u ++ v /\ writes (key (fst a)) u /\ writes (w (snd a)) v) l (map (fun a => member_text (fst a) (fst (snd a))) q)
    /\ Forall (fun a => reading (fst (snd a)) (snd (snd a))) q
    /\ Forall2 (fun a b => K (fst a) (fst b) /\ R (snd a) (snd b)) l (map (fun a => (fst a, snd (snd a))) q).
Proof.
  induction 1 as [|x l [(u & U & Ku) (t & j & A1 & A2 & A3)] _ (q & B1 & B2 & B3)].
  - exists []. repeat split; constructor.
  - exists ((u, (t, j)) :: q). cbn [map fst snd]. split; [|split].
    + constructor; [|exact B1]. exists (key_text u), t. auto.
    + constructor; [exact A2 | exact B2].
    + constructor; [split; assumption | exact B3].
Qed.

Lemma plain_written p : doc_ok p -> exists t j, writes (write_plain p) t /\ reading t j /\ doc_is p j.
Proof.
  induction p using plain_ind'; intros K; inversion K; subst.
  - exists (lit "null"), JNull. split; [now apply writes_raw|]. split; [apply reading_null | constructor].
  - exists (if b then lit "true" else lit "false"), (JBool b). split; [destruct b; now apply writes_raw|]. split; [apply reading_bool | constructor].
  - destruct (int_written z) as (t & n & A & B & C & D). exists t, (JNum n). split; [exact A|]. split; [exact B | now constructor].
  - destruct (decimal_written (BFin d) H0) as (t & j & A & B & C). exists t, j. split; [exact A|]. split; [exact B|].
    inversion C; subst. now constructor.
  - eexists; exists (JStr s). split; [now apply writes_str|]. split; [apply reading_string | constructor].
  - assert (G : Forall (fun x => exists t j, writes (write_plain x) t /\ reading t j /\ doc_is x j) l).
    { clear K. induction H as [|x l Px _ IH]; [constructor|]. inversion H1; subst. constructor; [now apply Px | now apply IH]. }
    destruct (choose_list _ _ _ G) as (ts & js & A & B & C).
    exists ([91] ++ commas true ts ++ [93]), (JArr js). split; [|split; [now apply reading_list | now constructor]].
    apply (writes_seq (wraw [91]) (wseq (wlist write_plain true l) (wraw [93]))); [now apply writes_raw|].
    apply writes_seq; [now apply wlist_writes | now apply writes_raw].
  - assert (G : Forall (fun a : text * plain => (exists u, writes (write_key (fst a)) (key_text u) /\ fst a = u)
                          /\ exists t j, writes (write_plain (snd a)) t /\ reading t j /\ doc_is (snd a) j) l).
    { clear K. induction H as [|x l Px _ IH]; [constructor|]. inversion H1 as [|? ? [Q1 Q2] ?]; subst.
      constructor; [|now apply IH]. split; [|now apply Px]. exists (fst x). split; [now apply writes_key | reflexivity]. }
    destruct (choose_pairs _ _ _ _ _ G) as (q & A & B & C).
    exists ([123] ++ commas true (map (fun a => member_text (fst a) (fst (snd a))) q) ++ [125]), (JObj (map (fun a => (fst a, snd (snd a))) q)).
    split; [|split; [now apply reading_object | now constructor]].
    apply (writes_seq (wraw [123]) (wseq (wpairs write_plain write_key true l) (wraw [125]))); [now apply writes_raw|].
    apply writes_seq; [now apply wpairs_writes | now apply writes_raw].
Qed.

Section Written.
  Variable st : settings.
  Variable env : N -> node.
  Variable ts_ser : tformat -> Z -> tstext.
  Notation value_ok := (value_ok st env ts_ser).
  Notation value_is := (value_is st env ts_ser).
  Notation write := (write st env ts_ser).

  Lemma format_of trait : format_in_force st trait (ts_format st trait).
  Proof. unfold format_in_force, ts_format. destruct trait; [destruct (use_ts_format st)|]; reflexivity. Qed.
  Lemma find_member_In k ms m : find_member k ms = Some m -> In m ms /\ m_name m = k.
  Proof.
    induction ms as [|x ms IH]; [discriminate|]. cbn [find_member]. destruct (text_eqb (m_name x) k) eqn:E.
    - intros [= <-]. apply text_eqb_eq in E. auto using in_eq.
    - intros H. apply IH in H as [A B]. auto using in_cons.
  Qed.
  Lemma find_member_None k ms m : find_member k ms = None -> In m ms -> m_name m <> k.
  Proof.
    induction ms as [|x ms IH]; [intros _ []|]. cbn [find_member]. destruct (text_eqb (m_name x) k) eqn:E; [discriminate|].
    intros H [<-|I]; [|now apply IH]. intros X. rewrite X, text_eqb_refl in E. discriminate.
  Qed.
  Lemma wire_on m : on_wire st m (wire_name st m).
  Proof. unfold on_wire, wire_name. destruct (m_json m); [destruct (use_json_name st)|]; reflexivity. Qed.

  Lemma value_written v : value_ok v -> exists t j, writes (write v) t /\ reading t j /\ value_is v j.
  Proof.
    induction v using value_ind'; intros K; inversion K; subst.
    - exists (lit "null"), JNull. split; [now apply writes_raw|]. split; [apply reading_null | constructor].
    - exists (if b then lit "true" else lit "false"), (JBool b). split; [destruct b; now apply writes_raw|]. split; [apply reading_bool | constructor].
    - destruct (int_written z) as (t & n & A & B & C & D). exists t, (JNum n). split; [exact A|]. split; [exact B | now constructor].
    - destruct (float_written f H0) as (t & j & A & B & C). exists t, j. split; [exact A|]. split; [exact B | now constructor].
    - destruct (decimal_written d H0) as (t & j & A & B & C). exists t, j. split; [exact A|]. split; [exact B | now constructor].
    - eexists; exists (JStr s). split; [now apply writes_str|]. split; [apply reading_string | constructor].
    - eexists; exists (JStr (b64encode bs)). split; [apply writes_str|].
      + apply forallb_forall. intros c Hc. apply (b64encode_ascii _ _ H0) in Hc. unfold is_scalar. lia.
      + split; [apply reading_string | constructor; now apply b64_written].
    - specialize (H0 _ (format_of a)). cbn [Json_Model.write]. unfold write_timestamp.
      destruct (ts_ser (ts_format st a) t) as [s|x] eqn:E.
      + eexists; exists (JStr s). split; [now apply writes_str|]. split; [apply reading_string|].
        eapply Is_time_text; [apply format_of | exact E].
      + destruct (float_written x H0) as (u & j & A & B & C). exists u, j. split; [exact A|]. split; [exact B|].
        eapply Is_time_num; [apply format_of | exact E | exact C].
    - assert (G : Forall (fun a : text * value => (exists u, writes (member_key st env n (fst a)) (key_text u)
                              /\ exists m, has_member env n (fst a) m /\ on_wire st m u)
                            /\ exists t j, writes (write (snd a)) t /\ reading t j /\ value_is (snd a) j) l).
      { clear K. induction H as [|x l Px _ IH]; [constructor|].
        inversion H1 as [|? ? [(m & M1 & M2 & M3) Q2] ?]; subst.
        constructor; [|now apply IH]. split; [|now apply Px].
        destruct M1 as (ms & Em & Im & Nm). unfold member_key, members_of. rewrite Em.
        destruct (find_member (fst x) ms) as [m'|] eqn:F.
        - destruct (find_member_In _ _ _ F) as [I' N']. assert (X : m' = m) by (apply M2; exists ms; auto). subst m'.
          exists (wire_name st m). split; [apply writes_key, M3, wire_on|]. exists m. split; [exists ms; auto | apply wire_on].
        - now elim (find_member_None _ _ _ F Im). }
      destruct (choose_pairs _ _ _ (fun k u => exists m, has_member env n k m /\ on_wire st m u) _ G) as (q & A & B & C).
      exists ([123] ++ commas true (map (fun a => member_text (fst a) (fst (snd a))) q) ++ [125]), (JObj (map (fun a => (fst a, snd (snd a))) q)).
      split; [|split; [now apply reading_object | now constructor]].
      apply (writes_seq (wraw [123]) (wseq (wpairs write (member_key st env n) true l) (wraw [125]))); [now apply writes_raw|].
      apply writes_seq; [now apply wpairs_writes | now apply writes_raw].
    - assert (G : Forall (fun x => exists t j, writes (write x) t /\ reading t j /\ value_is x j) l).
      { clear K. induction H as [|x l Px _ IH]; [constructor|]. inversion H1; subst. constructor; [now apply Px | now apply IH]. }
      destruct (choose_list _ _ _ G) as (ts & js & A & B & C).
      exists ([91] ++ commas true ts ++ [93]), (JArr js). split; [|split; [now apply reading_list | now constructor]].
      apply (writes_seq (wraw [91]) (wseq (wlist write true l) (wraw [93]))); [now apply writes_raw|].
      apply writes_seq; [now apply wlist_writes | now apply writes_raw].
    - assert (G : Forall (fun a : text * value => (exists u, writes (write_key (fst a)) (key_text u) /\ fst a = u)
                            /\ exists t j, writes (write (snd a)) t /\ reading t j /\ value_is (snd a) j) l).
      { clear K. induction H as [|x l Px _ IH]; [constructor|]. inversion H1 as [|? ? [Q1 Q2] ?]; subst.
        constructor; [|now apply IH]. split; [|now apply Px]. exists (fst x). split; [now apply writes_key | reflexivity]. }
      destruct (choose_pairs _ _ _ _ _ G) as (q & A & B & C).
      exists ([123] ++ commas true (map (fun a => member_text (fst a) (fst (snd a))) q) ++ [125]), (JObj (map (fun a => (fst a, snd (snd a))) q)).
      split; [|split; [now apply reading_object | now constructor]].
      apply (writes_seq (wraw [123]) (wseq (wpairs write write_key true l) (wraw [125]))); [now apply writes_raw|].
      apply writes_seq; [now apply wpairs_writes | now apply writes_raw].
    - destruct (plain_written p H0) as (t & j & A & B & C). exists t, j. split; [exact A|]. split; [exact B | now constructor].
  Qed.
End Written.

Lemma reading_json t j : reading t j -> read_json t = Some j.
Proof.
  intros [G R]. unfold read_json. specialize (R (2 * List.length t + 1)%nat [] ltac:(lia) I). rewrite app_nil_r in R. now rewrite R.
Qed.
