(** Proofs about the calls of a shape to the JSON serializer: a scanner that keeps
    count of the open brackets, for the reader and for the writer. *)
From Verif Require Import Base Base_Proofs Utf8_Model Utf8_Proofs PyText_Model PySort_Model PySort_Proofs PyDict_Model PyDecimal_Model Base64_Model
  Json_Model Json_Spec Encode_Spec Encode_Proofs JsonCalls_Model JsonCalls_Spec.
Local Open Scope N_scope.
Local Open Scope w_scope.

(** ** Counting brackets *)

Inductive mode := Out | Str | Esc.
Fixpoint scan (d : Z) (m : mode) (s : list N) : Z * mode :=
  match s with
  | [] => (d, m)
  | c :: r =>
    match m with
    | Esc => scan d Str r
    | Str => if c =? 34 then scan d Out r else if c =? 92 then scan d Esc r else scan d Str r
    | Out =>
      if c =? 34 then scan d Str r
      else if (c =? 123) || (c =? 91) then scan (d + 1)%Z Out r
      else if (c =? 125) || (c =? 93) then scan (d - 1)%Z Out r
      else scan d Out r
    end
  end.
Lemma scan_app a : forall d m b, scan d m (a ++ b) = let (d', m') := scan d m a in scan d' m' b.
Proof.
  induction a as [|c a IH]; intros d m b; [reflexivity|]. cbn [app scan].
  destruct m; repeat match goal with |- context [if ?x then _ else _] => destruct x end; apply IH.
Qed.
Definition Bal (u : list N) : Prop := forall d, scan d Out u = (d, Out).
Lemma Bal_nil : Bal [].
Proof. intros d. reflexivity. Qed.
Lemma Bal_app a b : Bal a -> Bal b -> Bal (a ++ b).
Proof. intros A B d. rewrite scan_app, A. apply B. Qed.
Definition neutral (c : N) : Prop := c <> 34 /\ c <> 123 /\ c <> 91 /\ c <> 125 /\ c <> 93.
Lemma scan_neutral c r d : neutral c -> scan d Out (c :: r) = scan d Out r.
Proof.
  intros (A & B & C & D & E). cbn [scan].
  rewrite (proj2 (N.eqb_neq _ _) A), (proj2 (N.eqb_neq _ _) B), (proj2 (N.eqb_neq _ _) C), (proj2 (N.eqb_neq _ _) D), (proj2 (N.eqb_neq _ _) E). reflexivity.
Qed.
Lemma Bal_neutral u : Forall neutral u -> Bal u.
Proof. intros F d. induction F as [|c u C F IH]; [reflexivity|]. now rewrite scan_neutral. Qed.
Lemma Bal_one c : neutral c -> Bal [c].
Proof. intros H. apply Bal_neutral. auto. Qed.

(** ** The reader consumes balanced texts *)

Lemma skip_ws_bal s : exists u, s = u ++ skip_ws s /\ Bal u.
Proof.
  induction s as [|c s (u & E & B)]; [exists []; split; [reflexivity | apply Bal_nil]|]. cbn [skip_ws].
  destruct (is_ws c) eqn:W.
  - exists (c :: u). split; [cbn; now f_equal|]. change (c :: u) with ([c] ++ u). apply Bal_app; [|exact B].
    apply Bal_one. unfold is_ws in W. unfold neutral. lia.
  - exists []. split; [reflexivity | apply Bal_nil].
Qed.
Lemma digit_neutral c : is_digit c = true -> neutral c.
Proof. unfold is_digit, neutral. lia. Qed.
Lemma span_digits_bal s d t : span_digits s = (d, t) -> s = d ++ t /\ Forall neutral d.
Proof.
  revert d t. induction s as [|c s IH]; intros d t; cbn [span_digits]; [intros [= <- <-]; auto|].
  destruct (is_digit c) eqn:D; [|intros [= <- <-]; auto].
  destruct (span_digits s) as [d' t']. intros [= <- <-]. destruct (IH d' t' eq_refl) as [-> F]. split; [reflexivity|].
  constructor; [now apply digit_neutral | exact F].
Qed.
Lemma read_int_bal s i t : read_int s = Some (i, t) -> exists u, s = u ++ t /\ Forall neutral u.
Proof.
  destruct s as [|c r]; [discriminate|]. unfold read_int. destruct (c =? 48) eqn:Z.
  - apply N.eqb_eq in Z. subst c. intros [= <- <-]. exists [48]. split; [reflexivity|]. constructor; [|auto]. apply digit_neutral. reflexivity.
  - destruct (is_digit c); [|discriminate]. intros [= H]. exists i. now apply span_digits_bal.
Qed.
Lemma read_frac_bal s f t : read_frac s = Some (f, t) -> exists u, s = u ++ t /\ Forall neutral u.
Proof.
  destruct s as [|c r]; cbn [read_frac]; [intros [= <- <-]; exists []; auto|].
  destruct (c =? 46) eqn:P; [|intros [= <- <-]; exists []; auto].
  apply N.eqb_eq in P. subst c. destruct (span_digits r) as [[|x d] t'] eqn:S; [discriminate|]. intros [= <- <-].
  apply span_digits_bal in S as [-> F]. exists (46 :: x :: d). split; [reflexivity|]. constructor; [unfold neutral; lia | exact F].
Qed.
Lemma exp_digits_bal neg s e t : exp_digits neg s = Some (e, t) -> exists u, s = u ++ t /\ Forall neutral u.
Proof.
  unfold exp_digits. destruct (span_digits s) as [[|x d] t'] eqn:S; [discriminate|].
  destruct (digits_val 0 (x :: d)); [|discriminate]. intros [= _ <-]. exists (x :: d). now apply span_digits_bal.
Qed.
Lemma read_exp_bal s e t : read_exp s = Some (e, t) -> exists u, s = u ++ t /\ Forall neutral u.
Proof.
  destruct s as [|c r]; cbn [read_exp]; [intros [= <- <-]; exists []; auto|].
  destruct ((c =? 101) || (c =? 69)) eqn:P; [|intros [= <- <-]; exists []; auto].
  assert (C : neutral c) by (unfold neutral; lia).
  destruct r as [|d r']; [discriminate|].
  destruct (d =? 43) eqn:D1; [|destruct (d =? 45) eqn:D2].
  - intros H. apply exp_digits_bal in H as (u & -> & F). exists (c :: d :: u). split; [reflexivity|]. constructor; [exact C|]. constructor; [unfold neutral; lia | exact F].
  - intros H. apply exp_digits_bal in H as (u & -> & F). exists (c :: d :: u). split; [reflexivity|]. constructor; [exact C|]. constructor; [unfold neutral; lia | exact F].
  - intros H. apply exp_digits_bal in H as (u & E & F). exists (c :: u). split; [cbn; now f_equal|]. now constructor.
Qed.
Lemma read_unsigned_bal neg s n t : read_unsigned neg s = Some (n, t) -> exists u, s = u ++ t /\ Forall neutral u.
Proof.
  unfold read_unsigned. destruct (read_int s) as [[i s1]|] eqn:I; [|discriminate].
  destruct (read_frac s1) as [[f s2]|] eqn:F; [|discriminate]. destruct (read_exp s2) as [[e s3]|] eqn:E; [|discriminate].
  intros [= _ <-]. apply read_int_bal in I as (a & -> & A). apply read_frac_bal in F as (b & -> & B). apply read_exp_bal in E as (c & -> & C).
  exists (a ++ b ++ c). split; [now rewrite !app_assoc|]. rewrite !Forall_app. auto.
Qed.
Lemma read_number_bal s n t : read_number s = Some (n, t) -> exists u, s = u ++ t /\ Bal u.
Proof.
  destruct s as [|c r]; [discriminate|]. unfold read_number. destruct (c =? 45) eqn:M.
  - intros H. apply read_unsigned_bal in H as (u & -> & F). exists (c :: u). split; [reflexivity|]. apply Bal_neutral.
    constructor; [unfold neutral; lia | exact F].
  - intros H. apply read_unsigned_bal in H as (u & -> & F). exists u. split; [reflexivity | now apply Bal_neutral].
Qed.

Definition StrEnd (u : list N) : Prop := forall d, scan d Str u = (d, Out).
Definition inner (c : N) : Prop := c <> 34 /\ c <> 92.
Lemma scan_inner c r d : inner c -> scan d Str (c :: r) = scan d Str r.
Proof. intros (A & B). cbn [scan]. now rewrite (proj2 (N.eqb_neq _ _) A), (proj2 (N.eqb_neq _ _) B). Qed.
Lemma hex_val_inner c v : hex_val c = Some v -> inner c.
Proof.
  unfold hex_val, is_digit. intros H. unfold inner.
  destruct ((48 <=? c) && (c <=? 57)) eqn:A; [lia|]. destruct ((97 <=? c) && (c <=? 102)) eqn:B; [lia|].
  destruct ((65 <=? c) && (c <=? 70)) eqn:C; [lia | discriminate].
Qed.
Lemma hex4_inner a b c d v : hex4 a b c d = Some v -> inner a /\ inner b /\ inner c /\ inner d.
Proof.
  unfold hex4. destruct (hex_val a) eqn:A; [|discriminate]. destruct (hex_val b) eqn:B; [|discriminate].
  destruct (hex_val c) eqn:C; [|discriminate]. destruct (hex_val d) eqn:D; [|discriminate]. intros _.
  repeat split; try (eapply hex_val_inner; eassumption);
  match goal with H : hex_val ?x = _ |- ?x <> _ => now apply hex_val_inner in H as [? ?] end.
Qed.
Lemma cons_char_inv c r x t : cons_char c r = Some (x, t) -> exists x', r = Some (x', t).
Proof. destruct r as [[s u]|]; [|discriminate]. cbn. intros [= _ <-]. now exists s. Qed.
Lemma escape_step x y u : y <> 34 \/ True -> forall d, x = 92 -> scan d Str (x :: y :: u) = scan d Str u.
Proof. intros _ d ->. reflexivity. Qed.
Lemma unicode_step a b c e u d : inner a -> inner b -> inner c -> inner e ->
  scan d Str (92 :: 117 :: a :: b :: c :: e :: u) = scan d Str u.
Proof.
  intros A B C E. change (scan d Str (a :: b :: c :: e :: u) = scan d Str u). now rewrite !scan_inner.
Qed.
Lemma read_string_bal n : forall s x t, (List.length s <= n)%nat -> read_string s = Some (x, t) -> exists u, s = u ++ t /\ StrEnd u.
Proof.
  induction n as [|n IH]; intros s x t L H; [destruct s; [discriminate | cbn in L; lia]|].
  destruct s as [|c r]; [discriminate|]. cbn [List.length] in L. cbn [read_string] in H.
  destruct (c =? 34) eqn:Q.
  { injection H as <- <-. apply N.eqb_eq in Q. subst c. exists [34]. split; [reflexivity|]. intros d. reflexivity. }
  destruct (c <? 32); [discriminate|]. destruct (c =? 92) eqn:B.
  2: { apply cons_char_inv in H as (x' & H). apply IH in H as (u & -> & S); [|lia]. exists (c :: u). split; [reflexivity|].
       intros d. rewrite scan_inner; [apply S|]. unfold inner. lia. }
  apply N.eqb_eq in B. subst c. destruct r as [|e r1]; [discriminate|]. cbn [List.length] in L.
  destruct (e =? 117) eqn:U.
  2: { destruct (simple_escape e); [|discriminate]. apply cons_char_inv in H as (x' & H). apply IH in H as (u & -> & S); [|lia].
       exists (92 :: e :: u). split; [reflexivity|]. intros d. exact (S d). }
  apply N.eqb_eq in U. subst e.
  destruct r1 as [|h1 [|h2 [|h3 [|h4 r2]]]]; try discriminate. cbn [List.length] in L.
  destruct (hex4 h1 h2 h3 h4) as [v|] eqn:X; [|discriminate].
  apply hex4_inner in X as (I1 & I2 & I3 & I4).
  assert (short : forall y, cons_char y (read_string r2) = Some (x, t) -> exists u, 92 :: 117 :: h1 :: h2 :: h3 :: h4 :: r2 = u ++ t /\ StrEnd u).
  { intros y G. apply cons_char_inv in G as (x' & G). apply IH in G as (u & -> & S); [|lia].
    exists (92 :: 117 :: h1 :: h2 :: h3 :: h4 :: u). split; [reflexivity|]. intros d. rewrite unicode_step; auto. }
  destruct ((0xD800 <=? v) && (v <? 0xDC00)); [|exact (short _ H)].
  destruct r2 as [|b [|e2 [|g1 [|g2 [|g3 [|g4 r3]]]]]]; try exact (short _ H).
  destruct ((b =? 92) && (e2 =? 117)) eqn:E2; [|exact (short _ H)].
  destruct (hex4 g1 g2 g3 g4) as [w|] eqn:Y; [|exact (short _ H)].
  destruct ((0xDC00 <=? w) && (w <? 0xE000)); [|exact (short _ H)].
  apply hex4_inner in Y as (J1 & J2 & J3 & J4). apply cons_char_inv in H as (x' & H). cbn [List.length] in L.
  apply IH in H as (u & -> & S); [|lia].
  assert (b = 92) by lia. assert (e2 = 117) by lia. subst b e2.
  exists (92 :: 117 :: h1 :: h2 :: h3 :: h4 :: 92 :: 117 :: g1 :: g2 :: g3 :: g4 :: u). split; [reflexivity|].
  intros d. rewrite unicode_step by assumption. rewrite unicode_step by assumption. apply S.
Qed.
Lemma strip_prefix_app p : forall s r, strip_prefix p s = Some r -> s = p ++ r.
Proof.
  induction p as [|a p IH]; intros s r; cbn [strip_prefix]; [now intros [= ->]|].
  destruct s as [|b s]; [discriminate|]. destruct (a =? b) eqn:E; [|discriminate]. apply N.eqb_eq in E. subst b.
  intros H. cbn. f_equal. now apply IH.
Qed.
Lemma read_word_bal w v s j t : read_word w v s = Some (j, t) -> Bal w -> exists u, s = u ++ t /\ Bal u.
Proof.
  unfold read_word. destruct (strip_prefix w s) as [r|] eqn:S; [|discriminate]. intros [= _ <-] B. apply strip_prefix_app in S. eauto.
Qed.
Lemma Bal_object u : Bal u -> Bal (123 :: u ++ [125]).
Proof. intros B d. change (scan (d + 1) Out (u ++ [125]) = (d, Out)). rewrite scan_app, B. change ((d + 1 - 1, Out)%Z = (d, Out)). f_equal. lia. Qed.
Lemma Bal_array u : Bal u -> Bal (91 :: u ++ [93]).
Proof. intros B d. change (scan (d + 1) Out (u ++ [93]) = (d, Out)). rewrite scan_app, B. change ((d + 1 - 1, Out)%Z = (d, Out)). f_equal. lia. Qed.
Lemma Bal_string u : StrEnd u -> Bal (34 :: u).
Proof. intros S d. exact (S d). Qed.
Lemma comma_neutral : Bal [44].
Proof. apply Bal_one. unfold neutral. lia. Qed.
Lemma colon_neutral : Bal [58].
Proof. apply Bal_one. unfold neutral. lia. Qed.

Ltac flat := cbn [app]; repeat (rewrite <- app_assoc; cbn [app]); reflexivity.
Lemma read_bal f :
  (forall s j t, read_value f s = Some (j, t) -> exists u, s = u ++ t /\ Bal u)
  /\ (forall s es t, read_elements f s = Some (es, t) -> exists u, s = u ++ 93 :: t /\ Bal u)
  /\ (forall s ms t, read_members f s = Some (ms, t) -> exists u, s = u ++ 125 :: t /\ Bal u).
Proof.
  induction f as [|f (IHv & IHe & IHm)]; [repeat split; discriminate|]. split; [|split].
  - intros s j t H. cbn [read_value] in H. destruct (skip_ws_bal s) as (w & E & B). destruct (skip_ws s) as [|c r] eqn:W; [discriminate|].
    enough (G : exists u, c :: r = u ++ t /\ Bal u).
    { destruct G as (u & G & B'). exists (w ++ u). rewrite E, G, app_assoc. split; [reflexivity | now apply Bal_app]. }
    clear E W s. destruct (c =? 123) eqn:C1.
    { apply N.eqb_eq in C1. subst c. destruct (skip_ws_bal r) as (w2 & E & B2). destruct (skip_ws r) as [|d r'] eqn:W; [discriminate|].
      destruct (d =? 125) eqn:D.
      - apply N.eqb_eq in D. injection H as _ <-. subst d. exists (123 :: w2 ++ [125]). rewrite E. split; [cbn; now rewrite <- app_assoc | now apply Bal_object].
      - destruct (read_members f (d :: r')) as [[ms t']|] eqn:M; [|discriminate]. injection H as _ <-.
        apply IHm in M as (u & M & B3). exists (123 :: (w2 ++ u) ++ [125]). rewrite E, M. split; [cbn; now rewrite <- !app_assoc|].
        apply Bal_object. now apply Bal_app. }
    destruct (c =? 91) eqn:C2.
    { apply N.eqb_eq in C2. subst c. destruct (skip_ws_bal r) as (w2 & E & B2). destruct (skip_ws r) as [|d r'] eqn:W; [discriminate|].
      destruct (d =? 93) eqn:D.
      - apply N.eqb_eq in D. injection H as _ <-. subst d. exists (91 :: w2 ++ [93]). rewrite E. split; [cbn; now rewrite <- app_assoc | now apply Bal_array].
      - destruct (read_elements f (d :: r')) as [[ms t']|] eqn:M; [|discriminate]. injection H as _ <-.
        apply IHe in M as (u & M & B3). exists (91 :: (w2 ++ u) ++ [93]). rewrite E, M. split; [cbn; now rewrite <- !app_assoc|].
        apply Bal_array. now apply Bal_app. }
    destruct (c =? 34) eqn:C3.
    { apply N.eqb_eq in C3. subst c. destruct (read_string r) as [[x t']|] eqn:R; [|discriminate]. injection H as _ <-.
      apply (read_string_bal (List.length r)) in R as (u & -> & S); [|lia]. exists (34 :: u). split; [reflexivity | now apply Bal_string]. }
    destruct (c =? 116). { eapply read_word_bal; [exact H|]. intros d. reflexivity. }
    destruct (c =? 102). { eapply read_word_bal; [exact H|]. intros d. reflexivity. }
    destruct (c =? 110). { eapply read_word_bal; [exact H|]. intros d. reflexivity. }
    destruct (read_number (c :: r)) as [[n t']|] eqn:R; [|discriminate]. injection H as _ <-. now apply read_number_bal in R.
  - intros s es t H. cbn [read_elements] in H. destruct (read_value f s) as [[v t1]|] eqn:V; [|discriminate].
    apply IHv in V as (u & -> & B). destruct (skip_ws_bal t1) as (w & E & B2). destruct (skip_ws t1) as [|c r]; [discriminate|].
    destruct (c =? 93) eqn:C.
    + apply N.eqb_eq in C. subst c. injection H as _ <-. exists (u ++ w). rewrite E, app_assoc. split; [reflexivity | now apply Bal_app].
    + destruct (c =? 44) eqn:C'; [|discriminate]. apply N.eqb_eq in C'. subst c.
      destruct (read_elements f r) as [[vs t']|] eqn:R; [|discriminate]. injection H as _ <-. apply IHe in R as (u' & -> & B3).
      exists (u ++ w ++ [44] ++ u'). rewrite E. split; [now rewrite <- !app_assoc|]. repeat apply Bal_app; auto using comma_neutral.
  - intros s ms t H. cbn [read_members] in H. destruct (skip_ws_bal s) as (w & E & B). destruct (skip_ws s) as [|q s1]; [discriminate|].
    destruct (q =? 34) eqn:Q; [|discriminate]. apply N.eqb_eq in Q. subst q.
    destruct (read_string s1) as [[k s2]|] eqn:R; [|discriminate].
    apply (read_string_bal (List.length s1)) in R as (u & -> & S); [|lia]. apply Bal_string in S.
    destruct (skip_ws_bal s2) as (w2 & E2 & B2). destruct (skip_ws s2) as [|c s3]; [discriminate|].
    destruct (c =? 58) eqn:C; [|discriminate]. apply N.eqb_eq in C. subst c.
    destruct (read_value f s3) as [[v t1]|] eqn:V; [|discriminate]. apply IHv in V as (u2 & -> & B3).
    destruct (skip_ws_bal t1) as (w3 & E3 & B4). destruct (skip_ws t1) as [|d r]; [discriminate|].
    destruct (d =? 125) eqn:D.
    + apply N.eqb_eq in D. subst d. injection H as _ <-. exists (w ++ (34 :: u) ++ w2 ++ [58] ++ u2 ++ w3). rewrite E, E2, E3.
      split; [flat|]. repeat apply Bal_app; auto using colon_neutral.
    + destruct (d =? 44) eqn:D'; [|discriminate]. apply N.eqb_eq in D'. subst d.
      destruct (read_members f r) as [[vs t']|] eqn:R; [|discriminate]. injection H as _ <-. apply IHm in R as (u' & -> & B5).
      exists (w ++ (34 :: u) ++ w2 ++ [58] ++ u2 ++ w3 ++ [44] ++ u'). rewrite E, E2, E3.
      split; [flat|].
      repeat apply Bal_app; auto using colon_neutral, comma_neutral.
Qed.
Lemma read_json_bal t j : read_json t = Some j -> t <> [] /\ Bal t.
Proof.
  unfold read_json. intros H. split; [intros ->; discriminate|].
  destruct (read_value _ t) as [[v r]|] eqn:V; [|discriminate]. apply (proj1 (read_bal _)) in V as (u & -> & B).
  destruct (skip_ws_bal r) as (w & E & B2). destruct (skip_ws r); [|discriminate]. rewrite app_nil_r in E. subst w. now apply Bal_app.
Qed.

(** ** The octets of a text count like the text *)

Lemma high_out c r d : 128 <= c -> scan d Out (c :: r) = scan d Out r.
Proof. intros H. apply scan_neutral. unfold neutral. lia. Qed.
Lemma high_str c r d : 128 <= c -> scan d Str (c :: r) = scan d Str r.
Proof. intros H. apply scan_inner. unfold inner. lia. Qed.
Lemma scan_utf8 t bs : Utf8 t bs -> forall d m, scan d m bs = scan d m t.
Proof.
  induction 1 as [|c o s bs C U IH]; intros d m; [reflexivity|].
  assert (K : (c < 128 /\ o = [c]) \/ (128 <= c /\ o <> [] /\ Forall (fun b => 128 <= b) o)).
  { destruct C; [left; auto | right | right | right]; (split; [lia|]; split; [discriminate|]; repeat constructor; lia). }
  destruct K as [[_ ->]|(H & N0 & F)].
  - cbn [app scan]. destruct m; repeat match goal with |- context [if ?x then _ else _] => destruct x end; apply IH.
  - assert (HO : forall l, Forall (fun b => 128 <= b) l -> forall d r, scan d Out (l ++ r) = scan d Out r).
    { clear. induction 1 as [|b l B F IH]; intros d r; [reflexivity|]. cbn [app]. now rewrite high_out. }
    assert (HS : forall l, Forall (fun b => 128 <= b) l -> forall d r, scan d Str (l ++ r) = scan d Str r).
    { clear. induction 1 as [|b l B F IH]; intros d r; [reflexivity|]. cbn [app]. now rewrite high_str. }
    destruct m.
    + rewrite HO, high_out by assumption. apply IH.
    + rewrite HS, high_str by assumption. apply IH.
    + destruct F as [|b l B F]; [now destruct N0|]. cbn [app scan]. rewrite HS by assumption. apply IH.
Qed.

(** ** What the writer leaves *)

Definition Open (u : list N) : Prop := forall d, (d <= fst (scan d Out u))%Z.
Definition Deep (u : list N) : Prop := u = [] \/ forall d, (d <= fst (scan d Out u))%Z /\ ((d < fst (scan d Out u))%Z \/ snd (scan d Out u) <> Out).
Definition good (w : W) : Prop := match snd w with None => Bal (fst w) | Some _ => Deep (fst w) end.
Definition inside (w : W) : Prop := match snd w with None => Bal (fst w) | Some _ => Open (fst w) end.
Lemma Bal_Open u : Bal u -> Open u.
Proof. intros B d. rewrite B. cbn. lia. Qed.
Lemma Deep_Open u : Deep u -> Open u.
Proof. intros [->|D] d; [cbn; lia | now apply D]. Qed.
Lemma good_inside w : good w -> inside w.
Proof. unfold good, inside. destruct (snd w); auto using Deep_Open. Qed.
Lemma inside_seq a b : inside a -> inside b -> inside (a ;; b).
Proof.
  unfold inside, wseq. destruct a as [u [e|]]; cbn [fst snd]; [auto|]. intros A B. destruct b as [v [e|]]; cbn [fst snd] in *.
  - intros d. rewrite scan_app, A. apply B.
  - now apply Bal_app.
Qed.
Lemma inside_raw u : Bal u -> inside (wraw u).
Proof. exact (fun B => B). Qed.
Lemma inside_none : inside wnone.
Proof. apply Bal_nil. Qed.
Lemma good_text s : Forall neutral s -> good (wtext s).
Proof.
  intros F. unfold good, wtext. destruct (utf8_encode s) as [bs|e] eqn:E; cbn [fst snd].
  - apply encode_iff in E. intros d. rewrite (scan_utf8 _ _ E). now apply Bal_neutral.
  - left. reflexivity.
Qed.
Lemma escape_scan s d : scan d Str (escape_string s) = (d, Str).
Proof.
  unfold escape_string. induction s as [|c s IH]; [reflexivity|]. cbn [flat_map]. destruct (must_escape c) eqn:M.
  - enough (G : forall r, scan d Str (escape_char c ++ r) = scan d Str r) by (rewrite G; exact IH).
    intros r. unfold escape_char. assert (H : forall v, inner (hex_char (v mod 16))).
    { intros v. unfold hex_char, inner. assert (v mod 16 < 16) by (apply N.mod_lt; discriminate). destruct (v mod 16 <? 10) eqn:L; lia. }
    repeat match goal with |- context [if ?x then _ else _] => destruct x; [reflexivity|] end.
    cbn [app]. now rewrite unicode_step.
  - cbn [app]. rewrite scan_inner; [exact IH|]. unfold must_escape in M. unfold inner. lia.
Qed.
Lemma good_string s : good (write_string s).
Proof.
  unfold good, write_string, wseq, wtext, wraw. cbn [fst snd]. destruct (utf8_encode (escape_string s)) as [bs|e] eqn:E; cbn [fst snd].
  - intros d. change (scan d Str (bs ++ [34]) = (d, Out)). apply encode_iff in E. rewrite scan_app, (scan_utf8 _ _ E), escape_scan. reflexivity.
  - right. intros d. change (scan d Out ([34] ++ [])) with (d, Str). cbn [fst snd]. split; [lia|]. right. discriminate.
Qed.
Lemma dec_neutral n : Forall neutral (dec n).
Proof. apply Forall_forall. intros c I. apply dec_digits in I. unfold neutral. lia. Qed.
Lemma repeat_neutral n : Forall neutral (repeat 48 n).
Proof. apply Forall_forall. intros c I. apply repeat_spec in I. subst c. unfold neutral. lia. Qed.
Lemma firstn_neutral n s : Forall neutral s -> Forall neutral (firstn n s).
Proof. intros F. apply Forall_forall. intros c I. rewrite Forall_forall in F. apply F. rewrite <- (firstn_skipn n s). apply in_or_app. now left. Qed.
Lemma skipn_neutral n s : Forall neutral s -> Forall neutral (skipn n s).
Proof. intros F. apply Forall_forall. intros c I. rewrite Forall_forall in F. apply F. rewrite <- (firstn_skipn n s). apply in_or_app. now right. Qed.
Lemma cons_neutral c s : neutral c -> Forall neutral s -> Forall neutral (c :: s).
Proof. now constructor. Qed.
Lemma app_neutral a b : Forall neutral a -> Forall neutral b -> Forall neutral (a ++ b).
Proof. intros. now apply Forall_app. Qed.
Lemma lit_neutral x : forallb (fun c => negb ((c =? 34) || (c =? 123) || (c =? 91) || (c =? 125) || (c =? 93))) (lit x) = true -> Forall neutral (lit x).
Proof. intros H. apply Forall_forall. intros c I. rewrite forallb_forall in H. apply H in I. unfold neutral. lia. Qed.
Ltac neut :=
  repeat first
    [ apply lit_neutral; reflexivity | apply app_neutral | apply Forall_nil | apply dec_neutral | apply repeat_neutral | apply firstn_neutral | apply skipn_neutral
    | apply cons_neutral; [unfold neutral; cbv; repeat split; discriminate |]
    | match goal with |- context [if ?x then _ else _] => destruct x end ].
Lemma dec_Z_neutral z : Forall neutral (dec_Z z).
Proof. unfold dec_Z. destruct z; neut. Qed.
Lemma exp2_neutral z : Forall neutral (exp2 z).
Proof. unfold exp2. neut. Qed.
Lemma float_text_neutral d : Forall neutral (float_text d).
Proof.
  assert (H := exp2_neutral). unfold float_text. cbv zeta. revert H. generalize exp2. intros ex H. neut; apply H.
Qed.
Lemma decimal_text_neutral d : Forall neutral (decimal_text d).
Proof. unfold decimal_text, signed. cbv zeta. neut. Qed.
Lemma good_float f : good (write_float f).
Proof. destruct f; cbn [write_float]; try (intros d; reflexivity). apply good_text, float_text_neutral. Qed.
Lemma good_decimal f : good (write_decimal f).
Proof. destruct f; cbn [write_decimal]; try (intros d; reflexivity). apply good_text, decimal_text_neutral. Qed.
Lemma inside_key k : inside (write_key k).
Proof. apply inside_seq; [apply good_inside, good_string|]. apply inside_raw, colon_neutral. Qed.
Lemma good_within start body stop : (start = [123] /\ stop = [125] \/ start = [91] /\ stop = [93]) -> inside body -> good (within start body stop).
Proof.
  intros K I. destruct body as [u [e|]]; unfold within, wseq, wraw, good, inside in *; cbn [fst snd] in *.
  - right. intros d. destruct K as [[-> _]|[-> _]]; (change (scan d Out _) with (scan (d + 1)%Z Out u); specialize (I (d + 1)%Z); lia).
  - destruct K as [[-> ->]|[-> ->]]; [now apply Bal_object | now apply Bal_array].
Qed.

(** Induction on a value of JSON and on a tree of calls. *)
Fixpoint plain_ind' (P : plain -> Prop) (Hn : P PNull) (Hb : forall b, P (PBool b)) (Hi : forall z, P (PInt z)) (Hd : forall d, P (PDec d))
  (Hs : forall s, P (PStr s)) (Hl : forall l, Forall P l -> P (PList l)) (Hm : forall l, Forall (fun kv => P (snd kv)) l -> P (PDict l)) (p : plain) : P p :=
  let rec := plain_ind' P Hn Hb Hi Hd Hs Hl Hm in
  match p with
  | PNull => Hn | PBool b => Hb b | PInt z => Hi z | PDec d => Hd d | PStr s => Hs s
  | PList l => Hl l ((fix go l : Forall P l := match l with [] => Forall_nil _ | x :: r => Forall_cons _ (rec x) (go r) end) l)
  | PDict l => Hm l ((fix go l : Forall (fun kv => P (snd kv)) l := match l with [] => Forall_nil _ | x :: r => Forall_cons _ (rec (snd x)) (go r) end) l)
  end.
Fixpoint call_ind' (P : call -> Prop) (Hw : forall m, P (CWrite m)) (Hr : forall e, P (CRaise e))
  (Hs : forall n l, Forall (fun kv => P (snd kv)) l -> P (CStruct n l)) (Hl : forall l, Forall P l -> P (CList l))
  (Hm : forall l, Forall (fun kv => P (snd kv)) l -> P (CMap l)) (c : call) : P c :=
  let rec := call_ind' P Hw Hr Hs Hl Hm in
  match c with
  | CWrite m => Hw m | CRaise e => Hr e
  | CStruct n l => Hs n l ((fix go l : Forall (fun kv => P (snd kv)) l := match l with [] => Forall_nil _ | x :: r => Forall_cons _ (rec (snd x)) (go r) end) l)
  | CList l => Hl l ((fix go l : Forall P l := match l with [] => Forall_nil _ | x :: r => Forall_cons _ (rec x) (go r) end) l)
  | CMap l => Hm l ((fix go l : Forall (fun kv => P (snd kv)) l := match l with [] => Forall_nil _ | x :: r => Forall_cons _ (rec (snd x)) (go r) end) l)
  end.

(** The loops. *)
Fixpoint plain_items (first : bool) (l : list plain) : W :=
  match l with [] => wnone | x :: r => (if first then wnone else wraw [44]) ;; write_plain x ;; plain_items false r end.
Fixpoint plain_entries (first : bool) (l : list (text * plain)) : W :=
  match l with [] => wnone | (k, x) :: r => (if first then wnone else wraw [44]) ;; write_key k ;; write_plain x ;; plain_entries false r end.
Lemma write_plain_list l : write_plain (PList l) = (wraw [91] ;; plain_items true l ;; wraw [93]).
Proof. reflexivity. Qed.
Lemma write_plain_dict l : write_plain (PDict l) = (wraw [123] ;; plain_entries true l ;; wraw [125]).
Proof. reflexivity. Qed.
Lemma within_seq start body stop : within start body stop = (wraw start ;; body ;; wraw stop).
Proof. unfold within. destruct body as [u [e|]]; reflexivity. Qed.
Lemma inside_separator first : inside (separator first).
Proof. destruct first; [apply inside_none | apply inside_raw, comma_neutral]. Qed.
Lemma good_plain p : good (write_plain p).
Proof.
  induction p as [|b|z|d|s|l F|l F] using plain_ind'.
  - intros d. reflexivity.
  - destruct b; intros d; reflexivity.
  - apply good_text, dec_Z_neutral.
  - apply good_decimal.
  - apply good_string.
  - rewrite write_plain_list, <- within_seq. apply good_within; [auto|]. generalize true.
    induction F as [|x r G F IH]; intros first; [apply inside_none|]. cbn [plain_items].
    apply inside_seq; [apply inside_separator|]. apply inside_seq; [now apply good_inside | apply IH].
  - rewrite write_plain_dict, <- within_seq. apply good_within; [auto|]. generalize true.
    induction F as [|[k x] r G F IH]; intros first; [apply inside_none|]. cbn [plain_entries].
    apply inside_seq; [apply inside_separator|]. apply inside_seq; [apply inside_key|]. apply inside_seq; [now apply good_inside | apply IH].
Qed.

Section Calls.
  Variable st : settings.
  Variable env : N -> node.
  Variable ts_ser : tformat -> Z -> tstext.
  Notation make := (make st env ts_ser).
  Notation write := (write st env ts_ser).

  Fixpoint members (schema : N) (first : bool) (ms : list (option text * call)) : W :=
    match ms with [] => wnone | (k, x) :: r => intercepted (struct_before st env first schema k) (make x) ;; members schema false r end.
  Fixpoint elements (first : bool) (l : list call) : W :=
    match l with [] => wnone | x :: r => intercepted (separator first) (make x) ;; elements false r end.
  Fixpoint entries (first : bool) (l : list (text * call)) : W :=
    match l with [] => wnone | (k, x) :: r => separator first ;; write_key k ;; make x ;; entries false r end.
  Lemma make_struct n ms : make (CStruct n ms) = within [123] (members n true ms) [125].
  Proof.
    cbn [JsonCalls_Model.make]. f_equal. generalize true. induction ms as [|[k x] r IH]; intros first; [reflexivity|].
    cbn [members]. now rewrite <- IH.
  Qed.
  Lemma make_list l : make (CList l) = within [91] (elements true l) [93].
  Proof. reflexivity. Qed.
  Lemma make_map l : make (CMap l) = within [123] (entries true l) [125].
  Proof. reflexivity. Qed.

  Lemma good_method m : (forall bs, m <> MDataStream (SBytes bs)) -> good (json_write st ts_ser m).
  Proof.
    intros K. destruct m as [|b|z|z|z|z|z|f|f|d|s|bs|tr t|p|[bs|]]; cbn [json_write];
      auto using good_string, good_float, good_decimal, good_plain;
      try (apply good_text, dec_Z_neutral).
    - intros d. reflexivity.
    - destruct b; intros d; reflexivity.
    - unfold write_timestamp. destruct (ts_ser _ t); [apply good_string | apply good_float].
    - now destruct (K bs).
    - left. reflexivity.
  Qed.
  Lemma inside_method m : inside (json_write st ts_ser m).
  Proof.
    destruct m as [|b|z|z|z|z|z|f|f|d|s|bs|tr t|p|[bs|]]; try (apply good_inside, good_method; discriminate).
    cbn [json_write]. apply inside_seq; [apply good_inside, good_string|]. intros d. cbn. lia.
  Qed.
  Lemma inside_raise e : inside (wraise e).
  Proof. intros d. cbn. lia. Qed.
  Lemma inside_before first n k : inside (struct_before st env first n k).
  Proof.
    unfold struct_before. apply inside_seq; [apply inside_separator|]. destruct k as [k|]; [|apply inside_raise].
    unfold member_key. destruct (find_member k _); [apply inside_key | apply inside_raise].
  Qed.
  Lemma inside_intercepted b w : inside b -> inside w -> inside (intercepted b w).
  Proof. intros B H. unfold intercepted. apply inside_seq; [exact B|]. apply inside_seq; [exact H | apply inside_none]. Qed.
  Lemma inside_make c : inside (make c).
  Proof.
    induction c as [m|e|n ms F|l F|l F] using call_ind'.
    - apply inside_method.
    - apply inside_raise.
    - rewrite make_struct. apply good_inside, good_within; [auto|]. generalize true.
      induction F as [|[k x] r G F IH]; intros first; [apply inside_none|]. cbn [members].
      apply inside_seq; [apply inside_intercepted; [apply inside_before | exact G] | apply IH].
    - rewrite make_list. apply good_inside, good_within; [auto|]. generalize true.
      induction F as [|x r G F IH]; intros first; [apply inside_none|]. cbn [elements].
      apply inside_seq; [apply inside_intercepted; [apply inside_separator | exact G] | apply IH].
    - rewrite make_map. apply good_inside, good_within; [auto|]. generalize true.
      induction F as [|[k x] r G F IH]; intros first; [apply inside_none|]. cbn [entries].
      apply inside_seq; [apply inside_separator|]. apply inside_seq; [apply inside_key|]. apply inside_seq; [exact G | apply IH].
  Qed.
  Lemma good_make c : (forall bs, c <> CWrite (MDataStream (SBytes bs))) -> good (make c).
  Proof.
    intros K. destruct c as [m|e|n ms|l|l].
    - apply good_method. intros bs ->. now apply (K bs).
    - left. reflexivity.
    - rewrite make_struct. apply good_within; [auto|]. generalize true.
      induction ms as [|[k x] r IH]; intros first; [apply inside_none|]. cbn [members].
      apply inside_seq; [apply inside_intercepted; [apply inside_before | apply inside_make]|]. apply IH. discriminate.
    - rewrite make_list. apply good_within; [auto|]. generalize true.
      induction l as [|x r IH]; intros first; [apply inside_none|]. cbn [elements].
      apply inside_seq; [apply inside_intercepted; [apply inside_separator | apply inside_make]|]. apply IH. discriminate.
    - rewrite make_map. apply good_within; [auto|]. generalize true.
      induction l as [|[k x] r IH]; intros first; [apply inside_none|]. cbn [entries].
      apply inside_seq; [apply inside_separator|]. apply inside_seq; [apply inside_key|]. apply inside_seq; [apply inside_make|]. apply IH. discriminate.
  Qed.

  (** *** Failing leaves no document *)

  Lemma not_json c bs e t j : (forall b, c <> CWrite (MDataStream (SBytes b))) -> make c = (bs, Some e) -> Utf8 t bs -> read_json t <> Some j.
  Proof.
    intros K M U R. apply read_json_bal in R as [N0 B]. assert (G := good_make c K). unfold good in G. rewrite M in G. cbn [fst snd] in G.
    destruct G as [->|D].
    - apply N0. inversion U as [|c0 o s b0 C0 U0]; [reflexivity|]. destruct C0; discriminate.
    - specialize (D 0%Z). rewrite (scan_utf8 _ _ U), B in D. cbn in D. destruct D as [_ [D|D]]; [lia | now apply D].
  Qed.

  (** *** Calls that make a value *)

  Lemma wseq_none_r w : wseq w wnone = w.
  Proof. destruct w as [u [e|]]; [reflexivity|]. unfold wseq, wnone. cbn. now rewrite app_nil_r. Qed.
  Lemma wseq_assoc a b c : wseq (wseq a b) c = wseq a (wseq b c).
  Proof. destruct a as [u [e|]], b as [v [f|]]; unfold wseq; cbn; try reflexivity. now rewrite app_assoc. Qed.
  Lemma method_made m v : Method_value m v -> json_write st ts_ser m = write v.
  Proof. destruct 1; reflexivity. Qed.
  Fixpoint v_members (schema : N) (first : bool) (ms : list (text * value)) : W :=
    match ms with [] => wnone | (k, x) :: r => (if first then wnone else wraw [44]) ;; member_key st env schema k ;; write x ;; v_members schema false r end.
  Fixpoint v_elements (first : bool) (l : list value) : W :=
    match l with [] => wnone | x :: r => (if first then wnone else wraw [44]) ;; write x ;; v_elements false r end.
  Fixpoint v_entries (first : bool) (l : list (text * value)) : W :=
    match l with [] => wnone | (k, x) :: r => (if first then wnone else wraw [44]) ;; write_key k ;; write x ;; v_entries false r end.

  Scheme Makes_m := Minimality for Makes Sort Prop
    with Makes_members_m := Minimality for Makes_members Sort Prop
    with Makes_elements_m := Minimality for Makes_elements Sort Prop
    with Makes_entries_m := Minimality for Makes_entries Sort Prop.
  Combined Scheme Makes_all from Makes_m, Makes_members_m, Makes_elements_m, Makes_entries_m.
  Lemma makes_all :
    (forall c v, Makes c v -> make c = write v)
    /\ (forall ms vs, Makes_members ms vs -> forall n first, members n first ms = v_members n first vs)
    /\ (forall l vs, Makes_elements l vs -> forall first, elements first l = v_elements first vs)
    /\ (forall l vs, Makes_entries l vs -> forall first, entries first l = v_entries first vs).
  Proof.
    apply Makes_all.
    - intros m v H. now apply method_made.
    - intros n ms vs _ IH. rewrite make_struct, within_seq, IH. cbn [Json_Model.write]. do 2 f_equal. generalize true. clear.
      induction vs as [|[k x] r IHr]; intros first; [reflexivity|]. cbn [v_members]. now rewrite IHr.
    - intros l vs _ IH. rewrite make_list, within_seq, IH. reflexivity.
    - intros l vs _ IH. rewrite make_map, within_seq, IH. reflexivity.
    - reflexivity.
    - intros k c v ms vs _ IH _ IHs n first. cbn [members v_members]. unfold intercepted, struct_before, after.
      now rewrite IH, IHs, wseq_none_r, !wseq_assoc.
    - reflexivity.
    - intros c v l vs _ IH _ IHs first. cbn [elements v_elements]. unfold intercepted, after. now rewrite IH, IHs, wseq_none_r, !wseq_assoc.
    - reflexivity.
    - intros k c v l vs _ IH _ IHs first. cbn [entries v_entries]. now rewrite IH, IHs.
  Qed.
  Lemma seq_none a b : snd (a ;; b) = None -> snd a = None /\ snd b = None.
  Proof. unfold wseq. destruct a as [u [e|]]; cbn; [discriminate|]. auto. Qed.
  Lemma within_none start w stop : snd (within start w stop) = None -> snd w = None.
  Proof. rewrite within_seq. intros H. apply seq_none in H as [_ H]. now apply seq_none in H as [H _]. Qed.
  Lemma made c : snd (make c) = None -> exists v, Makes c v.
  Proof.
    induction c as [m|e|n ms F|l F|l F] using call_ind'.
    - destruct m as [|b|z|z|z|z|z|f|f|d|s|bs|tr t|p|s]; intros H; try (eexists; apply Mk_write; constructor; fail).
      exfalso. cbn [make JsonCalls_Model.make json_write] in H. apply seq_none in H as [_ H]. discriminate.
    - discriminate.
    - rewrite make_struct. intros H. apply within_none in H.
      enough (G : exists vs, Makes_members ms vs) by (destruct G as [vs G]; exists (VStruct n vs); now apply Mk_struct).
      revert H. generalize true. induction F as [|[k x] r G F IH]; intros first H; [exists []; constructor|].
      cbn [members] in H. apply seq_none in H as [H1 H2]. apply IH in H2 as [vs H2].
      unfold intercepted in H1. apply seq_none in H1 as [B H1]. apply seq_none in H1 as [H1 _]. apply G in H1 as [v H1].
      destruct k as [k|]; [exists ((k, v) :: vs); now constructor|].
      unfold struct_before in B. apply seq_none in B as [_ B]. discriminate.
    - rewrite make_list. intros H. apply within_none in H.
      enough (G : exists vs, Makes_elements l vs) by (destruct G as [vs G]; exists (VList vs); now apply Mk_list).
      revert H. generalize true. induction F as [|x r G F IH]; intros first H; [exists []; constructor|].
      cbn [elements] in H. apply seq_none in H as [H1 H2]. apply IH in H2 as [vs H2].
      unfold intercepted in H1. apply seq_none in H1 as [B H1]. apply seq_none in H1 as [H1 _]. apply G in H1 as [v H1].
      exists (v :: vs). now constructor.
    - rewrite make_map. intros H. apply within_none in H.
      enough (G : exists vs, Makes_entries l vs) by (destruct G as [vs G]; exists (VMap vs); now apply Mk_map).
      revert H. generalize true. induction F as [|[k x] r G F IH]; intros first H; [exists []; constructor|].
      cbn [entries] in H. apply seq_none in H as [_ H]. apply seq_none in H as [_ H]. apply seq_none in H as [H1 H2].
      apply G in H1 as [v H1]. apply IH in H2 as [vs H2]. exists ((k, v) :: vs). now constructor.
  Qed.

  (** *** What was written before a shape raises *)

  (** [a] raises [e] itself after what [b] also writes, or they are the same. *)
  Definition upto (e : exn) (a b : W) : Prop :=
    (exists r, fst b = fst a ++ r) /\ (snd a = Some e \/ a = b /\ snd a <> None).
  Lemma upto_fails e a b : upto e a b -> snd a <> None.
  Proof. intros [_ [->|[_ H]]]; [discriminate | exact H]. Qed.
  Lemma upto_seq e p a b a' b' : upto e a b -> upto e (p ;; a ;; a') (p ;; b ;; b').
  Proof.
    intros H. assert (Na := upto_fails _ _ _ H). destruct H as [(r & R) D].
    destruct p as [u [f|]]; [split; [exists []; cbn; now rewrite app_nil_r | right; split; [reflexivity | discriminate]]|].
    destruct a as [x [f|]]; [|now destruct Na]. destruct b as [y [g|]]; unfold wseq; cbn [fst snd] in *; subst y.
    - split; [exists r; cbn; now rewrite app_assoc|]. destruct D as [[= ->]|[E _]]; [now left | right].
      injection E as E1 E2. split; [now rewrite <- E1, E2 | discriminate].
    - split; [exists (r ++ fst b'); cbn; now rewrite !app_assoc|]. destruct D as [[= ->]|[E _]]; [now left | discriminate].
  Qed.
  Lemma upto_seq1 e p a b : upto e a b -> upto e (p ;; a) (p ;; b).
  Proof. intros H. assert (G := upto_seq e p a b wnone wnone H). now rewrite !wseq_none_r in G. Qed.
  Lemma upto_after e a b a' b' : upto e a b -> upto e (a ;; a') (b ;; b').
  Proof. intros H. assert (G := upto_seq e wnone a b a' b' H). unfold wseq, wnone in *. cbn in G. unfold wseq. destruct a as [u [f|]]; cbn in *; destruct b as [v [g|]]; exact G. Qed.
  Lemma upto_within e start a b stop : upto e a b -> upto e (within start a stop) (within start b stop).
  Proof. intros H. rewrite !within_seq. now apply upto_seq. Qed.
  Lemma raises c c' e : Raises e c c' -> upto e (make c) (make c').
  Proof.
    induction 1 as [c'|n pre k c c' post post' R IH|pre c c' post post' R IH|pre k c c' post post' R IH].
    - split; [exists (fst (make c')); reflexivity | now left].
    - rewrite !make_struct. apply upto_within. generalize true.  induction pre as [|[k0 x] pre IHp]; intros first; cbn [app members].
      + apply upto_after. unfold intercepted. now apply upto_seq.
      + apply upto_seq1, IHp.
    - rewrite !make_list. apply upto_within. generalize true.  induction pre as [|x pre IHp]; intros first; cbn [app elements].
      + apply upto_after. unfold intercepted. now apply upto_seq.
      + apply upto_seq1, IHp.
    - rewrite !make_map. apply upto_within. generalize true.  induction pre as [|[k0 x] pre IHp]; intros first; cbn [app entries].
      + apply upto_seq1. now apply upto_seq.
      + apply upto_seq1, upto_seq1, upto_seq1, IHp.
  Qed.
End Calls.
