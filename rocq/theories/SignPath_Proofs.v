From Verif Require Import Base Base_Proofs PyText_Model PyText_Proofs Sign_Model SignPath_Spec.
Local Open Scope N_scope.

(** The RFC's steps, one by one. *)
Lemma segment_unique slash name rest slash' name' rest' :
  (slash = [] \/ slash = [47]) -> ~ In 47 name -> (rest = [] \/ exists q, rest = 47 :: q) -> slash ++ name <> [] ->
  (slash' = [] \/ slash' = [47]) -> ~ In 47 name' -> (rest' = [] \/ exists q, rest' = 47 :: q) -> slash' ++ name' <> [] ->
  slash ++ name ++ rest = slash' ++ name' ++ rest' -> slash = slash' /\ name = name' /\ rest = rest'.
Proof.
  intros S1 N1 R1 E1 S2 N2 R2 E2 E.
  assert (Names : forall n n' r r', ~ In 47 n -> ~ In 47 n' -> (r = [] \/ exists q, r = 47 :: q) -> (r' = [] \/ exists q, r' = 47 :: q) ->
     n ++ r = n' ++ r' -> n = n' /\ r = r').
  { clear. induction n as [|x n IH]; intros [|y n'] r r' A B C D E; cbn in E.
    - now split.
    - subst r. destruct C as [C | [q C]]; [discriminate C|]. injection C as -> _. elim B. now left.
    - subst r'. destruct D as [D | [q D]]; [discriminate D|]. injection D as -> _. elim A. now left.
    - injection E as -> E. destruct (IH n' r r') as [-> ->]; try assumption; try tauto.
      + intros I. apply A. now right.
      + intros I. apply B. now right. }
  destruct S1 as [-> | ->], S2 as [-> | ->]; cbn [app] in *.
  - destruct (Names _ _ _ _ N1 N2 R1 R2 E) as [-> ->]. auto.
  - destruct name as [|x name]; [now elim E1|]. injection E as -> _. elim N1. now left.
  - destruct name' as [|x name']; [now elim E2|]. injection E as <- _. elim N2. now left.
  - injection E as E. destruct (Names _ _ _ _ N1 N2 R1 R2 E) as [-> ->]. auto.
Qed.

Lemma not_segment slash name rest pre : (slash = [] \/ slash = [47]) -> ~ In 47 name -> slash ++ name <> [] ->
  name <> DOT -> name <> DOTDOT -> (rest = [] \/ exists q, rest = 47 :: q) ->
  In pre [DOT; DOTDOT] -> forall sl tl, (sl = [] \/ sl = [47]) -> (tl = [] \/ exists q, tl = 47 :: q) ->
  slash ++ name ++ rest = sl ++ pre ++ tl -> False.
Proof.
  intros S1 N1 E1 D1 D2 R1 Hp sl tl S2 R2 E.
  assert (P : ~ In 47 pre /\ pre <> []).
  { destruct Hp as [<- | [<- | []]]; split; try discriminate; intros H; repeat (destruct H as [H | H]; [discriminate H|]); exact H. }
  destruct P as [P1 P2].
  destruct (segment_unique slash name rest sl pre tl S1 N1 R1 E1 S2 P1 R2) as [_ [X _]]; [|exact E|].
  - destruct S2 as [-> | ->]; [exact P2 | discriminate].
  - subst pre. destruct Hp as [H | [H | []]]; congruence.
Qed.

Lemma until_slash_app name rest : ~ In 47 name -> (rest = [] \/ exists q, rest = 47 :: q) -> until_slash (name ++ rest) = name.
Proof.
  intros N R. induction name as [|c name IH]; cbn [app until_slash].
  - destruct R as [-> | [q ->]]; [reflexivity|]. cbn [until_slash]. now rewrite N.eqb_refl.
  - assert (c <> 47) by (intros ->; apply N; now left). rewrite (proj2 (N.eqb_neq c 47)) by exact H.
    f_equal. apply IH. intros I. apply N. now right.
Qed.

Lemma first_segment_app slash name rest : (slash = [] \/ slash = [47]) -> ~ In 47 name -> slash ++ name <> [] ->
  (rest = [] \/ exists q, rest = 47 :: q) -> first_segment (slash ++ name ++ rest) = slash ++ name.
Proof.
  intros [-> | ->] N E R; cbn [app].
  - destruct name as [|c name]; [now elim E|]. cbn [app first_segment].
    assert (c <> 47) by (intros ->; apply N; now left). rewrite (proj2 (N.eqb_neq c 47)) by exact H.
    apply (until_slash_app (c :: name)); assumption.
  - cbn [first_segment]. rewrite N.eqb_refl. f_equal. now apply until_slash_app.
Qed.

Lemma starts_false p s : (forall r, s <> p ++ r) -> starts_with p s = false.
Proof. intros H. destruct (starts_with p s) eqn:E; [|reflexivity]. apply starts_with_spec in E as [r E]. now elim (H r). Qed.

Lemma dots_E o slash name rest r :
    (slash = [] \/ slash = [47]) -> ~ In 47 name -> slash ++ name <> [] ->
    name <> DOT -> name <> DOTDOT -> (rest = [] \/ exists rest', rest = 47 :: rest') ->
    Dots (o ++ slash ++ name) rest r -> Dots o (slash ++ name ++ rest) r.
Proof.
  intros S N E D1 D2 R H. eapply dots_step; [| |exact H].
  - rewrite app_assoc. destruct (slash ++ name); [now elim E | discriminate].
  - assert (NS := fun pre Hp sl tl S2 R2 => not_segment slash name rest pre S N E D1 D2 R Hp sl tl S2 R2).
    assert (I1 : In DOT [DOT; DOTDOT]) by now left. assert (I2 : In DOTDOT [DOT; DOTDOT]) by (right; now left).
    assert (L0 : forall A (x : list A) Q, (x = x \/ Q)) by (intros; now left).
    unfold rfc_step.
    rewrite (starts_false [46; 46; 47]) by (intros q X; apply (NS DOTDOT I2 [] (47 :: q)); [now left | right; now exists q | exact X]).
    rewrite (starts_false [46; 47]) by (intros q X; apply (NS DOT I1 [] (47 :: q)); [now left | right; now exists q | exact X]).
    rewrite (starts_false [47; 46; 47]) by (intros q X; apply (NS DOT I1 [47] (47 :: q)); [now right | right; now exists q | exact X]).
    rewrite (proj2 (text_eqb_neq _ [47; 46])) by (intros X; apply (NS DOT I1 [47] []); [now right | now left | exact X]).
    rewrite (starts_false [47; 46; 46; 47]) by (intros q X; apply (NS DOTDOT I2 [47] (47 :: q)); [now right | right; now exists q | exact X]).
    rewrite (proj2 (text_eqb_neq _ [47; 46; 46])) by (intros X; apply (NS DOTDOT I2 [47] []); [now right | now left | exact X]).
    rewrite (proj2 (text_eqb_neq _ [46])) by (intros X; apply (NS DOT I1 [] []); [now left | now left | exact X]).
    rewrite (proj2 (text_eqb_neq _ [46; 46])) by (intros X; apply (NS DOTDOT I2 [] []); [now left | now left | exact X]).
    cbn [orb]. rewrite first_segment_app by assumption. f_equal. rewrite app_assoc.
    now apply skipn_app_exact.
Qed.

Lemma dots_B1 o i r : Dots o (47 :: i) r -> Dots o (47 :: 46 :: 47 :: i) r.
Proof. intros H. eapply dots_step; [discriminate | reflexivity | exact H]. Qed.
Lemma dots_B2 o r : Dots o [47] r -> Dots o [47; 46] r.
Proof. intros H. eapply dots_step; [discriminate | reflexivity | exact H]. Qed.
Lemma dots_C1 o i r : Dots (drop_last o) (47 :: i) r -> Dots o (47 :: 46 :: 46 :: 47 :: i) r.
Proof. intros H. eapply dots_step; [discriminate | reflexivity | exact H]. Qed.
Lemma dots_C2 o r : Dots (drop_last o) [47] r -> Dots o [47; 46; 46] r.
Proof. intros H. eapply dots_step; [discriminate | reflexivity | exact H]. Qed.

Lemma dots_fun o i r : Dots o i r -> forall r', Dots o i r' -> r = r'.
Proof.
  induction 1 as [o | o i o' i' r N S H IH]; intros r' H'.
  - inversion H' as [|? ? ? ? ? N']; subst; [reflexivity | now elim N'].
  - inversion H' as [|? ? o2 i2 ? N' S' H2]; subst; [now elim N|]. rewrite S in S'. injection S' as <- <-. now apply IH.
Qed.

(** The segments behind the leading slash, rendered. *)
Definition render (segs : list text) : text := List.concat (map (cons 47) segs).

Lemma render_app a b : render (a ++ b) = render a ++ render b.
Proof. unfold render. rewrite map_app. apply concat_app. Qed.
Lemma join_render s segs : join [47] (s :: segs) = s ++ render segs.
Proof.
  revert s. induction segs as [|t segs IH]; intros s.
  - cbn. now rewrite app_nil_r.
  - rewrite join_cons2, IH. reflexivity.
Qed.
Lemma split_abs path : exists segs, split_on 47 (47 :: path) = [] :: segs /\ segs = split_on 47 path /\ path = join [47] segs.
Proof.
  exists (split_on 47 path). cbn [split_on]. rewrite N.eqb_refl. repeat split. symmetry. apply join_split_on.
Qed.

Definition dotty (s : text) : bool := text_eqb s DOT || text_eqb s DOTDOT.
Lemma dotty_spec s : dotty s = true <-> s = DOT \/ s = DOTDOT.
Proof. unfold dotty. rewrite orb_true_iff, !text_eqb_eq. reflexivity. Qed.

(** The abstract machine: segments below the root, the last first. *)
Fixpoint below (segs st : list text) : list text :=
  match segs with
  | [] => st
  | s :: r =>
    if text_eqb s DOT then below r st
    else if text_eqb s DOTDOT then below r (match st with [] => [] | _ :: o => o end)
    else below r (s :: st)
  end.

Definition plus_slash (segs : list text) : list text :=
  if dotty (List.last segs []) then [[]] else [].

Lemma drop_last_render st s : ~ In 47 s -> drop_last (render (st ++ [s])) = render st.
Proof.
  intros N. rewrite render_app. unfold drop_last. cbn [render map List.concat]. rewrite app_nil_r, rev_app_distr.
  cbn [rev]. rewrite <- app_assoc, drop_while_app_l.
  - cbn [app drop_while]. rewrite N.eqb_refl. cbn. apply rev_involutive.
  - intros c I. apply in_rev in I. apply negb_true_iff, N.eqb_neq. intros ->. contradiction.
Qed.
Lemma drop_last_nil : drop_last [] = [].
Proof. reflexivity. Qed.

(** The RFC on an absolute path, read segment by segment. *)
Lemma rfc_below segs : forall st, segs <> [] -> (forall s, In s segs -> ~ In 47 s) -> (forall s, In s st -> ~ In 47 s) ->
  Dots (render (rev st)) (render segs) (render (rev (below segs st) ++ plus_slash segs)).
Proof.
  induction segs as [|s segs IH]; intros st Hne Hs Hst; [now elim Hne|].
  assert (Hs1 : ~ In 47 s) by (apply Hs; now left).
  assert (Slash : forall o, Dots o [47] (o ++ [47])).
  { intros o. apply (dots_E o [47] [] []); try tauto; try discriminate. constructor. }
  destruct segs as [|t segs].
  - (* the last segment *)
    unfold plus_slash. cbn [List.last below]. unfold dotty.
    destruct (text_eqb s DOT) eqn:E1.
    { apply text_eqb_eq in E1. subst s. cbn [orb render map List.concat app DOT].
      apply dots_B2. rewrite render_app. apply Slash. }
    destruct (text_eqb s DOTDOT) eqn:E2.
    { apply text_eqb_eq in E2. subst s. cbn [orb]. change (render [DOTDOT]) with [47; 46; 46]. apply dots_C2.
      rewrite render_app. destruct st as [|u st]; cbn [rev app].
      - apply Slash.
      - rewrite drop_last_render by (apply Hst; now left). apply Slash. }
    cbn [orb rev]. rewrite app_nil_r, render_app. change (render [s]) with (47 :: s ++ []).
    apply (dots_E _ [47] s []); try tauto; try discriminate.
    + now apply text_eqb_neq in E1.
    + now apply text_eqb_neq in E2.
    + rewrite app_nil_r. constructor.
  - assert (P : plus_slash (s :: t :: segs) = plus_slash (t :: segs)) by reflexivity.
    rewrite P. cbn [below].
    assert (IH' : forall st', (forall s, In s st' -> ~ In 47 s) ->
      Dots (render (rev st')) (render (t :: segs)) (render (rev (below (t :: segs) st') ++ plus_slash (t :: segs)))).
    { intros st' H'. apply IH; [discriminate | intros u Hu; apply Hs; now right | exact H']. }
    destruct (text_eqb s DOT) eqn:E1.
    { apply text_eqb_eq in E1. subst s. change (render (DOT :: t :: segs)) with (47 :: 46 :: 47 :: t ++ render segs).
      apply dots_B1. apply (IH' st Hst). }
    destruct (text_eqb s DOTDOT) eqn:E2.
    { apply text_eqb_eq in E2. subst s. change (render (DOTDOT :: t :: segs)) with (47 :: 46 :: 46 :: 47 :: t ++ render segs).
      apply dots_C1. destruct st as [|u st]; cbn [rev].
      - change (drop_last (render [])) with (render (rev [])). apply (IH' [] Hst).
      - rewrite drop_last_render by (apply Hst; now left). apply (IH' st). intros v Hv. apply Hst. now right. }
    change (render (s :: t :: segs)) with ([47] ++ s ++ render (t :: segs)).
    apply dots_E; try tauto; try discriminate.
    + now apply text_eqb_neq in E1.
    + now apply text_eqb_neq in E2.
    + right. eexists. reflexivity.
    + assert (R : render (rev st) ++ [47] ++ s = render (rev (s :: st))).
      { cbn [rev]. rewrite render_app. unfold render at 3. cbn. now rewrite app_nil_r. }
      rewrite R. apply IH'. intros v [<- | Hv]; [exact Hs1 | apply Hst, Hv].
Qed.

(** The code's stack and the abstract one. *)
Definition related (climbed : bool) (c st : list text) : Prop :=
  (climbed = false /\ c = st ++ [[]]) \/ (climbed = true /\ c = st /\ (st <> [] -> List.last st [] <> [])).

Lemma loop_below segs : forall climbed c st, root_safe climbed (List.length st) segs -> related climbed c st ->
  exists climbed' , related climbed' (dot_loop segs c) (below segs st).
Proof.
  induction segs as [|s segs IH]; intros climbed c st F R; cbn [dot_loop below root_safe] in *.
  - now exists climbed.
  - destruct (text_eqb s DOT) eqn:E1; [eapply IH; eassumption|].
    destruct (text_eqb s DOTDOT) eqn:E2; cbn [negb].
    + destruct st as [|u st]; cbn [List.length] in F.
      * destruct R as [[-> ->] | [-> [-> _]]]; cbn [app]; apply (IH true [] []); try exact F; right; repeat split; intros H; now elim H.
      * destruct R as [[-> ->] | [-> [-> L]]]; cbn [app].
        -- eapply IH; [exact F | now left].
        -- eapply IH; [exact F|]. right. repeat split. intros N. destruct st as [|v st]; [now elim N|]. apply L. discriminate.
    + destruct F as [F1 F2]. apply (IH climbed (s :: c) (s :: st)); [exact F2|].
      destruct R as [[-> ->] | [-> [-> L]]]; [now left|]. right. repeat split. intros _.
      destruct st as [|v st]; [now apply F1 | apply L; discriminate].
Qed.

Lemma dotty_last path : (ends_with [47; 46] (47 :: path) || ends_with [47; 46; 46] (47 :: path))%bool
  = dotty (List.last (split_on 47 path) []).
Proof.
  assert (G : forall d, ~ In 47 d -> ends_with (47 :: d) (47 :: path) = true <-> List.last (split_on 47 path) [] = d).
  { intros d Hd. unfold ends_with. rewrite starts_with_spec. split.
    - intros [r E]. apply (f_equal (@rev N)) in E. rewrite rev_involutive, rev_app_distr, rev_involutive in E.
      destruct (rev r) as [|x y]; cbn in E; [injection E as E2 | injection E as E1 E2].
      + subst path. rewrite split_on_none by exact Hd. reflexivity.
      + subst path. rewrite split_on_app2, (split_on_none 47 d) by exact Hd. apply last_last.
    - intros E. destruct (split_on_cons 47 path) as [p [ps S]].
      assert (J := join_split_on 47 path).
      destruct (exists_last (l := split_on 47 path)) as [l [x L]]; [rewrite S; discriminate|].
      rewrite L, last_last in E. subst x. rewrite L in J. rewrite <- J.
      exists (rev (match l with [] => [] | s :: l' => 47 :: s ++ render l' end)).
      rewrite <- rev_app_distr. f_equal. destruct l as [|s l]; [reflexivity|].
      cbn [app]. rewrite join_render, render_app. cbn. rewrite app_nil_r. now rewrite app_assoc. }
  unfold dotty. apply eq_true_iff_eq. rewrite !orb_true_iff, !text_eqb_eq.
  rewrite (G [46]), (G [46; 46]); [reflexivity | intros [H | [H | []]]; discriminate H | intros [H | []]; discriminate H].
Qed.

(** The code on an absolute path. *)
Lemma remove_abs path : root_safe false 0 (split_on 47 path) ->
  remove_dot_segments (47 :: path) false
  = render (rev (below (split_on 47 path) []) ++ plus_slash (split_on 47 path)).
Proof.
  intros F. unfold remove_dot_segments. rewrite dotty_last.
  change (split_on 47 (47 :: path)) with (if 47 =? 47 then [] :: split_on 47 path else match split_on 47 path with p :: ps => (47 :: p) :: ps | [] => [[47]] end).
  rewrite N.eqb_refl. change (dot_loop ([] :: split_on 47 path) []) with (dot_loop (split_on 47 path) [[]]).
  change (starts_with [47] (47 :: path)) with ((47 =? 47) && true)%bool. rewrite N.eqb_refl. cbn [andb].
  destruct (loop_below (split_on 47 path) false [[]] [] F) as [cl R]; [left; now split|].
  set (c := dot_loop (split_on 47 path) [[]]) in *. set (st := below (split_on 47 path) []) in *.
  assert (O : (if match rev c with [] => true | o :: _ => match o with [] => false | _ => true end end then [] :: rev c else rev c)
              = [] :: rev st).
  { destruct R as [[_ ->] | [_ [-> L]]].
    - rewrite rev_app_distr. reflexivity.
    - destruct (rev st) as [|o os] eqn:E; [reflexivity|].
      assert (X : List.last st [] = o).
      { rewrite <- (rev_involutive st), E. cbn [rev]. apply last_last. }
      assert (st <> []) by (intros ->; discriminate E).
      destruct o; [now elim (L H) | reflexivity]. }
  rewrite O. unfold plus_slash. destruct (dotty (List.last (split_on 47 path) [])).
  - cbn [app]. rewrite join_render. reflexivity.
  - rewrite join_render, app_nil_r. reflexivity.
Qed.

Lemma rfc_remove path : root_safe false 0 (split_on 47 path) ->
  Dots [] (47 :: path) (remove_dot_segments (47 :: path) false).
Proof.
  intros F. rewrite (remove_abs path F).
  assert (E : 47 :: path = render (split_on 47 path)).
  { destruct (split_on_cons 47 path) as [p [ps S]]. assert (J := join_split_on 47 path). rewrite S in *.
    rewrite join_render in J. change (render (p :: ps)) with (47 :: p ++ render ps). now rewrite J. }
  rewrite E at 1. apply (rfc_below (split_on 47 path) []).
  - destruct (split_on_cons 47 path) as [p [ps ->]]. discriminate.
  - apply split_on_pieces.
  - intros s [].
Qed.


(** ** Every path *)

Lemma below_clean_In segs : forall o s, In s (dot_loop segs o) -> (In s o \/ In s segs) /\ (~ In s o -> s <> DOT /\ s <> DOTDOT).
Proof.
  induction segs as [|x segs IH]; intros o s I; cbn [dot_loop] in I.
  - split; [now left|]. intros N. contradiction.
  - destruct (text_eqb x DOT) eqn:E1.
    { destruct (IH _ _ I) as [[A | A] B]; split; try exact B; [now left | right; now right]. }
    destruct (text_eqb x DOTDOT) eqn:E2; cbn [negb] in I.
    + destruct o as [|y o].
      * destruct (IH _ _ I) as [[A | A] B]; split; try exact B; [now left | right; now right].
      * destruct (IH _ _ I) as [A B]. split; [destruct A as [A | A]; [left; now right | right; now right]|].
        intros N. apply B. intros C. apply N. now right.
    + destruct (IH _ _ I) as [A B]. split.
      * destruct A as [[-> | A] | A]; [right; now left | now left | right; now right].
      * intros N. apply text_eqb_neq in E1, E2. destruct (text_eq_dec s x) as [-> | D]; [now split|].
        apply B. intros [C | C]; [congruence | contradiction].
Qed.

(** The segments of the result. *)
Definition code_output (path : text) : list text :=
  let output := rev (dot_loop (split_on 47 path) []) in
  let output :=
    if starts_with [47] path && match output with [] => true | o :: _ => match o with [] => false | _ => true end end
    then [] :: output else output in
  match output with
  | [] => []
  | _ => if ends_with [47; 46] path || ends_with [47; 46; 46] path then output ++ [[]] else output
  end.
Lemma remove_output path b : remove_dot_segments path b =
  if b then replace_slashes (join [47] (code_output path)) else join [47] (code_output path).
Proof. reflexivity. Qed.

Lemma output_In path s : In s (code_output path) -> s = [] \/ (s <> DOT /\ s <> DOTDOT /\ In s (split_on 47 path)).
Proof.
  intros I. unfold code_output in I.
  set (out := rev (dot_loop (split_on 47 path) [])) in I.
  set (o2 := if _ && _ then [] :: out else out) in I.
  assert (I2 : s = [] \/ In s o2).
  { destruct o2 as [|x o2']; [destruct I|]. destruct (_ || _)%bool; [|now right].
    apply in_app_or in I as [I | [I | []]]; [now right | left; now symmetry]. }
  destruct I2 as [-> | I2]; [now left|].
  assert (I3 : s = [] \/ In s out).
  { unfold o2 in I2. destruct (_ && _)%bool; [destruct I2 as [I2 | I2]; [left; now symmetry | now right] | now right]. }
  destruct I3 as [-> | I3]; [now left|]. right. unfold out in I3. apply in_rev in I3.
  destruct (below_clean_In _ _ _ I3) as [[[] | A] B]. destruct (B (fun H => H)) as [B1 B2]. now repeat split.
Qed.

Lemma split_join path : code_output path <> [] -> split_on 47 (join [47] (code_output path)) = code_output path.
Proof.
  intros N. apply split_on_join; [exact N|]. intros s I. destruct (output_In _ _ I) as [-> | [_ [_ J]]]; [intros []|].
  eapply split_on_pieces; exact J.
Qed.

Lemma replace_cons2 c d r : replace_slashes (c :: d :: r) =
  if ((c =? 47) && (d =? 47))%bool then 47 :: replace_slashes r else c :: replace_slashes (d :: r).
Proof. reflexivity. Qed.

Lemma replace_split n : forall s, (List.length s <= n)%nat -> exists p ps qs,
  split_on 47 (replace_slashes s) = p :: ps /\ split_on 47 s = p :: qs /\ (forall x, In x ps -> x = [] \/ In x qs).
Proof.
  induction n as [|n IH]; intros s L.
  - destruct s; [|cbn in L; lia]. exists [], [], []. repeat split. intros x [].
  - destruct s as [|c r]; [exists [], [], []; repeat split; intros x []|].
    destruct r as [|d r'].
    { cbn [replace_slashes]. destruct (split_on_cons 47 [c]) as [p [ps E]]. exists p, ps, ps. repeat split; try exact E. now right. }
    cbn [List.length] in L. rewrite replace_cons2. destruct ((c =? 47) && (d =? 47))%bool eqn:E.
    + apply andb_true_iff in E as [E1 E2]. apply N.eqb_eq in E1, E2. subst c d.
      destruct (IH r') as [p [ps [qs [S1 [S2 S3]]]]]; [lia|].
      cbn [split_on]. rewrite N.eqb_refl. exists [], (p :: ps), ([] :: p :: qs). rewrite S1, S2. repeat split.
      intros x [<- | I]; [right; right; now left|]. destruct (S3 x I) as [-> | J]; [now left | right; right; now right].
    + destruct (IH (d :: r')) as [p [ps [qs [S1 [S2 S3]]]]]; [cbn [List.length]; lia|].
      revert S1 S2. generalize (d :: r'), (replace_slashes (d :: r')). intros q rq S1 S2.
      cbn [split_on]. rewrite S1, S2. destruct (c =? 47).
      * exists [], (p :: ps), (p :: qs). repeat split. intros x [<- | I]; [right; now left|].
        destruct (S3 x I) as [-> | J]; [now left | right; now right].
      * exists (c :: p), ps, qs. repeat split. exact S3.
Qed.

Lemma dot_free_result path b : dot_free (remove_dot_segments path b).
Proof.
  rewrite remove_output.
  assert (G : forall d, d = DOT \/ d = DOTDOT -> ~ In d (split_on 47 (join [47] (code_output path)))).
  { intros d Hd I. destruct (code_output path) as [|x xs] eqn:E.
    - cbn in I. destruct I as [<- | []]. destruct Hd as [H | H]; discriminate H.
    - rewrite <- E in I. rewrite split_join in I by (rewrite E; discriminate).
      destruct (output_In _ _ I) as [-> | [A [B _]]]; destruct Hd as [H | H]; [discriminate H | discriminate H | now apply A | now apply B]. }
  destruct b; [|split; apply G; tauto].
  assert (G2 : forall d, d = DOT \/ d = DOTDOT -> ~ In d (split_on 47 (replace_slashes (join [47] (code_output path))))).
  { intros d Hd I. destruct (replace_split _ (join [47] (code_output path)) (le_n _)) as [p [ps [qs [S1 [S2 S3]]]]].
    rewrite S1 in I. apply (G d Hd). rewrite S2. destruct I as [<- | I]; [now left|].
    destruct (S3 d I) as [-> | J]; [destruct Hd as [H | H]; discriminate H | now right]. }
  split; apply G2; tauto.
Qed.

(** ** Already normal paths *)

Lemma loop_id segs : forall o, ~ In DOT segs -> ~ In DOTDOT segs -> dot_loop segs o = rev segs ++ o.
Proof.
  induction segs as [|s segs IH]; intros o H1 H2; cbn [dot_loop rev]; [reflexivity|].
  rewrite (proj2 (text_eqb_neq s DOT)) by (intros ->; apply H1; now left).
  rewrite (proj2 (text_eqb_neq s DOTDOT)) by (intros ->; apply H2; now left). cbn [negb].
  rewrite IH by (intros I; first [solve [apply H1; now right] | apply H2; now right]). rewrite <- app_assoc. reflexivity.
Qed.

Lemma ends_dot d path : ~ In 47 d -> ends_with (47 :: d) path = true -> In d (split_on 47 path).
Proof.
  intros Hd E. unfold ends_with in E. apply starts_with_spec in E as [r E].
  apply (f_equal (@rev N)) in E. rewrite rev_involutive, rev_app_distr, rev_involutive in E. rewrite E, split_on_app2.
  apply in_or_app. right. rewrite split_on_none by exact Hd. now left.
Qed.

Lemma normal_id path : dot_free path -> remove_dot_segments path false = path.
Proof.
  intros [H1 H2]. rewrite remove_output. unfold code_output. rewrite loop_id, app_nil_r, rev_involutive by assumption.
  assert (E1 : ends_with [47; 46] path = false).
  { destruct (ends_with [47; 46] path) eqn:E; [|reflexivity]. elim H1. apply ends_dot; [|exact E]. intros [X | []]. discriminate X. }
  assert (E2 : ends_with [47; 46; 46] path = false).
  { destruct (ends_with [47; 46; 46] path) eqn:E; [|reflexivity]. elim H2. apply ends_dot; [|exact E]. intros [X | [X | []]]; discriminate X. }
  rewrite E1, E2. cbn [orb].
  assert (E3 : (starts_with [47] path && match split_on 47 path with [] => true | o :: _ => match o with [] => false | _ => true end end)%bool = false).
  { destruct path as [|c path]; [reflexivity|]. cbn [starts_with]. rewrite andb_true_r. destruct (N.eqb_spec 47 c) as [<- |]; [|reflexivity].
    cbn [split_on]. now rewrite N.eqb_refl. }
  rewrite E3. destruct (split_on 47 path) eqn:S; [destruct (split_on_cons 47 path) as [p [ps X]]; congruence|].
  rewrite <- S. apply join_split_on.
Qed.

Lemma idempotent path : remove_dot_segments (remove_dot_segments path false) false = remove_dot_segments path false.
Proof. apply normal_id, dot_free_result. Qed.

(** No two slashes in a row. *)
Definition single_slashes (s : text) : Prop := forall a b, s <> a ++ 47 :: 47 :: b.

Lemma replace_id s : single_slashes s -> replace_slashes s = s.
Proof.
  induction s as [|c s IH]; intros H; [reflexivity|]. destruct s as [|d s]; [reflexivity|]. rewrite replace_cons2.
  destruct ((c =? 47) && (d =? 47))%bool eqn:E.
  - apply andb_true_iff in E as [E1 E2]. apply N.eqb_eq in E1, E2. subst c d. now elim (H [] s).
  - f_equal. apply IH. intros a b X. apply (H (c :: a) b). cbn. now rewrite X.
Qed.

Lemma render_single segs : Forall (fun s => s <> [] /\ ~ In 47 s) segs -> single_slashes (render segs ++ [47]) /\ single_slashes (render segs).
Proof.
  intros F.
  assert (G : single_slashes (render segs ++ [47])).
  { induction segs as [|s segs IH].
    - intros a b X. cbn in X. destruct a as [|x [|y a]]; discriminate X.
    - inversion F as [|? ? [F1 F2] F3]; subst. specialize (IH F3).
      change (render (s :: segs) ++ [47]) with (47 :: (s ++ render segs) ++ [47]). rewrite <- app_assoc.
      assert (W : forall s0 t, ~ In 47 s0 -> single_slashes t -> single_slashes (s0 ++ t)).
      { clear. induction s0 as [|c s0 IH]; intros t N H; [exact H|]. intros a b X. cbn in X.
        assert (N' : ~ In 47 s0) by (intros I; apply N; now right).
        destruct a as [|x a]; cbn in X; injection X as X1 X2.
        - subst c. elim N. now left.
        - now elim (IH t N' H a b). }
      assert (S1 := W s _ F2 IH). intros a b X. destruct a as [|x a]; cbn in X; [injection X as X2 | injection X as X1 X2].
      + destruct s as [|c s]; [now elim F1|]. injection X2 as -> _. elim F2. now left.
      + now elim (S1 a b). }
  split; [exact G|]. intros a b X. apply (G a (b ++ [47])). rewrite X, <- app_assoc. reflexivity.
Qed.

Lemma below_In segs : forall st s, In s (below segs st) -> In s st \/ (In s segs /\ s <> DOT /\ s <> DOTDOT).
Proof.
  induction segs as [|x segs IH]; intros st s I; cbn [below] in I; [now left|].
  destruct (text_eqb x DOT) eqn:E1.
  { destruct (IH _ _ I) as [A | [A B]]; [now left | right; split; [now right | exact B]]. }
  destruct (text_eqb x DOTDOT) eqn:E2.
  - destruct (IH _ _ I) as [A | [A B]]; [left; destruct st; [destruct A | now right] | right; split; [now right | exact B]].
  - destruct (IH _ _ I) as [[<- | A] | [A B]]; [|now left | right; split; [now right | exact B]].
    right. apply text_eqb_neq in E1, E2. split; [now left | now split].
Qed.

Lemma stays_safe segs : forall d, stays_below d segs -> root_safe false d segs.
Proof.
  induction segs as [|s segs IH]; intros d H; cbn [stays_below root_safe] in *; [exact I|].
  destruct (text_eqb s DOT); [now apply IH|]. destruct (text_eqb s DOTDOT).
  - destruct d; [destruct H | now apply IH].
  - split; [discriminate | now apply IH].
Qed.
Lemma full_safe segs : forall c d, ~ In [] segs -> root_safe c d segs.
Proof.
  induction segs as [|s segs IH]; intros c d H; cbn [root_safe] in *; [exact I|].
  assert (H' : ~ In [] segs) by (intros I; apply H; now right).
  destruct (text_eqb s DOT); [now apply IH|]. destruct (text_eqb s DOTDOT).
  - destruct d; now apply IH.
  - split; [|now apply IH]. intros _ _ ->. apply H. now left.
Qed.

Lemma below_dir (l : list text) : forall st : list text, exists t : list text, below (l ++ [[]]) st = [] :: t.
Proof.
  induction l as [|y l IH]; intros st; cbn [below app]; [now exists st|].
  destruct (text_eqb y DOT); [apply IH|]. destruct (text_eqb y DOTDOT); apply IH.
Qed.
Lemma stays_absolute path : root_safe false 0 (split_on 47 path) ->
  absolute (remove_dot_segments (47 :: path) false) /\
  (directory (47 :: path) -> List.last (split_on 47 (remove_dot_segments (47 :: path) false)) [] = []).
Proof.
  intros F. split.
  - rewrite (remove_abs path F).
    destruct (rev (below (split_on 47 path) []) ++ plus_slash (split_on 47 path)) as [|s segs] eqn:E.
    + exfalso. apply app_eq_nil in E as [E1 E2]. unfold plus_slash in E2.
      destruct (dotty (List.last (split_on 47 path) [])) eqn:D; [discriminate E2|].
      destruct (exists_last (l := split_on 47 path)) as [l [x E]]; [destruct (split_on_cons 47 path) as [p [ps ->]]; discriminate|].
      rewrite E, last_last in D. rewrite E in E1.
      assert (G : forall l st, dotty x = false -> below (l ++ [x]) st <> []).
      { clear. induction l as [|y l IH]; intros st D; cbn [below app].
        - unfold dotty in D. apply orb_false_iff in D as [-> ->]. discriminate.
        - destruct (text_eqb y DOT); [now apply IH|]. destruct (text_eqb y DOTDOT); now apply IH. }
      apply (G l [] D). rewrite <- (rev_involutive (below _ _)), E1. reflexivity.
    + exists (s ++ render segs). reflexivity.
  - intros D. rewrite (remove_abs path F).
    assert (S : split_on 47 (47 :: path) = [] :: split_on 47 path) by (cbn [split_on]; now rewrite N.eqb_refl).
    assert (LS : List.last (split_on 47 (47 :: path)) [] = List.last (split_on 47 path) []).
    { rewrite S. destruct (split_on_cons 47 path) as [p [ps ->]]. reflexivity. }
    unfold directory in D. rewrite LS in D.
    assert (R : forall segs, (forall s, In s segs -> ~ In 47 s) -> segs <> [] -> List.last (split_on 47 (render segs)) [] = List.last segs []).
    { intros segs H N. destruct segs as [|s segs]; [now elim N|].
      change (render (s :: segs)) with (47 :: (s ++ render segs)). rewrite <- join_render. cbn [split_on]. rewrite N.eqb_refl.
      rewrite split_on_join by assumption. destruct segs; reflexivity. }
    assert (B : forall s, In s (rev (below (split_on 47 path) [])) -> ~ In 47 s).
    { intros s I. apply in_rev in I. destruct (below_In _ _ _ I) as [[] | [J _]]. eapply split_on_pieces; exact J. }
    rewrite R.
    + unfold plus_slash. destruct (dotty (List.last (split_on 47 path) [])) eqn:Dt; [apply last_last|].
      rewrite app_nil_r. destruct D as [D | D].
      * destruct (exists_last (l := split_on 47 path)) as [l [x E]]; [destruct (split_on_cons 47 path) as [p [ps ->]]; discriminate|].
        rewrite E, last_last in D. subst x.
        destruct (below_dir l []) as [t E2].
        assert (E3 : below (split_on 47 path) [] = [] :: t) by (rewrite E; exact E2). rewrite E3. cbn [rev]. apply last_last.
      * exfalso. assert (X : dotty (List.last (split_on 47 path) []) = true).
        { apply dotty_spec. destruct D as [D | [D | []]]; [left | right]; now symmetry. }
        congruence.
    + intros s I. apply in_app_or in I as [I | I]; [now apply B|]. unfold plus_slash in I. destruct (dotty _); [|destruct I].
      destruct I as [<- | []]. intros [].
    + unfold plus_slash. destruct (dotty (List.last (split_on 47 path) [])) eqn:Dt; [intros X; now apply app_eq_nil in X|].
      rewrite app_nil_r. intros X.
      destruct D as [D | D].
      * destruct (exists_last (l := split_on 47 path)) as [l [x E]]; [destruct (split_on_cons 47 path) as [p [ps ->]]; discriminate|].
        rewrite E, last_last in D. subst x.
        destruct (below_dir l []) as [t E2].
        assert (E3 : below (split_on 47 path) [] = [] :: t) by (rewrite E; exact E2). rewrite E3 in X. cbn [rev] in X. now apply app_eq_nil in X.
      * assert (Y : dotty (List.last (split_on 47 path) []) = true).
        { apply dotty_spec. destruct D as [D | [D | []]]; [left | right]; now symmetry. }
        congruence.
Qed.
