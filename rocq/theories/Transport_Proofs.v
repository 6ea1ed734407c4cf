(** Bodies are read to their end; headers are sent as they are. *)
From Verif Require Import Base Base_Proofs PyText_Model PyText_Proofs PyDict_Model PyDict_Proofs Fields_Model Streams_Model Transport_Model Transport_Spec.
From Coq Require Import Lia Permutation.
Local Open Scope N_scope.

Section Pieces.
  Context {S : Type} (read : Z -> S -> result (bytes * S)) (left : S -> bytes) (good : S -> Prop) (k : Z).
  Hypothesis R : forall s, good s -> exists out s', read k s = Ok (out, s') /\ left s = out ++ left s' /\ good s' /\ (out = [] -> left s = []).
  Lemma pieces_all n : forall s, good s -> (List.length (left s) < n)%nat -> exists l s', iter_pieces read n k s = Some (Ok (l, s')) /\ List.concat l = left s.
  Proof.
    induction n as [|n IH]; intros s G L; [lia|]. cbn [iter_pieces]. destruct (R s G) as (out & s' & -> & E & G' & N). destruct out as [|x out].
    - exists [], s'. split; [reflexivity|]. now rewrite (N eq_refl).
    - destruct (IH s' G') as (l & s2 & H & C); [rewrite E, app_length in L; cbn [List.length] in L; lia|]. rewrite H. exists ((x :: out) :: l), s2. split; [reflexivity|].
      cbn [List.concat]. now rewrite C, E.
  Qed.
End Pieces.

Lemma rd_read_ok k r : (k <> 0)%Z -> exists out r', rd_read k r = Ok (out, r') /\ skipn (d_pos r) (d_data r) = out ++ skipn (d_pos r') (d_data r') /\ (out = [] -> skipn (d_pos r) (d_data r) = []).
Proof.
  intros K. unfold rd_read, rd_left. cbv zeta. set (l := skipn (d_pos r) (d_data r)). destruct (Z.ltb_spec k 0).
  - eexists _, _. split; [reflexivity|]. cbn [d_pos d_data]. split; [|auto].
    replace (skipn (d_pos r + List.length l) (d_data r)) with (@nil N); [now rewrite app_nil_r|]. symmetry. apply skipn_all2. subst l. rewrite skipn_length. lia.
  - set (m := Nat.min (Z.to_nat k) _). assert (M : (0 < m)%nat) by (subst m; destruct (d_chop r); lia). eexists _, _. split; [reflexivity|]. cbn [d_pos d_data]. split.
    + rewrite <- (firstn_skipn m l) at 1. f_equal. subst l. rewrite firstn_length, skipn_length.
      destruct (Nat.le_gt_cases (List.length (d_data r) - d_pos r) m) as [Q|Q].
      * rewrite (skipn_all2 (skipn (d_pos r) (d_data r))) by (rewrite skipn_length; lia). symmetry. apply skipn_all2. lia.
      * rewrite Nat.min_l by lia. rewrite Nat.add_comm. assert (SK : forall (A : Type) a b (x : list A), skipn a (skipn b x) = skipn (b + a) x) by (intros A a b; induction b; intros x; cbn; [reflexivity | destruct x; [now destruct a | apply IHb]]).
        now rewrite SK, Nat.add_comm.
    + intros E. destruct l as [|x l']; [reflexivity|]. destruct m; [lia | discriminate].
Qed.
Lemma fold_concat (chunks : list bytes) acc : fold_left (fun full chunk => full ++ chunk) chunks acc = acc ++ List.concat chunks.
Proof. revert acc. induction chunks as [|c r IH]; intros acc; cbn [fold_left List.concat]; [now rewrite app_nil_r | rewrite IH, <- app_assoc; reflexivity]. Qed.
Lemma take_until_ok n : forall chunks acc res rest, take_until n acc chunks = (res, rest) -> res ++ List.concat rest = acc ++ List.concat chunks /\ ((n <= List.length res)%nat \/ rest = []).
Proof.
  induction chunks as [|c r IH]; intros acc res rest; cbn [take_until]; [intros [= <- <-]; auto|]. destruct (Nat.leb_spec n (List.length (acc ++ c))).
  - intros [= <- <-]. cbn [List.concat]. rewrite <- app_assoc. auto.
  - intros T. destruct (IH _ _ _ T) as [A B]. cbn [List.concat]. rewrite app_assoc. auto.
Qed.
Definition w_left (w : wrapped) : bytes := content (BWrapped w).
Definition w_good (w : wrapped) : Prop := match w_src w with SRestart _ => False | _ => True end.
Lemma w_read_ok k w : (k <> 0)%Z -> w_good w -> exists out w', w_read k w = Ok (out, w') /\ w_left w = out ++ w_left w' /\ w_good w' /\ (out = [] -> w_left w = []).
Proof.
  intros K G. destruct w as [rem [r|chunks|chunks]]; [| |destruct G]; unfold w_read, w_left, content; cbn [w_src w_rem].
  - destruct (rd_read_ok k r K) as (out & r' & -> & E & N). cbn [bind]. eexists _, _. split; [reflexivity|]. cbn [w_src]. auto.
  - destruct (Z.ltb_spec k 0).
    + eexists _, _. split; [reflexivity|]. cbn [w_src w_rem List.concat]. rewrite !app_nil_r. repeat split; auto.
    + set (n := Z.to_nat k). assert (0 < n)%nat by lia. destruct (if Nat.ltb (List.length rem) n then take_until n rem chunks else (rem, chunks)) as [res rest] eqn:T.
      assert (A : res ++ List.concat rest = rem ++ List.concat chunks /\ ((n <= List.length res)%nat \/ rest = [])).
      { destruct (Nat.ltb_spec (List.length rem) n); [now apply take_until_ok | injection T as <- <-; split; [reflexivity | left; lia]]. }
      destruct A as [A B]. eexists _, _. split; [reflexivity|]. cbn [w_src w_rem]. rewrite <- A. split; [now rewrite app_assoc, firstn_skipn|]. split; [exact Logic.I|].
      intros F. destruct res as [|x res]; [|destruct n; [lia | discriminate]]. destruct B as [B|B]; [cbn in B; lia | now rewrite B].
Qed.
Lemma w_restart_more k w : (0 < k)%Z -> (exists rem c, w = mkWrapped rem (SRestart c) /\ List.concat c <> []) -> exists x out w', w_read k w = Ok (x :: out, w') /\ exists rem c, w' = mkWrapped rem (SRestart c) /\ List.concat c <> [].
Proof.
  intros K (rem & c & -> & Nc). unfold w_read. cbn [w_src w_rem]. destruct (Z.ltb_spec k 0); [lia|]. set (n := Z.to_nat k). assert (0 < n)%nat by lia.
  destruct (if Nat.ltb (List.length rem) n then take_until n rem c else (rem, c)) as [res rest] eqn:T.
  assert (Q : res <> []).
  { destruct (Nat.ltb_spec (List.length rem) n); [|injection T as <- <-; intros ->; cbn in *; lia]. destruct (take_until_ok _ _ _ _ _ T) as [A [B|B]]; [intros ->; cbn in B; lia|].
    subst rest. cbn [List.concat] in A. rewrite app_nil_r in A. intros ->. symmetry in A. apply app_eq_nil in A as [_ A]. now apply Nc. }
  destruct res as [|x res]; [contradiction|]. destruct n as [|n]; [lia|]. cbn [firstn skipn]. eexists _, _, _. split; [reflexivity|]. eauto.
Qed.

(** Headers. *)
Section Headers.
  Variable lower : text -> text.
  Lemma field_of_get e name : field_of lower e name = dict_get (lower name) e.
  Proof.
    unfold field_of. induction e as [|[k f] e IH]; [reflexivity|]. cbn [find dict_get fst].
    destruct (text_eqb k (lower name)) eqn:A.
    - apply text_eqb_eq in A. subst k. now rewrite text_eqb_refl.
    - rewrite IH. replace (text_eqb (lower name) k) with false; [reflexivity|]. symmetry. apply text_eqb_neq. intros E. subst k. now rewrite text_eqb_refl in A.
  Qed.
  Lemma named_tuples_same name f : lower (f_name f) = lower name -> named lower name (as_tuples f) = as_tuples f.
  Proof. intros E. unfold named, as_tuples. induction (f_values f) as [|v l IH]; cbn [map filter fst]; [reflexivity|]. now rewrite E, text_eqb_refl, IH. Qed.
  Lemma named_tuples_other name f : lower (f_name f) <> lower name -> named lower name (as_tuples f) = [].
  Proof. intros E. unfold named, as_tuples. induction (f_values f) as [|v l IH]; cbn [map filter fst]; [reflexivity|]. now rewrite (proj2 (text_eqb_neq _ _) E), IH. Qed.
  Lemma named_app name a b : named lower name (a ++ b) = named lower name a ++ named lower name b.
  Proof. apply filter_app. Qed.
  Section Kinds.
    Variable keep : field -> bool.
    Definition sent (e : list (text * field)) := flat_map (fun kf => if keep (snd kf) then as_tuples (snd kf) else []) e.
    Lemma sent_absent e name : fields_ok lower e -> field_of lower e name = None -> named lower name (sent e) = [].
    Proof.
      intros [_ W]. rewrite field_of_get. induction e as [|[k f] e IH]; intros H; [reflexivity|]. inversion W as [|? ? E1 W']; subst. cbn [fst snd] in E1. subst k. cbn [dict_get] in H.
      destruct (text_eqb (lower name) (lower (f_name f))) eqn:T; [discriminate|]. apply text_eqb_neq in T.
      cbn [sent flat_map snd]. rewrite named_app. fold (sent e). rewrite (IH W' H). destruct (keep f); [rewrite named_tuples_other; [reflexivity | congruence] | reflexivity].
    Qed.
    Lemma sent_named e name : fields_ok lower e ->
      named lower name (sent e) = match field_of lower e name with Some f => if keep f then as_tuples f else [] | None => [] end.
    Proof.
      intros F. destruct (field_of lower e name) as [f|] eqn:H; [|now apply sent_absent]. destruct F as [ND W]. rewrite field_of_get in H. induction e as [|[k g] e IH]; [discriminate|].
      inversion W as [|? ? E1 W']; subst. inversion ND as [|? ? N1 ND']; subst. cbn [fst snd] in *. subst k. cbn [dict_get] in H. cbn [sent flat_map snd]. rewrite named_app. fold (sent e).
      destruct (text_eqb (lower name) (lower (f_name g))) eqn:T.
      - injection H as ->. apply text_eqb_eq in T. rewrite (sent_absent e name); [| split; assumption |].
        + rewrite app_nil_r. destruct (keep f); [now apply named_tuples_same | reflexivity].
        + rewrite field_of_get, T. apply dict_get_None. exact N1.
      - apply text_eqb_neq in T. rewrite (IH ND' W' H). destruct (keep g); [rewrite named_tuples_other; [reflexivity | congruence] | reflexivity].
    Qed.
  End Kinds.
  Lemma add_absent_ok name v e : fields_ok lower e -> fields_ok lower (add_absent lower name v e).
  Proof.
    intros [ND W]. unfold add_absent. destruct (dict_has (lower name) e) eqn:H; [now split|]. unfold dict_has in H. destruct (dict_get (lower name) e) eqn:G; [discriminate|].
    apply dict_get_None in G. rewrite dict_set_new by exact G. split.
    - rewrite map_app. cbn [map fst]. apply Permutation_NoDup with (l := lower name :: map fst e); [apply Permutation_cons_append | now constructor].
    - apply Forall_app. split; [exact W | now constructor].
  Qed.
  Lemma add_absent_of name v e n : fields_ok lower e -> field_of lower (add_absent lower name v e) n =
    match field_of lower e n with Some f => Some f | None => if text_eqb (lower n) (lower name) then Some (mkField name [v] Header) else None end.
  Proof.
    intros [ND W]. rewrite !field_of_get. unfold add_absent, dict_has. destruct (dict_get (lower name) e) as [g|] eqn:G.
    - destruct (dict_get (lower n) e) eqn:H; [reflexivity|]. destruct (text_eqb (lower n) (lower name)) eqn:T; [|reflexivity]. apply text_eqb_eq in T. rewrite T in H. congruence.
    - destruct (text_eqb (lower n) (lower name)) eqn:T.
      + apply text_eqb_eq in T. rewrite T, G. apply dict_get_set_eq.
      + apply text_eqb_neq in T. rewrite dict_get_set_ne by congruence. now destruct (dict_get (lower n) e).
  Qed.
End Headers.

(** parse_qs *)
Lemma parse_qs_group (l : list (text * text)) : forall d, NoDup (dict_keys d) ->
  let r := fold_left (fun d nv => match dict_get (fst nv) d with Some l => dict_set (fst nv) (l ++ [snd nv]) d | None => dict_set (fst nv) [snd nv] d end) l d in
  NoDup (dict_keys r) /\ forall k, match dict_get k r with Some vs => vs | None => [] end = (match dict_get k d with Some vs => vs | None => [] end) ++ map snd (filter (fun nv => text_eqb (fst nv) k) l).
Proof.
  induction l as [|[n v] l IH]; intros d ND; cbn [fold_left]; [split; [exact ND | intros k; now rewrite app_nil_r]|]. cbn [fst snd].
  set (d' := match dict_get n d with Some l => dict_set n (l ++ [v]) d | None => dict_set n [v] d end).
  assert (ND' : NoDup (dict_keys d')) by (subst d'; destruct (dict_get n d); now apply dict_set_NoDup). destruct (IH d' ND') as [A B]. split; [exact A|]. intros k. rewrite B.
  cbn [filter map fst]. destruct (text_eqb n k) eqn:T.
  - apply text_eqb_eq in T. subst k. cbn [map snd]. replace (match dict_get n d' with Some vs => vs | None => [] end) with ((match dict_get n d with Some vs => vs | None => [] end) ++ [v]).
    + rewrite <- app_assoc. reflexivity.
    + subst d'. destruct (dict_get n d); rewrite dict_get_set_eq; reflexivity.
  - apply text_eqb_neq in T. f_equal. subst d'. destruct (dict_get n d); rewrite dict_get_set_ne by congruence; reflexivity.
Qed.
