(** Texts and lines; whole files. *)
From Verif Require Import Base Base_Proofs PyText_Model PyText_Proofs PyDict_Model PyDict_Proofs
  ConfigFile_Model ConfigFile_Spec ConfigFile_Proofs ConfigDoc_Proofs ConfigDoc2_Proofs ConfigMerge_Proofs.
Local Open Scope N_scope.

Lemma one_line_break l c : one_line l -> In c l -> is_break c = false.
Proof.
  intros H Hc. specialize (H c Hc). cbn [In] in H. unfold is_break.
  repeat match goal with
         | |- context[?a <=? ?b] => destruct (N.leb_spec a b); cbn [andb orb]
         | |- context[?a =? ?b] => destruct (N.eqb_spec a b); cbn [andb orb]
         end; try reflexivity; exfalso; lia.
Qed.
Lemma splitlines_run l rest cur : one_line l ->
  splitlines_from cur (l ++ rest) = splitlines_from (rev l ++ cur) rest.
Proof.
  revert cur. induction l as [|c l IH]; intros cur H; [reflexivity|]. cbn [app splitlines_from].
  assert (Hb : is_break c = false) by (eapply one_line_break; [exact H|left; reflexivity]).
  assert (c =? 13 = false) as ->.
  { destruct (N.eqb_spec c 13) as [->|]; [discriminate Hb|reflexivity]. }
  rewrite Hb, IH by (intros x Hx; apply H; right; exact Hx). cbn [rev]. rewrite <- app_assoc. reflexivity.
Qed.
Lemma splitlines_written ls last : Forall (fun l => one_line (fst l)) ls -> one_line last ->
  splitlines (written ls last) = written_lines ls last.
Proof.
  intros Hls Hlast. unfold splitlines, written, written_lines. induction ls as [|[l crlf] ls IH].
  - cbn [map List.concat app]. rewrite <- (app_nil_r last) at 1. rewrite splitlines_run by exact Hlast.
    rewrite app_nil_r. cbn [splitlines_from]. destruct (rev last) as [|c r] eqn:E.
    + apply (f_equal (@rev N)) in E. rewrite rev_involutive in E. rewrite E. reflexivity.
    + rewrite <- E, rev_involutive. destruct last; [discriminate E|reflexivity].
  - inversion Hls as [|? ? H1 H2]; subst. cbn [map List.concat fst snd app]. rewrite <- !app_assoc.
    rewrite splitlines_run by exact H1. rewrite app_nil_r. rewrite <- (IH H2).
    destruct crlf; cbn [app splitlines_from]; rewrite rev_involutive; reflexivity.
Qed.

Lemma break_In c : is_break c = true <-> In c [10; 11; 12; 13; 28; 29; 30; 133; 8232; 8233].
Proof.
  unfold is_break. cbn [In].
  repeat match goal with
         | |- context[?a <=? ?b] => destruct (N.leb_spec a b); cbn [andb orb]
         | |- context[(?a =? ?b)%N] => destruct (N.eqb_spec a b); cbn [andb orb]
         end; split; intros; try reflexivity; try discriminate; try lia.
Qed.
Lemma splitlines_ending cur e rest : line_ending e rest ->
  splitlines_from cur (e ++ rest) = rev cur :: splitlines rest.
Proof.
  intros [->|(c & -> & Hc & Hn)]; [reflexivity|]. apply break_In in Hc. cbn [app splitlines_from].
  destruct (N.eqb_spec c 13) as [->|Hd].
  - destruct rest as [|d r]; [reflexivity|]. destruct (N.eqb_spec d 10) as [->|]; [|reflexivity].
    exfalso. apply Hn. split; [reflexivity|]. exists r. reflexivity.
  - rewrite Hc. reflexivity.
Qed.
Lemma Lines_splitlines s ls : Lines s ls -> splitlines s = ls.
Proof.
  intros H. induction H as [|l Hl H1|l e rest ls H1 He _ IH].
  - reflexivity.
  - unfold splitlines. rewrite <- (app_nil_r l) at 1. rewrite splitlines_run by exact H1. rewrite app_nil_r.
    cbn [splitlines_from]. destruct (rev l) eqn:E.
    + apply (f_equal (@rev N)) in E. rewrite rev_involutive in E. contradiction.
    + rewrite <- E, rev_involutive. reflexivity.
  - unfold splitlines. rewrite splitlines_run by exact H1. rewrite app_nil_r, splitlines_ending by exact He.
    rewrite rev_involutive, IH. reflexivity.
Qed.
Lemma Lines_from n : forall s cur, (List.length s < n)%nat -> one_line (rev cur) ->
  Lines (rev cur ++ s) (splitlines_from cur s).
Proof.
  induction n as [|n IH]; intros s cur Hn Hc; [lia|]. destruct s as [|c r]; cbn [splitlines_from].
  - rewrite app_nil_r. destruct cur as [|d cur]; [constructor|]. apply Lines_last; [|exact Hc].
    cbn [rev]. destruct (rev cur); discriminate.
  - cbn [List.length] in Hn. assert (H0 : one_line (rev [])) by (intros x []).
    destruct (N.eqb_spec c 13) as [->|Hd].
    + destruct r as [|d r'].
      * apply (Lines_cut (rev cur) [13] [] []); [exact Hc| |constructor]. right. exists 13.
        split; [reflexivity|]. split; [cbn [In]; tauto|]. intros (_ & r & E). discriminate E.
      * destruct (N.eqb_spec d 10) as [->|Hd].
        -- apply (Lines_cut (rev cur) [13; 10] r'); [exact Hc|left; reflexivity|].
           apply (IH r' []); [cbn [List.length] in Hn; lia|exact H0].
        -- apply (Lines_cut (rev cur) [13] (d :: r')); [exact Hc| |].
           ++ right. exists 13. split; [reflexivity|]. split; [cbn [In]; tauto|].
              intros (_ & r & E). injection E as E _. contradiction.
           ++ apply (IH (d :: r') []); [lia|exact H0].
    + destruct (is_break c) eqn:Hb.
      * apply (Lines_cut (rev cur) [c] r); [exact Hc| |].
        -- right. exists c. split; [reflexivity|]. split; [apply break_In, Hb|]. intros (E & _). contradiction.
        -- apply (IH r []); [lia|exact H0].
      * specialize (IH r (c :: cur)). cbn [rev] in IH. rewrite <- app_assoc in IH. apply IH; [lia|].
        intros x Hx Hi. apply in_app_or in Hx. destruct Hx as [Hx|[<-|[]]]; [exact (Hc x Hx Hi)|].
        apply break_In in Hi. congruence.
Qed.
Lemma splitlines_Lines s : Lines s (splitlines s).
Proof. apply (Lines_from (S (List.length s)) s []); [lia|]. intros x []. Qed.

Lemma parse_content_doc content d : Doc (splitlines content) d -> parse_content content = Parsed (meaning d).
Proof.
  intros H. unfold parse_content. rewrite (parse_sound _ _ H). rewrite state_sections. reflexivity.
Qed.
Lemma meaning_holds d : holds (meaning d) d.
Proof. split; [apply keys_meaning|apply look_meaning]. Qed.

Lemma load_config_docs c r dc dr : Doc (splitlines c) dc -> Doc (splitlines r) dr ->
  load_config (Some c) (Some r)
  = Parsed (merge (standardize (meaning dc) CONFIG) (standardize (meaning dr) CREDENTIALS)).
Proof.
  intros Hc Hr. unfold load_config, parse_config_file. rewrite (parse_content_doc c dc Hc), (parse_content_doc r dr Hr).
  reflexivity.
Qed.

(** A parsed file is a document. *)
Lemma parse_content_inv content m : parse_content content = Parsed m ->
  exists d, Doc (splitlines content) d /\ m = meaning d.
Proof.
  intros H. destruct (parse_complete (splitlines content)) as [(d & HD & _)|(n & w & HP & _)].
  - exists d. split; [exact HD|]. rewrite (parse_content_doc content d HD) in H. congruence.
  - unfold parse_content in H. rewrite HP in H. discriminate H.
Qed.
Lemma parse_file_inv f m : parse_config_file f = Parsed m -> exists d, m = meaning d /\ forall n, In n (map fst d) -> strip n = n.
Proof.
  destruct f as [c|]; cbn [parse_config_file]; intros H.
  - destruct (parse_content_inv c m H) as (d & HD & ->). exists d. split; [reflexivity|]. eapply Doc_names; exact HD.
  - injection H as <-. exists []. split; [reflexivity|]. intros ? [].
Qed.

Lemma hpd_meaning d : existsb (fun kv : text * props => is_profile_prefixed_default (fst kv)) (meaning d)
  = existsb is_profile_prefixed_default (map fst d).
Proof.
  rewrite <- (existsb_map fst). change (map fst (meaning d)) with (dict_keys (meaning d)). rewrite keys_meaning.
  destruct (existsb is_profile_prefixed_default (map fst d)) eqn:E.
  - apply existsb_exists in E. destruct E as (n & Hn & E). apply existsb_exists. exists n. split; [|exact E].
    apply first_occurrences_In, Hn.
  - destruct (existsb is_profile_prefixed_default (first_occurrences (map fst d))) eqn:E'; [|reflexivity].
    apply existsb_exists in E'. destruct E' as (n & Hn & E'). rewrite first_occurrences_In in Hn.
    assert (existsb is_profile_prefixed_default (map fst d) = true) by (apply existsb_exists; eauto). congruence.
Qed.

Lemma wf_nil : wf [].
Proof. split; [constructor|]. intros n ps H. discriminate H. Qed.
Lemma look_nil p k : look p k [] = None.
Proof. reflexivity. Qed.
