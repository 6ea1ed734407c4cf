(** Proofs about the seed of the event signatures. *)
From Verif Require Import Base Base_Proofs Utf8_Model PyText_Model PyText_Proofs PyDict_Model Sign_Model Sign_Spec Sign_Proofs Sign2_Proofs
  SignCover_Proofs EventSeed_Model EventSeed_Spec.
From Verif Require EventIO_Model Json_Proofs.
Local Open Scope N_scope.

Section After.
  Variable sep : text.
  Hypothesis sep_ne : sep <> [].
  (** No suffix of a text without the last character of the separator matches. *)
  Variable last_char : N.
  Variable sep0 : text.
  Hypothesis sep_last : sep = sep0 ++ [last_char].

  Lemma no_match s : ~ In last_char s -> starts_with sep s = false.
  Proof.
    intros H. destruct (starts_with sep s) eqn:E; [|reflexivity]. apply starts_with_spec in E. destruct E as (r & ->).
    elim H. rewrite sep_last. apply in_or_app. left. apply in_or_app. right. left. reflexivity.
  Qed.
  Lemma after_tail k s cur : ~ In last_char s -> after_last sep k s cur = cur.
  Proof.
    revert k. induction s as [|c r IH]; intros k H; cbn [after_last]; [reflexivity|].
    assert (H' : ~ In last_char r) by (intros X; apply H; right; exact X).
    destruct k as [|k]; [|apply IH; exact H']. rewrite no_match by exact H. apply IH. exact H'.
  Qed.
  (** A match at the last place, unless an earlier one overlaps it. *)
  Hypothesis no_overlap : forall a b c, sep = a ++ b -> a <> [] -> b <> [] -> forall r, sep ++ r <> b ++ c.

  Lemma skip_in k front tail cur : (k <= List.length front)%nat ->
    after_last sep k (front ++ tail) cur = after_last sep 0 (skipn k front ++ tail) cur.
  Proof.
    revert front. induction k as [|k IH]; intros front H; [destruct front; reflexivity|].
    destruct front as [|c front]; cbn [List.length] in H; [lia|]. cbn [app after_last skipn]. apply IH. lia.
  Qed.
  Lemma step_match c r cur : starts_with sep (c :: r) = true ->
    after_last sep 0 (c :: r) cur = after_last sep (List.length sep - 1) r (skipn (List.length sep) (c :: r)).
  Proof. intros H. cbn [after_last]. rewrite H. reflexivity. Qed.
  Lemma at_match tail cur : ~ In last_char tail -> after_last sep 0 (sep ++ tail) cur = tail.
  Proof.
    intros H.
    assert (X : starts_with sep (sep ++ tail) = true) by (apply starts_with_spec; eexists; reflexivity).
    assert (Y : exists c r, sep = c :: r) by (destruct sep; [contradiction|eauto]). destruct Y as (c & r & Y).
    assert (Z : sep ++ tail = c :: (r ++ tail)) by (rewrite Y; reflexivity).
    rewrite Z in X |- *. rewrite step_match by exact X. rewrite <- Z.
    rewrite skipn_app, skipn_all, Nat.sub_diag. cbn [skipn app].
    replace (List.length sep - 1)%nat with (List.length r) by (rewrite Y; cbn; lia).
    rewrite skip_in by lia. rewrite skipn_all. cbn [app]. apply after_tail. exact H.
  Qed.
  Lemma match_length front tail : starts_with sep (front ++ sep ++ tail) = true -> front <> [] ->
    (List.length sep <= List.length front)%nat.
  Proof.
    intros H F. apply starts_with_spec in H. destruct H as (r & H).
    destruct (Nat.le_gt_cases (List.length sep) (List.length front)) as [L|L]; [exact L|exfalso].
    (* front is a proper prefix of sep *)
    assert (A : sep = front ++ skipn (List.length front) sep).
    { rewrite <- (firstn_skipn (List.length front) sep) at 1. f_equal.
      assert (B : firstn (List.length front) (sep ++ r) = front) by (rewrite <- H, firstn_app, Nat.sub_diag, firstn_all; cbn; apply app_nil_r).
      rewrite firstn_app in B. replace (List.length front - List.length sep)%nat with 0%nat in B by lia. cbn [firstn] in B.
      rewrite app_nil_r in B. exact B. }
    assert (B : sep ++ tail = skipn (List.length front) sep ++ r).
    { rewrite A in H at 2. rewrite <- app_assoc in H. apply app_inv_head in H. exact H. }
    eapply no_overlap; [exact A|exact F| |exact B].
    intros E. rewrite E, app_nil_r in A. rewrite A in L. lia.
  Qed.
  Lemma after_found front : forall tail cur, ~ In last_char tail -> after_last sep 0 (front ++ sep ++ tail) cur = tail.
  Proof.
    assert (G : forall n front tail cur, (List.length front <= n)%nat -> ~ In last_char tail -> after_last sep 0 (front ++ sep ++ tail) cur = tail).
    { induction n as [|n IH]; intros fr tail cur Hn H.
      - destruct fr; [|cbn in Hn; lia]. cbn [app]. apply at_match. exact H.
      - destruct fr as [|c fr]; [apply at_match; exact H|]. cbn [List.length] in Hn.
        destruct (starts_with sep ((c :: fr) ++ sep ++ tail)) eqn:E.
        + assert (Lf := match_length (c :: fr) tail E ltac:(discriminate)). cbn [List.length] in Lf.
          cbn [app] in E |- *. cbn [after_last]. rewrite E.
          rewrite skip_in by (cbn; lia). apply IH; [|exact H]. rewrite skipn_length. lia.
        + cbn [app] in E |- *. cbn [after_last]. rewrite E. apply IH; [lia|exact H]. }
    intros tail cur H. apply (G (List.length front)); [lia|exact H].
  Qed.
End After.

Lemma signature_overlap a b c : lit "Signature=" = a ++ b -> a <> [] -> b <> [] -> forall r, lit "Signature=" ++ r <> b ++ c.
Proof.
  intros E A B r X.
  assert (S : hd 0 b = 83).
  { destruct b as [|x b]; [contradiction|]. cbn in X. injection X as <-. reflexivity. }
  destruct a as [|a0 a]; [contradiction|]. clear A X.
  destruct a as [|a1 a]; [cbn in E; injection E as <- <-; discriminate S|].
  destruct a as [|a2 a]; [cbn in E; injection E as <- <- <-; discriminate S|].
  destruct a as [|a3 a]; [cbn in E; injection E as <- <- <- <-; discriminate S|].
  destruct a as [|a4 a]; [cbn in E; injection E as <- <- <- <- <-; discriminate S|].
  destruct a as [|a5 a]; [cbn in E; injection E as <- <- <- <- <- <-; discriminate S|].
  destruct a as [|a6 a]; [cbn in E; injection E as <- <- <- <- <- <- <-; discriminate S|].
  destruct a as [|a7 a]; [cbn in E; injection E as <- <- <- <- <- <- <- <-; discriminate S|].
  destruct a as [|a8 a]; [cbn in E; injection E as <- <- <- <- <- <- <- <- <-; discriminate S|].
  destruct a as [|a9 a]; [cbn in E; injection E as <- <- <- <- <- <- <- <- <- <-; discriminate S|].
  destruct a as [|a10 a]; cbn in E; [injection E as <- <- <- <- <- <- <- <- <- <- <-; contradiction|discriminate E].
Qed.
Lemma carried v sig cur : carries v sig -> after_last (lit "Signature=") 0 v cur = sig.
Proof.
  intros [(front & ->) H].
  replace (front ++ lit ", Signature=" ++ sig) with ((front ++ lit ", ") ++ lit "Signature=" ++ sig) by (rewrite <- app_assoc; reflexivity).
  apply (after_found (lit "Signature=") ltac:(discriminate) 61 (lit "Signature") eq_refl signature_overlap).
  intros I. rewrite Forall_forall in H. apply H in I. lia.
Qed.
Lemma hex_utf8 sig : Forall (fun c => 48 <= c <= 57 \/ 97 <= c <= 102) sig -> utf8_encode sig = Ok sig.
Proof.
  intros H. apply Json_Proofs.ascii_encode. apply forallb_forall. intros c I. rewrite Forall_forall in H. apply H in I.
  apply N.ltb_lt. lia.
Qed.
Lemma seed_of lower fs f v sig : get_field lower (lit "Authorization") fs = Some f -> f_values f = [v] -> carries v sig ->
  event_signer lower fs = Ok sig.
Proof.
  intros G V C. unfold event_signer. rewrite G, V. cbn [as_string]. rewrite (carried v sig v C). apply hex_utf8. apply C.
Qed.
