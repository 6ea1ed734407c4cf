(** Facts about the text operations. *)
From Verif Require Import Base Base_Proofs Utf8_Model Utf8_Proofs PyText_Model.
Local Open Scope N_scope.

Lemma has_In c s : has c s = true <-> In c s.
Proof.
  unfold has; rewrite existsb_exists. split.
  - intros (x & Hx & E); apply N.eqb_eq in E; subst; assumption.
  - intros H; exists c; rewrite N.eqb_refl; auto.
Qed.
Lemma has_notIn c s : has c s = false <-> ~ In c s.
Proof.
  rewrite <- has_In. destruct (has c s); split; intros; try discriminate; auto.
  exfalso; apply H; reflexivity.
Qed.

Lemma drop_while_all p s : (forall c, In c s -> p c = true) -> drop_while p s = [].
Proof.
  induction s as [|c s IH]; cbn [drop_while]; intros H; [reflexivity|].
  rewrite (H c (or_introl eq_refl)). apply IH; intros x Hx; apply H; right; exact Hx.
Qed.
Lemma drop_while_nil p s : drop_while p s = [] -> forall c, In c s -> p c = true.
Proof.
  induction s as [|c s IH]; cbn [drop_while]; intros H x Hx; [destruct Hx|].
  destruct (p c) eqn:E; [|discriminate].
  destruct Hx as [->|Hx]; auto.
Qed.
Lemma drop_while_app_l p w s : (forall c, In c w -> p c = true) ->
  drop_while p (w ++ s) = drop_while p s.
Proof.
  induction w as [|c w IH]; cbn [drop_while app]; intros H; [reflexivity|].
  rewrite (H c (or_introl eq_refl)). apply IH; intros x Hx; apply H; right; exact Hx.
Qed.
Lemma drop_while_split p s : exists w, s = w ++ drop_while p s /\ (forall c, In c w -> p c = true).
Proof.
  induction s as [|c s (w & E & H)]; cbn [drop_while].
  - exists []; split; [reflexivity|]; intros c [].
  - destruct (p c) eqn:Ec.
    + exists (c :: w); split; [cbn [app]; congruence|]. intros x [<-|Hx]; auto.
    + exists []; split; [reflexivity|]; intros x [].
Qed.
Lemma drop_while_head p s c r : drop_while p s = c :: r -> p c = false.
Proof.
  induction s as [|x s IH]; cbn [drop_while]; [discriminate|].
  destruct (p x) eqn:E; [exact IH|]. intros H; injection H as -> _; exact E.
Qed.
Lemma drop_while_id p c r : p c = false -> drop_while p (c :: r) = c :: r.
Proof. cbn [drop_while]; intros ->; reflexivity. Qed.

(** Stripping gives back the middle part. *)
Lemma strip_by_mid p w v w' :
  (forall c, In c w -> p c = true) -> (forall c, In c w' -> p c = true) ->
  (forall c r, v = c :: r -> p c = false) -> (forall r c, v = r ++ [c] -> p c = false) ->
  strip_by p (w ++ v ++ w') = v.
Proof.
  intros Hw Hw' Hf Hl. unfold strip_by, lstrip_by, rstrip_by.
  rewrite drop_while_app_l by exact Hw.
  destruct v as [|c r].
  - cbn [app]. rewrite (drop_while_all p w' Hw'). reflexivity.
  - cbn [app]. rewrite drop_while_id by (eapply Hf; reflexivity).
    change (c :: r ++ w') with ((c :: r) ++ w').
    rewrite rev_app_distr, drop_while_app_l by (intros x Hx; apply Hw', in_rev; exact Hx).
    destruct (rev (c :: r)) as [|x y] eqn:E.
    + apply (f_equal (@rev N)) in E. rewrite rev_involutive in E; discriminate.
    + assert (E' : c :: r = rev y ++ [x]).
      { apply (f_equal (@rev N)) in E. rewrite rev_involutive in E; exact E. }
      rewrite drop_while_id by (eapply Hl; exact E').
      rewrite <- E, rev_involutive. reflexivity.
Qed.
Lemma strip_by_split p s : exists w w',
  s = w ++ strip_by p s ++ w' /\ (forall c, In c w -> p c = true) /\ (forall c, In c w' -> p c = true).
Proof.
  destruct (drop_while_split p s) as (w & E & Hw).
  destruct (drop_while_split p (rev (drop_while p s))) as (w' & E' & Hw').
  exists w, (rev w'). split.
  - unfold strip_by, lstrip_by, rstrip_by.
    rewrite <- rev_app_distr, <- E', rev_involutive. exact E.
  - split; [exact Hw|]. intros c Hc; apply Hw', in_rev; exact Hc.
Qed.
Lemma strip_by_first p s c r : strip_by p s = c :: r -> p c = false.
Proof.
  unfold strip_by, lstrip_by, rstrip_by. intros H.
  destruct (drop_while p s) as [|x y] eqn:E; [discriminate H|].
  pose proof (drop_while_head p s x y E) as Hx.
  destruct (drop_while_split p (rev (x :: y))) as (w' & E' & Hw').
  apply (f_equal (@rev N)) in E'. rewrite rev_involutive, rev_app_distr, H in E'.
  cbn [app] in E'. injection E' as -> _. exact Hx.
Qed.
Lemma strip_by_last p s r c : strip_by p s = r ++ [c] -> p c = false.
Proof.
  unfold strip_by, lstrip_by, rstrip_by. intros H.
  apply (f_equal (@rev N)) in H. rewrite rev_involutive, rev_app_distr in H.
  eapply drop_while_head; exact H.
Qed.
Lemma strip_by_nil p s : strip_by p s = [] <-> (forall c, In c s -> p c = true).
Proof.
  split.
  - intros H. destruct (strip_by_split p s) as (w & w' & E & Hw & Hw'). rewrite H in E; cbn [app] in E.
    intros c Hc. rewrite E in Hc; apply in_app_or in Hc; destruct Hc; auto.
  - intros H. unfold strip_by, lstrip_by, rstrip_by. rewrite (drop_while_all p s H). reflexivity.
Qed.

(** Cutting at a character. *)
Lemma cut_at_app c a b : ~ In c a -> cut_at c (a ++ c :: b) = (a, Some b).
Proof.
  induction a as [|x a IH]; cbn [cut_at app]; intros H.
  - rewrite N.eqb_refl; reflexivity.
  - destruct (N.eqb_spec x c) as [->|_]; [exfalso; apply H; left; reflexivity|].
    rewrite IH by (intros Hx; apply H; right; exact Hx). reflexivity.
Qed.
Lemma cut_at_none c a : ~ In c a -> cut_at c a = (a, None).
Proof.
  induction a as [|x a IH]; cbn [cut_at]; intros H; [reflexivity|].
  destruct (N.eqb_spec x c) as [->|_]; [exfalso; apply H; left; reflexivity|].
  rewrite IH by (intros Hx; apply H; right; exact Hx). reflexivity.
Qed.
Lemma split_on_none c a : ~ In c a -> split_on c a = [a].
Proof.
  induction a as [|x a IH]; cbn [split_on]; intros H; [reflexivity|].
  destruct (N.eqb_spec x c) as [->|_]; [exfalso; apply H; left; reflexivity|].
  rewrite IH by (intros Hx; apply H; right; exact Hx). reflexivity.
Qed.
Lemma split_on_app c a b : ~ In c a -> split_on c (a ++ c :: b) = a :: split_on c b.
Proof.
  induction a as [|x a IH]; cbn [split_on app]; intros H.
  - rewrite N.eqb_refl; reflexivity.
  - destruct (N.eqb_spec x c) as [->|_]; [exfalso; apply H; left; reflexivity|].
    rewrite IH by (intros Hx; apply H; right; exact Hx). reflexivity.
Qed.
Lemma split_on_cons c s : exists p ps, split_on c s = p :: ps.
Proof.
  induction s as [|x s (p & ps & E)]; cbn [split_on]; [eauto|].
  rewrite E. destruct (x =? c); eauto.
Qed.
Lemma join_cons2 sep p q ps : join sep (p :: q :: ps) = p ++ sep ++ join sep (q :: ps).
Proof. reflexivity. Qed.
Lemma split_on_join c ps : ps <> [] -> (forall p, In p ps -> ~ In c p) ->
  split_on c (join [c] ps) = ps.
Proof.
  induction ps as [|p ps IH]; intros Hne H; [congruence|].
  destruct ps as [|q ps].
  - cbn [join]. apply split_on_none, H; left; reflexivity.
  - rewrite join_cons2. change ([c] ++ join [c] (q :: ps)) with (c :: join [c] (q :: ps)).
    rewrite split_on_app by (apply H; left; reflexivity).
    f_equal. apply IH; [discriminate|]. intros x Hx; apply H; right; exact Hx.
Qed.
Lemma split_on_app2 c a b : split_on c (a ++ c :: b) = split_on c a ++ split_on c b.
Proof.
  induction a as [|x a IH]; cbn [split_on app].
  - rewrite N.eqb_refl; reflexivity.
  - destruct (x =? c) eqn:E; [rewrite IH; reflexivity|].
    rewrite IH. destruct (split_on_cons c a) as (p & ps & Ea). rewrite Ea. reflexivity.
Qed.
Lemma join_split_on c s : join [c] (split_on c s) = s.
Proof.
  induction s as [|x s IH]; cbn [split_on]; [reflexivity|].
  destruct (split_on_cons c s) as (p & ps & E). rewrite E in *.
  destruct (N.eqb_spec x c) as [->|_].
  - rewrite join_cons2, IH. reflexivity.
  - destruct ps; cbn [join] in *; cbn [app]; rewrite <- IH; reflexivity.
Qed.
Lemma split_on_pieces c s p : In p (split_on c s) -> ~ In c p.
Proof.
  revert p; induction s as [|x s IH]; cbn [split_on]; intros p Hp.
  - destruct Hp as [<-|[]]; intros [].
  - destruct (split_on_cons c s) as (q & qs & E). rewrite E in *.
    destruct (N.eqb_spec x c) as [->|Hne].
    + destruct Hp as [<-|Hp]; [intros []|]. apply IH; exact Hp.
    + destruct Hp as [<-|Hp].
      * intros [->|Hc]; [congruence|]. apply (IH q); [left; reflexivity|exact Hc].
      * apply IH; right; exact Hp.
Qed.

Lemma starts_with_spec p s : starts_with p s = true <-> exists r, s = p ++ r.
Proof.
  revert s; induction p as [|x p IH]; intros s; cbn [starts_with app].
  - split; eauto.
  - destruct s as [|y s]; [split; [discriminate|intros (r & H); discriminate]|].
    rewrite andb_true_iff, N.eqb_eq, IH. split.
    + intros (-> & r & ->); eauto.
    + intros (r & H); injection H as -> ->; eauto.
Qed.
Lemma has_sub_spec p s : has_sub p s = true <-> exists a b, s = a ++ p ++ b.
Proof.
  induction s as [|x s IH]; cbn [has_sub].
  - rewrite orb_false_r, starts_with_spec. split.
    + intros (r & H); exists [], r; exact H.
    + intros (a & b & H). destruct a; [exists b; exact H|discriminate].
  - rewrite orb_true_iff, starts_with_spec, IH. split.
    + intros [(r & ->)|(a & b & ->)]; [exists [], r; reflexivity|exists (x :: a), b; reflexivity].
    + intros ([|y a] & b & H); cbn [app] in H; [left; eauto|right].
      injection H as -> ->; eauto.
Qed.

(** Percent encoding. *)
Lemma quote_bytes_app sf a b : quote_bytes sf (a ++ b) = quote_bytes sf a ++ quote_bytes sf b.
Proof. unfold quote_bytes; apply flat_map_app. Qed.

Lemma hex_digit_range d : d < 16 -> (48 <= hex_digit d <= 57) \/ (65 <= hex_digit d <= 70).
Proof. unfold hex_digit; destruct (N.ltb_spec d 10); lia. Qed.

(** The characters of a quoted text. *)
Lemma quote_byte_chars sf b c : b < 256 -> In c (quote_byte sf b) ->
  is_unreserved c = true \/ In c sf \/ c = 37.
Proof.
  unfold quote_byte; intros Hb. destruct (is_unreserved b || has b sf) eqn:E.
  - intros [<-|[]]. apply orb_true_iff in E; destruct E as [E|E]; [left; exact E|].
    right; left; apply has_In; exact E.
  - assert (H1 : b / 16 < 16) by (apply N.div_lt_upper_bound; lia).
    assert (H2 : b mod 16 < 16) by (apply N.mod_lt; lia).
    pose proof (hex_digit_range _ H1). pose proof (hex_digit_range _ H2).
    intros [<-|[<-|[<-|[]]]]; auto; left; unfold is_unreserved; lia.
Qed.
Lemma quote_bytes_chars sf bs c : all_bytes bs = true -> In c (quote_bytes sf bs) ->
  is_unreserved c = true \/ In c sf \/ c = 37.
Proof.
  unfold quote_bytes, all_bytes; intros Hb Hc. apply in_flat_map in Hc; destruct Hc as (b & Hi & Hc).
  rewrite forallb_forall in Hb. apply quote_byte_chars with (b := b); [|exact Hc].
  specialize (Hb b Hi). unfold is_byte in Hb; lia.
Qed.
Lemma urlquote_chars sf s q c : urlquote sf s = Ok q -> In c q ->
  is_unreserved c = true \/ In c sf \/ c = 37.
Proof.
  unfold urlquote. destruct (utf8_encode s) as [bs|] eqn:E; cbn [bind]; [|discriminate].
  intros H; injection H as <-. apply quote_bytes_chars. eapply utf8_encode_bytes; exact E.
Qed.
