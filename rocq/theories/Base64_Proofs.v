(** Base64 round trips. *)
From Verif Require Import Base Base64_Model.
Local Open Scope N_scope.

Definition char_ok (v : N) : bool :=
  match b64_val (b64_char v) with Some w => w =? v | None => false end
  && negb (b64_char v =? 61) && (b64_char v <? 128) && (32 <? b64_char v) && negb (b64_char v =? 34) && negb (b64_char v =? 92).
Lemma below_64 v : v < 64 -> In v (map N.of_nat (seq 0 64)).
Proof. intros H. apply in_map_iff. exists (N.to_nat v). split; [apply N2Nat.id|]. apply in_seq. lia. Qed.
Lemma b64_val_char v : v < 64 -> b64_val (b64_char v) = Some v /\ b64_char v <> 61 /\ b64_char v < 128 /\ 32 < b64_char v /\ b64_char v <> 34 /\ b64_char v <> 92.
Proof.
  intros H. assert (K : char_ok v = true).
  { assert (A : forallb char_ok (map N.of_nat (seq 0 64)) = true) by reflexivity.
    rewrite forallb_forall in A. exact (A v (below_64 v H)). }
  unfold char_ok in K. rewrite !andb_true_iff, !negb_true_iff, !N.eqb_neq, !N.ltb_lt in K.
  destruct K as (((((K1 & K2) & K3) & K4) & K5) & K6). destruct (b64_val (b64_char v)) as [w|]; [|discriminate].
  apply N.eqb_eq in K1. subst w. exact (conj eq_refl (conj K2 (conj K3 (conj K4 (conj K5 K6))))).
Qed.

(** A number below 256 in two parts. *)
Lemma split4 a : a < 256 -> exists q r, a / 4 = q /\ a mod 4 = r /\ a = 4 * q + r /\ q < 64 /\ r < 4.
Proof.
  intros H. exists (a / 4), (a mod 4). pose proof (N.mod_upper_bound a 4 ltac:(discriminate)). pose proof (N.div_mod a 4 ltac:(discriminate)).
  assert (a / 4 < 64) by (apply N.div_lt_upper_bound; [discriminate|exact H]). repeat split; assumption.
Qed.
Lemma split16 a : a < 256 -> exists q r, a / 16 = q /\ a mod 16 = r /\ a = 16 * q + r /\ q < 16 /\ r < 16.
Proof.
  intros H. exists (a / 16), (a mod 16). pose proof (N.mod_upper_bound a 16 ltac:(discriminate)). pose proof (N.div_mod a 16 ltac:(discriminate)).
  assert (a / 16 < 16) by (apply N.div_lt_upper_bound; [discriminate|exact H]). repeat split; assumption.
Qed.
Lemma split64 a : a < 256 -> exists q r, a / 64 = q /\ a mod 64 = r /\ a = 64 * q + r /\ q < 4 /\ r < 64.
Proof.
  intros H. exists (a / 64), (a mod 64). pose proof (N.mod_upper_bound a 64 ltac:(discriminate)). pose proof (N.div_mod a 64 ltac:(discriminate)).
  assert (a / 64 < 4) by (apply N.div_lt_upper_bound; [discriminate|exact H]). repeat split; assumption.
Qed.

Lemma mid_parts x y k (m : N) : y < k -> k <> 0 -> (x * k + y) / k = x /\ (x * k + y) mod k = y.
Proof.
  intros H K. split.
  - rewrite N.add_comm, N.div_add by exact K. rewrite N.div_small by exact H. lia.
  - rewrite N.add_comm, N.mod_add by exact K. apply N.mod_small, H.
Qed.

Lemma b64_step pos left pads v s : v < 64 ->
  b64_loop pos left pads (b64_char v :: s) =
    if pos =? 0 then b64_loop 1 v 0 s
    else if pos =? 1 then option_map (cons (left * 4 + v / 16)) (b64_loop 2 (v mod 16) 0 s)
    else if pos =? 2 then option_map (cons (left * 16 + v / 4)) (b64_loop 3 (v mod 4) 0 s)
    else option_map (cons (left * 64 + v)) (b64_loop 0 0 0 s).
Proof.
  intros H. destruct (b64_val_char v H) as (E1 & E2 & _). cbn [b64_loop]. rewrite E1. apply N.eqb_neq in E2. rewrite E2. reflexivity.
Qed.

Lemma step0 l p v s : v < 64 -> b64_loop 0 l p (b64_char v :: s) = b64_loop 1 v 0 s.
Proof. intros H. rewrite b64_step by exact H. reflexivity. Qed.
Lemma step1 l p v s : v < 64 -> b64_loop 1 l p (b64_char v :: s) = option_map (cons (l * 4 + v / 16)) (b64_loop 2 (v mod 16) 0 s).
Proof. intros H. rewrite b64_step by exact H. reflexivity. Qed.
Lemma step2 l p v s : v < 64 -> b64_loop 2 l p (b64_char v :: s) = option_map (cons (l * 16 + v / 4)) (b64_loop 3 (v mod 4) 0 s).
Proof. intros H. rewrite b64_step by exact H. reflexivity. Qed.
Lemma step3 l p v s : v < 64 -> b64_loop 3 l p (b64_char v :: s) = option_map (cons (l * 64 + v)) (b64_loop 0 0 0 s).
Proof. intros H. rewrite b64_step by exact H. reflexivity. Qed.

Lemma three_ind {A} (P : list A -> Prop) : P [] -> (forall a, P [a]) -> (forall a b, P [a; b]) ->
  (forall a b c r, P r -> P (a :: b :: c :: r)) -> forall l, P l.
Proof.
  intros H0 H1 H2 H3. fix IH 1. intros [|a [|b [|c r]]]; [exact H0|apply H1|apply H2|apply H3, IH].
Qed.

Ltac parts4 a H := destruct (split4 a H) as (?q & ?r & -> & -> & ?E & ?Q & ?R).
Ltac parts16 a H := destruct (split16 a H) as (?q & ?r & -> & -> & ?E & ?Q & ?R).
Ltac parts64 a H := destruct (split64 a H) as (?q & ?r & -> & -> & ?E & ?Q & ?R).

Lemma b64_loop_encode bs : all_bytes bs = true -> b64_loop 0 0 0 (b64encode bs) = Some bs.
Proof.
  induction bs as [|a|a b|a b c r IH] using three_ind; intros H; unfold all_bytes, is_byte in H; cbn [forallb] in H;
    rewrite ?andb_true_iff, ?N.ltb_lt in H.
  - reflexivity.
  - destruct H as [Ha _]. cbn [b64encode]. parts4 a Ha.
    rewrite step0, step1 by lia.
    change (b64_loop 2 _ 0 [61; 61]) with (Some (@nil N)). cbn [option_map]. do 2 f_equal.
    replace (r * 16) with (r * 16 + 0) by lia. rewrite (proj1 (mid_parts r 0 16 0 ltac:(lia) ltac:(lia))). lia.
  - destruct H as (Ha & Hb & _). cbn [b64encode]. parts4 a Ha. parts16 b Hb.
    rewrite step0, step1, step2 by lia. change (b64_loop 3 _ 0 [61]) with (Some (@nil N)). cbn [option_map].
    destruct (mid_parts r q0 16 0 ltac:(lia) ltac:(lia)) as [-> ->].
    replace (r0 * 4) with (r0 * 4 + 0) by lia. rewrite (proj1 (mid_parts r0 0 4 0 ltac:(lia) ltac:(lia))).
    do 2 f_equal; [lia|]. f_equal. lia.
  - destruct H as (Ha & Hb & Hc & Hr). cbn [b64encode]. parts4 a Ha. parts16 b Hb. parts64 c Hc.
    rewrite step0, step1, step2, step3 by lia. rewrite (IH Hr). cbn [option_map]. clear IH Hr.
    destruct (mid_parts r0 q0 16 0 ltac:(lia) ltac:(lia)) as [-> ->].
    destruct (mid_parts r1 q1 4 0 ltac:(lia) ltac:(lia)) as [-> ->].
    f_equal. f_equal; [lia|]. f_equal; [lia|]. f_equal. lia.
Qed.

Lemma b64encode_chars bs c : all_bytes bs = true -> In c (b64encode bs) -> c = 61 \/ exists v, v < 64 /\ c = b64_char v.
Proof.
  induction bs as [|a|a b|a b d r IH] using three_ind; intros H; unfold all_bytes, is_byte in H; cbn [forallb] in H;
    rewrite ?andb_true_iff, ?N.ltb_lt in H.
  - intros [].
  - destruct H as [Ha _]. cbn [b64encode In]. parts4 a Ha.
    intros [<-|[<-|[<-|[<-|[]]]]]; auto; right; eexists; (split; [|reflexivity]); lia.
  - destruct H as (Ha & Hb & _). cbn [b64encode In]. parts4 a Ha. parts16 b Hb.
    intros [<-|[<-|[<-|[<-|[]]]]]; auto; right; eexists; (split; [|reflexivity]); lia.
  - destruct H as (Ha & Hb & Hc & Hr). cbn [b64encode In]. specialize (IH Hr). parts4 a Ha. parts16 b Hb. parts64 d Hc.
    intros [<-|[<-|[<-|[<-|K]]]]; [| | | |exact (IH K)]; right; eexists; (split; [|reflexivity]); clear IH; lia.
Qed.
Lemma b64encode_ascii bs c : all_bytes bs = true -> In c (b64encode bs) -> 32 < c < 128 /\ c <> 34 /\ c <> 92.
Proof.
  intros H K. destruct (b64encode_chars bs c H K) as [->|(v & Hv & ->)]; [lia|].
  destruct (b64_val_char v Hv) as (_ & _ & L & G & A & B). repeat split; assumption.
Qed.

Lemma b64_roundtrip bs : all_bytes bs = true -> b64decode (b64encode bs) = Ok bs.
Proof.
  intros H. unfold b64decode. rewrite b64_loop_encode by exact H.
  assert (forallb (fun c => c <? 128) (b64encode bs) = true) as ->; [|reflexivity].
  apply forallb_forall. intros c Hc. apply N.ltb_lt. apply (b64encode_ascii bs c H Hc).
Qed.
