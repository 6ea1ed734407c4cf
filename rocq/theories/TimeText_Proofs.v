(** Digits of dates. *)
From Verif Require Import Base Base_Proofs PyText_Model PyText_Proofs PySort_Model PySort_Proofs PyDecimal_Model PyDecimal_Proofs
  Time_Model Time_Spec Time_Proofs.
Local Open Scope Z_scope.

Lemma digit_char k : 0 <= k <= 9 -> is_digit (digit k) = true /\ Z.of_N (digit k - 48) = k.
Proof. intros H. unfold is_digit, digit. split; lia. Qed.
Lemma pad2_digits z n v t : 0 <= z <= 99 -> digits n v t -> digits (S (S n)) (v * 100 + z) (t ++ pad2 z).
Proof.
  intros H D. unfold pad2.
  replace (v * 100 + z) with ((v * 10 + z / 10) * 10 + z mod 10) by zdiv.
  change (t ++ [digit (z / 10); digit (z mod 10)]) with (t ++ [digit (z / 10)] ++ [digit (z mod 10)]).
  rewrite app_assoc. apply digits_snoc; [|zdiv]. apply digits_snoc; [exact D|zdiv].
Qed.
Lemma pad2_is z : 0 <= z <= 99 -> digits 2 z (pad2 z).
Proof. intros H. exact (pad2_digits z 0 0 [] H digits_nil). Qed.
Lemma pad4_digits z n v t : 0 <= z <= 9999 -> digits n v t -> digits (S (S (S (S n)))) (v * 10000 + z) (t ++ pad4 z).
Proof.
  intros H D. unfold pad4. rewrite app_assoc.
  replace (v * 10000 + z) with ((v * 100 + z / 100) * 100 + z mod 100) by zdiv.
  apply pad2_digits; [zdiv|]. apply pad2_digits; [zdiv|exact D].
Qed.
Lemma pad4_is z : 0 <= z <= 9999 -> digits 4 z (pad4 z).
Proof. intros H. exact (pad4_digits z 0 0 [] H digits_nil). Qed.
Lemma pad6_is z : 0 <= z <= 999999 -> digits 6 z (pad6 z).
Proof.
  intros H. unfold pad6. replace z with (z / 10000 * 10000 + z mod 10000) at 1 by zdiv.
  apply pad4_digits; [zdiv|]. apply pad2_is. zdiv.
Qed.

Lemma parse_snoc n t : forall v0 v r k, parse_digits n v0 t = Some (v, []) -> is_digit k = true ->
  parse_digits (S n) v0 (t ++ k :: r) = Some (v * 10 + Z.of_N (k - 48), r).
Proof.
  revert t. induction n as [|n IH]; intros t v0 v r k H K.
  - cbn in H. injection H as -> ->. cbn. rewrite K. reflexivity.
  - destruct t as [|c t]; [discriminate H|]. cbn [parse_digits] in H. change (parse_digits (S (S n)) v0 ((c :: t) ++ k :: r))
      with (if is_digit c then parse_digits (S n) (v0 * 10 + Z.of_N (c - 48)) (t ++ k :: r) else None).
    destruct (is_digit c); [|discriminate H]. now apply IH.
Qed.
Lemma parse_app n t : forall v0 v r, parse_digits n v0 t = Some (v, []) -> parse_digits n v0 (t ++ r) = Some (v, r).
Proof.
  revert t. induction n as [|n IH]; intros t v0 v r H.
  - cbn in H. injection H as -> ->. reflexivity.
  - destruct t as [|c t]; [discriminate H|]. cbn [parse_digits app] in *. destruct (is_digit c); [|discriminate H]. now apply IH.
Qed.
Lemma parse_digits_all n v t : digits n v t -> parse_digits n 0 t = Some (v, []).
Proof.
  induction 1 as [|n v t k D IH K]; [reflexivity|].
  rewrite (parse_snoc n t 0 v [] (48 + Z.to_N k)%N IH); [|apply (digit_char k K)]. do 2 f_equal. lia.
Qed.
Lemma parse_digits_ok n v t r : digits n v t -> parse_digits n 0 (t ++ r) = Some (v, r).
Proof. intros D. apply parse_app, parse_digits_all, D. Qed.
Lemma digits_len n v t : digits n v t -> List.length t = n.
Proof. induction 1 as [|n v t k D IH K]; [reflexivity|]. rewrite app_length, IH. cbn. lia. Qed.
Lemma digits_in n v t c : digits n v t -> In c t -> (48 <= c <= 57)%N.
Proof.
  induction 1 as [|n v t k D IH K]; [easy|]. intros H. apply in_app_or in H as [H|[<-|[]]]; [auto|lia].
Qed.
Lemma digits_inv2 v t : digits 2 v t -> exists a b, t = [a; b] /\ is_digit a = true /\ is_digit b = true.
Proof.
  intros D. pose proof (digits_len _ _ _ D) as L. destruct t as [|a [|b [|]]]; try discriminate L.
  exists a, b. pose proof (digits_in 2 v _ a D (or_introl eq_refl)). pose proof (digits_in 2 v _ b D (or_intror (or_introl eq_refl))).
  unfold is_digit. split; [reflexivity|]. split; lia.
Qed.
Lemma digits_value n v t : digits n v t -> 0 <= v /\ digits_val 0 t = Some (Z.to_N v).
Proof.
  induction 1 as [|n v t k D [IH0 IH] K]; [split; [lia|reflexivity]|]. split; [lia|].
  rewrite digits_val_app, IH. cbn [digits_val].
  replace ((48 <=? 48 + Z.to_N k) && (48 + Z.to_N k <=? 57))%N with true by lia. f_equal. lia.
Qed.
Lemma digits_int n v t : digits n v t -> (0 < n)%nat -> int_text t = Some v.
Proof.
  intros D H. destruct (digits_value _ _ _ D) as [P V]. pose proof (digits_len _ _ _ D) as L.
  unfold int_text, parse_dec. destruct t; [cbn in L; lia|]. rewrite V. cbn. f_equal. lia.
Qed.

(** Two numerals of one length and one value are the same. *)
Lemma numeral_unique a : forall b acc acc2 v, List.length a = List.length b ->
  digits_val acc a = Some v -> digits_val acc2 b = Some v -> acc = acc2 /\ a = b.
Proof.
  induction a as [|c a IH] using rev_ind; intros b acc acc2 v L A B.
  - destruct b; [|discriminate L]. cbn in A, B. split; congruence.
  - destruct b as [|d b _] using rev_ind; [rewrite app_length in L; cbn in L; lia|].
    rewrite !app_length in L. cbn [List.length] in L.
    rewrite digits_val_app in A, B.
    destruct (digits_val acc a) as [x|] eqn:X; [|discriminate A]. destruct (digits_val acc2 b) as [y|] eqn:Y; [|discriminate B].
    cbn [digits_val] in A, B.
    destruct ((48 <=? c) && (c <=? 57))%N eqn:C; [|discriminate A]. destruct ((48 <=? d) && (d <=? 57))%N eqn:Dd; [|discriminate B].
    injection A as A. injection B as B.
    assert (x = y /\ c = d) as [-> ->] by lia.
    destruct (IH b acc acc2 y ltac:(lia) X Y) as [-> ->]. split; reflexivity.
Qed.
Lemma year_dec y : 1000 <= y <= 9999 -> dec_Z y = pad4 y.
Proof.
  intros H. assert (E : dec_Z y = dec (Z.to_N y)) by (destruct y; [lia|reflexivity|lia]). rewrite E.
  pose proof (pad4_is y ltac:(lia)) as D.
  apply (numeral_unique _ _ 0%N 0%N (Z.to_N y)).
  - rewrite (digits_len _ _ _ D).
    assert (A : (List.length (dec (Z.to_N y)) <= 4)%nat) by (apply dec_length; [lia|change (10 ^ N.of_nat 4)%N with 10000%N; lia]).
    pose proof (digits_val_bounds _ _ _ (dec_val (Z.to_N y))) as [_ B].
    assert (3 < List.length (dec (Z.to_N y)))%nat; [|lia].
    destruct (List.length (dec (Z.to_N y))) as [|[|[|[|k]]]]; [| | | |lia]; exfalso; revert B;
      [change (10 ^ N.of_nat 0)%N with 1%N|change (10 ^ N.of_nat 1)%N with 10%N|change (10 ^ N.of_nat 2)%N with 100%N|change (10 ^ N.of_nat 3)%N with 1000%N]; lia.
  - apply dec_val.
  - apply (digits_value _ _ _ D).
Qed.
Lemma year_text_is pads y : 1 <= y <= 9999 -> pads = true \/ 1000 <= y -> year_text pads y = pad4 y.
Proof. intros H [->|G]; [reflexivity|]. destruct pads; [reflexivity|]. cbn. apply year_dec. lia. Qed.

(** ** Reading times *)
Lemma cut_zone_digits t r : (forall c, In c t -> c <> 43 /\ c <> 45 /\ c <> 90)%N ->
  cut_zone (t ++ r) = let (a, b) := cut_zone r in (t ++ a, b).
Proof.
  induction t as [|c t IH]; intros H; cbn [app cut_zone].
  - destruct (cut_zone r); reflexivity.
  - destruct (H c (or_introl eq_refl)) as (A & B & C).
    replace ((c =? 43) || (c =? 45) || (c =? 90))%N with false by lia.
    rewrite IH by (intros x X; apply H; right; exact X). destruct (cut_zone r); reflexivity.
Qed.
Lemma fraction_six us t more : digits 6 us t -> fraction t more = Some (us, more).
Proof.
  intros D. unfold fraction. rewrite (digits_len _ _ _ D). change (Nat.min 6 6) with 6%nat.
  rewrite (parse_digits_all _ _ _ D). change (10 ^ (6 - Z.of_nat 6)) with 1. rewrite Z.mul_1_r. reflexivity.
Qed.
Definition clock_text (th tmi ts tf : text) : text := th ++ 58%N :: tmi ++ 58%N :: ts ++ tf.
Lemma hms_step n sep v t r more c x : digits 2 v t -> r = c :: x -> x <> [] ->
  hms (S n) sep (t ++ r) more =
    let b := match sep with Some b => b | None => (c =? 58)%N end in
    if b && (c =? 58)%N then
      match hms n (Some b) x more with Some (l, f, e) => Some (v :: l, f, e) | None => None end
    else if (c =? 46)%N || (c =? 44)%N then
      match fraction x more with Some (f, e) => Some ([v], f, e) | None => None end
    else if negb b then
      match hms n (Some b) (c :: x) more with Some (l, f, e) => Some (v :: l, f, e) | None => None end
    else None.
Proof.
  intros D -> X. cbn [hms]. rewrite (parse_digits_ok _ _ _ _ D). destruct x; [contradiction|reflexivity].
Qed.
Lemma hms_clock h mi s us th tmi ts tf more : digits 2 h th -> digits 2 mi tmi -> digits 2 s ts ->
  (us = 0 /\ tf = [] \/ exists tu, digits 6 us tu /\ tf = 46%N :: tu) ->
  hms 3 None (clock_text th tmi ts tf) more = Some ([h; mi; s], us, more).
Proof.
  intros H1 H2 H3 F. unfold clock_text.
  rewrite (hms_step 2 None h th _ more 58%N _ H1 eq_refl) by (destruct tmi; [apply digits_len in H2; discriminate H2|discriminate]).
  cbv zeta. change ((58 =? 58)%N && (58 =? 58)%N) with true. cbn match.
  rewrite (hms_step 1 (Some true) mi tmi _ more 58%N _ H2 eq_refl) by (destruct ts; [apply digits_len in H3; discriminate H3|discriminate]).
  cbv zeta. change (true && (58 =? 58)%N) with true. cbn match.
  destruct F as [[-> ->]|(tu & Du & ->)].
  - change (58 =? 58)%N with true. cbn [hms]. rewrite app_nil_r, (parse_digits_all _ _ _ H3). reflexivity.
  - rewrite (hms_step 0 (Some true) s ts _ more 46%N tu H3 eq_refl) by (destruct tu; [apply digits_len in Du; discriminate Du|discriminate]).
    cbv zeta. change (true && (46 =? 58)%N) with false. change ((46 =? 46)%N || (46 =? 44)%N) with true. cbn match.
    rewrite (fraction_six _ _ _ Du). reflexivity.
Qed.
Lemma clock_zone h mi s us th tmi ts tf zone : digits 2 h th -> digits 2 mi tmi -> digits 2 s ts ->
  (us = 0 /\ tf = [] \/ exists tu, digits 6 us tu /\ tf = 46%N :: tu) ->
  (exists r, zone = 90%N :: r \/ zone = 43%N :: r \/ zone = 45%N :: r) ->
  cut_zone (clock_text th tmi ts tf ++ zone) = (clock_text th tmi ts tf, zone).
Proof.
  intros H1 H2 H3 F Z. rewrite cut_zone_digits.
  - destruct Z as [r [->|[->| ->]]];
      [change (cut_zone (90%N :: r)) with (@nil N, 90%N :: r)|change (cut_zone (43%N :: r)) with (@nil N, 43%N :: r)
      |change (cut_zone (45%N :: r)) with (@nil N, 45%N :: r)]; cbn match; rewrite app_nil_r; reflexivity.
  - intros c. unfold clock_text. rewrite !in_app_iff. cbn [In]. rewrite in_app_iff. cbn [In]. rewrite in_app_iff.
    intros [I|[<-|[I|[<-|[I|I]]]]]; try lia.
    + pose proof (digits_in _ _ _ _ H1 I). lia.
    + pose proof (digits_in _ _ _ _ H2 I). lia.
    + pose proof (digits_in _ _ _ _ H3 I). lia.
    + destruct F as [[_ ->]|(tu & Du & ->)]; [destruct I|]. destruct I as [<-|I]; [lia|]. pose proof (digits_in _ _ _ _ Du I). lia.
Qed.
Lemma iso_read y mo d h mi s us off ty tmo td th tmi ts tf zone t :
  digits 4 y ty -> digits 2 mo tmo -> digits 2 d td -> digits 2 h th -> digits 2 mi tmi -> digits 2 s ts ->
  (us = 0 /\ tf = [] \/ exists tu, digits 6 us tu /\ tf = 46%N :: tu) ->
  (zone = [90%N] /\ off = 0 \/
   exists c zh zm tzh tzm, zone = c :: tzh ++ 58%N :: tzm /\ digits 2 zh tzh /\ digits 2 zm tzm /\
     (c = 43%N /\ off = (zh * 3600 + zm * 60) * 1000000 \/ c = 45%N /\ off = - ((zh * 3600 + zm * 60) * 1000000))) ->
  t = ty ++ 45%N :: tmo ++ 45%N :: td ++ 84%N :: clock_text th tmi ts tf ++ zone ->
  fromisoformat t = make y mo d h mi s us (Some off).
Proof.
  intros Hy Hmo Hd Hh Hmi Hs F Zn ->. unfold fromisoformat. rewrite (parse_digits_ok _ _ _ _ Hy).
  destruct (digits_inv2 _ _ Hmo) as (a & b & -> & Ha & Hb). change ([a; b] ++ ?x) with (a :: b :: x).
  cbn [app].
  assert (Na : match a with 87%N => true | _ => false end = false).
  { unfold is_digit in Ha. destruct (N.eq_dec a 87) as [->|]; [discriminate Ha|].
    destruct a as [|p]; [reflexivity|].
    do 7 (destruct p as [p|p|]; try reflexivity). congruence. }
  rewrite Na.
  change (a :: b :: 45%N :: td ++ 84%N :: clock_text th tmi ts tf ++ zone)
    with ([a; b] ++ 45%N :: td ++ 84%N :: clock_text th tmi ts tf ++ zone).
  rewrite (parse_digits_ok _ _ _ _ Hmo), (parse_digits_ok _ _ _ _ Hd).
  assert (NE : clock_text th tmi ts tf ++ zone <> []).
  { unfold clock_text. destruct th; [apply digits_len in Hh; discriminate Hh|discriminate]. }
  destruct (clock_text th tmi ts tf ++ zone) as [|q w] eqn:E; [contradiction|]. rewrite <- E.
  unfold iso_time.
  rewrite (clock_zone h mi s us) by (try assumption; destruct Zn as [[-> _]|(c & zh & zm & tzh & tzm & -> & _ & _ & [[-> _]|[-> _]])]; eauto).
  destruct Zn as [[-> ->]|(c & zh & zm & tzh & tzm & -> & Hzh & Hzm & Hc)].
  - rewrite (hms_clock h mi s us) by assumption. cbn. reflexivity.
  - rewrite (hms_clock h mi s us) by assumption. cbn [third nth].
    assert (c <> 90%N) by (destruct Hc as [[-> _]|[-> _]]; discriminate).
    replace (c =? 90)%N with false by lia.
    rewrite (hms_step 2 None zh tzh _ false 58%N tzm Hzh eq_refl) by (destruct tzm; [apply digits_len in Hzm; discriminate Hzm|discriminate]).
    cbv zeta. change ((58 =? 58)%N && (58 =? 58)%N) with true. cbn match.
    cbn [hms]. rewrite (parse_digits_all _ _ _ Hzm). cbn [third nth].
    destruct Hc as [[-> ->]|[-> ->]]; cbn match; do 2 f_equal.
    + change (43 =? 45)%N with false. cbn match. lia.
    + change (45 =? 45)%N with true. cbn match. lia.
Qed.
