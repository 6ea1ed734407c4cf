(** The calendar arithmetic and the float arithmetic of the model. *)
From Verif Require Import Base Base_Proofs PyText_Model PyText_Proofs PySort_Model PySort_Proofs Time_Model Time_Spec.
Local Open Scope Z_scope.
(* The order in which constants are unfolded, for speed only: day numbers of literal dates last. *)
Strategy expand [instant instant_of off_of].
Strategy 1000 [day_number years].

Ltac zdiv := Z.to_euclidean_division_equations; lia.

(** ** Calendar *)
Lemma leapb_is y : leapb y = is_leap y.
Proof. reflexivity. Qed.
Lemma leapb_spec y : leapb y = true <-> leap y.
Proof.
  unfold leapb, leap, dividesb. rewrite andb_true_iff, orb_true_iff, negb_true_iff, Z.eqb_neq, !Z.eqb_eq.
  rewrite <- !Z.mod_divide by lia. tauto.
Qed.
Lemma years_is n : years n = Z.of_nat n * 365 + Z.of_nat n / 4 - Z.of_nat n / 100 + Z.of_nat n / 400.
Proof.
  induction n as [|n IH]; [reflexivity|].
  cbn [years]. rewrite IH. unfold year_len, leapb, dividesb.
  destruct (Z.eqb_spec (Z.of_nat (S n) mod 4) 0), (Z.eqb_spec (Z.of_nat (S n) mod 100) 0), (Z.eqb_spec (Z.of_nat (S n) mod 400) 0);
    cbn [andb orb negb]; zdiv.
Qed.
Lemma dby_is y : 1 <= y -> days_before_year y = years (Z.to_nat (y - 1)).
Proof. intros H. rewrite years_is. unfold days_before_year. rewrite Z2Nat.id by lia. cbv zeta. reflexivity. Qed.

Lemma month_cases m : 1 <= m <= 12 ->
  m = 1 \/ m = 2 \/ m = 3 \/ m = 4 \/ m = 5 \/ m = 6 \/ m = 7 \/ m = 8 \/ m = 9 \/ m = 10 \/ m = 11 \/ m = 12.
Proof. lia. Qed.
Ltac months H := destruct (month_cases _ H) as [->|[->|[->|[->|[->|[->|[->|[->|[->|[->|[->| ->]]]]]]]]]]].

Lemma dim_is y m : 1 <= m <= 12 -> days_in_month y m = month_len y m.
Proof. intros H. months H; reflexivity. Qed.
Lemma dbm_is y m : 1 <= m <= 12 -> days_before_month y m = months y (Z.to_nat (m - 1)).
Proof.
  intros H. unfold days_before_month. rewrite <- leapb_is. months H;
  match goal with |- context [Z.to_nat ?x] => let v := eval vm_compute in (Z.to_nat x) in change (Z.to_nat x) with v end;
  cbn [months]; unfold month_len; cbn -[leapb Z.add]; destruct (leapb y); reflexivity.
Qed.
Lemma ymd2ord_is y m d : 1 <= y -> 1 <= m <= 12 -> ymd2ord y m d = day_number y m d.
Proof. intros H1 H2. unfold ymd2ord, day_number. rewrite dby_is, dbm_is by assumption. reflexivity. Qed.

Lemma valid_real y mo d h mi s us : valid_fields y mo d h mi s us = true <-> real_date y mo d /\ real_time h mi s us.
Proof.
  unfold valid_fields, real_date, real_time. rewrite !andb_true_iff, !Z.leb_le.
  split.
  - intros H. assert (1 <= mo <= 12) by lia. rewrite dim_is in H by lia. lia.
  - intros [(H1 & H2 & H3) H4]. rewrite dim_is by lia. lia.
Qed.

(** Every date has its own number. *)
Lemma months_le y m : 1 <= m <= 12 -> 28 <= month_len y m <= 31.
Proof. intros H. months H; cbn -[leapb]; destruct (leapb y); lia. Qed.
Lemma months_total y m : 1 <= m <= 12 -> months y (Z.to_nat (m - 1)) + month_len y m <= year_len y.
Proof.
  intros H. unfold year_len. months H;
  match goal with |- context [Z.to_nat ?x] => let v := eval vm_compute in (Z.to_nat x) in change (Z.to_nat x) with v end;
  cbn [months]; unfold month_len; cbn -[leapb Z.add]; destruct (leapb y); lia.
Qed.
Lemma months_mono y k : forall n, (n + k <= 12)%nat -> months y n <= months y (n + k).
Proof.
  induction k as [|k IH]; intros n H; [rewrite Nat.add_0_r; lia|].
  rewrite Nat.add_succ_r. cbn [months].
  specialize (IH n ltac:(lia)). pose proof (months_le y (Z.of_nat (S (n + k))) ltac:(lia)). lia.
Qed.
Lemma months_step y m m2 : 1 <= m <= 12 -> 1 <= m2 <= 12 -> m < m2 ->
  months y (Z.to_nat (m - 1)) + month_len y m <= months y (Z.to_nat (m2 - 1)).
Proof.
  intros H H2 L. pose proof (months_mono y (Z.to_nat (m2 - 1 - m)) (Z.to_nat m) ltac:(lia)) as M.
  replace (Z.to_nat m + Z.to_nat (m2 - 1 - m))%nat with (Z.to_nat (m2 - 1)) in M by lia.
  replace (Z.to_nat m) with (S (Z.to_nat (m - 1))) in M by lia. cbn [months] in M.
  replace (Z.of_nat (S (Z.to_nat (m - 1)))) with m in M by lia. lia.
Qed.
Lemma years_mono k : forall n, years n <= years (n + k).
Proof.
  induction k as [|k IH]; intros n; [rewrite Nat.add_0_r; lia|].
  rewrite Nat.add_succ_r. cbn [years]. specialize (IH n). unfold year_len. destruct (leapb _); lia.
Qed.
Lemma years_step y y2 : 1 <= y -> y < y2 -> years (Z.to_nat (y - 1)) + year_len y <= years (Z.to_nat (y2 - 1)).
Proof.
  intros H L. pose proof (years_mono (Z.to_nat (y2 - 1 - y)) (Z.to_nat y)) as M.
  replace (Z.to_nat y + Z.to_nat (y2 - 1 - y))%nat with (Z.to_nat (y2 - 1)) in M by lia.
  replace (Z.to_nat y) with (S (Z.to_nat (y - 1))) in M by lia. cbn [years] in M.
  replace (Z.of_nat (S (Z.to_nat (y - 1)))) with y in M by lia. lia.
Qed.
Lemma months_pos y n : (n <= 12)%nat -> 0 <= months y n.
Proof. intros H. pose proof (months_mono y n 0 ltac:(lia)). cbn [months Nat.add] in *. lia. Qed.
Definition date_lt (y m d y2 m2 d2 : Z) : Prop := y < y2 \/ y = y2 /\ (m < m2 \/ m = m2 /\ d < d2).
Lemma day_number_mono y m d y2 m2 d2 : real_date y m d -> real_date y2 m2 d2 ->
  date_lt y m d y2 m2 d2 -> day_number y m d < day_number y2 m2 d2.
Proof.
  intros (A & B & C) (A2 & B2 & C2) L. unfold day_number.
  destruct L as [L|[-> [L|[-> L]]]].
  - pose proof (years_step y y2 ltac:(lia) L). pose proof (months_total y m B).
    pose proof (months_pos y2 (Z.to_nat (m2 - 1)) ltac:(lia)). lia.
  - pose proof (months_step y2 m m2 B B2 L). lia.
  - lia.
Qed.
Lemma day_number_inj y m d y2 m2 d2 : real_date y m d -> real_date y2 m2 d2 ->
  day_number y m d = day_number y2 m2 d2 -> y = y2 /\ m = m2 /\ d = d2.
Proof.
  intros H H2 E.
  destruct (Z.lt_trichotomy y y2) as [L|[->|L]].
  - pose proof (day_number_mono y m d y2 m2 d2 H H2 (or_introl L)). lia.
  - destruct (Z.lt_trichotomy m m2) as [L|[->|L]].
    + pose proof (day_number_mono y2 m d y2 m2 d2 H H2 (or_intror (conj eq_refl (or_introl L)))). lia.
    + unfold day_number in E. lia.
    + pose proof (day_number_mono y2 m2 d2 y2 m d H2 H (or_intror (conj eq_refl (or_introl L)))). lia.
  - pose proof (day_number_mono y2 m2 d2 y m d H2 H (or_introl L)). lia.
Qed.

(** The day of a year, month by month. *)
Definition month_of (leap : bool) (n : Z) : Z * Z :=
  let m := (n + 50) / 32 in
  let preceding := days_before m + (if (2 <? m) && leap then 1 else 0) in
  if n <? preceding
  then
    let m := m - 1 in
    let preceding := preceding - (if (m =? 2) && leap then 29 else nth (Z.to_nat m) [0; 31; 28; 31; 30; 31; 30; 31; 31; 30; 31; 30; 31] 0) in
    (m, n - preceding + 1)
  else (m, n - preceding + 1).
Definition len_in (leap : bool) (m : Z) : Z :=
  if m =? 2 then (if leap then 29 else 28) else if (m =? 4) || (m =? 6) || (m =? 9) || (m =? 11) then 30 else 31.
Definition month_ok (leap : bool) (n : Z) : bool :=
  let (m, d) := month_of leap n in
  (1 <=? m) && (m <=? 12) && (1 <=? d) && (d <=? len_in leap m) && (days_before m + (if (2 <? m) && leap then 1 else 0) + d =? n + 1).
Lemma month_all : forallb (fun k => month_ok true (Z.of_nat k)) (seq 0 366) = true
                  /\ forallb (fun k => month_ok false (Z.of_nat k)) (seq 0 365) = true.
Proof. split; vm_compute; reflexivity. Qed.
Lemma month_of_ok (leap : bool) n : 0 <= n < (if leap then 366 else 365) -> month_ok leap n = true.
Proof.
  intros H. destruct month_all as [A B]. rewrite forallb_forall in A, B.
  destruct leap.
  - specialize (A (Z.to_nat n)). rewrite Z2Nat.id in A by lia. apply A, in_seq. lia.
  - specialize (B (Z.to_nat n)). rewrite Z2Nat.id in B by lia. apply B, in_seq. lia.
Qed.

Lemma ord2ymd_ok n : 1 <= n <= MAXORD ->
  let '(y, m, d) := ord2ymd n in real_date y m d /\ day_number y m d = n.
Proof.
  intros H. unfold MAXORD in H. unfold ord2ymd. cbv zeta.
  set (a := (n - 1) mod 146097). set (n400 := (n - 1) / 146097).
  assert (Ha : n - 1 = 146097 * n400 + a /\ 0 <= a < 146097 /\ 0 <= n400 <= 24) by (subst a n400; zdiv).
  set (b := a mod 36524). set (n100 := a / 36524).
  assert (Hb : a = 36524 * n100 + b /\ 0 <= b < 36524 /\ 0 <= n100 <= 4) by (subst b n100; zdiv).
  set (c := b mod 1461). set (n4 := b / 1461).
  assert (Hc : b = 1461 * n4 + c /\ 0 <= c < 1461 /\ 0 <= n4 <= 24) by (subst c n4; zdiv).
  set (e := c mod 365). set (n1 := c / 365).
  assert (He : c = 365 * n1 + e /\ 0 <= e < 365 /\ 0 <= n1 <= 4) by (subst e n1; zdiv).
  clearbody a n400 b n100 c n4 e n1.
  destruct (Z.eqb_spec n1 4) as [E1|E1]; cbn [orb].
  { (* 31 December of a leap year *)
    assert (e = 0 /\ n100 < 4) by lia.
    set (y := n400 * 400 + 1 + n100 * 100 + n4 * 4 + n1 - 1).
    assert (Hy : y = n400 * 400 + n100 * 100 + n4 * 4 + 4) by (subst y; lia). clearbody y.
    assert (L : leapb y = true).
    { unfold leapb, dividesb. apply andb_true_iff. split; [apply Z.eqb_eq; zdiv|].
      destruct (Z.eq_dec n4 24) as [->|N4]; [lia|].
      apply orb_true_iff. left. apply negb_true_iff, Z.eqb_neq. zdiv. }
    assert (R : real_date y 12 31). { split; [|split]; [|lia|cbn; lia]. lia. }
    split; [exact R|]. rewrite <- ymd2ord_is by (destruct R; lia).
    unfold ymd2ord, days_before_month, days_before_year. rewrite <- leapb_is, L.
    change (days_before 12) with 334. change (2 <? 12) with true. cbv zeta. cbn [andb]. zdiv. }
  destruct (Z.eqb_spec n100 4) as [E2|E2].
  { assert (b = 0) by lia. assert (n4 = 0 /\ c = 0) by lia. assert (n1 = 0 /\ e = 0) by lia.
    set (y := n400 * 400 + 1 + n100 * 100 + n4 * 4 + n1 - 1).
    assert (Hy : y = n400 * 400 + 400) by (subst y; lia). clearbody y.
    assert (L : leapb y = true).
    { unfold leapb, dividesb. apply andb_true_iff. split; [apply Z.eqb_eq; zdiv|].
      apply orb_true_iff. right. apply Z.eqb_eq. zdiv. }
    assert (R : real_date y 12 31). { split; [|split]; [|lia|cbn; lia]. lia. }
    split; [exact R|]. rewrite <- ymd2ord_is by (destruct R; lia).
    unfold ymd2ord, days_before_month, days_before_year. rewrite <- leapb_is, L.
    change (days_before 12) with 334. change (2 <? 12) with true. cbv zeta. cbn [andb]. zdiv. }
  set (leap := (n1 =? 3) && (negb (n4 =? 24) || (n100 =? 3))).
  set (y := n400 * 400 + 1 + n100 * 100 + n4 * 4 + n1).
  assert (L : leapb y = leap).
  { unfold leapb, leap, dividesb, y.
    destruct (Z.eqb_spec n1 3), (Z.eqb_spec n4 24), (Z.eqb_spec n100 3); cbn [andb orb negb];
      match goal with |- (?a =? 0) && (negb (?b =? 0) || (?c =? 0)) = _ =>
        destruct (Z.eqb_spec a 0), (Z.eqb_spec b 0), (Z.eqb_spec c 0); cbn [andb orb negb]; try reflexivity; exfalso; zdiv
      end. }
  assert (K : month_ok leap e = true) by (apply month_of_ok; destruct leap; lia).
  assert (Hy : y = n400 * 400 + 1 + n100 * 100 + n4 * 4 + n1) by reflexivity.
  clearbody y. clearbody leap.
  assert (Y : 1 <= y <= 9999) by lia.
  assert (DY : days_before_year y = n - 1 - e).
  { unfold days_before_year. cbv zeta. zdiv. }
  unfold month_ok in K.
  assert (G : (let '(m, d) := month_of leap e in (y, m, d)) =
              (if e <? days_before ((e + 50) / 32) + (if (2 <? (e + 50) / 32) && leap then 1 else 0)
               then (y, (e + 50) / 32 - 1, e - (days_before ((e + 50) / 32) + (if (2 <? (e + 50) / 32) && leap then 1 else 0)
                       - (if ((e + 50) / 32 - 1 =? 2) && leap then 29 else nth (Z.to_nat ((e + 50) / 32 - 1)) [0; 31; 28; 31; 30; 31; 30; 31; 31; 30; 31; 30; 31] 0)) + 1)
               else (y, (e + 50) / 32, e - (days_before ((e + 50) / 32) + (if (2 <? (e + 50) / 32) && leap then 1 else 0)) + 1))).
  { unfold month_of. cbv zeta. destruct (e <? _); reflexivity. }
  rewrite <- G. clear G. destruct (month_of leap e) as [m d].
  rewrite !andb_true_iff, !Z.leb_le, Z.eqb_eq in K. destruct K as ((((K1 & K2) & K3) & K4) & K5).
  assert (R : real_date y m d).
  { split; [exact Y|]. split; [lia|]. split; [exact K3|].
    rewrite <- dim_is by lia. unfold days_in_month. rewrite <- leapb_is, L. exact K4. }
  split; [exact R|]. rewrite <- ymd2ord_is by (destruct R; lia).
  unfold ymd2ord, days_before_month. rewrite <- leapb_is, L, DY. lia.
Qed.
Lemma day_number_range y m d : real_date y m d -> 1 <= day_number y m d <= MAXORD.
Proof.
  intros H.
  assert (A : real_date 1 1 1) by (unfold real_date; cbn; lia).
  assert (B : real_date 9999 12 31) by (unfold real_date; cbn; lia).
  assert (E1 : day_number 1 1 1 = 1) by reflexivity.
  assert (E2 : day_number 9999 12 31 = MAXORD).
  { rewrite <- ymd2ord_is by lia. reflexivity. }
  destruct H as (H1 & H2 & H3).
  split.
  - destruct (Z.eq_dec y 1) as [->|]; [destruct (Z.eq_dec m 1) as [->|]; [destruct (Z.eq_dec d 1) as [->|]; [lia|]|]|];
      (rewrite <- E1; apply Z.lt_le_incl, day_number_mono; [exact A|exact (conj H1 (conj H2 H3))|unfold date_lt; lia]).
  - destruct (Z.eq_dec y 9999) as [->|]; [destruct (Z.eq_dec m 12) as [->|]; [destruct (Z.eq_dec d 31) as [->|]; [lia|]|]|];
      (rewrite <- E2; apply Z.lt_le_incl, day_number_mono; [exact (conj H1 (conj H2 H3))|exact B|]).
    + cbn in H3. unfold date_lt; lia.
    + unfold date_lt; lia.
    + unfold date_lt; lia.
Qed.
Lemma ord2ymd_day y m d : real_date y m d -> ord2ymd (day_number y m d) = (y, m, d).
Proof.
  intros H. pose proof (ord2ymd_ok _ (day_number_range y m d H)) as K.
  destruct (ord2ymd (day_number y m d)) as [[y2 m2] d2]. destruct K as [K1 K2].
  destruct (day_number_inj _ _ _ _ _ _ K1 H K2) as (-> & -> & ->). reflexivity.
Qed.

(** ** Microseconds *)
Definition set_off (d : datetime) (o : option Z) : datetime :=
  mkDt (year d) (month d) (day d) (hour d) (minute d) (second d) (micro d) o.

Lemma day_1970 : day_number 1970 1 1 = 719163.
Proof. rewrite <- ymd2ord_is by lia. reflexivity. Qed.
Lemma local_us_is d : real d -> local_us d =
  (((day_number (year d) (month d) (day d) * 86400 + hour d * 3600 + minute d * 60 + second d) * 1000000) + micro d).
Proof. intros [(A & B & C) _]. unfold local_us. rewrite ymd2ord_is by lia. reflexivity. Qed.
Lemma utc_us_is d : real d -> utc_us d - EPOCH = instant_of d.
Proof.
  intros H. unfold utc_us, instant_of, instant, off_of. rewrite local_us_is, day_1970 by exact H. unfold EPOCH.
  generalize (day_number (year d) (month d) (day d)). intros n. destruct (offset d); lia.
Qed.
Lemma of_us_local o d : real d -> of_us o (local_us d) = Ok (set_off d o).
Proof.
  intros H. rewrite local_us_is by exact H. destruct H as [D (T1 & T2 & T3 & T4)].
  pose proof (day_number_range _ _ _ D) as R. pose proof (ord2ymd_day _ _ _ D) as O.
  unfold of_us. cbv zeta. set (n := day_number (year d) (month d) (day d)) in *. clearbody n.
  set (sec := n * 86400 + hour d * 3600 + minute d * 60 + second d).
  assert (E1 : (sec * 1000000 + micro d) / 1000000 = sec) by (clearbody sec; zdiv).
  assert (E2 : (sec * 1000000 + micro d) mod 1000000 = micro d) by (clearbody sec; zdiv).
  rewrite E1, E2.
  assert (E3 : sec / 86400 = n) by (subst sec; zdiv).
  assert (E4 : sec mod 86400 = hour d * 3600 + minute d * 60 + second d) by (subst sec; zdiv).
  rewrite E3, E4, O.
  assert (((0 <? n) && (n <=? MAXORD))%bool = true) as -> by lia.
  unfold set_off. f_equal. f_equal; clear - T1 T2 T3; zdiv.
Qed.
Lemma of_us_inv o n d : of_us o n = Ok d -> real d /\ local_us d = n /\ offset d = o.
Proof.
  unfold of_us. cbv zeta. destruct ((0 <? n / 1000000 / 86400) && (n / 1000000 / 86400 <=? MAXORD))%bool eqn:E; [|discriminate].
  apply andb_true_iff in E. destruct E as [E1%Z.ltb_lt E2%Z.leb_le].
  pose proof (ord2ymd_ok (n / 1000000 / 86400) ltac:(lia)) as K.
  destruct (ord2ymd (n / 1000000 / 86400)) as [[y m] dd]. destruct K as [R N].
  intros [= <-].
  assert (Q : real (mkDt y m dd (n / 1000000 mod 86400 / 3600) (n / 1000000 mod 86400 mod 3600 / 60) (n / 1000000 mod 86400 mod 60) (n mod 1000000) o)).
  { split; [exact R|]. unfold real_time. cbn [hour minute second micro]. clear. zdiv. }
  split; [exact Q|]. split; [|reflexivity].
  rewrite local_us_is by exact Q. cbn [year month day hour minute second micro]. rewrite N. clear. zdiv.
Qed.
Lemma of_us_range o n : DAY <= n < (MAXORD + 1) * DAY -> exists d, of_us o n = Ok d.
Proof.
  intros H. unfold of_us. cbv zeta.
  assert (((0 <? n / 1000000 / 86400) && (n / 1000000 / 86400 <=? MAXORD))%bool = true) as ->.
  { unfold DAY, MAXORD in *. zdiv. }
  destruct (ord2ymd _) as [[y m] d]. eauto.
Qed.
Lemma local_us_range d : real d -> DAY <= local_us d < (MAXORD + 1) * DAY.
Proof.
  intros H. rewrite local_us_is by exact H. destruct H as [D (T1 & T2 & T3 & T4)].
  pose proof (day_number_range _ _ _ D) as R. unfold DAY. lia.
Qed.
Lemma in_years_is n : in_years n <-> DAY - EPOCH <= n < (MAXORD + 1) * DAY - EPOCH.
Proof.
  unfold in_years, instant. change (day_number 1 1 1) with 1. rewrite day_1970.
  replace (day_number 9999 12 31) with MAXORD by (rewrite <- ymd2ord_is by lia; reflexivity).
  unfold DAY, EPOCH, MAXORD. lia.
Qed.
Lemma instant_inj d e : real d -> real e -> offset d = offset e -> instant_of d = instant_of e -> d = e.
Proof.
  intros H1 H2 O E. rewrite <- !utc_us_is in E by assumption.
  assert (L : local_us d = local_us e) by (unfold utc_us in E; rewrite O in E; lia).
  pose proof (of_us_local (offset d) d H1) as A. pose proof (of_us_local (offset d) e H2) as B.
  rewrite L, B in A. injection A. destruct d, e. cbn in *. unfold set_off. cbn. intros; subst. reflexivity.
Qed.
Lemma ensure_utc_ok d : real d -> in_years (instant_of d) ->
  exists u, ensure_utc d = Ok u /\ real u /\ offset u = Some 0 /\ instant_of u = instant_of d.
Proof.
  intros H Y. unfold ensure_utc.
  destruct (offset d) as [o|] eqn:O.
  - destruct (Z.eqb_spec o 0) as [->|N]; [exists d; auto|].
    rewrite in_years_is in Y. rewrite <- (utc_us_is d H) in *. unfold utc_us in Y. rewrite O in Y.
    destruct (of_us_range (Some 0) (local_us d - o) ltac:(lia)) as [u Hu].
    exists u. split; [exact Hu|]. destruct (of_us_inv _ _ _ Hu) as (R & L & Ou).
    split; [exact R|]. split; [exact Ou|]. rewrite <- utc_us_is by exact R. unfold utc_us. rewrite L, Ou, O. lia.
  - exists (set_off d (Some 0)). split; [reflexivity|]. split; [exact H|]. split; [reflexivity|].
    unfold instant_of, set_off, off_of. cbn. rewrite O. reflexivity.
Qed.
Lemma ensure_utc_err d : real d -> ~ in_years (instant_of d) -> exists e, ensure_utc d = Err e.
Proof.
  intros H Y. unfold ensure_utc. rewrite in_years_is, <- (utc_us_is d H) in Y. unfold utc_us in Y.
  pose proof (local_us_range d H) as L.
  destruct (offset d) as [o|]; [|exfalso; lia].
  destruct (Z.eqb_spec o 0) as [->|N]; [exfalso; lia|].
  destruct (of_us (Some 0) (local_us d - o)) as [u|e] eqn:E; [|eauto].
  destruct (of_us_inv _ _ _ E) as (R & L2 & _). pose proof (local_us_range u R). exfalso. lia.
Qed.
Lemma ensure_utc_id d : offset d = Some 0 -> ensure_utc d = Ok d.
Proof. intros H. unfold ensure_utc. rewrite H. reflexivity. Qed.

(** ** Floats *)
Lemma div_even_err p q : 0 < q -> Z.abs (2 * (div_even p q * q - p)) <= q.
Proof.
  intros Q. unfold div_even. cbv zeta. pose proof (Z.div_mod p q ltac:(lia)). pose proof (Z.mod_pos_bound p q Q).
  destruct (Z.ltb_spec (2 * (p mod q)) q); [nia|]. destruct (Z.ltb_spec q (2 * (p mod q))); [nia|].
  destruct (Z.even (p / q)); nia.
Qed.
Lemma div_even_unique p q k : 0 < q -> Z.abs (2 * (p - k * q)) < q -> div_even p q = k.
Proof.
  intros Q H. pose proof (div_even_err p q Q). nia.
Qed.
Lemma ratio_zero q : ratio 0 q = mkFloat 0 0.
Proof. reflexivity. Qed.
Lemma ratio_small p q k : p <> 0 -> 0 < q -> 0 <= k < 53 -> Z.abs p < q * 2 ^ k ->
  expo (ratio p q) <= k - 53 /\
  Z.abs (2 * (mant (ratio p q) * q - p * 2 ^ (- expo (ratio p q)))) <= q.
Proof.
  intros P Q K H. unfold ratio. destruct (Z.eqb_spec p 0) as [|_]; [contradiction|].
  set (e0 := Z.log2 (Z.abs p) - Z.log2 q - 53).
  assert (E0 : e0 <= k - 53).
  { pose proof (Z.log2_spec (Z.abs p) ltac:(lia)) as [A _]. pose proof (Z.log2_spec q Q) as [_ B].
    assert (2 ^ Z.log2 (Z.abs p) < 2 ^ (Z.succ (Z.log2 q) + k)).
    { rewrite Z.pow_add_r by (try apply Z.le_le_succ_r, Z.log2_nonneg; lia).
      eapply Z.le_lt_trans; [exact A|]. eapply Z.lt_trans; [exact H|].
      apply Z.mul_lt_mono_pos_r; [apply Z.pow_pos_nonneg; lia|exact B]. }
    apply Z.pow_lt_mono_r_iff in H0; [|lia|pose proof (Z.log2_nonneg q); lia]. subst e0. lia. }
  assert (S0 : scaled p q e0 = (p * 2 ^ (- e0), q)).
  { unfold scaled. destruct (Z.ltb_spec e0 0); [reflexivity|lia]. }
  rewrite S0.
  set (e := if 2 ^ 53 * q <=? Z.abs (p * 2 ^ (- e0)) then e0 + 1 else e0).
  assert (Ee : e <= k - 53).
  { subst e. destruct (Z.leb_spec (2 ^ 53 * q) (Z.abs (p * 2 ^ (- e0)))) as [L|L]; [|exact E0].
    destruct (Z.eq_dec e0 (k - 53)) as [E|]; [|lia]. exfalso. rewrite E in L.
    rewrite Z.abs_mul, (Z.abs_eq (2 ^ _)) in L by (apply Z.pow_nonneg; lia).
    replace (2 ^ 53) with (2 ^ k * 2 ^ (- (k - 53))) in L by (rewrite <- Z.pow_add_r by lia; f_equal; lia).
    assert (0 < 2 ^ (- (k - 53))) by (apply Z.pow_pos_nonneg; lia). nia. }
  assert (Se : scaled p q e = (p * 2 ^ (- e), q)).
  { unfold scaled. destruct (Z.ltb_spec e 0); [reflexivity|lia]. }
  rewrite Se. cbn [expo mant]. split; [exact Ee|]. apply div_even_err, Q.
Qed.

Lemma from_float_norm x : exists n,
  n = trunc x * 1000000 + round_even (fmul (frac x) 1000000) /\
  from_float x = match of_us (Some 0) (n + EPOCH) with Ok d => Ok d | Err _ => Err ValueError end.
Proof.
  eexists. split; [reflexivity|]. unfold from_float, from_parts. cbv zeta.
  assert (C : forall a b, a = b -> match of_us (Some 0) a with Ok d => Ok d | Err _ => Err ValueError end
    = match of_us (Some 0) b with Ok d => Ok d | Err _ => Err ValueError end) by (intros a b ->; reflexivity).
  destruct (_ <=? _); [apply C; lia|]. destruct (_ <? 0); apply C; lia.
Qed.
(** What is left of [n] microseconds after writing them as a float of seconds. *)
Definition float_back (n : Z) : Z :=
  let x := ratio n 1000000 in trunc x * 1000000 + round_even (fmul (frac x) 1000000).
Lemma float_back_err n k : 20 <= k + 20 <= 58 -> n <> 0 -> Z.abs n < 1000000 * 2 ^ k ->
  exists D D' m', D >= 2 ^ (53 - k) /\ D' >= 2 ^ 33 /\
    Z.abs (2 * (m' - (n - 1000000 * trunc (ratio n 1000000)) * D')) * D <= D + 1000000 * D' /\
    round_even (fmul (frac (ratio n 1000000)) 1000000) = div_even m' D'.
Proof.
  intros K N H.
  destruct (ratio_small n 1000000 k N ltac:(lia) ltac:(lia) H) as [E R].
  set (x := ratio n 1000000) in *. destruct x as [m e]. cbn [mant expo] in *.
  set (D := 2 ^ (- e)) in *.
  assert (HD : 2 ^ (53 - k) <= D) by (apply Z.pow_le_mono_r; lia).
  assert (HD0 : 0 < D) by (apply Z.pow_pos_nonneg; lia).
  unfold trunc, frac. cbn [mant expo]. destruct (Z.ltb_spec e 0) as [_|]; [|lia].
  unfold fmul. cbn [mant expo]. destruct (Z.ltb_spec e 0) as [_|]; [|lia]. fold D.
  pose proof (Z.quot_rem m D ltac:(lia)) as Hq. pose proof (Z.rem_bound_abs m D ltac:(lia)) as Hr.
  set (w := Z.quot m D) in *. set (r := Z.rem m D) in *. clearbody w r.
  destruct (Z.eq_dec r 0) as [->|Nr].
  - exists D, (2 ^ 33), 0. split; [lia|]. split; [lia|]. split.
    + assert (m = D * w) as -> by lia.
      assert (B : Z.abs (2 * (n - 1000000 * w)) * D <= 1000000).
      { replace (Z.abs (2 * (n - 1000000 * w)) * D) with (Z.abs (2 * (D * w * 1000000 - n * D))); [exact R|].
        replace (2 * (D * w * 1000000 - n * D)) with (- (2 * (n - 1000000 * w)) * D) by ring.
        rewrite Z.abs_mul, Z.abs_opp, (Z.abs_eq D) by lia. reflexivity. }
      replace (Z.abs (2 * (0 - (n - 1000000 * w) * 2 ^ 33)) * D) with (Z.abs (2 * (n - 1000000 * w)) * D * 2 ^ 33).
      * nia.
      * replace (2 * (0 - (n - 1000000 * w) * 2 ^ 33)) with (- (2 * (n - 1000000 * w)) * 2 ^ 33) by ring.
        rewrite (Z.abs_mul (- (2 * (n - 1000000 * w))) (2 ^ 33)), Z.abs_opp, (Z.abs_eq (2 ^ 33)) by lia. ring.
    + change (0 * 1000000) with 0. rewrite ratio_zero. unfold round_even. cbn [mant expo]. reflexivity.
  - destruct (ratio_small (r * 1000000) D 20 ltac:(lia) HD0 ltac:(lia) ltac:(change (2 ^ 20) with 1048576; nia)) as [E' R'].
    set (x' := ratio (r * 1000000) D) in *. destruct x' as [m' e']. cbn [mant expo] in *.
    set (D' := 2 ^ (- e')) in *.
    assert (HD' : 2 ^ 33 <= D') by (apply Z.pow_le_mono_r; lia).
    exists D, D', m'. split; [lia|]. split; [lia|]. split.
    + assert (A : Z.abs (2 * (r * 1000000 - (n - 1000000 * w) * D)) <= 1000000).
      { replace (2 * (r * 1000000 - (n - 1000000 * w) * D)) with (2 * (m * 1000000 - n * D)) by (rewrite Hq; ring). exact R. }
      assert (B : Z.abs (2 * (r * 1000000 * D' - (n - 1000000 * w) * D * D')) <= 1000000 * D').
      { replace (2 * (r * 1000000 * D' - (n - 1000000 * w) * D * D')) with (2 * (r * 1000000 - (n - 1000000 * w) * D) * D') by ring.
        rewrite Z.abs_mul, (Z.abs_eq D') by lia. apply Z.mul_le_mono_nonneg_r; [lia|exact A]. }
      replace (Z.abs (2 * (m' - (n - 1000000 * w) * D')) * D) with (Z.abs (2 * (m' * D - (n - 1000000 * w) * D * D'))).
      * lia.
      * replace (2 * (m' * D - (n - 1000000 * w) * D * D')) with (2 * (m' - (n - 1000000 * w) * D') * D) by ring.
        rewrite Z.abs_mul, (Z.abs_eq D) by lia. reflexivity.
    + unfold round_even. cbn [mant expo]. destruct (Z.ltb_spec e' 0); [reflexivity|lia].
Qed.
Lemma float_back_exact n : Z.abs n < 1000000 * 2 ^ 33 -> float_back n = n.
Proof.
  intros H. destruct (Z.eq_dec n 0) as [->|N]; [reflexivity|].
  destruct (float_back_err n 33 ltac:(lia) N H) as (D & D' & m' & HD & HD' & E & R).
  unfold float_back. cbv zeta. rewrite R. change (2 ^ (53 - 33)) with 1048576 in HD. change (2 ^ 33) with 8589934592 in HD'.
  set (K := n - 1000000 * trunc (ratio n 1000000)) in *.
  rewrite (div_even_unique m' D' K); [subst K; lia|lia|].
  assert (D + 1000000 * D' < D' * D) by nia.
  assert (Z.abs (2 * (m' - K * D')) * D < D' * D) by lia. nia.
Qed.
Lemma float_back_near n : Z.abs n < 1000000 * 2 ^ 38 -> Z.abs (float_back n - n) <= 15.
Proof.
  intros H. destruct (Z.eq_dec n 0) as [->|N]; [cbv; discriminate|].
  destruct (float_back_err n 38 ltac:(lia) N H) as (D & D' & m' & HD & HD' & E & R).
  unfold float_back. cbv zeta. rewrite R. change (2 ^ (53 - 38)) with 32768 in HD. change (2 ^ 33) with 8589934592 in HD'.
  pose proof (div_even_err m' D' ltac:(lia)) as Q.
  set (K := n - 1000000 * trunc (ratio n 1000000)) in *.
  set (v := div_even m' D') in *. 
  replace (trunc (ratio n 1000000) * 1000000 + v - n) with (v - K) by (subst K; lia).
  clearbody K v.
  (* |v - K| * 2 * D' * D <= D' * D + D + 1000000 * D' *)
  assert (A : Z.abs (2 * (v - K) * D') * D <= D' * D + D + 1000000 * D').
  { assert (Z.abs (2 * (v - K) * D') <= Z.abs (2 * (v * D' - m')) + Z.abs (2 * (m' - K * D'))) by lia. nia. }
  destruct (Z_le_gt_dec (Z.abs (v - K)) 15) as [|G]; [assumption|exfalso].
  assert (32 * D' <= Z.abs (2 * (v - K) * D')).
  { rewrite !Z.abs_mul, (Z.abs_eq D') by lia. change (Z.abs 2) with 2. nia. }
  nia.
Qed.
Lemma trunc_whole s : Z.abs s < 2 ^ 38 -> trunc (ratio (s * 1000000) 1000000) = s.
Proof.
  intros H. destruct (Z.eq_dec s 0) as [->|N]; [reflexivity|].
  destruct (ratio_small (s * 1000000) 1000000 38 ltac:(lia) ltac:(lia) ltac:(lia) ltac:(lia)) as [E R].
  destruct (ratio (s * 1000000) 1000000) as [m e]. cbn [mant expo] in *.
  unfold trunc. cbn [mant expo]. destruct (Z.ltb_spec e 0) as [_|]; [|lia].
  assert (HD0 : 0 < 2 ^ (- e)) by (apply Z.pow_pos_nonneg; lia).
  set (D := 2 ^ (- e)) in *.
  assert (m = s * D) as -> by nia. apply Z.quot_mul. lia.
Qed.
