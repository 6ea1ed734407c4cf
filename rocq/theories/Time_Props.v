(** C53, C54, C73: timestamps and splitting. *)
From Verif Require Import Base Base_Proofs PyText_Model PyText_Proofs PySort_Model PySort_Proofs Time_Model Time_Spec Time_Proofs TimeText_Proofs.
Local Open Scope Z_scope.

Lemma make_ok y mo d h mi s us off : real_date y mo d -> real_time h mi s us ->
  match off with Some o => - DAY < o < DAY | None => True end -> make y mo d h mi s us off = Ok (mkDt y mo d h mi s us off).
Proof.
  intros A B C. unfold make. rewrite (proj2 (valid_real y mo d h mi s us) (conj A B)).
  destruct off as [o|]; [|reflexivity]. replace ((- DAY <? o) && (o <? DAY))%bool with true by lia. reflexivity.
Qed.
Lemma day_1000 : day_number 1000 1 1 = 364878.
Proof. rewrite <- ymd2ord_is by lia. reflexivity. Qed.
Lemma day_100 : day_number 100 1 1 = 36160.
Proof. rewrite <- ymd2ord_is by lia. reflexivity. Qed.
Lemma real_year_1000 u : real u -> offset u = Some 0 -> instant 1000 1 1 0 0 0 0 0 <= instant_of u -> 1000 <= year u.
Proof.
  intros [D T] O H. destruct (Z_lt_le_dec (year u) 1000) as [L|]; [exfalso|assumption].
  pose proof (day_number_mono (year u) (month u) (day u) 1000 1 1 D ltac:(unfold real_date; cbn; lia) (or_introl L)).
  unfold instant_of, instant, off_of in H. rewrite O in H. destruct T as (T1 & T2 & T3 & T4).
  rewrite day_1000, day_1970 in H. rewrite day_1000 in H0. clear D O L.
  revert H H0 T1 T2 T3 T4. generalize (day_number (year u) (month u) (day u)). intros; lia.
Qed.
Lemma rfc_text pads u : real u -> pads = true \/ 1000 <= year u ->
  rfc3339_text (serialize_rfc3339 pads u) (year u) (month u) (day u) (hour u) (minute u) (second u) (micro u).
Proof.
  intros [(D1 & D2 & D3) (T1 & T2 & T3 & T4)] P.
  pose proof (months_le (year u) (month u) D2).
  exists (pad4 (year u)), (pad2 (month u)), (pad2 (day u)), (pad2 (hour u)), (pad2 (minute u)), (pad2 (second u)),
    (if micro u =? 0 then [] else 46%N :: pad6 (micro u)).
  split; [apply pad4_is; lia|]. do 5 (split; [apply pad2_is; lia|]). split.
  - destruct (Z.eqb_spec (micro u) 0); [left; auto|]. right. exists (pad6 (micro u)). split; [apply pad6_is; lia|reflexivity].
  - unfold serialize_rfc3339. rewrite year_text_is by (assumption || lia). reflexivity.
Qed.

(** What is written for an instant is a date-time of RFC 3339 of that very instant. *)
Theorem C53_text pads d : real d -> in_years (instant_of d) -> pads = true \/ instant 1000 1 1 0 0 0 0 0 <= instant_of d ->
  exists t y mo dd h mi s us, serialize pads DATE_TIME d = Ok (SText t) /\
    real_date y mo dd /\ real_time h mi s us /\ rfc3339_text t y mo dd h mi s us /\ instant y mo dd h mi s us 0 = instant_of d.
Proof.
  intros R Y P. destruct (ensure_utc_ok d R Y) as (u & E & Ru & Ou & Iu).
  exists (serialize_rfc3339 pads u), (year u), (month u), (day u), (hour u), (minute u), (second u), (micro u).
  unfold serialize. rewrite E. cbn [bind]. split; [reflexivity|]. split; [apply Ru|]. split; [apply Ru|].
  split; [apply rfc_text; [exact Ru|]|].
  - destruct P as [P|P]; [left; exact P|right]. apply real_year_1000; [exact Ru|exact Ou|]. rewrite Iu. exact P.
  - unfold instant_of at 1 in Iu. unfold off_of in Iu. rewrite Ou in Iu. exact Iu.
Qed.
Print Assumptions C53_text.

(** What RFC 3339 text is read as: the instant it says, whatever its offset. *)
Theorem C53_read fl y mo d h mi s us t local sign zh zm tzh tzm off :
  real_date y mo d -> real_time h mi s us -> rfc3339_text local y mo d h mi s us ->
  0 <= zh <= 23 -> 0 <= zm <= 59 -> digits 2 zh tzh -> digits 2 zm tzm ->
  (t = local /\ off = 0) \/
  (sign = lit "+" /\ off = (zh * 60 + zm) * 60000000 \/ sign = lit "-" /\ off = - ((zh * 60 + zm) * 60000000))
    /\ (exists body, local = body ++ lit "Z" /\ t = body ++ sign ++ tzh ++ lit ":" ++ tzm) ->
  in_years (instant y mo d h mi s us off) ->
  exists u, deserialize fl DATE_TIME (SText t) = Ok u /\ real u /\ offset u = Some 0 /\ instant_of u = instant y mo d h mi s us off.
Proof.
  intros D T (ty & tmo & td & th & tmi & ts & tf & Hy & Hmo & Hd & Hh & Hmi & Hs & F & EL) Bzh Bzm Hzh Hzm Ht Y.
  assert (B : - DAY < off < DAY).
  { unfold DAY. destruct Ht as [[_ ->]|[[[_ ->]|[_ ->]] _]]; lia. }
  assert (F' : us = 0 /\ tf = [] \/ exists tu, digits 6 us tu /\ tf = 46%N :: tu).
  { destruct F as [F|(tu & G1 & G2)]; [left; exact F|right; exists tu; split; assumption]. }
  assert (I : fromisoformat t = make y mo d h mi s us (Some off)).
  { destruct Ht as [[-> ->]|[Sg (body & EB & ->)]].
    - apply (iso_read y mo d h mi s us 0 ty tmo td th tmi ts tf [90%N]); auto.
      rewrite EL. unfold clock_text. rewrite <- !app_assoc. cbn [app]. repeat (rewrite <- ?app_assoc; cbn [app]). reflexivity.
    - rewrite EL in EB. rewrite !app_assoc in EB. apply app_inj_tail in EB as [<- _].
      apply (iso_read y mo d h mi s us off ty tmo td th tmi ts tf (sign ++ tzh ++ 58%N :: tzm)); auto.
      + right. destruct Sg as [[-> ->]|[-> ->]].
        * exists 43%N, zh, zm, tzh, tzm. split; [reflexivity|]. split; [exact Hzh|]. split; [exact Hzm|]. left. split; [reflexivity|lia].
        * exists 45%N, zh, zm, tzh, tzm. split; [reflexivity|]. split; [exact Hzh|]. split; [exact Hzm|]. right. split; [reflexivity|lia].
      + unfold clock_text. repeat (rewrite <- ?app_assoc; cbn [app]). reflexivity. }
  unfold deserialize. rewrite I, make_ok by assumption. cbn [bind].
  destruct (ensure_utc_ok (mkDt y mo d h mi s us (Some off))) as (u & E & Ru & Ou & Iu).
  - split; [exact D|exact T].
  - exact Y.
  - exists u. split; [exact E|]. split; [exact Ru|]. split; [exact Ou|]. exact Iu.
Qed.
Print Assumptions C53_read.

(** Written and read again: the same instant, in UTC. *)
Theorem C53_date_time pads fl d : real d -> in_years (instant_of d) -> pads = true \/ instant 1000 1 1 0 0 0 0 0 <= instant_of d ->
  exists v u, serialize pads DATE_TIME d = Ok v /\ deserialize fl DATE_TIME v = Ok u
    /\ real u /\ offset u = Some 0 /\ instant_of u = instant_of d.
Proof.
  intros R Y P. destruct (C53_text pads d R Y P) as (t & y & mo & dd & h & mi & s & us & E & A & B & T & I).
  destruct (C53_read fl y mo dd h mi s us t t [] 0 0 (pad2 0) (pad2 0) 0 A B T ltac:(lia) ltac:(lia) (pad2_is 0 ltac:(lia)) (pad2_is 0 ltac:(lia)))
    as (u & U & Ru & Ou & Iu); [left; auto|rewrite I; exact Y|].
  exists (SText t), u. split; [exact E|]. split; [exact U|]. split; [exact Ru|]. split; [exact Ou|]. rewrite Iu. exact I.
Qed.
Print Assumptions C53_date_time.
(** A clock two hours ahead of UTC on a leap day, in the first hour: the day before in UTC. *)
Definition ex_ahead : datetime := mkDt 2024 3 1 0 30 0 500000 (Some 7200000000).
Example C53_ex : real ex_ahead /\ in_years (instant_of ex_ahead)
  /\ serialize false DATE_TIME ex_ahead = Ok (SText (lit "2024-02-29T22:30:00.500000Z"))
  /\ deserialize (fun _ => None) DATE_TIME (SText (lit "2024-02-29T22:30:00.500000Z")) = Ok (mkDt 2024 2 29 22 30 0 500000 (Some 0))
  /\ deserialize (fun _ => None) DATE_TIME (SText (lit "2024-03-01T00:30:00-01:30")) = Ok (mkDt 2024 3 1 2 0 0 0 (Some 0)).
Proof.
  assert (R : real ex_ahead) by (unfold real, real_date, real_time; cbn; lia).
  split; [exact R|]. split; [rewrite in_years_is, <- utc_us_is by exact R; vm_compute; split; [discriminate|reflexivity]|].
  split; [vm_compute; reflexivity|]. split; vm_compute; reflexivity.
Qed.
(** Where the platform does not pad the year, one before 1000 is not read again. *)
Theorem C53_early_year_refuted : exists d v, real d /\ in_years (instant_of d) /\ serialize false DATE_TIME d = Ok v
  /\ forall fl, deserialize fl DATE_TIME v = Err ValueError.
Proof.
  exists (mkDt 999 12 31 0 0 0 0 (Some 0)), (SText (lit "999-12-31T00:00:00Z")).
  assert (R : real (mkDt 999 12 31 0 0 0 0 (Some 0))) by (unfold real, real_date, real_time; cbn; lia).
  split; [exact R|]. split; [rewrite in_years_is, <- utc_us_is by exact R; vm_compute; split; [discriminate|reflexivity]|].
  split; [vm_compute; reflexivity|]. intros fl. vm_compute. reflexivity.
Qed.
Print Assumptions C53_early_year_refuted.

(** ** Epoch seconds *)
Lemma utc_whole u : real u -> offset u = Some 0 -> micro u = 0 -> exists s, instant_of u = s * 1000000.
Proof. intros R O M. unfold instant_of, instant, off_of. rewrite O, M. eexists. rewrite Z.add_0_r, Z.sub_0_r. reflexivity. Qed.
Lemma from_us_ok n : in_years n -> exists u, of_us (Some 0) (n + EPOCH) = Ok u /\ real u /\ offset u = Some 0 /\ instant_of u = n.
Proof.
  intros Y. rewrite in_years_is in Y. destruct (of_us_range (Some 0) (n + EPOCH) ltac:(lia)) as [u E].
  destruct (of_us_inv _ _ _ E) as (R & L & O). exists u. split; [exact E|]. split; [exact R|]. split; [exact O|].
  rewrite <- utc_us_is by exact R. unfold utc_us. rewrite L, O. lia.
Qed.
Lemma in_years_small n : in_years n -> Z.abs n < 1000000 * 2 ^ 38.
Proof. rewrite in_years_is. change (2 ^ 38) with 274877906944. unfold DAY, EPOCH, MAXORD. lia. Qed.
(** The seconds written: a whole number exactly, otherwise a float whose reading is [float_back]. *)
Lemma epoch_parts pads fl d : real d -> in_years (instant_of d) ->
  exists v, serialize pads EPOCH_SECONDS d = Ok v /\
    deserialize fl EPOCH_SECONDS v =
      match of_us (Some 0) ((if instant_of d mod 1000000 =? 0 then instant_of d else float_back (instant_of d)) + EPOCH) with
      | Ok u => Ok u | Err _ => Err ValueError end.
Proof.
  intros R Y. destruct (ensure_utc_ok d R Y) as (u & E & Ru & Ou & Iu).
  unfold serialize. rewrite E. cbn [bind]. eexists. split; [reflexivity|].
  unfold serialize_epoch_seconds, timestamp. rewrite (utc_us_is u Ru), Iu.
  assert (M : micro u = instant_of d mod 1000000).
  { rewrite <- Iu. unfold instant_of, instant, off_of. rewrite Ou, Z.sub_0_r. destruct Ru as [_ (_ & _ & _ & T4)].
    rewrite Z.add_comm, Z.mod_add, Z.mod_small by lia. reflexivity. }
  rewrite <- M. destruct (Z.eqb_spec (micro u) 0) as [Z|Z]; cbv zeta.
  - destruct (utc_whole u Ru Ou Z) as [s Es]. rewrite Iu in Es. rewrite Es.
    cbn [deserialize epoch_seconds_to_datetime]. unfold from_parts. rewrite trunc_whole.
    + rewrite Z.add_0_r. reflexivity.
    + pose proof (in_years_small _ Y). lia.
  - cbn [deserialize epoch_seconds_to_datetime]. destruct (from_float_norm (ratio (instant_of d) 1000000)) as (n & En & Ef).
    rewrite Ef, En. reflexivity.
Qed.
(** Whole seconds of any year, and microseconds within 2^33 seconds of the epoch (the
    years 1698 to 2242), come back exactly. *)
Theorem C53_epoch pads fl d : real d -> in_years (instant_of d) ->
  instant_of d mod 1000000 = 0 \/ Z.abs (instant_of d) < 2 ^ 33 * 1000000 ->
  exists v u, serialize pads EPOCH_SECONDS d = Ok v /\ deserialize fl EPOCH_SECONDS v = Ok u
    /\ real u /\ offset u = Some 0 /\ instant_of u = instant_of d.
Proof.
  intros R Y H. destruct (epoch_parts pads fl d R Y) as (v & A & B).
  destruct (from_us_ok (instant_of d) Y) as (u & U & Ru & Ou & Iu). exists v, u. split; [exact A|].
  split; [|auto]. rewrite B.
  assert ((if instant_of d mod 1000000 =? 0 then instant_of d else float_back (instant_of d)) = instant_of d) as ->.
  { destruct (Z.eqb_spec (instant_of d mod 1000000) 0); [reflexivity|]. apply float_back_exact. lia. }
  rewrite U. reflexivity.
Qed.
Print Assumptions C53_epoch.
(** In any year it is off by at most 15 microseconds, at the very end of the year 9999 excepted. *)
Theorem C53_epoch_near pads fl d : real d -> in_years (instant_of d) -> in_years (instant_of d + 15) -> in_years (instant_of d - 15) ->
  exists v u, serialize pads EPOCH_SECONDS d = Ok v /\ deserialize fl EPOCH_SECONDS v = Ok u
    /\ real u /\ offset u = Some 0 /\ Z.abs (instant_of u - instant_of d) <= 15.
Proof.
  intros R Y Y1 Y2. destruct (epoch_parts pads fl d R Y) as (v & A & B).
  set (n := if instant_of d mod 1000000 =? 0 then instant_of d else float_back (instant_of d)) in *.
  assert (G : Z.abs (n - instant_of d) <= 15).
  { subst n. destruct (_ =? 0); [lia|]. apply float_back_near, in_years_small, Y. }
  assert (Yn : in_years n) by (rewrite in_years_is in *; lia).
  destruct (from_us_ok n Yn) as (u & U & Ru & Ou & Iu). exists v, u. split; [exact A|]. rewrite B, U.
  split; [reflexivity|]. split; [exact Ru|]. split; [exact Ou|]. rewrite Iu. exact G.
Qed.
Print Assumptions C53_epoch_near.
Example C53_epoch_ex : serialize false EPOCH_SECONDS (mkDt 1969 12 31 23 59 59 0 None) = Ok (SInt (-1))
  /\ deserialize (fun _ => None) EPOCH_SECONDS (SInt (-1)) = Ok (mkDt 1969 12 31 23 59 59 0 (Some 0))
  /\ (do v <- serialize false EPOCH_SECONDS (mkDt 2024 2 29 23 59 59 123457 None); deserialize (fun _ => None) EPOCH_SECONDS v)
     = Ok (mkDt 2024 2 29 23 59 59 123457 (Some 0)).
Proof. split; [vm_compute; reflexivity|]. split; vm_compute; reflexivity. Qed.
(** A microsecond of 2243 comes back as another, the last microsecond of 9999 not at all. *)
Theorem C53_epoch_refuted :
  (do v <- serialize false EPOCH_SECONDS (mkDt 2243 1 1 0 0 0 1 (Some 0)); deserialize (fun _ => None) EPOCH_SECONDS v)
    = Ok (mkDt 2243 1 1 0 0 0 2 (Some 0)) /\
  (do v <- serialize false EPOCH_SECONDS (mkDt 9999 12 31 23 59 59 999999 (Some 0)); deserialize (fun _ => None) EPOCH_SECONDS v)
    = Err ValueError.
Proof. split; vm_compute; reflexivity. Qed.
Print Assumptions C53_epoch_refuted.

(** ** HTTP dates *)
Lemma month_index m : 1 <= m <= 12 -> index_of 1 (month_name m) MONTHS = Some m.
Proof. intros H. months H; vm_compute; reflexivity. Qed.
Lemma month_words m : 1 <= m <= 12 -> ~ In 32%N (month_name m).
Proof. intros H. months H; vm_compute; intuition discriminate. Qed.
Lemma day_words k : 0 <= k < 7 -> ~ In 32%N (nth (Z.to_nat k) DAYS []).
Proof.
  intros H. assert (k = 0 \/ k = 1 \/ k = 2 \/ k = 3 \/ k = 4 \/ k = 5 \/ k = 6) as [->|[->|[->|[->|[->|[->| ->]]]]]] by lia;
    vm_compute; intuition discriminate.
Qed.
Lemma imf_text u : real u ->
  imf_fixdate (format_datetime u) (year u) (month u) (day u) (hour u) (minute u) (second u).
Proof.
  intros [D T]. pose proof D as (D1 & D2 & D3). pose proof T as (T1 & T2 & T3 & T4). pose proof (months_le (year u) (month u) D2).
  exists (pad4 (year u)), (pad2 (day u)), (pad2 (hour u)), (pad2 (minute u)), (pad2 (second u)).
  split; [apply pad4_is; lia|]. do 4 (split; [apply pad2_is; lia|]).
  unfold format_datetime, weekday, day_name, month_name. rewrite ymd2ord_is by lia.
  replace ((day_number (year u) (month u) (day u) + 6) mod 7) with ((day_number (year u) (month u) (day u) - 1) mod 7) by zdiv.
  reflexivity.
Qed.
Lemma digits_no c n v t : digits n v t -> (c < 48 \/ 57 < c)%N -> ~ In c t.
Proof. intros D H I. pose proof (digits_in _ _ _ _ D I). lia. Qed.
Lemma imf_read fl t y mo d h mi s : real_date y mo d -> real_time h mi s 0 -> 100 <= y -> imf_fixdate t y mo d h mi s ->
  deserialize fl HTTP_DATE (SText t) = Ok (mkDt y mo d h mi s 0 (Some 0)).
Proof.
  intros D T Y (ty & td & th & tmi & ts & Hy & Hd & Hh & Hmi & Hs & ->).
  assert (B : 0 <= (day_number y mo d - 1) mod 7 < 7) by (apply Z.mod_pos_bound; lia).
  unfold deserialize, parsedate_to_datetime.
  assert (W : split_on 32 (day_name (day_number y mo d) ++ lit ", " ++ td ++ lit " " ++ month_name mo ++ lit " " ++ ty ++ lit " "
        ++ th ++ lit ":" ++ tmi ++ lit ":" ++ ts ++ lit " GMT")
     = [day_name (day_number y mo d) ++ [44%N]; td; month_name mo; ty; th ++ 58%N :: tmi ++ 58%N :: ts; lit "GMT"]).
  { change (lit ", ") with ([44%N] ++ [32%N]). change (lit " GMT") with (32%N :: lit "GMT"). change (lit " ") with [32%N]. change (lit ":") with [58%N].
    replace (day_name (day_number y mo d) ++ ([44%N] ++ [32%N]) ++ td ++ [32%N] ++ month_name mo ++ [32%N] ++ ty ++ [32%N] ++ th ++ [58%N] ++ tmi ++ [58%N] ++ ts ++ 32%N :: lit "GMT")
      with ((day_name (day_number y mo d) ++ [44%N]) ++ 32%N :: td ++ 32%N :: month_name mo ++ 32%N :: ty ++ 32%N :: (th ++ 58%N :: tmi ++ 58%N :: ts) ++ 32%N :: lit "GMT")
      by (repeat (rewrite <- ?app_assoc; cbn [app]); reflexivity).
    rewrite split_on_app.
    2: { intros I. apply in_app_or in I as [I|[I|[]]]; [exact (day_words _ B I)|discriminate I]. }
    rewrite split_on_app by (apply (digits_no 32 _ _ _ Hd); lia).
    rewrite split_on_app by (apply month_words; destruct D; lia).
    rewrite split_on_app by (apply (digits_no 32 _ _ _ Hy); lia).
    rewrite split_on_app.
    2: { intros I. apply in_app_or in I as [I|[I|I]]; [exact (digits_no 32 _ _ _ Hh ltac:(lia) I)|discriminate I|].
         apply in_app_or in I as [I|[I|I]]; [exact (digits_no 32 _ _ _ Hmi ltac:(lia) I)|discriminate I|exact (digits_no 32 _ _ _ Hs ltac:(lia) I)]. }
    reflexivity. }
  rewrite W. unfold ends_with. rewrite rev_app_distr. cbn [rev app starts_with]. change (44 =? 44)%N with true.
  change (text_eqb (lit "GMT") (lit "GMT")) with true. cbn [andb negb orb].
  rewrite month_index by (destruct D; lia).
  rewrite split_on_app by (apply (digits_no 58 _ _ _ Hh); lia). rewrite split_on_app by (apply (digits_no 58 _ _ _ Hmi); lia).
  rewrite split_on_none by (apply (digits_no 58 _ _ _ Hs); lia).
  rewrite (digits_int _ _ _ Hd), (digits_int _ _ _ Hy), (digits_int _ _ _ Hh), (digits_int _ _ _ Hmi), (digits_int _ _ _ Hs) by lia.
  cbv zeta. replace (y <? 100) with false by lia.
  rewrite make_ok by (try assumption; unfold DAY; lia). cbn [bind]. apply ensure_utc_id. reflexivity.
Qed.
(** What is written as an HTTP date is an IMF-fixdate of the second of the instant. *)
Theorem C73_text pads d : real d -> in_years (instant_of d) ->
  exists t y mo dd h mi s us, serialize pads HTTP_DATE d = Ok (SText t) /\
    real_date y mo dd /\ real_time h mi s us /\ imf_fixdate t y mo dd h mi s /\ instant y mo dd h mi s us 0 = instant_of d.
Proof.
  intros R Y. destruct (ensure_utc_ok d R Y) as (u & E & Ru & Ou & Iu).
  exists (format_datetime u), (year u), (month u), (day u), (hour u), (minute u), (second u), (micro u).
  unfold serialize. rewrite E. cbn [bind]. split; [reflexivity|]. split; [apply Ru|]. split; [apply Ru|].
  split; [apply imf_text, Ru|]. unfold instant_of at 1 in Iu. unfold off_of in Iu. rewrite Ou in Iu. exact Iu.
Qed.
Print Assumptions C73_text.
(** It is read again as that second, for years from 100 on. *)
Theorem C73_http_date pads fl d : real d -> in_years (instant_of d) -> instant 100 1 1 0 0 0 0 0 <= instant_of d ->
  exists v u, serialize pads HTTP_DATE d = Ok v /\ deserialize fl HTTP_DATE v = Ok u
    /\ real u /\ offset u = Some 0 /\ instant_of u <= instant_of d < instant_of u + 1000000 /\ micro u = 0.
Proof.
  intros R Y P. destruct (C73_text pads d R Y) as (t & y & mo & dd & h & mi & s & us & E & A & B & T & I).
  destruct B as (B1 & B2 & B3 & B4).
  assert (Y100 : 100 <= y).
  { destruct (Z_lt_le_dec y 100) as [L|]; [exfalso|assumption].
    pose proof (day_number_mono y mo dd 100 1 1 A ltac:(unfold real_date; cbn; lia) (or_introl L)) as M.
    rewrite day_100 in M. unfold instant in P, I. rewrite day_100, day_1970 in P. rewrite day_1970 in I. clear Y R E T A L.
    revert P I M B1 B2 B3 B4. generalize (day_number y mo dd). intros. lia. }
  assert (B0 : real_time h mi s 0) by (unfold real_time; lia).
  exists (SText t), (mkDt y mo dd h mi s 0 (Some 0)). split; [exact E|].
  split; [apply imf_read; assumption|]. split; [split; [exact A|exact B0]|]. split; [reflexivity|]. split; [|reflexivity].
  rewrite <- I. unfold instant_of, instant, off_of. cbn [year month day hour minute second micro offset]. lia.
Qed.
Print Assumptions C73_http_date.
Example C73_ex : serialize false HTTP_DATE ex_ahead = Ok (SText (lit "Thu, 29 Feb 2024 22:30:00 GMT"))
  /\ deserialize (fun _ => None) HTTP_DATE (SText (lit "Thu, 29 Feb 2024 22:30:00 GMT")) = Ok (mkDt 2024 2 29 22 30 0 0 (Some 0)).
Proof. split; vm_compute; reflexivity. Qed.
(** The year 50 is read as 2050. *)
Theorem C73_early_year_refuted :
  (do v <- serialize false HTTP_DATE (mkDt 50 1 1 0 0 0 0 (Some 0)); deserialize (fun _ => None) HTTP_DATE v)
    = Ok (mkDt 2050 1 1 0 0 0 0 (Some 0)).
Proof. vm_compute. reflexivity. Qed.
Print Assumptions C73_early_year_refuted.

(** ** Splitting *)
Lemma glue_join c l : glue c l = join [c] l.
Proof. induction l as [|p [|q r] IH]; [reflexivity..|]. cbn [glue join app] in *. rewrite IH. reflexivity. Qed.
Lemma join_app c a b : a <> [] -> b <> [] -> join [c] (a ++ b) = join [c] a ++ c :: join [c] b.
Proof.
  intros A B. induction a as [|p [|q r] IH]; [contradiction| |].
  - destruct b; [contradiction|]. reflexivity.
  - specialize (IH ltac:(discriminate)). change ((p :: q :: r) ++ b) with (p :: q :: r ++ b). rewrite !join_cons2.
    change (q :: r ++ b) with ((q :: r) ++ b). rewrite IH, <- !app_assoc. reflexivity.
Qed.
Lemma chunks_join c n : (0 < n)%nat -> forall fuel l, (List.length l <= fuel)%nat ->
  join [c] (map (join [c]) (chunks fuel n l)) = join [c] l.
Proof.
  intros H. induction fuel as [|k IH]; intros l L; [destruct l; [reflexivity|cbn in L; lia]|].
  destruct l as [|x l]; [reflexivity|]. cbn [chunks]. cbn [map].
  set (a := firstn n (x :: l)). set (b := skipn n (x :: l)).
  assert (Lb : (List.length b <= k)%nat) by (subst b; rewrite skipn_length; cbn [List.length] in *; lia).
  assert (Ea : a <> []) by (subst a; destruct n; [lia|discriminate]).
  rewrite <- (firstn_skipn n (x :: l)). fold a b. specialize (IH b Lb).
  destruct b as [|y b'].
  - rewrite app_nil_r. destruct k; reflexivity.
  - rewrite (join_app c a (y :: b') Ea ltac:(discriminate)). rewrite <- IH.
    destruct k as [|k']; [cbn in Lb; lia|]. cbn [chunks map]. reflexivity.
Qed.
Lemma join_fields c l : l <> [] -> (forall p, In p l -> ~ In c p) -> fields c (join [c] l) = List.length l.
Proof.
  intros Hn H. unfold fields. induction l as [|p [|q r] IH]; [contradiction| |].
  - cbn [join List.length]. rewrite (proj1 (count_occ_not_In N.eq_dec p c)) by (apply H; left; reflexivity). reflexivity.
  - rewrite join_cons2. cbn [app]. rewrite count_occ_app, (proj1 (count_occ_not_In N.eq_dec p c)) by (apply H; left; reflexivity).
    cbn [count_occ]. destruct (N.eq_dec c c) as [_|]; [|congruence]. cbn [Nat.add List.length] in *. f_equal.
    apply IH; [discriminate|]. intros z Z. apply H. right. exact Z.
Qed.
Lemma chunks_len n : (0 < n)%nat -> forall fuel (l : list text), (List.length l <= fuel)%nat ->
  Forall (fun p => p <> [] /\ (List.length p <= n)%nat /\ incl p l) (chunks fuel n l) /\
  Forall (fun p => List.length p = n) (removelast (chunks fuel n l)) /\ (l <> [] -> chunks fuel n l <> []).
Proof.
  intros H. induction fuel as [|k IH]; intros l L.
  - destruct l; [|cbn in L; lia]. cbn. split; [constructor|]. split; [constructor|congruence].
  - destruct l as [|x l]; [cbn; split; [constructor|]; split; [constructor|congruence]|]. cbn [chunks].
    destruct (IH (skipn n (x :: l)) ltac:(rewrite skipn_length; cbn [List.length] in *; lia)) as (A & B & C).
    split; [|split; [|discriminate]].
    + constructor.
      * split; [destruct n; [lia|discriminate]|]. split; [apply firstn_le_length|].
        intros z Z. rewrite <- (firstn_skipn n (x :: l)). apply in_or_app. left. exact Z.
      * eapply Forall_impl; [|exact A]. intros p (P1 & P2 & P3). split; [exact P1|]. split; [exact P2|].
        intros z Z. rewrite <- (firstn_skipn n (x :: l)). apply in_or_app. right. apply P3, Z.
    + destruct (chunks k n (skipn n (x :: l))) as [|q r] eqn:E; [constructor|].
      change (removelast (firstn n (x :: l) :: q :: r)) with (firstn n (x :: l) :: removelast (q :: r)). constructor; [|exact B].
      apply firstn_length_le. destruct (Nat.le_gt_cases n (List.length (x :: l))) as [|G]; [assumption|exfalso].
      rewrite (skipn_all2 (n := n) (x :: l)) in E by lia. destruct k; discriminate E.
Qed.
(** The pieces with delimiters between them are the text; each has at most n fields,
    and all but the last exactly n. *)
Theorem C54_split s c n : 1 <= n ->
  exists l, split_every s c n = Ok l /\ glue c l = s /\ l <> []
    /\ Forall (fun p => Z.of_nat (fields c p) <= n) l /\ Forall (fun p => Z.of_nat (fields c p) = n) (removelast l).
Proof.
  intros H. unfold split_every. cbv zeta. replace (n =? 0) with false by lia. replace (n <? 0) with false by lia.
  set (ps := split_on c s). destruct (split_on_cons c s) as (p0 & r0 & E0).
  assert (Hp : ps <> []) by (subst ps; rewrite E0; discriminate).
  destruct (chunks_len (Z.to_nat n) ltac:(lia) (List.length ps) ps (le_n _)) as (A & B & C).
  eexists. split; [reflexivity|].
  assert (F : forall p, p <> [] -> incl p ps -> fields c (join [c] p) = List.length p).
  { intros p P1 P2. apply join_fields; [exact P1|]. intros z Z. apply (split_on_pieces c s), P2, Z. }
  split; [rewrite glue_join, chunks_join by lia; apply join_split_on|]. split; [destruct (chunks _ _ ps); [now elim C|discriminate]|].
  rewrite Forall_forall in A, B. split; apply Forall_forall.
  - intros q Q. apply in_map_iff in Q as (p & <- & P). destruct (A p P) as (P1 & P2 & P3). rewrite (F p P1 P3). lia.
  - intros q Q. replace (removelast (map (join [c]) (chunks (List.length ps) (Z.to_nat n) ps)))
      with (map (join [c]) (removelast (chunks (List.length ps) (Z.to_nat n) ps))) in Q.
    + apply in_map_iff in Q as (p & <- & P).
      assert (I : In p (chunks (List.length ps) (Z.to_nat n) ps)).
      { clear - P. revert P. generalize (chunks (List.length ps) (Z.to_nat n) ps). intros l.
        induction l as [|x [|y l] IH]; intros P; [exact P|destruct P|]. destruct P as [->|P]; [left; reflexivity|right; apply IH, P]. }
      destruct (A p I) as (P1 & _ & P3). rewrite (F p P1 P3), (B p P). lia.
    + generalize (chunks (List.length ps) (Z.to_nat n) ps). intros l. induction l as [|x [|y l] IH]; [reflexivity..|].
      change (removelast (x :: y :: l)) with (x :: removelast (y :: l)). cbn [map] in *. rewrite IH. reflexivity.
Qed.
Print Assumptions C54_split.
Theorem C54_zero s c : split_every s c 0 = Err ValueError.
Proof. reflexivity. Qed.
Print Assumptions C54_zero.
Example C54_ex : split_every (lit "a,b,c,,e") 44 2 = Ok [lit "a,b"; lit "c,"; lit "e"].
Proof. reflexivity. Qed.
(** A negative count is not refused, and everything is lost. *)
Theorem C54_negative_refuted : split_every (lit "a,b") 44 (-1) = Ok [].
Proof. reflexivity. Qed.
Print Assumptions C54_negative_refuted.
