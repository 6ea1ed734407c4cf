(** What is written is base64 (Base64_Spec), and what is read. *)
From Verif Require Import Base Base64_Model Base64_Proofs Base64_Spec.
Local Open Scope N_scope.

(** ** Digits *)
Lemma bits_length w : forall x, List.length (bits w x) = w.
Proof. induction w as [|w IH]; intros x; [reflexivity|]. cbn [bits]. rewrite app_length, IH. cbn. lia. Qed.
Lemma bits_split m : forall n q r, r < 2 ^ N.of_nat m -> bits (n + m) (q * 2 ^ N.of_nat m + r) = bits n q ++ bits m r.
Proof.
  induction m as [|m IH]; intros n q r H.
  - cbn in H. assert (r = 0) as -> by lia. rewrite Nat.add_0_r, N.mul_1_r, N.add_0_r, app_nil_r. reflexivity.
  - replace (n + S m)%nat with (S (n + m)) by lia. cbn [bits].
    rewrite Nat2N.inj_succ, N.pow_succ_r' in *. set (p := 2 ^ N.of_nat m) in *.
    assert (D := N.div_mod r 2 ltac:(discriminate)). assert (L := N.mod_upper_bound r 2 ltac:(discriminate)).
    assert (K : r / 2 < p) by (apply N.div_lt_upper_bound; [discriminate|exact H]).
    assert (E : q * (2 * p) + r = (q * p + r / 2) * 2 + r mod 2) by nia.
    assert (O : N.odd (q * (2 * p) + r) = N.odd r).
    { replace (q * (2 * p) + r) with (r + 2 * (q * p)) by lia. apply N.odd_add_mul_2. }
    rewrite O. rewrite app_assoc. f_equal. rewrite <- (IH n q (r / 2) K). f_equal.
    rewrite E. exact (proj1 (mid_parts (q * p + r / 2) (r mod 2) 2 0 L ltac:(discriminate))).
Qed.
Lemma bits_inj w : forall x y, x < 2 ^ N.of_nat w -> y < 2 ^ N.of_nat w -> bits w x = bits w y -> x = y.
Proof.
  induction w as [|w IH]; intros x y Hx Hy E.
  - cbn in Hx, Hy. lia.
  - cbn [bits] in E. apply app_inj_tail in E as [E O]. rewrite Nat2N.inj_succ, N.pow_succ_r' in *.
    apply IH in E; [|apply N.div_lt_upper_bound; [discriminate|assumption]..].
    rewrite (N.div_mod x 2), (N.div_mod y 2) by discriminate. rewrite E. f_equal.
    rewrite <- !N.bit0_mod, !N.bit0_odd, O. reflexivity.
Qed.
(** The parts of bytes and of numbers of six digits. *)
Lemma bits_62 q r : r < 4 -> bits 8 (4 * q + r) = bits 6 q ++ bits 2 r.
Proof. intros H. rewrite N.mul_comm. exact (bits_split 2 6 q r H). Qed.
Lemma bits_44 q r : r < 16 -> bits 8 (16 * q + r) = bits 4 q ++ bits 4 r.
Proof. intros H. rewrite N.mul_comm. exact (bits_split 4 4 q r H). Qed.
Lemma bits_26 q r : r < 64 -> bits 8 (64 * q + r) = bits 2 q ++ bits 6 r.
Proof. intros H. rewrite N.mul_comm. exact (bits_split 6 2 q r H). Qed.
Lemma bits_24 q r : r < 16 -> bits 6 (q * 16 + r) = bits 2 q ++ bits 4 r.
Proof. exact (bits_split 4 2 q r). Qed.
Lemma bits_42 q r : r < 4 -> bits 6 (q * 4 + r) = bits 4 q ++ bits 2 r.
Proof. exact (bits_split 2 4 q r). Qed.
Lemma digits_cons w x l : digits w (x :: l) = bits w x ++ digits w l.
Proof. reflexivity. Qed.
Lemma digits_app w l l' : digits w (l ++ l') = digits w l ++ digits w l'.
Proof. unfold digits. now rewrite map_app, List.concat_app. Qed.
Lemma digits_length w l : List.length (digits w l) = (w * List.length l)%nat.
Proof. induction l as [|x l IH]; [cbn; lia|]. rewrite digits_cons, app_length, bits_length, IH. cbn [List.length]. lia. Qed.
Lemma app_split {A} (a b c d : list A) : List.length a = List.length b -> a ++ c = b ++ d -> a = b /\ c = d.
Proof.
  revert b. induction a as [|x a IH]; intros [|y b] L E; cbn in *; try discriminate; [auto|].
  injection E as -> E. injection L as L. destruct (IH b L E) as [-> ->]. auto.
Qed.
Lemma digits_inj w l : forall l' r r', List.length l = List.length l' -> Forall (fun x => x < 2 ^ N.of_nat w) l -> Forall (fun x => x < 2 ^ N.of_nat w) l' ->
  digits w l ++ r = digits w l' ++ r' -> l = l' /\ r = r'.
Proof.
  induction l as [|x l IH]; intros [|y l'] r r' L F F' E; try discriminate L; [auto|].
  inversion F; inversion F'; subst. rewrite !digits_cons, <- !app_assoc in E.
  apply app_split in E as [E1 E2]; [|now rewrite !bits_length]. apply bits_inj in E1; [|assumption..].
  injection L as L. destruct (IH l' r r' L) as [-> ->]; try assumption. subst. auto.
Qed.

(** ** Letters *)
Lemma letter_char c v : letter c v <-> v < 64 /\ c = b64_char v.
Proof.
  unfold letter.
  assert (A : forallb (fun v => match nth_error alphabet (N.to_nat v) with Some c => c =? b64_char v | None => false end) (map N.of_nat (seq 0 64)) = true) by reflexivity.
  rewrite forallb_forall in A. split.
  - intros H. assert (L : (N.to_nat v < 64)%nat).
    { change 64%nat with (List.length alphabet). apply nth_error_Some. rewrite H. discriminate. }
    assert (V : v < 64) by lia. split; [exact V|]. specialize (A v (below_64 v V)). rewrite H in A. now apply N.eqb_eq.
  - intros [V ->]. specialize (A v (below_64 v V)). destruct (nth_error _ _) as [c|]; [|discriminate]. apply N.eqb_eq in A. now subst.
Qed.
Lemma letter_val c v : letter c v <-> b64_val c = Some v.
Proof.
  rewrite letter_char. split.
  - intros [V ->]. apply (b64_val_char v V).
  - unfold b64_val, b64_char.
    destruct ((65 <=? c) && (c <=? 90)) eqn:A; [|destruct ((97 <=? c) && (c <=? 122)) eqn:B; [|destruct ((48 <=? c) && (c <=? 57)) eqn:C]];
      [| | |destruct (c =? 43) eqn:D; [|destruct (c =? 47) eqn:F; [|discriminate]]]; intros [= <-].
    + rewrite andb_true_iff, !N.leb_le in A. split; [lia|]. destruct (N.ltb_spec (c - 65) 26); lia.
    + rewrite andb_true_iff, !N.leb_le in B. split; [lia|]. destruct (N.ltb_spec (c - 71) 26); [lia|]. destruct (N.ltb_spec (c - 71) 52); lia.
    + rewrite andb_true_iff, !N.leb_le in C. split; [lia|]. destruct (N.ltb_spec (c + 4) 26); [lia|]. destruct (N.ltb_spec (c + 4) 52); [lia|]. destruct (N.ltb_spec (c + 4) 62); lia.
    + apply N.eqb_eq in D. subst c. split; [lia|reflexivity].
    + apply N.eqb_eq in F. subst c. split; [lia|reflexivity].
Qed.
Lemma no_letter c : ~ In c alphabet <-> b64_val c = None.
Proof.
  destruct (b64_val c) as [v|] eqn:E; split; try discriminate; intros H.
  - apply letter_val in E. exfalso. apply H. exact (nth_error_In _ _ E).
  - reflexivity.
  - intros I. apply In_nth_error in I as [n I]. assert (X : letter c (N.of_nat n)) by (unfold letter; now rewrite Nat2N.id).
    apply letter_val in X. congruence.
Qed.

(** ** What is written *)
Lemma b64_written bs : all_bytes bs = true -> base64 bs (b64encode bs).
Proof.
  assert (LC : forall v, v < 64 -> letter (b64_char v) v) by (intros v V; apply letter_char; auto).
  intros A. split; [exact A|]. revert A. induction bs as [|a|a b|a b c r IH] using three_ind; intros H; unfold all_bytes, is_byte in H; cbn [forallb] in H;
    rewrite ?andb_true_iff, ?N.ltb_lt in H.
  - exists [], [], 0%nat, 0%nat. repeat split; try constructor; try lia. exists 0%nat. reflexivity.
  - destruct H as [Ha _]. cbn [b64encode]. parts4 a Ha. exists [q; r * 16], [b64_char q; b64_char (r * 16)], 4%nat, 2%nat.
    split; [|split; [lia|split; [|split; [reflexivity|split; [lia|now exists 1%nat]]]]].
    + rewrite !digits_cons. unfold digits. cbn [map List.concat]. rewrite !app_nil_r.
      rewrite E, bits_62 by exact R. replace (r * 16) with (r * 16 + 0) by lia. rewrite bits_24 by lia. now rewrite <- app_assoc.
    + repeat constructor; apply LC; lia.
  - destruct H as (Ha & Hb & _). cbn [b64encode]. parts4 a Ha. parts16 b Hb.
    exists [q; r * 16 + q0; r0 * 4], [b64_char q; b64_char (r * 16 + q0); b64_char (r0 * 4)], 2%nat, 1%nat.
    split; [|split; [lia|split; [|split; [reflexivity|split; [lia|now exists 1%nat]]]]].
    + rewrite !digits_cons. unfold digits. cbn [map List.concat]. rewrite !app_nil_r.
      rewrite E, E0, bits_62, bits_44, bits_24 by assumption. replace (r0 * 4) with (r0 * 4 + 0) by lia. rewrite bits_42 by lia. now rewrite <- !app_assoc.
    + repeat constructor; apply LC; lia.
  - destruct H as (Ha & Hb & Hc & Hr). destruct (IH Hr) as (vs & cs & z & p & D & Z & F & T & P & n & L). clear IH Hr.
    cbn [b64encode]. rewrite T in *. clear T. parts4 a Ha. parts16 b Hb. parts64 c Hc.
    exists (q :: r0 * 16 + q0 :: r1 * 4 + q1 :: r2 :: vs), (b64_char q :: b64_char (r0 * 16 + q0) :: b64_char (r1 * 4 + q1) :: b64_char r2 :: cs), z, p.
    split; [|split; [exact Z|split; [|split; [reflexivity|split; [exact P|exists (S n); cbn [List.length]; lia]]]]].
    + rewrite !digits_cons, D.
      rewrite E, E0, E1, bits_62, bits_44, bits_26, bits_24, bits_42 by assumption. now rewrite <- !app_assoc.
    + repeat constructor; try (apply LC; lia). exact F.
Qed.

(** There is one base64 text of every bytes. *)
Lemma letters_small cs vs : Forall2 letter cs vs -> Forall (fun x => x < 2 ^ N.of_nat 6) vs.
Proof. induction 1 as [|c v cs vs L _ IH]; constructor; [apply letter_char in L; exact (proj1 L)|exact IH]. Qed.
Lemma letters_fun cs vs : Forall2 letter cs vs -> forall cs', Forall2 letter cs' vs -> cs = cs'.
Proof.
  induction 1 as [|c v cs vs L _ IH]; intros cs' F; inversion F as [|c' v' cs'' vs' L' F']; subst; [reflexivity|].
  f_equal; [|now apply IH]. unfold letter in *. congruence.
Qed.
Lemma base64_unique bs t t' : base64 bs t -> base64 bs t' -> t = t'.
Proof.
  intros (_ & vs & cs & z & p & D & Z & F & -> & P & n & L) (_ & vs' & cs' & z' & p' & D' & Z' & F' & -> & P' & n' & L').
  assert (X := f_equal (@List.length bool) D). assert (X' := f_equal (@List.length bool) D').
  rewrite app_length, !digits_length, repeat_length in X, X'. assert (z' = z) as -> by lia.
  assert (K : List.length vs = List.length vs') by lia.
  destruct (digits_inj 6 vs vs' [] [] K (letters_small _ _ F) (letters_small _ _ F')) as [<- _]; [now rewrite D, D'|].
  rewrite (letters_fun _ _ F _ F') in *. rewrite app_length, repeat_length in L, L'. now replace p' with p by lia.
Qed.

(** ** What is read *)
Lemma values_fun s vs : values s vs -> forall vs', values s vs' -> vs = vs'.
Proof.
  induction 1 as [|c v s vs L V IH|c s vs L V IH]; intros vs' V'; inversion V' as [|c' v' s' vs'' L' W|c' s' vs'' L' W]; subst.
  - reflexivity.
  - f_equal; [|now apply IH]. apply letter_val in L, L'. congruence.
  - exfalso. apply L'. exact (nth_error_In _ _ L).
  - exfalso. apply L. exact (nth_error_In _ _ L').
  - now apply IH.
Qed.
Lemma values_app u vs : values u vs -> forall v ws, values v ws -> values (u ++ v) (vs ++ ws).
Proof. induction 1; intros; cbn [app]; [assumption|constructor 2|constructor 3]; auto. Qed.
Lemma letter_61 v : ~ letter 61 v.
Proof. intros H. apply letter_val in H. discriminate H. Qed.
Lemma other_61 : ~ In 61 alphabet.
Proof. apply no_letter. reflexivity. Qed.

(** Where the text is cut. *)
Definition padded (u : text) : Prop := exists u1 u2, u = u1 ++ 61 :: u2 /\ values u2 [].
Lemma cut_last (u : text) c u1 u2 : u ++ [c] = u1 ++ 61 :: u2 ->
  (u2 = [] /\ u1 = u /\ c = 61) \/ exists u2', u2 = u2' ++ [c] /\ u = u1 ++ 61 :: u2'.
Proof.
  destruct u2 as [|x u2] using rev_ind; intros E.
  - apply app_inj_tail in E as [-> ->]. auto.
  - right. exists u2. rewrite app_comm_cons, app_assoc in E. apply app_inj_tail in E as [-> ->]. auto.
Qed.
Lemma no_end_nil : no_end [].
Proof. intros [|] u2 E; discriminate E. Qed.
Lemma no_end_snoc u c : no_end u -> (c = 61 -> ~ ends u) -> no_end (u ++ [c]).
Proof. intros H K u1 u2 E. apply cut_last in E as [(-> & -> & ->)|(w & -> & E)]; [now apply K|exact (H _ _ E)]. Qed.
Lemma values_snoc u c : forall vs, values (u ++ [c]) vs ->
  (exists v vs', vs = vs' ++ [v] /\ values u vs' /\ letter c v) \/ (values u vs /\ ~ In c alphabet).
Proof.
  induction u as [|x u IH]; cbn [app]; intros vs H; inversion H as [|c' v s vs' L V|c' s vs' L V]; subst.
  - inversion V; subst. left. exists v, []. split; [reflexivity|]. split; [constructor|exact L].
  - inversion V; subst. right. split; [constructor|exact L].
  - apply IH in V as [(w & ws & -> & V & L')|[V L']].
    + left. exists w, (v :: ws). repeat split; try assumption. now constructor 2.
    + right. split; [now constructor 2|exact L'].
  - apply IH in V as [(w & ws & -> & V & L')|[V L']].
    + left. exists w, ws. repeat split; try assumption. now constructor 3.
    + right. split; [now constructor 3|exact L'].
Qed.
Lemma padded_snoc u c : padded (u ++ [c]) <-> c = 61 \/ (padded u /\ ~ In c alphabet).
Proof.
  split.
  - intros (u1 & u2 & E & V). apply cut_last in E as [(-> & -> & ->)|(w & -> & E)]; [now left|right].
    apply values_snoc in V as [(v & vs & X & _)|[V L]]; [now destruct vs|]. split; [|exact L]. now exists u1, w.
  - intros [->|[(u1 & u2 & -> & V) L]]; [exists u, []; split; [reflexivity|constructor]|].
    exists u1, (u2 ++ [c]). split; [now rewrite <- app_assoc|]. change (@nil N) with (@nil N ++ []). apply values_app; [exact V|]. constructor 3; [exact L|constructor].
Qed.

(** What is known after [u]. *)
Definition width (pos : N) : nat := match pos with 1 => 6 | 2 => 4 | 3 => 2 | _ => 0 end.
Definition before (u : text) (pos left pads : N) (out : bytes) : Prop :=
  no_end u /\ pos < 4 /\ left < 2 ^ N.of_nat (width pos) /\ all_bytes out = true /\
  (pos = 2 -> (pads = 0 /\ ~ padded u) \/ (pads = 1 /\ padded u)) /\
  exists vs, values u vs /\ digits 6 vs = digits 8 out ++ bits (width pos) left /\ exists q, List.length vs = (4 * q + N.to_nat pos)%nat.
Definition read (s : text) (bs : bytes) : Prop :=
  exists vs, bytes_of vs bs /\
    ((exists u v, s = u ++ 61 :: v /\ ends u /\ no_end u /\ values u vs) \/
     (no_end s /\ values s vs /\ exists q, List.length vs = (4 * q)%nat)).

Lemma ends_iff u pos left pads out : before u pos left pads out -> ends u <-> pos = 3 \/ (pos = 2 /\ padded u).
Proof.
  intros (_ & P & _ & _ & _ & vs & V & _ & n & L). split.
  - intros (ws & W & H). rewrite (values_fun _ _ W _ V) in H. destruct H as [[q Q]|[[q Q] X]]; [left|right; split; [|exact X]]; lia.
  - intros [->|[-> X]]; exists vs; (split; [exact V|]); [left|right; split; [|exact X]]; exists n; exact L.
Qed.
Lemma bytes_snoc out x : all_bytes out = true -> x < 256 -> all_bytes (out ++ [x]) = true.
Proof. intros H X. unfold all_bytes, is_byte in *. rewrite forallb_app, H. cbn [forallb]. rewrite (proj2 (N.ltb_lt x 256) X). reflexivity. Qed.

Lemma loop_read s : forall u pos left pads out, before u pos left pads out ->
  match b64_loop pos left pads s with
  | Some rest => read (u ++ s) (out ++ rest)
  | None => forall bs, ~ read (u ++ s) bs
  end.
Proof.
  induction s as [|c s IH]; intros u pos left pads out B.
  - cbn [b64_loop]. destruct B as (NE & P & _ & O & _ & vs & V & D & n & L). rewrite app_nil_r. destruct (N.eqb_spec pos 0) as [->|Pn].
    + rewrite app_nil_r. exists vs. split; [split; [exact O|exists []; split; [exact D|cbn; lia]]|]. right. split; [exact NE|]. split; [exact V|]. exists n. rewrite L. cbn. lia.
    + intros bs (ws & _ & [(a & b & -> & E & _)|(_ & W & q & Q)]); [exact (NE a b eq_refl E)|].
      rewrite (values_fun _ _ W _ V) in Q. lia.
  - cbn [b64_loop]. replace (u ++ c :: s) with ((u ++ [c]) ++ s) by now rewrite <- app_assoc.
    assert (EI := ends_iff _ _ _ _ _ B). destruct B as (NE & P & Lf & O & PD & vs & V & D & n & L).
    destruct (N.eqb_spec c 61) as [->|Hc].
    + destruct ((2 <=? pos) && (4 <=? pos + pads + 1)) eqn:G.
      * apply andb_true_iff in G as [G1 G2]. apply N.leb_le in G1, G2.
        assert (Ed : ends u).
        { apply EI. destruct (N.eq_dec pos 3) as [->|]; [now left|right]. assert (pos = 2) as -> by lia. split; [reflexivity|].
          destruct (PD eq_refl) as [[-> _]|[_ X]]; [lia|exact X]. }
        rewrite app_nil_r. exists vs. split.
        -- split; [exact O|]. eexists. split; [exact D|]. rewrite bits_length. assert (pos = 2 \/ pos = 3) as [-> | ->] by lia; cbn; lia.
        -- left. exists u, s. split; [now rewrite <- app_assoc|]. auto.
      * assert (Ed : ~ ends u).
        { rewrite EI. intros [->|[-> X]].
          - apply andb_false_iff in G as [G|G]; apply N.leb_gt in G; lia.
          - destruct (PD eq_refl) as [[_ Y]|[-> _]]; [exact (Y X)|discriminate G]. }
        apply IH. repeat split; try assumption.
        -- apply no_end_snoc; [exact NE|intros _; exact Ed].
        -- intros ->. right. destruct (PD eq_refl) as [[-> _]|[_ Y]]; [|exfalso; apply Ed, EI; auto].
           split; [reflexivity|]. apply padded_snoc. now left.
        -- exists vs. split; [|split; [exact D|exists n; exact L]]. rewrite <- (app_nil_r vs). apply values_app; [exact V|]. constructor 3; [exact other_61|constructor].
    + destruct (b64_val c) as [v|] eqn:Ev.
      2:{ apply no_letter in Ev. apply IH. repeat split; try assumption.
        - apply no_end_snoc; [exact NE|intros X; contradiction].
        - intros ->. destruct (PD eq_refl) as [[-> Y]|[-> Y]]; [left|right]; (split; [reflexivity|]).
          + rewrite padded_snoc. intros [X|[X _]]; contradiction.
          + apply padded_snoc. right. auto.
        - exists vs. split; [|split; [exact D|exists n; exact L]]. rewrite <- (app_nil_r vs). apply values_app; [exact V|]. constructor 3; [exact Ev|constructor]. }
      apply letter_val in Ev. assert (Hv : v < 64) by exact (proj1 (proj1 (letter_char c v) Ev)).
      assert (V' : values (u ++ [c]) (vs ++ [v])) by (apply values_app; [exact V|constructor 2; [exact Ev|constructor]]).
      assert (NE' : no_end (u ++ [c])) by (apply no_end_snoc; [exact NE|intros X; contradiction]).
      assert (NP : ~ padded (u ++ [c])).
      { rewrite padded_snoc. intros [X|[_ X]]; [contradiction|]. apply X. exact (nth_error_In _ _ Ev). }
      assert (D' : digits 6 (vs ++ [v]) = digits 8 out ++ bits (width pos) left ++ bits 6 v).
      { rewrite digits_app, D, <- app_assoc. unfold digits. cbn [map List.concat]. now rewrite app_nil_r. }
      assert (L' : List.length (vs ++ [v]) = (4 * n + N.to_nat pos + 1)%nat) by (rewrite app_length, L; reflexivity).
      destruct (split16 v ltac:(lia)) as (q16 & r16 & -> & -> & E16 & Q16 & R16).
      destruct (split4 v ltac:(lia)) as (q4 & r4 & -> & -> & E4 & Q4 & R4).
      assert (pos = 0 \/ pos = 1 \/ pos = 2 \/ pos = 3) as [-> |[-> |[-> | ->]]] by lia; cbn [width] in *.
      * change (0 =? 0) with true. cbv iota. apply IH. repeat split; try assumption; [discriminate|]. exists (vs ++ [v]). split; [exact V'|]. split; [exact D'|]. exists n. rewrite L'. cbn. lia.
      * change (1 =? 0) with false. change (1 =? 1) with true. cbv iota. assert (W : left * 4 + q16 < 256) by (change (left < 64) in Lf; lia).
        assert (BB : before (u ++ [c]) 2 r16 0 (out ++ [left * 4 + q16])).
        { repeat split; try assumption; [now apply bytes_snoc|intros _; left; auto|]. exists (vs ++ [v]). split; [exact V'|]. split; [|exists n; rewrite L'; cbn; lia].
          rewrite D', digits_app, <- app_assoc. f_equal. rewrite digits_cons. cbn [digits map List.concat]. unfold digits. cbn [map List.concat]. rewrite app_nil_r.
          replace v with (q16 * 16 + r16) by lia. rewrite bits_24 by exact R16. rewrite (N.mul_comm left), bits_62 by lia. cbn [width]. now rewrite <- !app_assoc. }
        specialize (IH _ _ _ _ _ BB). destruct (b64_loop 2 r16 0 s) as [rest|]; cbn [option_map]; [|exact IH]. rewrite <- (app_assoc out) in IH. exact IH.
      * change (2 =? 0) with false. change (2 =? 1) with false. change (2 =? 2) with true. cbv iota. assert (W : left * 16 + q4 < 256) by (change (left < 16) in Lf; lia).
        assert (BB : before (u ++ [c]) 3 r4 0 (out ++ [left * 16 + q4])).
        { repeat split; try assumption; [now apply bytes_snoc|discriminate|]. exists (vs ++ [v]). split; [exact V'|]. split; [|exists n; rewrite L'; cbn; lia].
          rewrite D', digits_app, <- app_assoc. f_equal. rewrite digits_cons. unfold digits. cbn [map List.concat]. rewrite app_nil_r.
          replace v with (q4 * 4 + r4) by lia. rewrite bits_42 by exact R4. rewrite (N.mul_comm left), bits_44 by lia. cbn [width]. now rewrite <- !app_assoc. }
        specialize (IH _ _ _ _ _ BB). destruct (b64_loop 3 r4 0 s) as [rest|]; cbn [option_map]; [|exact IH]. rewrite <- (app_assoc out) in IH. exact IH.
      * change (3 =? 0) with false. change (3 =? 1) with false. change (3 =? 2) with false. cbv iota. assert (W : left * 64 + v < 256) by (change (left < 4) in Lf; lia).
        assert (BB : before (u ++ [c]) 0 0 0 (out ++ [left * 64 + v])).
        { repeat split; try assumption; [now apply bytes_snoc|discriminate|]. exists (vs ++ [v]). split; [exact V'|]. split; [|exists (S n); rewrite L'; cbn; lia].
          rewrite D', digits_app, <- app_assoc. f_equal. rewrite digits_cons. unfold digits. cbn [map List.concat]. rewrite !app_nil_r.
          rewrite (N.mul_comm left), bits_26 by exact Hv. reflexivity. }
        specialize (IH _ _ _ _ _ BB). destruct (b64_loop 0 0 0 s) as [rest|]; cbn [option_map]; [|exact IH]. rewrite <- (app_assoc out) in IH. exact IH.
Qed.

Lemma bytes_small bs : all_bytes bs = true -> Forall (fun x => x < 2 ^ N.of_nat 8) bs.
Proof. intros H. apply Forall_forall. intros x I. unfold all_bytes in H. rewrite forallb_forall in H. specialize (H x I). now apply N.ltb_lt in H. Qed.
Lemma bytes_fun vs bs bs' : bytes_of vs bs -> bytes_of vs bs' -> bs = bs'.
Proof.
  intros (A & r & D & L) (A' & r' & D' & L').
  assert (X := f_equal (@List.length bool) D). assert (X' := f_equal (@List.length bool) D'). rewrite app_length, !digits_length in X, X'.
  apply (digits_inj 8 bs bs' r r'); [lia|now apply bytes_small|now apply bytes_small|congruence].
Qed.
Lemma first_cut (u v u' v' : text) : u ++ 61 :: v = u' ++ 61 :: v' -> u = u' \/ (exists w, u' = u ++ 61 :: w) \/ (exists w, u = u' ++ 61 :: w).
Proof.
  revert u'. induction u as [|x u IH]; intros [|y u'] E; cbn in *.
  - auto.
  - injection E as <- E. right. left. now exists u'.
  - injection E as -> E. right. right. now exists u.
  - injection E as <- E. destruct (IH u' E) as [->|[[w ->]|[w ->]]]; [auto|right; left; now exists w|right; right; now exists w].
Qed.
Lemma read_fun s bs bs' : read s bs -> read s bs' -> bs = bs'.
Proof.
  intros (vs & B & C) (vs' & B' & C'). assert (vs = vs') as <-; [|exact (bytes_fun _ _ _ B B')].
  destruct C as [(u & v & -> & E & NE & V)|(NE & V & _)], C' as [(u' & v' & Q & E' & NE' & V')|(NE' & V' & _)].
  - destruct (first_cut _ _ _ _ Q) as [<-|[[w ->]|[w ->]]].
    + exact (values_fun _ _ V _ V').
    + exfalso. exact (NE' _ _ eq_refl E).
    + exfalso. exact (NE _ _ eq_refl E').
  - exfalso. exact (NE' _ _ eq_refl E).
  - exfalso. exact (NE _ _ Q E').
  - exact (values_fun _ _ V _ V').
Qed.
Lemma start : before [] 0 0 0 [].
Proof.
  split; [exact no_end_nil|]. split; [lia|]. split; [cbn; lia|]. split; [reflexivity|]. split; [discriminate|].
  exists []. split; [constructor|]. split; [reflexivity|]. now exists 0%nat.
Qed.
Lemma b64decode_iff s bs : b64decode s = Ok bs <-> base64_read s bs.
Proof.
  unfold b64decode, base64_read. destruct (forallb (fun c => c <? 128) s) eqn:A.
  - assert (A' : forall c, In c s -> c < 128) by (intros c I; rewrite forallb_forall in A; now apply N.ltb_lt, A).
    assert (X := loop_read s [] 0 0 0 [] start). cbn [app] in X. change (exists vs, _) with (read s bs).
    destruct (b64_loop 0 0 0 s) as [rest|].
    + split; [intros [= <-]; auto|]. intros [_ R]. now rewrite (read_fun _ _ _ X R).
    + split; [discriminate|]. intros [_ R]. now apply X in R.
  - split; [discriminate|]. intros [A' _]. exfalso. apply Bool.not_true_iff_false in A. apply A. apply forallb_forall. intros c I. apply N.ltb_lt. now apply A'.
Qed.
Lemma base64_reads bs t : base64 bs t -> b64decode t = Ok bs.
Proof. intros H. assert (A := proj1 H). rewrite (base64_unique _ _ _ H (b64_written bs A)). now apply b64_roundtrip. Qed.
Lemma base64_read_fun s bs bs' : base64_read s bs -> base64_read s bs' -> bs = bs'.
Proof. rewrite <- !b64decode_iff. congruence. Qed.
Lemma b64decode_cases s : (exists bs, b64decode s = Ok bs) \/ b64decode s = Err ValueError.
Proof. unfold b64decode. destruct (forallb _ s); [|auto]. destruct (b64_loop 0 0 0 s); eauto. Qed.
