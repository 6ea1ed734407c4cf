(** Proofs about the readers of the signers. *)
From Verif Require Import Base Base_Proofs EventStream_Model Streams_Model Streams_Spec Streams_Proofs SignIO_Model SignIO_Spec.

Lemma sg_read_refines n r :
  ar_open r ->
  exists r', sg_read n r = Ok (fst (src_read (given_size n) (ar_content r)), r') /\
             ar_content r' = snd (src_read (given_size n) (ar_content r)) /\ ar_open r'.
Proof.
  intros [Hc Hd]. unfold sg_read. rewrite Hc. fold (given_size n). generalize (given_size n). clear n. intros n. unfold ar_content at 1 3.
  destruct (ar_data r) as [b|chunks|chunks|] eqn:Ed; [| |contradiction|contradiction].
  - unfold bio_read. rewrite Hd. cbn [bind]. unfold src_read.
    destruct (Z.ltb_spec n 0) as [L|L]; cbn [fst snd].
    + eexists. split; [reflexivity|]. cbn [ar_content ar_data b_pos b_data]. split; [|split; reflexivity].
      rewrite skipn_length. apply skipn_all2. lia.
    + eexists. split; [reflexivity|]. cbn [ar_content ar_data b_pos b_data]. split; [|split; reflexivity].
      rewrite skipn_skipn, firstn_length, skipn_length.
      destruct (Nat.le_gt_cases (Z.to_nat n) (List.length (b_data b) - b_pos b)) as [Q|Q].
      * f_equal. lia.
      * rewrite !skipn_all2 by lia. reflexivity.
  - unfold src_read. destruct (Z.ltb_spec n 0) as [L|L]; cbn [fst snd].
    + eexists. split; [reflexivity|]. cbn [ar_content ar_data ar_rem List.concat app].
      split; [reflexivity|]. split; [reflexivity|exact I].
    + set (k := Z.to_nat n). destruct (take_until k (ar_rem r) chunks) as [res rest] eqn:Et.
      apply take_until_spec in Et. destruct Et as [E Hk]. rewrite <- E.
      exists (mkReader false (skipn k res) (DIter rest)). split; [|split; [|split; [reflexivity|exact I]]].
      * f_equal. f_equal. destruct Hk as [Hk|Hk].
        -- symmetry. apply firstn_app_le, Hk.
        -- subst rest. cbn [List.concat]. rewrite app_nil_r. reflexivity.
      * cbn [ar_content ar_data ar_rem]. destruct Hk as [Hk|Hk].
        -- symmetry. apply skipn_app_le, Hk.
        -- subst rest. cbn [List.concat]. rewrite !app_nil_r. reflexivity.
Qed.

Lemma sg_exact n r : ar_open r ->
  exists r', sg_read_n n r = Ok (fst (src_read n (ar_content r)), r') /\ ar_content r' = snd (src_read n (ar_content r)) /\ ar_open r'.
Proof. exact (sg_read_refines (Some n) r). Qed.

Lemma sg_reads_file r sizes :
  ar_open r -> sg_reads r sizes = map Ok (file_reads (ar_content r) (map given_size sizes)).
Proof.
  revert r; induction sizes as [|n ns IH]; intros r Ho; cbn [sg_reads file_reads map]; [reflexivity|].
  destruct (sg_read_refines n r Ho) as (r' & E & Ec & Ho'). rewrite E, (IH r' Ho'), Ec.
  unfold src_read. destruct (Z.ltb (given_size n) 0); reflexivity.
Qed.

(** ** Iterating *)
Section Iterating.
  Context {S : Type} (rd : Z -> S -> result (bytes * S)) (P : bytes -> S -> Prop) (k : Z).
  Hypothesis Hk : (0 < k)%Z.
  Hypothesis Hrd : forall c s, P c s -> exists s', rd k s = Ok (firstn (Z.to_nat k) c, s') /\ P (skipn (Z.to_nat k) c) s'.
  Lemma iterate fuel c s : (List.length c < fuel)%nat -> P c s ->
    exists pieces s', iter_pieces rd fuel k s = Some (Ok (pieces, s')) /\ List.concat pieces = c /\ P [] s'
      /\ Forall (fun p => p <> []) pieces
      /\ (forall pre p q post, pieces = pre ++ p :: q :: post -> List.length p = Z.to_nat k).
  Proof.
    revert c s. induction fuel as [|fuel IH]; intros c s L H; [lia|]. cbn [iter_pieces].
    destruct (Hrd c s H) as (s1 & -> & H1). destruct c as [|x c].
    - rewrite firstn_nil in *. rewrite skipn_nil in H1. exists [], s1. split; [reflexivity|]. split; [reflexivity|]. split; [exact H1|].
      split; [constructor|]. intros pre p q post E. destruct pre; discriminate.
    - destruct (Z.to_nat k) as [|k'] eqn:Ek; [lia|].
      assert (L1 : (List.length (skipn (Datatypes.S k') (x :: c)) < fuel)%nat).
      { cbn [skipn]. rewrite skipn_length. cbn [List.length] in L. lia. }
      destruct (IH _ _ L1 H1) as (pieces & s' & E & Ec & Pn & F & Sz). rewrite E. cbn [firstn].
      exists ((x :: firstn k' c) :: pieces), s'. split; [reflexivity|].
      split; [cbn [List.concat]; rewrite Ec; cbn [skipn app]; now rewrite firstn_skipn|]. split; [exact Pn|].
      split; [constructor; [discriminate | exact F]|]. intros pre p q post Ep. destruct pre as [|y pre]; cbn [app] in Ep.
      + injection Ep as <- Ep. rewrite Ep in Ec, F. cbn [List.concat] in Ec. inversion F as [|? ? Nq _]; subst.
        cbn [List.length]. rewrite firstn_length. destruct (Nat.le_gt_cases k' (List.length c)) as [Q|Q]; [lia|].
        exfalso. cbn [skipn] in Ec. rewrite skipn_all2 in Ec by lia. destruct q; [congruence | discriminate Ec].
      + injection Ep as _ Ep. exact (Sz pre p q post Ep).
  Qed.
End Iterating.

(** ** The seekable reader *)
Definition sg_inv := inv ar_content ar_open.
Lemma sg_s_read n r total pos : sg_inv total pos r ->
  let out := if Z.ltb n 0 then skipn pos total else firstn (Z.to_nat n) (skipn pos total) in
  exists r', s_read sg_read_n n r = Ok (out, r') /\ sg_inv total (pos + List.length out) r'.
Proof. exact (s_read_spec sg_read_n ar_content ar_open sg_exact n r total pos). Qed.
Lemma sg_s_seek off w r total pos : sg_inv total pos r -> (w = 0 \/ w = 1 \/ w = 2)%Z -> (0 <= file_target total pos off w)%Z ->
  exists r', s_seek sg_read_n off w r = (Ok (Z.to_nat (file_target total pos off w)), r') /\ sg_inv total (Z.to_nat (file_target total pos off w)) r'.
Proof. exact (s_seek_spec sg_read_n ar_content ar_open sg_exact off w r total pos). Qed.
Lemma sg_run total ops pos r : sg_inv total pos r -> file_ok total pos ops -> s_run sg_read_n ops r = file_run total pos ops.
Proof. exact (s_run_file sg_read_n ar_content ar_open sg_exact total ops pos r). Qed.

Lemma sg_after total ops pos r : sg_inv total pos r -> file_ok total pos ops ->
  sg_inv total (file_after total pos ops) (s_after sg_read_n ops r).
Proof.
  revert pos r; induction ops as [|[n|off w|] ops IH]; intros pos r Hi Hok; cbn [s_after file_after s_step file_ok] in *; [exact Hi| | |].
  - destruct (sg_s_read n r total pos Hi) as (r' & E & Hi'). rewrite E. cbn [snd].
    assert (Ep : (List.length (if (n <? 0)%Z then skipn pos total else firstn (Z.to_nat n) (skipn pos total))
      = if (n <? 0)%Z then List.length total - pos else Nat.min (Z.to_nat n) (List.length total - pos))%nat).
    { destruct (Z.ltb n 0); rewrite ?firstn_length, skipn_length; reflexivity. }
    rewrite Ep in Hi'. now apply IH.
  - destruct Hok as (Hw & Hp & Hok). destruct (sg_s_seek off w r total pos Hi Hw Hp) as (r' & E & Hi'). rewrite E. cbn [snd]. now apply IH.
  - replace (snd _) with r by (destruct (s_tell r); reflexivity). now apply IH.
Qed.

Lemma sg_iterate total pos r k : (0 < k)%Z -> sg_inv total pos r ->
  exists fuel pieces r' pos', iter_pieces (s_read sg_read_n) fuel k r = Some (Ok (pieces, r')) /\ List.concat pieces = skipn pos total /\ sg_inv total pos' r'.
Proof.
  intros Hk Hi.
  destruct (iterate (s_read sg_read_n) (fun c s => exists p, sg_inv total p s /\ c = skipn p total) k Hk) with (fuel := S (List.length (skipn pos total))) (c := skipn pos total) (s := r)
    as (pieces & r' & E & Ec & (p & Hp & _) & _); [|lia|eauto|eauto 8].
  intros c s (p & Hp & ->). destruct (sg_s_read k s total p Hp) as (s' & E & Hs').
  assert (Hf : (k <? 0)%Z = false) by (apply Z.ltb_ge; lia). rewrite Hf in *. exists s'. split; [exact E|]. eexists. split; [exact Hs'|].
  rewrite firstn_length, skipn_length, skipn_skipn.
  destruct (Nat.le_gt_cases (Z.to_nat k) (List.length total - p)) as [Q|Q]; [f_equal; lia|]. rewrite !skipn_all2 by lia. reflexivity.
Qed.

(** ** How many chunks a read takes *)
Lemma take_until_enough n acc chunks res rest : take_until n acc chunks = (res, rest) -> chunks <> [] ->
  exists k, (1 <= k <= List.length chunks)%nat /\ rest = skipn k chunks /\ enough n (List.length acc) chunks k
    /\ (forall j, (1 <= j < k)%nat -> ~ enough n (List.length acc) chunks j).
Proof.
  revert acc. induction chunks as [|c chunks IH]; intros acc E N; [easy|]. clear N. cbn [take_until] in E.
  destruct (Nat.leb_spec n (List.length (acc ++ c))) as [L|L].
  - injection E as <- <-. exists 1%nat. cbn [List.length skipn]. split; [lia|]. split; [reflexivity|]. split; [|intros; lia].
    left. cbn [firstn List.concat]. rewrite app_nil_r. rewrite app_length in L. exact L.
  - rewrite app_length in L. destruct chunks as [|d chunks].
    { cbn [take_until] in E. injection E as <- <-. exists 1%nat. cbn [List.length skipn]. split; [lia|]. split; [reflexivity|]. split; [right; cbn; lia | intros; lia]. }
    destruct (IH _ E) as (k & B & Er & En & Mi); [discriminate|]. exists (S k). cbn [List.length] in *. split; [lia|]. split; [exact Er|].
    assert (Sh : forall j, (1 <= j)%nat -> enough n (List.length (acc ++ c)) (d :: chunks) j <-> enough n (List.length acc) (c :: d :: chunks) (S j)).
    { intros j J. unfold enough. rewrite app_length. cbn [firstn List.concat List.length]. rewrite app_length. split; intros [H|H]; [left; lia | right; lia | left; lia | right; lia]. }
    split; [apply Sh; [lia | exact En]|]. intros j J. destruct j as [|j]; [lia|]. destruct j as [|j].
    + unfold enough. cbn [firstn List.concat List.length]. rewrite app_nil_r. lia.
    + rewrite <- Sh by lia. apply Mi. lia.
Qed.

(** ** Cancelled reads *)
Lemma waiting_spec n k acc chunks rest : waiting n k acc chunks = Some rest <->
  rest = skipn k chunks /\ (k <= List.length chunks)%nat
  /\ (forall j, (1 <= j <= k)%nat -> (List.length acc + List.length (List.concat (firstn j chunks)) < n)%nat).
Proof.
  revert acc chunks. induction k as [|k IH]; intros acc chunks; cbn [waiting].
  - split; [intros [= <-]; cbn [skipn]; split; [reflexivity|]; split; [lia | intros; lia] | intros (-> & _); reflexivity].
  - destruct chunks as [|c r].
    { split; [discriminate|]. intros (_ & L & _). cbn in L. lia. }
    destruct (Nat.leb_spec n (List.length (acc ++ c))) as [L|L]; rewrite app_length in L.
    + split; [discriminate|]. intros (_ & _ & H). specialize (H 1%nat ltac:(lia)). cbn [firstn List.concat] in H. rewrite app_nil_r in H. lia.
    + rewrite IH. cbn [skipn List.length]. split.
      * intros (-> & B & H). split; [reflexivity|]. split; [lia|]. intros j J. destruct j as [|[|j]]; [lia| |].
        -- cbn [firstn List.concat]. rewrite app_nil_r. exact L.
        -- specialize (H (S j) ltac:(lia)). rewrite app_length in H. cbn [firstn List.concat] in *. rewrite app_length. lia.
      * intros (-> & B & H). split; [reflexivity|]. split; [lia|]. intros j J. specialize (H (S j) ltac:(lia)). rewrite app_length. cbn [firstn List.concat] in H. rewrite app_length in H. lia.
Qed.
