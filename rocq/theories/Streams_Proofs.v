(** Proofs about the byte readers. *)
From Verif Require Import Base Base_Proofs Streams_Model Streams_Spec EventStream_Model EventStream_Proofs.

(** What is left to read from a reader over chunks. *)
Definition ar_content (r : areader) : bytes :=
  match ar_data r with
  | DBytesIO b => skipn (b_pos b) (b_data b)
  | DIter c => ar_rem r ++ List.concat c
  | _ => []
  end.
Definition ar_open (r : areader) : Prop :=
  ar_closed r = false /\
  match ar_data r with DBytesIO b => b_closed b = false | DIter _ => True | _ => False end.

Lemma take_until_spec n acc chunks res rest :
  take_until n acc chunks = (res, rest) ->
  res ++ List.concat rest = acc ++ List.concat chunks /\ (n <= List.length res \/ rest = [])%nat.
Proof.
  revert acc; induction chunks as [|c r IH]; intros acc; cbn [take_until List.concat].
  - intros E; injection E as <- <-. auto.
  - destruct (Nat.leb_spec n (List.length (acc ++ c))) as [L|L].
    + intros E; injection E as <- <-. rewrite <- app_assoc. auto.
    + intros E. apply IH in E as [E1 E2]. rewrite E1, <- app_assoc. auto.
Qed.

Lemma skipn_app_le {A} n (l1 l2 : list A) : (n <= List.length l1)%nat -> skipn n (l1 ++ l2) = skipn n l1 ++ l2.
Proof. intros H. rewrite skipn_app. replace (n - List.length l1)%nat with 0%nat by lia. reflexivity. Qed.
Lemma firstn_app_le {A} n (l1 l2 : list A) : (n <= List.length l1)%nat -> firstn n (l1 ++ l2) = firstn n l1.
Proof. intros H. rewrite firstn_app. replace (n - List.length l1)%nat with 0%nat by lia. apply app_nil_r. Qed.

(** The reader over any source reads like a byte string. *)
Lemma ar_read_refines n r :
  ar_open r ->
  exists r', ar_read n r = Ok (fst (src_read n (ar_content r)), r') /\
             ar_content r' = snd (src_read n (ar_content r)) /\ ar_open r'.
Proof.
  intros [Hc Hd]. unfold ar_read. rewrite Hc. unfold ar_content at 1 3.
  destruct (ar_data r) as [b|chunks|chunks|] eqn:Ed; [| |contradiction|contradiction].
  - unfold bio_read. rewrite Hd. cbn [bind]. unfold src_read.
    destruct (Z.ltb_spec n 0) as [L|L]; cbn [fst snd].
    + eexists. split; [reflexivity|]. cbn [ar_content ar_data b_pos b_data]. split; [|split; reflexivity].
      rewrite skipn_length. apply skipn_all2. lia.
    + eexists. split; [reflexivity|]. cbn [ar_content ar_data b_pos b_data]. split; [|split; reflexivity].
      rewrite skipn_skipn, firstn_length, skipn_length.
      destruct (Nat.le_gt_cases (Z.to_nat n) (List.length (b_data b) - b_pos b)) as [Q|Q].
      * f_equal. lia.
      * rewrite !skipn_all2 by lia. reflexivity.
  - unfold src_read. destruct (Z.ltb_spec n 0) as [L|L]; cbn [fst snd].
    + eexists. split; [reflexivity|]. cbn [ar_content ar_data ar_rem List.concat app].
      split; [reflexivity|]. split; [reflexivity|exact I].
    + set (k := Z.to_nat n).
      destruct (if Nat.ltb (List.length (ar_rem r)) k then _ else _) as [res rest] eqn:Et.
      assert (Hs : res ++ List.concat rest = ar_rem r ++ List.concat chunks /\ (k <= List.length res \/ rest = [])%nat).
      { destruct (Nat.ltb_spec (List.length (ar_rem r)) k) as [Q|Q].
        - apply take_until_spec. exact Et.
        - injection Et as <- <-. split; [reflexivity|left; exact Q]. }
      destruct Hs as [E Hk]. rewrite <- E.
      exists (mkReader false (skipn k res) (DIter rest)). split; [|split; [|split; [reflexivity|exact I]]].
      * f_equal. f_equal. destruct Hk as [Hk|Hk].
        -- symmetry. apply firstn_app_le, Hk.
        -- subst rest. cbn [List.concat]. rewrite app_nil_r. reflexivity.
      * cbn [ar_content ar_data ar_rem]. destruct Hk as [Hk|Hk].
        -- symmetry. apply skipn_app_le, Hk.
        -- subst rest. cbn [List.concat]. rewrite !app_nil_r. reflexivity.
Qed.

Lemma ar_reads_file r sizes :
  ar_open r -> ar_reads r sizes = map Ok (file_reads (ar_content r) sizes).
Proof.
  revert r; induction sizes as [|n ns IH]; intros r Ho; cbn [ar_reads file_reads map]; [reflexivity|].
  destruct (ar_read_refines n r Ho) as (r' & E & Ec & Ho'). rewrite E, (IH r' Ho'), Ec.
  unfold src_read. destruct (Z.ltb n 0); reflexivity.
Qed.

Lemma ar_closed_reads r sizes : ar_reads (ar_close r) sizes = map (fun _ => Err ValueError) sizes.
Proof. induction sizes as [|n ns IH]; cbn; [reflexivity|]. f_equal. exact IH. Qed.

Lemma ar_of_chunks_open c : ar_open (ar_of_chunks c). Proof. split; [reflexivity|exact I]. Qed.
Lemma ar_of_bytes_open c : ar_open (ar_of_bytes c). Proof. split; reflexivity. Qed.

(** ** The chunk iterator *)
Lemma iter_pieces_spec fuel k r out r' :
  ar_open r -> iter_pieces ar_read fuel k r = Some (Ok (out, r')) ->
  (k <> 0)%Z -> List.concat out = ar_content r /\ ar_content r' = [] /\
  Forall (fun p => p <> []) out.
Proof.
  revert r out r'; induction fuel as [|fuel IH]; intros r out r' Ho E Hk; cbn [iter_pieces] in E; [discriminate|].
  destruct (ar_read_refines k r Ho) as (r1 & E1 & Ec & Ho1). rewrite E1 in E.
  destruct (fst (src_read k (ar_content r))) as [|d ds] eqn:Ed.
  - injection E as <- <-. unfold src_read in Ed, Ec.
    assert (Hn : ar_content r = []).
    { destruct (Z.ltb_spec k 0) as [L|L]; cbn [fst] in Ed; [exact Ed|].
      destruct (ar_content r) as [|x xs]; [reflexivity|].
      destruct (Z.to_nat k) as [|q] eqn:Eq; [lia|]. discriminate Ed. }
    rewrite Hn in *. split; [reflexivity|]. split; [|constructor].
    rewrite Ec. destruct (Z.ltb k 0); cbn [snd]; [reflexivity|]. apply skipn_nil.
  - destruct (iter_pieces ar_read fuel k r1) as [[[ds' r2]|e]|] eqn:Ei; try discriminate.
    injection E as <- <-. destruct (IH _ _ _ Ho1 Ei Hk) as (H1 & H2 & H3).
    split; [|split; [exact H2|constructor; [discriminate|exact H3]]].
    cbn [List.concat]. rewrite H1, Ec. rewrite <- Ed. unfold src_read.
    destruct (Z.ltb k 0); cbn [fst snd]; [apply app_nil_r|apply firstn_skipn].
Qed.

Lemma iter_pieces_terminates fuel k r :
  ar_open r -> (k <> 0)%Z -> (List.length (ar_content r) < fuel)%nat ->
  exists out r', iter_pieces ar_read fuel k r = Some (Ok (out, r')).
Proof.
  revert r; induction fuel as [|fuel IH]; intros r Ho Hk Hl; [lia|]. cbn [iter_pieces].
  destruct (ar_read_refines k r Ho) as (r1 & E1 & Ec & Ho1). rewrite E1.
  destruct (fst (src_read k (ar_content r))) as [|d ds] eqn:Ed; [eauto|].
  destruct (IH r1 Ho1 Hk) as (out & r' & E).
  - rewrite Ec. unfold src_read in *. destruct (Z.ltb_spec k 0) as [L|L]; cbn [fst snd] in *.
    + rewrite Ed in Hl. cbn in *. lia.
    + rewrite skipn_length. destruct (Z.to_nat k) as [|q] eqn:Eq; [lia|].
      destruct (ar_content r); [discriminate Ed|]. cbn [List.length] in *. lia.
  - rewrite E. eauto.
Qed.

(** All pieces but the last have the requested size. *)
Lemma iter_pieces_sizes fuel k r out r' :
  ar_open r -> iter_pieces ar_read fuel k r = Some (Ok (out, r')) -> (0 < k)%Z ->
  forall p q rest, out = rest ++ [p; q] \/ (exists suf, out = rest ++ p :: q :: suf) ->
  List.length p = Z.to_nat k.
Proof.
  revert r out r'; induction fuel as [|fuel IH]; intros r out r' Ho E Hk p q rest Hout; cbn [iter_pieces] in E; [discriminate|].
  assert (Hout' : exists suf, out = rest ++ p :: q :: suf) by (destruct Hout as [->|H]; [exists []; reflexivity|exact H]).
  clear Hout. destruct Hout' as [suf Hout].
  destruct (ar_read_refines k r Ho) as (r1 & E1 & Ec & Ho1). rewrite E1 in E.
  destruct (fst (src_read k (ar_content r))) as [|d ds] eqn:Ed.
  - injection E as <- <-. destruct rest; discriminate.
  - destruct (iter_pieces ar_read fuel k r1) as [[[ds' r2]|e]|] eqn:Ei; try discriminate.
    injection E as <- <-. destruct rest as [|x rest]; cbn [app] in Hout; injection Hout as Hh Ht.
    + subst p. destruct (iter_pieces_spec _ _ _ _ _ Ho1 Ei ltac:(lia)) as (H1 & _ & H3).
      rewrite Ht in H1, H3. inversion H3 as [|? ? Hq _]; subst.
      unfold src_read in *. destruct (Z.ltb_spec k 0) as [L|L]; [lia|]. cbn [fst snd] in *.
      rewrite <- Ed, firstn_length. rewrite Ec in H1.
      destruct (Nat.le_gt_cases (Z.to_nat k) (List.length (ar_content r))) as [Q|Q]; [lia|].
      rewrite skipn_all2 in H1 by lia. destruct q; [congruence|discriminate H1].
    + eapply (IH r1 _ _ Ho1 Ei Hk p q rest). right. exists suf. exact Ht.
Qed.

(** ** Simulation of the event decoder *)
Section DecodeSim.
  Context {S1 S2 : Type} (rd1 : Z -> S1 -> result (bytes * S1)) (rd2 : Z -> S2 -> result (bytes * S2)).
  Context (R : S1 -> S2 -> Prop).
  Hypothesis Hsim : forall n s1 s2, R s1 s2 ->
    match rd1 n s1, rd2 n s2 with
    | Ok (b1, s1'), Ok (b2, s2') => b1 = b2 /\ R s1' s2'
    | Err e1, Err e2 => e1 = e2
    | _, _ => False
    end.
  Lemma decode_event_sim s1 s2 : R s1 s2 ->
    match decode_event_from rd1 s1, decode_event_from rd2 s2 with
    | Ok (e1, s1'), Ok (e2, s2') => e1 = e2 /\ R s1' s2'
    | Err e1, Err e2 => e1 = e2
    | _, _ => False
    end.
  Proof.
    intros H0. unfold decode_event_from.
    pose proof (Hsim 8 _ _ H0) as H. destruct (rd1 8 s1) as [[b1 t1]|e1], (rd2 8 s2) as [[b2 t2]|e2]; try contradiction; cbn [bind].
    2: exact H. destruct H as [<- H].
    destruct b1 as [|x xs] eqn:Eb; [auto|]. rewrite <- Eb.
    pose proof (Hsim 4 _ _ H) as G. destruct (rd1 4 t1) as [[b3 u1]|e1], (rd2 4 t2) as [[b4 u2]|e2]; try contradiction; cbn [bind].
    2: exact G. destruct G as [<- G].
    destruct (wrap_struct _) as [[[pcrc total] hl]|e]; cbn [bind]; [|reflexivity].
    destruct (validate_checksum _ _ _); cbn [bind]; [|reflexivity].
    destruct (mk_prelude _ _ _); cbn [bind]; [|reflexivity].
    pose proof (Hsim (Z.of_N total - Z.of_N MESSAGE_METADATA_SIZE) _ _ G) as K.
    destruct (rd1 _ u1) as [[b5 v1]|e1], (rd2 _ u2) as [[b6 v2]|e2]; try contradiction; cbn [bind].
    2: exact K. destruct K as [<- K].
    pose proof (Hsim 4 _ _ K) as M.
    destruct (rd1 4 v1) as [[b7 w1]|e1], (rd2 4 v2) as [[b8 w2]|e2]; try contradiction; cbn [bind].
    2: exact M. destruct M as [<- M].
    destruct (wrap_struct _) as [crc|e]; cbn [bind]; [|reflexivity].
    destruct (validate_checksum _ _ _); cbn [bind]; [|reflexivity].
    destruct (decode_headers _); cbn [bind]; [|reflexivity].
    destruct (mk_event_message _ _); cbn [bind]; [|reflexivity]. auto.
  Qed.
End DecodeSim.

Lemma decode_async_refines r :
  ar_open r ->
  match decode_event_from ar_read r with
  | Ok (ev, r') => decode_event (ar_content r) = Ok (ev, ar_content r') /\ ar_open r'
  | Err e => decode_event (ar_content r) = Err e
  end.
Proof.
  intros Ho.
  pose proof (decode_event_sim ar_read (fun n s => Ok (src_read n s)) (fun a s => ar_open a /\ ar_content a = s)) as H.
  specialize (H ltac:(intros n s1 s2 [Ha <-]; destruct (ar_read_refines n s1 Ha) as (r' & E & Ec & Ho');
    rewrite E; destruct (src_read n (ar_content s1)) as [x y]; cbn in *; auto)).
  specialize (H r (ar_content r) (conj Ho eq_refl)). unfold decode_event.
  destruct (decode_event_from ar_read r) as [[ev r']|e], (decode_event_from _ (ar_content r)) as [[ev2 s']|e2]; try contradiction.
  - destruct H as [<- [H1 <-]]. auto.
  - subst. reflexivity.
Qed.

Lemma async_decode_all_eq fuel r :
  ar_open r -> (List.length (ar_content r) < fuel)%nat ->
  async_decode_all fuel r = Some (decode_all (ar_content r)).
Proof.
  revert r; induction fuel as [|fuel IH]; intros r Ho Hl; [lia|]. cbn [async_decode_all].
  pose proof (decode_async_refines r Ho) as H. unfold decode_all.
  destruct (decode_event_from ar_read r) as [[[ev|] r']|e].
  - destruct H as [H Ho'].
    assert (Hs : (List.length (ar_content r') < List.length (ar_content r))%nat).
    { eapply decode_event_shorter; exact H. }
    rewrite (IH r' Ho') by lia.
    fold (decode_all (ar_content r)). rewrite (decode_all_cons _ _ _ H).
    destruct (decode_all (ar_content r')); reflexivity.
  - destruct H as [H _]. destruct (List.length (ar_content r)); cbn [decode_all_loop]; rewrite H; reflexivity.
  - destruct (List.length (ar_content r)); cbn [decode_all_loop]; rewrite H; reflexivity.
Qed.

(** ** Seekable reader *)
Section SeekableProofs.
  Context {S : Type} (sread : Z -> S -> result (bytes * S)) (content : S -> bytes).
  (** The source returns what is asked for as long as it has it. *)
  Context (good : S -> Prop).
  Hypothesis Hexact : forall n s, good s ->
    exists s', sread n s = Ok (fst (src_read n (content s)), s') /\ content s' = snd (src_read n (content s)) /\ good s'.

  Definition src_content (o : option S) : bytes := match o with Some s => content s | None => [] end.
  Definition src_good (o : option S) : Prop := match o with Some s => good s | None => True end.

  Definition inv (total : bytes) (pos : nat) (r : sreader S) : Prop :=
    b_closed (s_buf r) = false /\ b_pos (s_buf r) = pos /\
    b_data (s_buf r) ++ src_content (s_src r) = total /\ src_good (s_src r).

  Lemma seek_end b : b_closed b = false ->
    bio_seek 0 2 b = Ok (List.length (b_data b), mkBio (b_data b) (List.length (b_data b)) false).
  Proof.
    intros H. unfold bio_seek. rewrite H. cbn [negb orb andb Z.eqb].
    change (Z.ltb 0 0) with false. cbn [andb].
    change (2 =? 0)%Z with false. change (2 =? 1)%Z with false. change (2 =? 2)%Z with true. cbn [orb negb].
    replace (Z.to_nat (Z.max 0 (Z.of_nat (List.length (b_data b)) + 0))) with (List.length (b_data b)) by lia.
    reflexivity.
  Qed.
  Lemma seek_set p b : b_closed b = false -> (0 <= p)%Z ->
    bio_seek p 0 b = Ok (Z.to_nat p, mkBio (b_data b) (Z.to_nat p) false).
  Proof.
    intros H Hp. unfold bio_seek. rewrite H. rewrite (proj2 (Z.ltb_ge _ _)) by exact Hp. cbn [andb].
    change (0 =? 0)%Z with true. cbn [orb negb]. change (0 =? 1)%Z with false. change (0 =? 2)%Z with false.
    cbn iota. replace (Z.to_nat (Z.max 0 (0 + p))) with (Z.to_nat p) by lia. reflexivity.
  Qed.
  Lemma write_end w d : bio_write w (mkBio d (List.length d) false) = Ok (mkBio (d ++ w) (List.length d + List.length w) false).
  Proof.
    unfold bio_write. cbn [b_closed b_pos b_data]. rewrite Nat.sub_diag. cbn [repeat].
    rewrite app_nil_r, firstn_all. rewrite skipn_all2 by lia. rewrite app_nil_r. reflexivity.
  Qed.

  (** After [s_fill size] the buffer holds what it held plus the next bytes. *)
  Lemma fill_spec size d pos src total :
    d ++ src_content src = total -> src_good src -> (pos = List.length d)%nat ->
    exists d' src', s_fill sread size (mkSeek (mkBio d pos false) src) =
        Ok (mkSeek (mkBio d' (List.length d') false) src') /\
      d' ++ src_content src' = total /\ src_good src' /\
      (src <> None -> d' = d ++ fst (src_read size (src_content src))) /\ (src = None -> d' = d).
  Proof.
    intros Ht Hg ->. unfold s_fill. cbn [s_src s_buf]. destruct src as [s|].
    2: { exists d, None. repeat split; auto. congruence. }
    cbn [src_content src_good] in *. destruct (Hexact size s Hg) as (s' & E & Ec & Hg'). rewrite E. cbn [bind].
    rewrite seek_end by reflexivity. cbn [bind b_data]. rewrite write_end. cbn [bind].
    set (got := fst (src_read size (content s))) in *.
    assert (Hsplit : got ++ snd (src_read size (content s)) = content s).
    { unfold got, src_read. destruct (Z.ltb size 0); cbn [fst snd]; [apply app_nil_r|apply firstn_skipn]. }
    destruct (Z.ltb (Z.of_nat (List.length got)) size || Z.ltb size 0)%bool eqn:Eb.
    - (* the source is dropped: nothing was left *)
      exists (d ++ got), None. rewrite app_length. split; [reflexivity|].
      assert (Hnil : snd (src_read size (content s)) = []).
      { unfold got, src_read in *. destruct (Z.ltb_spec size 0) as [L|L]; cbn [fst snd] in *; [reflexivity|].
        rewrite firstn_length in Eb. apply skipn_all2. lia. }
      rewrite Hnil, app_nil_r in Hsplit. cbn [src_content src_good].
      split; [rewrite app_nil_r, Hsplit; exact Ht|]. repeat split; congruence.
    - exists (d ++ got), (Some s'). rewrite app_length. split; [reflexivity|]. cbn [src_content src_good].
      split; [rewrite <- app_assoc, Ec, Hsplit; exact Ht|]. repeat split; congruence.
  Qed.

  Lemma skipn_content_enough (total d rest : bytes) pos n :
    d ++ rest = total -> (rest = [] \/ (pos + n <= List.length d)%nat) ->
    firstn n (skipn pos d) = firstn n (skipn pos total).
  Proof.
    intros <- [->|H]; [rewrite app_nil_r; reflexivity|].
    destruct (Nat.le_gt_cases pos (List.length d)) as [L|L].
    - rewrite skipn_app_le by exact L. rewrite firstn_app_le; [reflexivity|]. rewrite skipn_length. lia.
    - lia.
  Qed.

  Lemma s_read_spec n r total pos :
    inv total pos r ->
    let out := if Z.ltb n 0 then skipn pos total else firstn (Z.to_nat n) (skipn pos total) in
    exists r', s_read sread n r = Ok (out, r') /\ inv total (pos + List.length out) r'.
  Proof.
    intros (Hc & Hp & Ht & Hg) out. destruct r as [[d bp bc] src]. cbn [s_buf s_src b_closed b_pos b_data] in *. subst bp bc.
    unfold s_read. cbn [s_src s_buf]. destruct src as [s|].
    - cbn [src_content src_good] in *.
      destruct (Z.eqb_spec n 0) as [->|Hn].
      + unfold bio_read. cbn [b_closed b_pos b_data bind]. change (Z.ltb 0 0) with false in *. cbn [Z.to_nat firstn] in *.
        eexists. split; [reflexivity|]. unfold inv. cbn [s_buf s_src b_closed b_pos b_data src_content src_good].
        repeat split; auto.
      + unfold bio_tell. cbn [b_closed bind b_pos]. rewrite seek_end by reflexivity. cbn [bind b_data].
        assert (Hfill : exists d' src',
          (if Z.ltb n 0 then s_fill sread n (mkSeek (mkBio d (List.length d) false) (Some s))
           else if Z.ltb (Z.of_nat (List.length d)) (Z.of_nat pos + n)
                then s_fill sread (Z.of_nat pos + n - Z.of_nat (List.length d))%Z (mkSeek (mkBio d (List.length d) false) (Some s))
                else Ok (mkSeek (mkBio d (List.length d) false) (Some s)))
          = Ok (mkSeek (mkBio d' (List.length d') false) src') /\
          d' ++ src_content src' = total /\ src_good src' /\
          (if Z.ltb n 0 then src_content src' = [] else src_content src' = [] \/ (pos + Z.to_nat n <= List.length d')%nat)).
        { destruct (Z.ltb_spec n 0) as [L|L].
          - destruct (fill_spec n d _ (Some s) total Ht Hg eq_refl) as (d' & src' & E & E1 & E2 & E3 & _).
            exists d', src'. rewrite E. repeat split; auto.
            specialize (E3 ltac:(discriminate)). cbn [src_content] in E3. unfold src_read in E3.
            rewrite (proj2 (Z.ltb_lt _ _)) in E3 by exact L. cbn [fst] in E3.
            assert (Hl : List.length total = List.length d') by (rewrite E3, <- Ht; reflexivity).
            rewrite <- E1, app_length in Hl. destruct (src_content src'); [reflexivity|cbn in Hl; lia].
          - destruct (Z.ltb_spec (Z.of_nat (List.length d)) (Z.of_nat pos + n)) as [Q|Q].
            + destruct (fill_spec (Z.of_nat pos + n - Z.of_nat (List.length d)) d _ (Some s) total Ht Hg eq_refl) as (d' & src' & E & E1 & E2 & E3 & _).
              exists d', src'. rewrite E. repeat split; auto.
              specialize (E3 ltac:(discriminate)). cbn [src_content] in E3. unfold src_read in E3.
              rewrite (proj2 (Z.ltb_ge _ _)) in E3 by lia. cbn [fst] in E3.
              destruct (Nat.le_gt_cases (Z.to_nat (Z.of_nat pos + n - Z.of_nat (List.length d))) (List.length (content s))) as [M|M].
              * right. rewrite E3, app_length, firstn_length. lia.
              * left. rewrite firstn_all2 in E3 by lia.
                assert (Hl : List.length total = List.length d') by (rewrite E3, <- Ht; reflexivity).
                rewrite <- E1, app_length in Hl. destruct (src_content src'); [reflexivity|cbn in Hl; lia].
            + exists d, (Some s). repeat split; auto. right. lia. }
        destruct Hfill as (d' & src' & E & E1 & E2 & E3). rewrite E. cbn [bind s_buf].
        rewrite seek_set by (try reflexivity; lia). cbn [bind b_data]. rewrite Nat2Z.id.
        unfold bio_read. cbn [b_closed b_pos b_data bind].
        assert (Hout : (if Z.ltb n 0 then skipn pos d' else firstn (Z.to_nat n) (skipn pos d')) = out).
        { unfold out. destruct (Z.ltb n 0).
          - rewrite <- E1, E3, app_nil_r. reflexivity.
          - eapply skipn_content_enough; [exact E1|exact E3]. }
        rewrite Hout. eexists. split; [reflexivity|].
        unfold inv. cbn [s_buf s_src b_closed b_pos b_data]. repeat split; auto.
    - cbn [src_content] in *. rewrite app_nil_r in Ht. subst d.
      unfold bio_read. cbn [b_closed b_pos b_data bind].
      eexists. split; [reflexivity|]. unfold inv. cbn [s_buf s_src b_closed b_pos b_data src_content src_good].
      repeat split. apply app_nil_r.
  Qed.

  Lemma s_seek_spec off w r total pos :
    inv total pos r -> (w = 0 \/ w = 1 \/ w = 2)%Z -> (0 <= file_target total pos off w)%Z ->
    exists r', s_seek sread off w r = (Ok (Z.to_nat (file_target total pos off w)), r') /\
      inv total (Z.to_nat (file_target total pos off w)) r'.
  Proof.
    intros (Hc & Hp & Ht & Hg) Hw Hpos. destruct r as [[d bp bc] src]. cbn [s_buf s_src b_closed b_pos b_data] in *. subst bp bc.
    unfold s_seek. cbn [s_src s_buf]. destruct src as [s|].
    - cbn [src_content src_good] in *. destruct (Z.leb_spec 2 w) as [L|L].
      + assert (w = 2%Z) as -> by lia. rewrite seek_end by reflexivity.
        destruct (Hexact (-1) s Hg) as (s' & E & Ec & Hg'). rewrite E. cbn [b_data]. rewrite write_end.
        unfold src_read in *. change (Z.ltb (-1) 0) with true in *. cbn [fst snd] in *. rewrite Ht.
        unfold bio_seek. cbn [b_closed b_data b_pos].
        change (2 =? 0)%Z with false. change (2 =? 1)%Z with false. change (2 =? 2)%Z with true.
        rewrite andb_false_r. cbn [orb negb].
        unfold file_target in *. change (2 =? 0)%Z with false in *. change (2 =? 1)%Z with false in *. cbn iota in *.
        cbn iota. replace (Z.max 0 (Z.of_nat (List.length total) + off)) with (Z.of_nat (List.length total) + off)%Z by lia.
        eexists. split; [reflexivity|]. unfold inv. cbn [s_buf s_src b_closed b_pos b_data src_content src_good].
        repeat split; auto. rewrite Ec, app_nil_r. reflexivity.
      + unfold bio_tell. cbn [b_closed b_pos]. rewrite seek_end by reflexivity. cbn [b_data].
        assert (Htgt : (if Z.eqb w 1 then off + Z.of_nat pos else off)%Z = file_target total pos off w).
        { unfold file_target. destruct Hw as [-> | [-> | ->] ]; [reflexivity| |lia]. 
          change (1 =? 1)%Z with true. change (1 =? 0)%Z with false. cbn iota. lia. }
        rewrite Htgt. set (t := file_target total pos off w) in *.
        assert (Hfill : exists d' src',
           (if Z.ltb (Z.of_nat (List.length d)) t
            then s_fill sread (t - Z.of_nat (List.length d)) (mkSeek (mkBio d (List.length d) false) (Some s))
            else Ok (mkSeek (mkBio d (List.length d) false) (Some s)))
           = Ok (mkSeek (mkBio d' (List.length d') false) src') /\
           d' ++ src_content src' = total /\ src_good src').
        { destruct (Z.ltb (Z.of_nat (List.length d)) t).
          - destruct (fill_spec (t - Z.of_nat (List.length d)) d _ (Some s) total Ht Hg eq_refl) as (d' & src' & E & E1 & E2 & _).
            exists d', src'. auto.
          - exists d, (Some s). auto. }
        destruct Hfill as (d' & src' & E & E1 & E2). rewrite E. cbn [s_buf].
        rewrite seek_set by (try reflexivity; exact Hpos). cbn [b_data s_src].
        eexists. split; [reflexivity|]. unfold inv. cbn [s_buf s_src b_closed b_pos b_data]. auto.
    - cbn [src_content] in *. rewrite app_nil_r in Ht. subst d.
      unfold bio_seek. cbn [b_closed b_data b_pos]. unfold file_target in *.
      destruct Hw as [-> | [-> | ->] ].
      + change (0 =? 0)%Z with true in *. change (0 =? 1)%Z with false in *. change (0 =? 2)%Z with false in *. cbn iota in *.
        rewrite (proj2 (Z.ltb_ge _ _)) by exact Hpos. cbn [andb orb negb].
        cbn iota. replace (Z.max 0 (0 + off)) with off by lia.
        eexists. split; [reflexivity|]. unfold inv. cbn. repeat split; auto using app_nil_r.
      + change (1 =? 0)%Z with false in *. change (1 =? 1)%Z with true in *. change (1 =? 2)%Z with false in *. cbn iota in *.
        rewrite andb_false_r. cbn [orb negb].
        cbn iota. replace (Z.max 0 (Z.of_nat pos + off)) with (Z.of_nat pos + off)%Z by lia.
        eexists. split; [reflexivity|]. unfold inv. cbn. repeat split; auto using app_nil_r.
      + change (2 =? 0)%Z with false in *. change (2 =? 1)%Z with false in *. change (2 =? 2)%Z with true in *. cbn iota in *.
        rewrite andb_false_r. cbn [orb negb].
        cbn iota. replace (Z.max 0 (Z.of_nat (List.length total) + off)) with (Z.of_nat (List.length total) + off)%Z by lia.
        eexists. split; [reflexivity|]. unfold inv. cbn. repeat split; auto using app_nil_r.
  Qed.

  Lemma s_run_file total ops pos r :
    inv total pos r -> file_ok total pos ops -> s_run sread ops r = file_run total pos ops.
  Proof.
    revert pos r; induction ops as [|[n|off w|] ops IH]; intros pos r Hi Hok; cbn [s_run file_run s_step file_ok] in *; [reflexivity| | |].
    - destruct (s_read_spec n r total pos Hi) as (r' & E & Hi'). rewrite E. f_equal. apply IH; [exact Hi'|].
      revert Hok. destruct (Z.ltb n 0); rewrite ?firstn_length, skipn_length; auto.
    - destruct Hok as (Hw & Hpos & Hok). destruct (s_seek_spec off w r total pos Hi Hw Hpos) as (r' & E & Hi').
      rewrite E. f_equal. apply IH; assumption.
    - unfold s_tell, bio_tell. destruct Hi as (Hc & Hp & Hr). rewrite Hc. rewrite Hp. f_equal. apply IH; [split; auto|exact Hok].
  Qed.

  Lemma inv_source s : good s -> inv (content s) 0 (s_of_source s).
  Proof. intros H. unfold inv, s_of_source. cbn. auto. Qed.
End SeekableProofs.

Lemma read_blob_iter_concat full chunks : read_blob_iter full chunks = full ++ List.concat chunks.
Proof.
  revert full; induction chunks as [|c r IH]; intros full; cbn [read_blob_iter List.concat].
  - symmetry; apply app_nil_r.
  - rewrite IH, app_assoc. reflexivity.
Qed.
