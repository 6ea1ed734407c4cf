(** The readers of the signers, and cancelled reads: properties C87 and C88. *)
From Verif Require Import Base Base_Proofs EventStream_Model Streams_Model Streams_Spec Streams_Proofs SignIO_Model SignIO_Spec SignIO_Proofs.

(** ** C87: the readers of the signers *)

(** Any sequence of reads, of a number of bytes or of everything, returns what
    the same reads of the concatenated bytes return. *)
Theorem C87_chunks (chunks : list bytes) (sizes : list (option Z)) :
  sg_reads (ar_of_chunks chunks) sizes = map Ok (file_reads (List.concat chunks) (map given_size sizes)).
Proof. exact (sg_reads_file (ar_of_chunks chunks) sizes (ar_of_chunks_open chunks)). Qed.
Print Assumptions C87_chunks.
Theorem C87_bytes (content : bytes) (sizes : list (option Z)) :
  sg_reads (ar_of_bytes content) sizes = map Ok (file_reads content (map given_size sizes)).
Proof. exact (sg_reads_file (ar_of_bytes content) sizes (ar_of_bytes_open content)). Qed.
Print Assumptions C87_bytes.
Example C87_chunks_ex : sg_reads (ar_of_chunks [[1;2];[];[3;4;5];[6]]%N) [Some 1; Some 3; Some 0; None; Some 4]%Z
  = [Ok [1]; Ok [2;3;4]; Ok []; Ok [5;6]; Ok []]%N.
Proof. reflexivity. Qed.

(** Iterating yields non-empty pieces that concatenate to the whole content, all
    of the requested size except the last. *)
Theorem C87_iteration (chunks : list bytes) (k : Z) (Hk : (0 < k)%Z) :
  exists fuel pieces r, iter_pieces sg_read_n fuel k (ar_of_chunks chunks) = Some (Ok (pieces, r)) /\
    List.concat pieces = List.concat chunks /\ Forall (fun p => p <> []) pieces /\
    (forall pre p q post, pieces = pre ++ p :: q :: post -> List.length p = Z.to_nat k).
Proof.
  destruct (iterate sg_read_n (fun c r => ar_open r /\ c = ar_content r) k Hk) with (fuel := S (List.length (List.concat chunks))) (c := List.concat chunks) (s := ar_of_chunks chunks)
    as (pieces & r & E & Ec & _ & F & Sz); [|lia|split; [apply ar_of_chunks_open | reflexivity]|eauto 8].
  intros c s [Ho ->]. destruct (sg_exact k s Ho) as (s' & E & Ec & Ho'). exists s'. unfold src_read in *.
  assert (Hf : (k <? 0)%Z = false) by (apply Z.ltb_ge; lia). rewrite Hf in *. cbn [fst snd] in *. auto.
Qed.
Print Assumptions C87_iteration.
Example C87_iteration_ex :
  iter_pieces sg_read_n 5 2 (ar_of_chunks [[1];[2;3];[4;5]]%N) = Some (Ok ([[1;2];[3;4];[5]]%N, mkReader false [] (DIter []))).
Proof. reflexivity. Qed.

(** The seekable reader: every script of reads, seeks and tells does what it does
    on an in-memory file. *)
Theorem C87_like_a_file (chunks : list bytes) (ops : list fop) :
  file_ok (List.concat chunks) 0 ops ->
  s_run sg_read_n ops (s_of_source (ar_of_chunks chunks)) = file_run (List.concat chunks) 0 ops.
Proof. apply sg_run. exact (inv_source ar_content ar_open (ar_of_chunks chunks) (ar_of_chunks_open chunks)). Qed.
Print Assumptions C87_like_a_file.
Example C87_like_a_file_ex :
  let ops := [FRead 1; FSeek (-1) 2; FRead (-1); FSeek 1 0; FTell; FRead 2]%Z in
  file_ok [1;2;3;4]%N 0 ops
  /\ s_run sg_read_n ops (s_of_source (ar_of_chunks [[1;2];[3;4]]%N)) = [OBytes [1]; OPos 3; OBytes [4]; OPos 1; OPos 1; OBytes [2;3]]%N.
Proof. split; [|reflexivity]. cbn. split; [auto|]. split; [discriminate|]. split; [auto|]. split; [discriminate | exact I]. Qed.

(** What signing does with a seekable body, wherever the caller had left it: the
    pieces that are hashed are what was left to read, and after the seek back the
    body does what it did before. *)
Theorem C87_hash_pass (chunks : list bytes) (before : list fop) :
  let content := List.concat chunks in
  let body := s_after sg_read_n before (s_of_source (ar_of_chunks chunks)) in
  let pos := file_after content 0 before in
  file_ok content 0 before ->
  s_tell body = Ok pos
  /\ exists fuel pieces body1 body2,
       iter_pieces (s_read sg_read_n) fuel default_chunk_size body = Some (Ok (pieces, body1))
       /\ List.concat pieces = skipn pos content
       /\ s_seek sg_read_n (Z.of_nat pos) 0 body1 = (Ok pos, body2)
       /\ (exists body3, sgs_read sg_read_n None body2 = Ok (skipn pos content, body3))
       /\ forall ops, file_ok content pos ops ->
            s_run sg_read_n ops body2 = file_run content pos ops /\ s_run sg_read_n ops body = file_run content pos ops.
Proof.
  intros content body pos Hok.
  assert (Hi : sg_inv content pos body).
  { apply sg_after; [|exact Hok]. exact (inv_source ar_content ar_open (ar_of_chunks chunks) (ar_of_chunks_open chunks)). }
  split.
  { destruct Hi as (Hc & Hp & _). unfold s_tell, bio_tell. rewrite Hc, Hp. reflexivity. }
  destruct (sg_iterate content pos body default_chunk_size ltac:(reflexivity) Hi) as (fuel & pieces & body1 & pos' & E & Ec & Hi1).
  destruct (sg_s_seek (Z.of_nat pos) 0 body1 content pos' Hi1 ltac:(auto) (Nat2Z.is_nonneg pos)) as (body2 & Es & Hi2).
  change (file_target content pos' (Z.of_nat pos) 0) with (Z.of_nat pos) in *. rewrite Nat2Z.id in *.
  exists fuel, pieces, body1, body2. split; [exact E|]. split; [exact Ec|]. split; [exact Es|]. split.
  - destruct (sg_s_read (-1) body2 content pos Hi2) as (body3 & Er & _). exists body3. exact Er.
  - intros ops Ho. split; now apply sg_run.
Qed.
Print Assumptions C87_hash_pass.
Example C87_hash_pass_ex :
  let before := [FRead 1]%Z in let content := [1;2;3;4]%N in
  file_ok content 0 before /\ file_after content 0 before = 1%nat
  /\ iter_pieces (s_read sg_read_n) 2 default_chunk_size (s_after sg_read_n before (s_of_source (ar_of_chunks [[1;2];[3;4]]%N)))
     = Some (Ok ([[2;3;4]]%N, mkSeek (mkBio content 4 false) None)).
Proof. split; [exact I|]. split; reflexivity. Qed.

(** How far a read goes into its source: no further than needed, but at least one
    chunk. *)
Theorem C87_takes (n : nat) (rem : bytes) (chunks : list bytes) : chunks <> [] ->
  exists k out r', (1 <= k <= List.length chunks)%nat
    /\ sg_read (Some (Z.of_nat n)) (mkReader false rem (DIter chunks)) = Ok (out, r') /\ ar_data r' = DIter (skipn k chunks)
    /\ enough n (List.length rem) chunks k /\ (forall j, (1 <= j < k)%nat -> ~ enough n (List.length rem) chunks j).
Proof.
  intros N. unfold sg_read. cbn [ar_closed ar_data ar_rem]. assert (L : (Z.of_nat n <? 0)%Z = false) by (apply Z.ltb_ge; lia). rewrite L, Nat2Z.id.
  destruct (take_until n rem chunks) as [res rest] eqn:E. destruct (take_until_enough _ _ _ _ _ E N) as (k & B & -> & En & Mi).
  exists k. eexists. eexists. split; [exact B|]. split; [reflexivity|]. split; [reflexivity | auto].
Qed.
Print Assumptions C87_takes.
(** So a read that has its bytes already still waits for the source. *)
Theorem C87_takes_refuted : exists rem n chunks out r',
  (n <= List.length rem)%nat /\ sg_read (Some (Z.of_nat n)) (mkReader false rem (DIter chunks)) = Ok (out, r')
  /\ out = firstn n rem /\ chunks <> [] /\ ar_data r' = DIter [].
Proof.
  exists [1;2]%N, 1%nat, [[3]]%N, [1]%N, (mkReader false [2;3]%N (DIter [])). split; [cbn; lia|]. split; [reflexivity|]. split; [reflexivity|]. split; [discriminate | reflexivity].
Qed.
Print Assumptions C87_takes_refuted.
(** smithy_core's reader takes no chunk it does not need. *)
Theorem C28_takes (n : nat) (rem : bytes) (chunks : list bytes) :
  exists k out r', (k <= List.length chunks)%nat
    /\ ar_read (Z.of_nat n) (mkReader false rem (DIter chunks)) = Ok (out, r') /\ ar_data r' = DIter (skipn k chunks)
    /\ enough n (List.length rem) chunks k /\ (forall j, (j < k)%nat -> ~ enough n (List.length rem) chunks j).
Proof.
  unfold ar_read. cbn [ar_closed ar_data ar_rem]. assert (L : (Z.of_nat n <? 0)%Z = false) by (apply Z.ltb_ge; lia). rewrite L, Nat2Z.id.
  destruct (Nat.ltb_spec (List.length rem) n) as [Q|Q].
  - destruct chunks as [|c chunks].
    { exists 0%nat. cbn [take_until]. eexists. eexists. split; [cbn; lia|]. split; [reflexivity|]. split; [reflexivity|]. split; [right; cbn; lia | intros; lia]. }
    destruct (take_until n rem (c :: chunks)) as [res rest] eqn:E. destruct (take_until_enough _ _ _ _ _ E ltac:(discriminate)) as (k & B & -> & En & Mi).
    exists k. eexists. eexists. split; [lia|]. split; [reflexivity|]. split; [reflexivity|]. split; [exact En|].
    intros j J. destruct j as [|j]; [|apply Mi; lia]. unfold enough. cbn [firstn List.concat List.length]. lia.
  - exists 0%nat. eexists. eexists. split; [lia|]. split; [reflexivity|]. split; [reflexivity|]. split; [left; lia | intros; lia].
Qed.
Print Assumptions C28_takes.

(** A closed reader refuses every read, and a seekable one every operation. *)
Theorem C87_closed (r : areader) (sizes : list (option Z)) (s : sreader areader) (ops : list fop) :
  sg_reads (ar_close r) sizes = map (fun _ => Err ValueError) sizes
  /\ s_run sg_read_n ops (s_close s) = map (fun _ => ORaised ValueError) ops.
Proof.
  split.
  - induction sizes as [|n ns IH]; cbn; [reflexivity|]. f_equal. exact IH.
  - induction ops as [|[n|o w|] ops IH]; cbn; [reflexivity| | |]; f_equal; exact IH.
Qed.
Print Assumptions C87_closed.
(** Closing reaches a source whose [close] is a plain function; a coroutine's is
    called and not awaited, where smithy_core's readers await it. *)
Theorem C87_close_source_refuted :
  closed_by_call PlainClose = true /\ (exists c, c <> NoClose /\ closed_by_call c = false) /\ (forall c, c <> NoClose -> closed_by_await c = true).
Proof. split; [reflexivity|]. split; [exists AsyncClose; split; [discriminate | reflexivity]|]. intros [| |] N; [now elim N| |]; reflexivity. Qed.
Print Assumptions C87_close_source_refuted.

(** ** C88: cancelled reads *)

(** When a read of [n] bytes can be cancelled while it waits for chunk number
    [k], and what the reader returns from then on: the bytes of the chunks it had
    collected are gone.  Both for the signers' reader and smithy_core's. *)
Theorem C88_cancelled (eager : bool) (n k : nat) (rem : bytes) (chunks : list bytes) :
  let r := mkReader false rem (DIter chunks) in
  ((exists r', cancelled_read eager n k r = Some r')
   <-> (k <= List.length chunks)%nat /\ (forall j, ((if eager then 1 else 0) <= j <= k)%nat -> (List.length rem + List.length (List.concat (firstn j chunks)) < n)%nat))
  /\ (forall r', cancelled_read eager n k r = Some r' ->
       (forall sizes, ar_reads r' sizes = map Ok (file_reads (rem ++ List.concat (skipn k chunks)) sizes))
       /\ (forall sizes, sg_reads r' sizes = map Ok (file_reads (rem ++ List.concat (skipn k chunks)) (map given_size sizes)))
       /\ ((forall sizes, ar_reads r' sizes = ar_reads r sizes) <-> List.concat (firstn k chunks) = [])).
Proof.
  intros r. unfold cancelled_read, r. cbn [ar_data ar_closed ar_rem negb andb]. split.
  - split.
    + intros (r' & E). destruct (eager || (List.length rem <? n)%nat)%bool eqn:B; [|discriminate E].
      destruct (waiting n k rem chunks) as [rest|] eqn:W; [|discriminate E]. apply waiting_spec in W. destruct W as (_ & L & W). split; [exact L|].
      intros j J. destruct j as [|j]; [|apply W; lia]. destruct eager; [lia|]. cbn [orb] in B. apply Nat.ltb_lt in B. cbn [firstn List.concat List.length]. lia.
    + intros (L & W). assert (B : (eager || (List.length rem <? n)%nat)%bool = true).
      { destruct eager; [reflexivity|]. cbn [orb]. apply Nat.ltb_lt. specialize (W 0%nat ltac:(lia)). cbn [firstn List.concat List.length] in W. lia. }
      rewrite B. assert (E : waiting n k rem chunks = Some (skipn k chunks)).
      { apply waiting_spec. split; [reflexivity|]. split; [exact L|]. intros j J. apply W. destruct eager; lia. }
      rewrite E. eauto.
  - intros r' E. destruct (eager || (List.length rem <? n)%nat)%bool; [|discriminate E].
    destruct (waiting n k rem chunks) as [rest|] eqn:W; [|discriminate E]. injection E as <-. apply waiting_spec in W. destruct W as (-> & L & _).
    set (r' := mkReader false rem (DIter (skipn k chunks))).
    assert (O' : ar_open r') by (split; [reflexivity | exact I]). assert (O : ar_open (mkReader false rem (DIter chunks))) by (split; [reflexivity | exact I]).
    split; [exact (fun sizes => ar_reads_file r' sizes O')|]. split; [exact (fun sizes => sg_reads_file r' sizes O')|]. split.
    + intros H. specialize (H [(-1)%Z]). rewrite (ar_reads_file _ _ O'), (ar_reads_file _ _ O) in H. cbn in H. injection H as H.
      apply app_inv_head in H. assert (H' : List.concat chunks = List.concat (firstn k chunks) ++ List.concat (skipn k chunks)) by now rewrite <- concat_app, firstn_skipn.
      rewrite <- H in H'. apply (f_equal (@List.length _)) in H'. rewrite app_length in H'. destruct (List.concat (firstn k chunks)); [reflexivity|]. cbn [List.length] in H'. lia.
    + intros H sizes. rewrite (ar_reads_file _ _ O'), (ar_reads_file _ _ O). unfold ar_content. cbn [ar_data ar_rem r'].
      do 3 f_equal. rewrite <- (firstn_skipn k chunks) at 2. rewrite concat_app, H. reflexivity.
Qed.
Print Assumptions C88_cancelled.
(** Bytes that had arrived are lost. *)
Theorem C88_lost_refuted : exists chunks r',
  cancelled_read false 4 1 (ar_of_chunks chunks) = Some r' /\ cancelled_read true 4 1 (ar_of_chunks chunks) = Some r'
  /\ List.concat chunks = [1;2;3;4]%N /\ ar_reads r' [-1]%Z = [Ok [3;4]]%N.
Proof. exists [[1;2];[3;4]]%N, (mkReader false [] (DIter [[3;4]]%N)). split; [reflexivity|]. split; [reflexivity|]. split; reflexivity. Qed.
Print Assumptions C88_lost_refuted.

(** A seekable reader is, after a cancelled read, at the end of what it had
    buffered, over the bytes that are left. *)
Theorem C88_seekable (eager : bool) (n k : nat) (data rem : bytes) (pos : nat) (chunks : list bytes) r' :
  cancelled_seekable_read eager n k (mkSeek (mkBio data pos false) (Some (mkReader false rem (DIter chunks)))) = Some r' ->
  let content := data ++ rem ++ List.concat (skipn k chunks) in
  (forall ops, file_ok content (List.length data) ops -> s_run ar_read ops r' = file_run content (List.length data) ops
                                                          /\ s_run sg_read_n ops r' = file_run content (List.length data) ops)
  /\ (pos = List.length data -> List.concat (firstn k chunks) = [] ->
      forall ops, file_ok content pos ops ->
        s_run ar_read ops r' = s_run ar_read ops (mkSeek (mkBio data pos false) (Some (mkReader false rem (DIter chunks))))).
Proof.
  intros E content. unfold cancelled_seekable_read in E. cbn [s_src s_buf b_data b_pos b_closed negb andb] in E.
  destruct (_ && _)%bool; [|discriminate E]. destruct (cancelled_read eager _ k _) as [src'|] eqn:C; [|discriminate E]. injection E as <-.
  assert (Es : src' = mkReader false rem (DIter (skipn k chunks))).
  { unfold cancelled_read in C. cbn [ar_data ar_closed ar_rem] in C. destruct (_ && _)%bool; [|discriminate C]. destruct (waiting _ k rem chunks) as [rest|] eqn:W; [|discriminate C].
    apply waiting_spec in W. destruct W as (-> & _). now injection C as <-. }
  subst src'. assert (O : forall cs, ar_open (mkReader false rem (DIter cs))) by (intros cs; split; [reflexivity | exact I]).
  assert (Iv : forall cs p, inv ar_content ar_open (data ++ rem ++ List.concat cs) p (mkSeek (mkBio data p false) (Some (mkReader false rem (DIter cs))))).
  { intros cs p. split; [reflexivity|]. split; [reflexivity|]. split; [reflexivity | apply O]. }
  split.
  - intros ops Ho. split; [apply (s_run_file ar_read ar_content ar_open ar_read_refines) | apply sg_run]; auto; apply Iv.
  - intros -> Hn ops Ho. rewrite !(s_run_file ar_read ar_content ar_open ar_read_refines content ops (List.length data)); auto; try apply Iv.
    unfold content. rewrite <- (firstn_skipn k chunks) at 2. replace (List.concat (skipn k chunks)) with (List.concat (firstn k chunks ++ skipn k chunks)); [apply Iv|]. now rewrite concat_app, Hn.
Qed.
Print Assumptions C88_seekable.
(** When that can happen: while the read still lacks bytes, counting what is
    buffered. *)
Theorem C88_seekable_when (eager : bool) (n k : nat) (data rem : bytes) (pos : nat) (chunks : list bytes) :
  (exists r', cancelled_seekable_read eager n k (mkSeek (mkBio data pos false) (Some (mkReader false rem (DIter chunks)))) = Some r')
  <-> (0 < n)%nat /\ (List.length data < pos + n)%nat /\ (k <= List.length chunks)%nat /\
      (forall j, ((if eager then 1 else 0) <= j <= k)%nat ->
         (List.length data + List.length rem + List.length (List.concat (firstn j chunks)) < pos + n)%nat).
Proof.
  unfold cancelled_seekable_read. cbn [s_src s_buf b_data b_pos b_closed negb andb].
  destruct (Nat.ltb_spec (List.length data) (pos + n)) as [A|A]; cbn [andb]; [|split; [intros (r' & E); discriminate E | lia]].
  destruct (Nat.eqb_spec n 0) as [->|B]; cbn [negb]; [split; [intros (r' & E); discriminate E | lia]|].
  destruct (C88_cancelled eager (pos + n - List.length data) k rem chunks) as [C _]. split.
  - intros (r' & E). destruct (cancelled_read eager _ k _) as [src'|] eqn:D; [|discriminate E].
    destruct (proj1 C (ex_intro _ src' eq_refl)) as [D1 D2]. repeat split; try lia. intros j J. specialize (D2 j J). lia.
  - intros (_ & _ & D1 & D2). destruct (proj2 C) as (src' & D); [split; [exact D1|]; intros j J; specialize (D2 j J); lia|].
    rewrite D. eauto.
Qed.
Print Assumptions C88_seekable_when.
(** So its position changes, even if no chunk was collected: here the two bytes
    read first are skipped. *)
Theorem C88_position_refuted :
  let r := s_after ar_read [FRead 2; FSeek 0 0]%Z (s_of_source (ar_of_chunks [[1;2];[3;4]]%N)) in
  s_tell r = Ok 0%nat
  /\ exists r', cancelled_seekable_read false 3 0 r = Some r' /\ s_run ar_read [FTell; FRead 3]%Z r' = [OPos 2; OBytes [3;4]]%N
       /\ s_run ar_read [FTell; FRead 3]%Z r = [OPos 0; OBytes [1;2;3]]%N.
Proof.
  split; [reflexivity|]. exists (mkSeek (mkBio [1;2]%N 2 false) (Some (mkReader false [] (DIter [[3;4]]%N)))). split; [reflexivity|]. split; reflexivity.
Qed.
Print Assumptions C88_position_refuted.
Example C88_seekable_ex : exists r',
  cancelled_seekable_read true 3 1 (mkSeek (mkBio [1]%N 1 false) (Some (mkReader false [] (DIter [[2];[3;4]]%N)))) = Some r'
  /\ s_run sg_read_n [FSeek 0 0; FRead (-1)]%Z r' = [OPos 0; OBytes [1;3;4]]%N.
Proof. exists (mkSeek (mkBio [1]%N 1 false) (Some (mkReader false [] (DIter [[3;4]]%N)))). split; reflexivity. Qed.
