(** Byte readers: properties C03, C28, C29. *)
From Verif Require Import Base EventStream_Model EventStream_Spec EventStream_Props
  Streams_Model Streams_Spec Streams_Proofs.

(** C03. Decoding events from an async source does not depend on how the bytes
    are cut into chunks: the consumer gets the same messages and the same final
    outcome as from the concatenated bytes, after finitely many calls. *)
Theorem C03_chunk_independent (chunks : list bytes) :
  exists fuel, async_decode_all fuel (ar_of_chunks chunks) = Some (decode_all (List.concat chunks)).
Proof.
  exists (S (List.length (List.concat chunks))).
  apply (async_decode_all_eq _ (ar_of_chunks chunks)); [apply ar_of_chunks_open|cbn; lia].
Qed.
Print Assumptions C03_chunk_independent.

(** ... and so each single call: same event, and the unread rest is the same. *)
Theorem C03_single_event (chunks : list bytes) :
  match decode_event_from ar_read (ar_of_chunks chunks) with
  | Ok (ev, r) => exists rest, decode_event (List.concat chunks) = Ok (ev, rest) /\
                    forall sizes, ar_reads r sizes = map Ok (file_reads rest sizes)
  | Err e => decode_event (List.concat chunks) = Err e
  end.
Proof.
  pose proof (decode_async_refines (ar_of_chunks chunks) (ar_of_chunks_open chunks)) as H.
  destruct (decode_event_from ar_read (ar_of_chunks chunks)) as [[ev r]|e]; [|exact H].
  destruct H as [H Ho]. exists (ar_content r). split; [exact H|].
  intros sizes. apply ar_reads_file, Ho.
Qed.
Print Assumptions C03_single_event.
(** A frame cut in three, with an empty chunk, decodes. *)
Example ex_C03 :
  async_decode_all 3 (ar_of_chunks [firstn 5 ex_frame; []; firstn 20 (skipn 5 ex_frame); skipn 25 ex_frame])
  = Some ([ex_message], None).
Proof. vm_compute. reflexivity. Qed.

(** C28. Any sequence of reads from a reader over a chunk iterator (or over bytes)
    returns what the same reads from the concatenated bytes return. *)
Theorem C28_chunks (chunks : list bytes) (sizes : list Z) :
  ar_reads (ar_of_chunks chunks) sizes = map Ok (file_reads (List.concat chunks) sizes).
Proof. exact (ar_reads_file (ar_of_chunks chunks) sizes (ar_of_chunks_open chunks)). Qed.
Print Assumptions C28_chunks.
Theorem C28_bytes (content : bytes) (sizes : list Z) :
  ar_reads (ar_of_bytes content) sizes = map Ok (file_reads content sizes).
Proof. exact (ar_reads_file (ar_of_bytes content) sizes (ar_of_bytes_open content)). Qed.
Print Assumptions C28_bytes.
Example ex_C28 : ar_reads (ar_of_chunks [[1;2];[];[3;4;5];[6]]%N) [1; 3; 0; -1; 4]%Z
  = [Ok [1]; Ok [2;3;4]; Ok []; Ok [5;6]; Ok []]%N.
Proof. reflexivity. Qed.

(** Iterating with a chunk size ends and yields non-empty pieces that concatenate
    to the whole content, all of the requested size except the last. *)
Theorem C28_iteration (chunks : list bytes) (k : Z) (Hk : (0 < k)%Z) :
  exists fuel pieces r, iter_pieces ar_read fuel k (ar_of_chunks chunks) = Some (Ok (pieces, r)) /\
    List.concat pieces = List.concat chunks /\
    Forall (fun p => p <> []) pieces /\
    (forall pre p q post, pieces = pre ++ p :: q :: post -> List.length p = Z.to_nat k).
Proof.
  destruct (iter_pieces_terminates (S (List.length (List.concat chunks))) k (ar_of_chunks chunks)
    (ar_of_chunks_open chunks) ltac:(lia) ltac:(cbn; lia)) as (out & r' & E).
  exists (S (List.length (List.concat chunks))), out, r'. split; [exact E|].
  destruct (iter_pieces_spec _ _ _ _ _ (ar_of_chunks_open chunks) E ltac:(lia)) as (H1 & _ & H3).
  split; [exact H1|]. split; [exact H3|]. intros pre p q post Hp.
  exact (iter_pieces_sizes _ _ _ _ _ (ar_of_chunks_open chunks) E Hk p q pre (or_intror (ex_intro _ post Hp))).
Qed.
Print Assumptions C28_iteration.
Example ex_C28_iteration : exists r,
  iter_pieces ar_read 5 2 (ar_of_chunks [[1];[2;3];[4;5]]%N) = Some (Ok ([[1;2];[3;4];[5]]%N, r)).
Proof. eexists. reflexivity. Qed.

(** A closed reader refuses every read. *)
Theorem C28_closed (r : areader) (sizes : list Z) :
  ar_reads (ar_close r) sizes = map (fun _ => Err ValueError) sizes.
Proof. exact (ar_closed_reads r sizes). Qed.
Print Assumptions C28_closed.

(** Reading a whole async stream at once gives the concatenation of its chunks. *)
Theorem C28_read_blob (chunks : list bytes) : read_blob_iter [] chunks = List.concat chunks.
Proof. exact (read_blob_iter_concat [] chunks). Qed.
Print Assumptions C28_read_blob.

(** The property fails for an async iterable that can be iterated more than once:
    each read starts it again, so data is read twice. *)
Theorem C28_restarting_iterable_refuted :
  exists chunks sizes,
    ar_reads (mkReader false [] (DRestart chunks)) sizes <> map Ok (file_reads (List.concat chunks) sizes) /\
    ar_reads (mkReader false [] (DRestart chunks)) [2; 2]%Z = [Ok [1;2]; Ok [1;2]]%N.
Proof. exists [[1;2];[3;4]]%N, [2;2]%Z. split; [discriminate|reflexivity]. Qed.
Print Assumptions C28_restarting_iterable_refuted.

(** C29. Over any chunk iterator, every script of reads,
    seeks (whence 0, 1, 2; never to a negative position) and tells on a seekable
    reader observes what it would on an in-memory file. *)
Theorem C29_like_a_file (chunks : list bytes) (ops : list fop) :
  file_ok (List.concat chunks) 0 ops ->
  s_run ar_read ops (s_of_source (ar_of_chunks chunks)) = file_run (List.concat chunks) 0 ops.
Proof.
  intros H. apply (s_run_file ar_read ar_content ar_open) with (total := List.concat chunks).
  - intros n r Hr. exact (ar_read_refines n r Hr).
  - exact (inv_source ar_content ar_open (ar_of_chunks chunks) (ar_of_chunks_open chunks)).
  - exact H.
Qed.
Print Assumptions C29_like_a_file.
Definition ex_ops : list fop :=
  [FRead 2; FTell; FSeek 1 0; FRead 3; FSeek (-1) 2; FRead 9; FSeek (-2) 1; FRead (-1); FSeek 10 0; FRead 1; FTell].
Example ex_C29_ok : file_ok [1;2;3;4;5;6]%N 0 ex_ops.
Proof. cbv. repeat split; auto; discriminate. Qed.
Example ex_C29 : s_run ar_read ex_ops (s_of_source (ar_of_chunks [[1;2;3];[4];[5;6]]%N)) =
  [OBytes [1;2]; OPos 2; OPos 1; OBytes [2;3;4]; OPos 5; OBytes [6]; OPos 4; OBytes [5;6]; OPos 10; OBytes []; OPos 10]%N.
Proof. reflexivity. Qed.

(** The same over any source object whose reads return what reads of some byte
    string would, and over bytes. *)
Theorem C29_any_exact_source {S : Type} (sread : Z -> S -> result (bytes * S)) (content : S -> bytes) (good : S -> Prop)
    (Hread : forall n s, good s -> exists s', sread n s = Ok (hd [] (file_reads (content s) [n]), s') /\
       content s' = (if Z.ltb n 0 then [] else skipn (Z.to_nat n) (content s)) /\ good s')
    (s : S) (ops : list fop) :
  good s -> file_ok (content s) 0 ops ->
  s_run sread ops (s_of_source s) = file_run (content s) 0 ops.
Proof.
  intros Hs H. apply (s_run_file sread content good) with (total := content s).
  - intros n r Hr. destruct (Hread n r Hr) as (s' & E & Ec & Hg). exists s'.
    rewrite E, Ec. unfold src_read. cbn [file_reads hd]. destruct (Z.ltb n 0); auto.
  - exact (inv_source content good s Hs).
  - exact H.
Qed.
Print Assumptions C29_any_exact_source.
Theorem C29_bytes (content : bytes) (ops : list fop) :
  file_ok content 0 ops ->
  s_run ar_read ops (s_of_bytes content) = file_run content 0 ops.
Proof.
  intros H. apply (s_run_file ar_read ar_content ar_open) with (total := content).
  - intros n r Hr. exact (ar_read_refines n r Hr).
  - unfold inv, s_of_bytes. cbn. auto using app_nil_r.
  - exact H.
Qed.
Print Assumptions C29_bytes.
(** A closed seekable reader refuses everything. *)
Theorem C29_closed (r : sreader areader) (ops : list fop) :
  s_run ar_read ops (s_close r) = map (fun _ => ORaised ValueError) ops.
Proof.
  induction ops as [|[n|o w|] ops IH]; cbn; [reflexivity| | |]; f_equal; exact IH.
Qed.
Print Assumptions C29_closed.

(** The restriction to non-negative positions is needed: a relative seek before
    the start raises where an in-memory file clamps to the start, and moves the
    cursor to the end of the buffered data although it failed. *)
Theorem C29_negative_seek_refuted :
  exists (content : bytes),
    s_run ar_read [FRead 2; FSeek 1 0; FSeek (-5) 1; FTell] (s_of_source (ar_of_chunks [content]))
      = [OBytes (firstn 2 content); OPos 1; ORaised ValueError; OPos 2] /\
    bio_seek (-5) 1 (mkBio content 1 false) = Ok (0%nat, mkBio content 0 false).
Proof. exists [1;2;3;4]%N. split; reflexivity. Qed.
Print Assumptions C29_negative_seek_refuted.

(** So is the assumption that the source returns as many bytes as asked for while
    it has them: one that may return fewer (as any stream's [read] may) is taken
    to be at its end, and the rest of the data is lost. *)
Theorem C29_short_reads_refuted :
  let short (n : Z) (s : bytes) : result (bytes * bytes) := Ok (firstn 1 s, skipn 1 s) in
  exists (content : bytes),
    s_run short [FRead 2; FRead 2; FRead 2] (s_of_source content)
      = [OBytes [1]; OBytes []; OBytes []]%N /\ content = [1;2;3]%N.
Proof. exists [1;2;3]%N. split; reflexivity. Qed.
Print Assumptions C29_short_reads_refuted.
