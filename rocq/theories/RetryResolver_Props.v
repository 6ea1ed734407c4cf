(** C92: what resolving a retry strategy gives, and who shares it. *)
From Verif Require Import Base RetryResolver_Model RetryResolver_Spec RetryResolver_Proofs.
From Coq Require Import ZArith Lia.

(** Every call of every resolver, whatever was resolved before, gives exactly one
    result, and it is the one the configuration of that call asks for. *)
Theorem C92_fits : forall calls i n g, nth_error calls i = Some (n, g) ->
  exists r, nth_error (resolve_all calls new_cache) i = Some r /\ Fits g r.
Proof.
  intros calls i n g H. destruct (nth_error (resolve_all calls new_cache) i) as [r|] eqn:R.
  - exists r. split; [reflexivity|]. eapply results_fit; eauto.
  - exfalso. apply nth_error_None in R. rewrite resolve_all_length in R.
    assert (i < List.length calls)%nat by (apply nth_error_Some; rewrite H; discriminate). lia.
Qed.
Print Assumptions C92_fits.

Definition x_calls : list (nat * given) :=
  [(0%nat, GivenNone); (0%nat, GivenOptions (mkOptions (lit "simple") (Some 2%Z))); (1%nat, GivenNone);
   (0%nat, GivenOptions (mkOptions (lit "standard") (Some 3%Z))); (0%nat, GivenStrategy 7);
   (0%nat, GivenOptions (mkOptions (lit "standard") (Some (-1)%Z)));
   (0%nat, GivenOptions (mkOptions (lit "standard") None)); (0%nat, GivenOther)].
Example C92_ex : resolve_all x_calls new_cache =
  [Ok (Made 0 Standard 3); Ok (Made 1 Simple 2); Ok (Made 2 Standard 3); Ok (Made 3 Standard 3); Ok (Own 7);
   Err ValueError; Ok (Made 0 Standard 3); Err TypeError].
Proof. vm_compute. reflexivity. Qed.

(** Two calls of the same resolver that mean the same options give the same
    strategy object, and so draw on the same retry quota (or both fail alike), as
    long as the calls between them, of all resolvers, ask for fewer than 128 other
    pairs of a resolver and options.  Without that bound it is false: see below. *)
Theorem C92_shared_partial : forall calls i j n g g' o others,
  nth_error calls i = Some (n, g) -> nth_error calls j = Some (n, g') -> (i < j)%nat ->
  asked g = Some o -> asked g' = Some o ->
  (List.length others < 128)%nat ->
  (forall m n' g'' o', (i < m < j)%nat -> nth_error calls m = Some (n', g'') -> asked g'' = Some o' ->
     (n', o') = (n, o) \/ In (n', o') others) ->
  nth_error (resolve_all calls new_cache) j = nth_error (resolve_all calls new_cache) i.
Proof.
  intros calls i j n g g' o others Hi Hj L A A' HL HM.
  destruct (C92_fits calls i n g Hi) as (r & R & _). destruct (C92_fits calls j n g' Hj) as (r' & R' & _).
  rewrite R, R'. f_equal. apply (shared calls i j n g g' o r r' others); assumption.
Qed.
Print Assumptions C92_shared_partial.

Example C92_shared_ex :
  nth_error (resolve_all x_calls new_cache) 6 = nth_error (resolve_all x_calls new_cache) 0.
Proof.
  apply (C92_shared_partial x_calls 0 6 0 GivenNone (GivenOptions (mkOptions (lit "standard") None)) (mkOptions (lit "standard") None)
    [(0%nat, mkOptions (lit "simple") (Some 2%Z)); (1%nat, mkOptions (lit "standard") None);
     (0%nat, mkOptions (lit "standard") (Some 3%Z)); (0%nat, mkOptions (lit "standard") (Some (-1)%Z))]);
    try reflexivity; [lia|cbn; lia|].
  intros m n' g'' o' Hm H A.
  destruct m as [|[|[|[|[|[|m]]]]]]; try lia; cbn in H; injection H as <- <-; cbn in A; try discriminate A; injection A as <-;
    cbn; intuition auto.
Qed.

(** No strategy that was made is ever given for another resolver or for other
    options: clients do not drain each other's retry quota. *)
Theorem C92_separate : forall calls i j n n' g g' id k k' m m',
  nth_error calls i = Some (n, g) -> nth_error calls j = Some (n', g') ->
  nth_error (resolve_all calls new_cache) i = Some (Ok (Made id k m)) ->
  nth_error (resolve_all calls new_cache) j = Some (Ok (Made id k' m')) ->
  n = n' /\ asked g = asked g'.
Proof.
  intros calls i j n n' g g' id k k' m m' Hi Hj R R'.
  destruct (owners_all calls [] new_cache new_good) as (final & _ & H).
  destruct (H _ _ _ _ _ _ Hi R) as (o & A & E). destruct (H _ _ _ _ _ _ Hj R') as (o' & A' & E').
  rewrite E in E'. injection E' as -> ->. rewrite A, A'. split; reflexivity.
Qed.
Print Assumptions C92_separate.

(** The cache is one for all resolvers and keeps 128 strategies: once 128 other
    clients have resolved theirs, a client's next call gets a new strategy, with a
    full retry quota. *)
Theorem C92_shared_refuted : ~ (forall calls i j n g,
  nth_error calls i = Some (n, g) -> nth_error calls j = Some (n, g) -> asked g <> None ->
  nth_error (resolve_all calls new_cache) j = nth_error (resolve_all calls new_cache) i).
Proof.
  intros H.
  specialize (H ((0%nat, GivenNone) :: map (fun i => (S i, GivenNone)) (seq 0 128) ++ [(0%nat, GivenNone)]) 0%nat 129%nat 0%nat GivenNone
    eq_refl eq_refl). vm_compute in H. assert (X : Some (mkOptions (lit "standard") None) <> None) by discriminate.
  specialize (H X). discriminate H.
Qed.
Print Assumptions C92_shared_refuted.
