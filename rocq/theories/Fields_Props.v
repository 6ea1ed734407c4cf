(** Properties of header collections (C22, C65). *)
From Verif Require Import Base Base_Proofs PyDict_Model PyDict_Proofs Fields_Model Fields_Spec Fields_Proofs FieldsMerge_Proofs.

(** ASCII lower casing, for the examples. *)
Definition low (s : text) : text :=
  map (fun c => if ((65 <=? c) && (c <=? 90))%N then (c + 32)%N else c) s.

(** ** C22: a case-insensitive ordered map *)

(** After any program, looking a name up gives the field last assigned under a
    name that folds to the same text, and iterating gives the fields in the
    order of first insertion: both read off the history of changes. *)
Theorem C22_history : forall lower fuel ops st, run lower fuel ops empty_state = Some st ->
  forall c name,
    get_item lower c name st = lookup (h_changes (history_of lower ops) c) (lower name) /\
    map Some (iterate c st) = h_fields (history_of lower ops) c.
Proof. exact fields_follow_history. Qed.
Print Assumptions C22_history.

Definition program : list op :=
  [ONewField (lit "A") [lit "1"] Header; ONewField (lit "B") [lit "2"] Header; ONewField (lit "a") [lit "3"] Trailer;
   ONewFields [0; 1]; OSetItem 0 (lit "A") 2; ODelItem 0 (lit "b"); OSetField 0 1].
Example C22_history_example : exists st, run low 9 program empty_state = Some st /\
  iterate 0 st = [2; 1] /\ get_item low 0 (lit "A") st = Some 2.
Proof. eexists. split; [vm_compute; reflexivity|]. split; reflexivity. Qed.

(** Names that fold to the same text are interchangeable. *)
Theorem C22_case : forall lower fuel ops st c n m, run lower fuel ops empty_state = Some st ->
  lower n = lower m ->
  get_item lower c n st = get_item lower c m st /\ contains lower c n st = contains lower c m st.
Proof. intros lower fuel ops st c n m _ E. unfold get_item, contains. rewrite E. split; reflexivity. Qed.
Print Assumptions C22_case.

(** There is at most one field per folded name, and every field is found under
    its own name. *)
Theorem C22_unique : forall lower fuel ops st c, run lower fuel ops empty_state = Some st ->
  NoDup (map (fun r => lower (name_of st r)) (iterate c st)) /\
  (forall r, In r (iterate c st) -> exists f, deref st r = Some f /\ get_item lower c (f_name f) st = Some r).
Proof.
  intros lower fuel ops st c H. apply run_Inv in H. split.
  - apply iterate_NoDup; exact H.
  - intros r Hr. apply iterate_name; assumption.
Qed.
Print Assumptions C22_unique.

(** Constructing a collection raises exactly when two names fold to the same
    text; assigning raises exactly when the key and the field's name differ. *)
Theorem C22_rejects : forall lower st rs c name r,
  ((exists st', new_fields lower rs st = Ok st') <-> NoDup (map (fun r => lower (name_of st r)) rs)) /\
  (new_fields lower rs st = Err ValueError <-> ~ NoDup (map (fun r => lower (name_of st r)) rs)) /\
  (set_item lower c name r st = Err ValueError <-> lower name <> lower (name_of st r)) /\
  (lower name = lower (name_of st r) -> exists st', set_item lower c name r st = Ok st').
Proof.
  intros lower st rs c name r. unfold new_fields, set_item.
  pose proof (has_dup_NoDup (map (fun r => lower (name_of st r)) rs)) as Hd.
  destruct (has_dup (map (fun r0 => lower (name_of st r0)) rs)).
  - repeat split.
    + intros (st' & E); discriminate E.
    + intros H. apply Hd in H. discriminate H.
    + intros _ H. apply Hd in H. discriminate H.
    + destruct (text_eqb (lower name) (lower (name_of st r))) eqn:E; [discriminate|].
      intros _. apply text_eqb_neq; exact E.
    + intros H. apply text_eqb_neq in H. rewrite H. reflexivity.
    + intros H. rewrite H, text_eqb_refl. eexists; reflexivity.
  - repeat split.
    + intros _. apply Hd; reflexivity.
    + intros _. eexists; reflexivity.
    + intros H; discriminate H.
    + intros H. exfalso. apply H, Hd. reflexivity.
    + destruct (text_eqb (lower name) (lower (name_of st r))) eqn:E; [discriminate|].
      intros _. apply text_eqb_neq; exact E.
    + intros H. apply text_eqb_neq in H. rewrite H. reflexivity.
    + intros H. rewrite H, text_eqb_refl. eexists; reflexivity.
Qed.
Print Assumptions C22_rejects.
Example C22_rejects_example : exists st, run low 9
    [ONewField (lit "A") [] Header; ONewField (lit "a") [] Header; ONewFields [0]] empty_state = Some st /\
  new_fields low [0; 1] st = Err ValueError /\ set_item low 0 (lit "b") 1 st = Err ValueError.
Proof. eexists. split; [vm_compute; reflexivity|]. split; vm_compute; reflexivity. Qed.

(** Removing a value removes every occurrence and nothing else. *)
Theorem C22_remove : forall v f,
  f_values (field_remove v f) = filter (fun x => negb (text_eqb x v)) (f_values f) /\
  f_name (field_remove v f) = f_name f /\ f_kind (field_remove v f) = f_kind f.
Proof.
  intros v f. split; [|split; reflexivity]. unfold field_remove. cbn [field_set f_values].
  assert (H : forall n l, (List.length l < n)%nat ->
            remove_loop n v l = filter (fun x => negb (text_eqb x v)) l).
  { assert (R : forall l, match remove_first v l with
                  | None => filter (fun x => negb (text_eqb x v)) l = l
                  | Some l' => List.length l = S (List.length l') /\
                      filter (fun x => negb (text_eqb x v)) l' = filter (fun x => negb (text_eqb x v)) l
                  end).
    { induction l as [|x l IH]; cbn [remove_first filter]; [reflexivity|].
      destruct (text_eqb x v) eqn:E; cbn [negb]; [split; reflexivity|].
      destruct (remove_first v l) as [l'|]; [|f_equal; exact IH].
      cbn [List.length filter]. rewrite E. cbn [negb]. destruct IH as [-> ->]. split; reflexivity. }
    induction n as [|n IH]; intros l Hl; [lia|]. cbn [remove_loop]. specialize (R l).
    destruct (remove_first v l) as [l'|]; [|symmetry; exact R].
    destruct R as [R1 R2]. rewrite IH by lia. exact R2. }
  apply H. lia.
Qed.
Print Assumptions C22_remove.
Example C22_remove_example :
  f_values (field_remove (lit "x") (mkField (lit "N") [lit "x"; lit "y"; lit "x"] Header)) = [lit "y"].
Proof. vm_compute. reflexivity. Qed.

(** Building a collection from pairs: one field per folded name, with all the
    values of the pairs of that name, in order. *)
Theorem C22_tuples : forall lower kind tuples,
  let d := tuples_loop lower kind tuples [] in
  NoDup (dict_keys d) /\ (forall k f, In (k, f) d -> k = lower (f_name f)) /\
  (forall name,
     match dict_get (lower name) d with
     | Some f => f_values f = map snd (filter (fun nv => text_eqb (lower name) (lower (fst nv))) tuples)
     | None => filter (fun nv => text_eqb (lower name) (lower (fst nv))) tuples = []
     end).
Proof.
  intros lower kind tuples d.
  destruct (tuples_loop_spec lower kind tuples []) as (A & B & C); [constructor|intros k f []|].
  split; [exact A|]. split; [exact B|]. intros name. specialize (C (lower name)). fold d in C.
  destruct (dict_get (lower name) d); [exact C|apply C].
Qed.
Print Assumptions C22_tuples.
Example C22_tuples_example :
  tuples_to_fields low Header [(lit "A", lit "1"); (lit "b", lit "2"); (lit "a", lit "3")]
  = [mkField (lit "A") [lit "1"; lit "3"] Header; mkField (lit "b") [lit "2"] Header].
Proof. vm_compute. reflexivity. Qed.

(** ** C65: merging collections *)

(** Merging collections without a common field object ends, appends the values
    of common names, adds the other fields at the end, and leaves what the other
    collection shows as it was. *)
Theorem C65_merge_partial : forall lower k ops st c d, run lower k ops empty_state = Some st ->
  (c < List.length (cols st))%nat -> unshared st c d ->
  exists N, forall fuel, (N <= fuel)%nat -> exists st', extend lower fuel c d st = Some st' /\
    (forall n, values_of lower st' c n =
       match values_of lower st c n, values_of lower st d n with
       | Some x, Some y => Some (x ++ y)
       | Some x, None => Some x
       | None, y => y
       end) /\
    (forall n, d <> c -> values_of lower st' d n = values_of lower st d n) /\
    iterate c st' = iterate c st ++ filter (fun r => negb (contains lower c (name_of st r) st)) (iterate d st).
Proof. intros lower k ops st c d H. apply run_Inv in H. apply extend_merges. exact H. Qed.
Print Assumptions C65_merge_partial.

Definition two_collections : list op :=
  [ONewField (lit "A") [lit "1"] Header; ONewField (lit "a") [lit "2"] Header; ONewField (lit "B") [lit "3"] Header;
   ONewFields [0]; ONewFields [1; 2]].
Example C65_merge_example : exists st, run low 9 two_collections empty_state = Some st /\ unshared st 0 1 /\
  exists st', extend low 9 0 1 st = Some st' /\
    values_of low st' 0 (lit "a") = Some [lit "1"; lit "2"] /\ values_of low st' 0 (lit "b") = Some [lit "3"].
Proof.
  eexists. split; [vm_compute; reflexivity|]. split.
  - intros r Hr Hr'. cbn in Hr, Hr'. destruct Hr as [<-|[]]. destruct Hr' as [H|[H|[]]]; discriminate H.
  - eexists. split; [vm_compute; reflexivity|]. split; vm_compute; reflexivity.
Qed.

(** Full statement: merging always ends.  A merge puts the other collection's
    field objects into this one, so that merging the same collection again never
    ends, whatever the number of steps. *)
Theorem C65_terminates_refuted :
  exists ops st, run low 9 ops empty_state = Some st /\ forall fuel, step low fuel (OExtend 0 1) st = None.
Proof.
  exists [ONewField (lit "A") [lit "1"] Header; ONewFields []; ONewFields [0]; OExtend 0 1].
  eexists. split; [vm_compute; reflexivity|]. intros fuel. cbn [step].
  rewrite (extend_shared_loops low _ 0 1 0 (mkField (lit "A") [lit "1"] Header)); try reflexivity.
  - apply (run_Inv low 9 [ONewField (lit "A") [lit "1"] Header; ONewFields []; ONewFields [0]; OExtend 0 1]).
    vm_compute. reflexivity.
  - left. reflexivity.
  - left. reflexivity.
  - discriminate.
  - intros x [<-|[]]. reflexivity.
Qed.
Print Assumptions C65_terminates_refuted.

(** Nor are the collections independent afterwards: a value added to the one
    shows in the other. *)
Theorem C65_independent_refuted :
  exists ops st r st', run low 9 ops empty_state = Some st /\
    get_item low 0 (lit "A") st = Some r /\ step low 9 (OAdd r (lit "2")) st = Some (st', None) /\
    values_of low st' 1 (lit "A") <> values_of low st 1 (lit "A").
Proof.
  exists [ONewField (lit "A") [lit "1"] Header; ONewFields []; ONewFields [0]; OExtend 0 1].
  eexists. exists 0%nat. eexists. split; [vm_compute; reflexivity|]. split; [reflexivity|].
  split; [vm_compute; reflexivity|]. discriminate.
Qed.
Print Assumptions C65_independent_refuted.
