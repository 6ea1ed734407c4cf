(** Properties of header lists (C21). *)
From Verif Require Import Base Base_Proofs PyText_Model PyText_Proofs Header_Model Header_Spec Header_Proofs.
Local Open Scope N_scope.

(** ** C21: header list values round trip *)

(** Splitting a header line yields exactly the values of the list syntax:
    nothing is invented, lost or reordered. *)
Theorem C21_exact : forall s vs, split_header s false = Ok vs <-> HeaderList s vs.
Proof. exact split_header_exact. Qed.
Print Assumptions C21_exact.
(** A line with a quoted value, an escaped quote and an empty element. *)
Example C21_exact_example :
  HeaderList (lit "a, ""b, \""c"", , d") [lit "a"; lit "b, ""c"; lit "d"].
Proof. apply C21_exact. vm_compute. reflexivity. Qed.

(** A line outside of the syntax raises. *)
Theorem C21_malformed : forall s, (forall vs, ~ HeaderList s vs) <-> split_header s false = Err SmithyErr.
Proof. exact split_header_error. Qed.
Print Assumptions C21_malformed.
(** An unterminated quote, and text after a closing quote. *)
Example C21_malformed_example :
  (forall vs, ~ HeaderList (lit "a, ""b") vs) /\ (forall vs, ~ HeaderList (lit """a"" b, c") vs).
Proof. split; apply C21_malformed; vm_compute; reflexivity. Qed.

(** Writing at least two values and splitting the line gives the values back. *)
Theorem C21_roundtrip : forall vs, (2 <= List.length vs)%nat -> Forall survives vs ->
  split_header (as_string vs) false = Ok vs.
Proof. exact list_roundtrip. Qed.
Print Assumptions C21_roundtrip.
Example C21_roundtrip_example : Forall survives [lit "a b"; lit " x, ""\"" "; lit "\"].
Proof.
  apply Forall_cons; [|apply Forall_cons; [|apply Forall_cons; [|apply Forall_nil]]].
  - right. split; [discriminate|]. split.
    + intros c r E. injection E as <- _. reflexivity.
    + intros r c E. change (lit "a b") with ([97; 32] ++ [98]) in E. apply app_inj_tail in E.
      destruct E as [_ <-]. reflexivity.
  - left. left. vm_compute. tauto.
  - right. split; [discriminate|]. split.
    + intros c r E. injection E as <- _. reflexivity.
    + intros r c E. change (lit "\") with ([] ++ [92]) in E. apply app_inj_tail in E.
      destruct E as [_ <-]. reflexivity.
Qed.

(** The same for lists of HTTP dates, which hold one bare comma each. *)
Theorem C21_dates : forall vs, Forall date_like vs -> vs <> [] ->
  split_header (join [44; 32] vs) true = Ok vs.
Proof. exact dates_roundtrip. Qed.
Print Assumptions C21_dates.
Example C21_dates_example :
  date_like (lit "Mon, 16 Dec 2019 23:48:18 GMT") /\
  split_header (lit "Mon, 16 Dec 2019 23:48:18 GMT, Tue, 17 Dec 2019 23:48:18 GMT") true
  = Ok [lit "Mon, 16 Dec 2019 23:48:18 GMT"; lit "Tue, 17 Dec 2019 23:48:18 GMT"].
Proof.
  split; [|vm_compute; reflexivity].
  exists (lit "Mon"), (lit " 16 Dec 2019 23:48:18 GMT").
  split; [reflexivity|]. split; [discriminate|].
  split; [vm_compute; intuition discriminate|]. split; [vm_compute; intuition discriminate|].
  split; [intros r; discriminate|]. split.
  - intros c r E. injection E as <- _. reflexivity.
  - intros r c E. change (lit "Mon, 16 Dec 2019 23:48:18 GMT") with (lit "Mon, 16 Dec 2019 23:48:18 GM" ++ [84]) in E.
    apply app_inj_tail in E. destruct E as [_ <-]. reflexivity.
Qed.

(** One value is written as it is, so that a list of one value does not come
    back if the value holds a comma, and raises if it starts with a bare quote. *)
Theorem C21_single_refuted :
  (exists v, survives v /\ exists vs, read_header_list false [as_string [v]] = Ok vs /\ vs <> [v]) /\
  (exists v, survives v /\ read_header_list false [as_string [v]] = Err SmithyErr).
Proof.
  split.
  - exists (lit "a,b"). split; [left; left; vm_compute; tauto|].
    exists [lit "a"; lit "b"]. split; [vm_compute; reflexivity|discriminate].
  - exists (lit """a"). split; [left; right; vm_compute; tauto|vm_compute; reflexivity].
Qed.
Print Assumptions C21_single_refuted.

(** The hypothesis of [C21_roundtrip] is needed: a value of blanks and a value
    with outer white space are not written quoted. *)
Theorem C21_blank_refuted :
  exists v w, split_header (as_string [v; w]) false = Ok [w] /\ w <> v.
Proof. exists [], (lit "a"). split; [vm_compute; reflexivity|discriminate]. Qed.
Print Assumptions C21_blank_refuted.
