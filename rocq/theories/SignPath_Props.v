(** C33: the paths that are signed. *)
From Verif Require Import Base Base_Proofs Utf8_Model Utf8_Proofs PyText_Model PyText_Proofs Sign_Model SignPath_Spec SignPath_Proofs.
From Verif Require Http_Spec Http_Proofs.
Local Open Scope N_scope.

(** C33: normalising removes every dot segment, of every path, in both modes. *)
Theorem C33_no_dot_segments path slashes : dot_free (remove_dot_segments path slashes).
Proof. apply dot_free_result. Qed.
Print Assumptions C33_no_dot_segments.
Example C33_no_dot_segments_ex : remove_dot_segments (lit "/a/./b/../../c/..") true = lit "/".
Proof. reflexivity. Qed.

(** C33: it is the algorithm of RFC 3986, which is a function, on every absolute
    path where nothing empty comes to stand right under the root after climbing
    above it. *)
Theorem C33_rfc3986 path : root_safe false 0 (split_on 47 path) ->
  forall r, Dots [] (47 :: path) r <-> r = remove_dot_segments (47 :: path) false.
Proof.
  intros F r. split; [intros D | intros ->; now apply rfc_remove].
  eapply dots_fun; [exact D | now apply rfc_remove].
Qed.
Print Assumptions C33_rfc3986.
(** In particular for paths that stay below the root, and for paths without empty
    segments. *)
Theorem C33_rfc3986_below path : stays_below 0 (split_on 47 path) ->
  forall r, Dots [] (47 :: path) r <-> r = remove_dot_segments (47 :: path) false.
Proof. intros H. now apply C33_rfc3986, stays_safe. Qed.
Print Assumptions C33_rfc3986_below.
Theorem C33_rfc3986_no_empty path : ~ In [] (split_on 47 path) ->
  forall r, Dots [] (47 :: path) r <-> r = remove_dot_segments (47 :: path) false.
Proof. intros H. now apply C33_rfc3986, full_safe. Qed.
Print Assumptions C33_rfc3986_no_empty.
Example C33_rfc3986_ex1 : stays_below 0 (split_on 47 (lit "a//b/../.")).
Proof. cbn. exact I. Qed.
Example C33_rfc3986_ex2 : ~ In [] (split_on 47 (lit "a/b/../../../c")) /\
  remove_dot_segments (lit "/a/b/../../../c") false = lit "/c".
Proof. split; [cbn; intros H; repeat destruct H as [H | H]; discriminate H || destruct H | reflexivity]. Qed.

(** C33: an absolute path stays absolute, and stays a directory or a file. *)
Theorem C33_absolute_partial path : root_safe false 0 (split_on 47 path) ->
  absolute (remove_dot_segments (47 :: path) false) /\
  (directory (47 :: path) -> List.last (split_on 47 (remove_dot_segments (47 :: path) false)) [] = []).
Proof. apply stays_absolute. Qed.
Print Assumptions C33_absolute_partial.
Example C33_absolute_ex : remove_dot_segments (lit "/a/b/..") false = lit "/a/" /\ directory (lit "/a/b/..").
Proof. split; [reflexivity | right; right; now left]. Qed.
(** Not of every path: an absolute path can become the empty text, and a slash
    more than the RFC drops can go missing. *)
Theorem C33_absolute_refuted : ~ (forall path, absolute path -> absolute (remove_dot_segments path false)).
Proof.
  intros H. destruct (H (lit "/../")) as [r E]; [now exists (lit "../")|]. discriminate E.
Qed.
Print Assumptions C33_absolute_refuted.
Theorem C33_rfc3986_refuted : ~ (forall path, Dots [] (47 :: path) (remove_dot_segments (47 :: path) false)).
Proof.
  intros H. specialize (H (lit "..//b")).
  assert (D : Dots [] (lit "/..//b") (lit "//b")).
  { eapply dots_step; [discriminate | reflexivity|]. eapply dots_step; [discriminate | reflexivity|].
    eapply dots_step; [discriminate | reflexivity|]. constructor. }
  assert (X := dots_fun _ _ _ H _ D). discriminate X.
Qed.
Print Assumptions C33_rfc3986_refuted.

(** C33: applying it twice equals applying it once. *)
Theorem C33_idempotent path :
  remove_dot_segments (remove_dot_segments path false) false = remove_dot_segments path false.
Proof. apply idempotent. Qed.
Print Assumptions C33_idempotent.
(** When consecutive slashes are replaced too, once they are gone. *)
Theorem C33_idempotent_slashes_partial path : single_slashes (remove_dot_segments path true) ->
  remove_dot_segments (remove_dot_segments path true) true = remove_dot_segments path true.
Proof.
  intros S. assert (D := dot_free_result path true). assert (N := normal_id _ D).
  unfold remove_dot_segments at 1. unfold remove_dot_segments at 1 in N. cbv zeta in *. rewrite N. now apply replace_id.
Qed.
Print Assumptions C33_idempotent_slashes_partial.
Example C33_idempotent_slashes_ex : remove_dot_segments (lit "/a//b/./c//") true = lit "/a/b/c/".
Proof. reflexivity. Qed.
(** The replacement is one pass: three slashes become two, then one. *)
Theorem C33_idempotent_slashes_refuted :
  ~ (forall path, remove_dot_segments (remove_dot_segments path true) true = remove_dot_segments path true).
Proof. intros H. specialize (H (lit "///")). discriminate H. Qed.
Print Assumptions C33_idempotent_slashes_refuted.

(** C33: the canonical path is the percent encoding of the normalised path, or
    the normalised path itself; a missing path is the root. *)
Theorem C33_canonical_path path p c : format_canonical_path path p = Ok c ->
  let path := match path with Some s => s | None => [47] end in
  if get_or true (sp_encode_path p)
  then Http_Spec.decode c = Some (remove_dot_segments path true)
       /\ (forall x, In x c -> is_unreserved x = true \/ x = 47 \/ x = 37)
  else c = remove_dot_segments path false.
Proof.
  unfold format_canonical_path. cbv zeta. change (get_or [47] path) with (match path with Some s => s | None => [47] end).
  destruct (get_or true (sp_encode_path p)); [|now intros [= <-]]. intros E. split.
  - eapply Http_Proofs.decode_urlquote; [exact Http_Proofs.safe_slash | exact E].
  - intros x I. destruct (urlquote_chars _ _ _ _ E I) as [A | [A | A]]; [now left | right; left; now destruct A as [<- | []] | now right; right].
Qed.
Print Assumptions C33_canonical_path.
Example C33_canonical_path_ex :
  format_canonical_path (Some (lit "/a b/../c%20d")) (mkSigProps [] [] None None None None) = Ok (lit "/c%2520d").
Proof. reflexivity. Qed.
