(** Proofs about requests as objects. *)
From Verif Require Import Base Base_Proofs PyText_Model PyDict_Model PyDict_Proofs Fields_Model Fields_Proofs Attempt_Model Attempt_Spec.
From Verif Require EventIO_Model Sign_Model.
From Coq Require Import Lia.
Import Sign_Model (body, NoBody, Seek, Once, Many, OtherKind, uri, sigprops, ident).

Notation len := List.length.

(** ** Lists *)
Lemma nth_Some {A} (l : list A) i x d : nth_error l i = Some x -> nth i l d = x.
Proof. apply nth_error_nth. Qed.
Lemma lt_of {A} (l : list A) i x : nth_error l i = Some x -> (i < len l)%nat.
Proof. intros H. apply nth_error_Some. rewrite H. discriminate. Qed.
Lemma app_old {A} (l m : list A) i x : nth_error l i = Some x -> nth_error (l ++ m) i = Some x.
Proof. intros H. rewrite nth_error_app1; [exact H|]. eapply lt_of; eauto. Qed.
Lemma app_new {A} (l : list A) x : nth_error (l ++ [x]) (len l) = Some x.
Proof. rewrite nth_error_app2 by lia. rewrite Nat.sub_diag. reflexivity. Qed.
Lemma update_at {A} (l : list A) i x y : nth_error l i = Some y -> nth_error (update i x l) i = Some x.
Proof.
  intros H. rewrite nth_error_update, Nat.eqb_refl. apply lt_of in H. apply Nat.ltb_lt in H. rewrite H. reflexivity.
Qed.
Lemma update_off {A} (l : list A) i j x : i <> j -> nth_error (update i x l) j = nth_error l j.
Proof.
  intros H. rewrite nth_error_update. destruct (Nat.eqb_spec i j); [contradiction|reflexivity].
Qed.

Lemma entries_at st c es : nth_error (cols st) c = Some es -> entries_of st c = es.
Proof. intros H. unfold entries_of. exact (nth_error_nth _ _ _ H). Qed.

(** ** What is seen *)
Definition see (f : field) : Sign_Model.field := Sign_Model.mkField (f_name f) (f_values f).

Lemma fields_seen_shown st c es fs : nth_error (cols st) c = Some es -> fields_seen (heap st) es = Some fs ->
  shown_fields st c = fs.
Proof.
  intros Hc. unfold shown_fields. rewrite (entries_at _ _ _ Hc). clear Hc.
  revert fs. induction es as [|[k r] es IH]; intros fs; cbn [fields_seen map fst snd].
  - intros [= <-]. reflexivity.
  - destruct (nth_error (heap st) r) as [f|] eqn:E; [|discriminate].
    destruct (fields_seen (heap st) es) as [fs'|]; [|discriminate]. intros [= <-].
    rewrite (IH _ eq_refl). unfold field_at. rewrite (nth_Some _ _ _ _ E). reflexivity.
Qed.
Lemma fields_seen_mono h h' es fs : (forall r x, nth_error h r = Some x -> nth_error h' r = Some x) ->
  fields_seen h es = Some fs -> fields_seen h' es = Some fs.
Proof.
  intros M. revert fs. induction es as [|[k r] es IH]; intros fs; cbn [fields_seen]; [auto|].
  destruct (nth_error h r) as [f|] eqn:E; [|discriminate]. rewrite (M _ _ E).
  destruct (fields_seen h es) as [fs'|]; [|discriminate]. rewrite (IH _ eq_refl). auto.
Qed.
Lemma fields_seen_set h es fs k r f : fields_seen h es = Some fs -> nth_error h r = Some f ->
  fields_seen h (dict_set k r es) = Some (dict_set k (see f) fs).
Proof.
  intros H E. revert fs H. induction es as [|[k' r'] es IH]; intros fs; cbn [fields_seen dict_set].
  - intros [= <-]. cbn [fields_seen]. rewrite E. reflexivity.
  - destruct (nth_error h r') as [g|] eqn:E'; [|discriminate].
    destruct (fields_seen h es) as [fs'|] eqn:Es; [|discriminate]. intros [= <-]. cbn [dict_set].
    destruct (text_eqb k k'); cbn [fields_seen].
    + rewrite E, Es. reflexivity.
    + rewrite E', (IH _ eq_refl). reflexivity.
Qed.
Lemma fields_seen_get h es fs k : fields_seen h es = Some fs ->
  match dict_get k es with
  | Some r => exists f, nth_error h r = Some f /\ dict_get k fs = Some (see f)
  | None => dict_get k fs = None
  end.
Proof.
  revert fs. induction es as [|[k' r] es IH]; intros fs; cbn [fields_seen dict_get].
  - intros [= <-]. reflexivity.
  - destruct (nth_error h r) as [f|] eqn:E; [|discriminate].
    destruct (fields_seen h es) as [fs'|]; [|discriminate]. intros [= <-]. cbn [dict_get].
    destruct (text_eqb k k'); [exists f; auto|apply IH; reflexivity].
Qed.

(** A request that is seen, in parts. *)
Record parts (s : store) (q : ref) (r : Sign_Model.request) (rq : robj) (es : entries) : Prop := mkParts {
  pt_req : nth_error (s_reqs s) q = Some rq;
  pt_col : nth_error (cols (s_state s)) (q_fields rq) = Some es;
  pt_body : nth_error (s_bodies s) (q_body rq) = Some (Sign_Model.r_body r);
  pt_fields : fields_seen (heap (s_state s)) es = Some (Sign_Model.r_fields r);
  pt_dest : q_dest rq = Sign_Model.r_dest r;
  pt_method : q_method rq = Sign_Model.r_method r }.
Lemma seen_parts s q r : request_seen s q = Some r <-> exists rq es, parts s q r rq es.
Proof.
  unfold request_seen. split.
  - destruct (nth_error (s_reqs s) q) as [rq|] eqn:E1; [|discriminate].
    destruct (nth_error (cols (s_state s)) (q_fields rq)) as [es|] eqn:E2; [|discriminate].
    destruct (nth_error (s_bodies s) (q_body rq)) as [b|] eqn:E3; [|discriminate].
    destruct (fields_seen (heap (s_state s)) es) as [fs|] eqn:E4; [|discriminate].
    intros [= <-]. exists rq, es. constructor; auto.
  - intros (rq & es & [A B C D E F]). rewrite A, B, C, D, E, F. destruct r; reflexivity.
Qed.

Definition with_fields (r : Sign_Model.request) fs : Sign_Model.request :=
  Sign_Model.mkRequest (Sign_Model.r_dest r) (Sign_Model.r_method r) (Sign_Model.r_body r) fs.

(** ** The request that is being signed *)

(** [q] is new since [s0], its headers [c] as well; [bx] is the body of the
    caller if it is shared, which holds [old]. *)
Record J (s0 : store) (bx : option ref) (old : body) (q c : ref) (s : store) (r : Sign_Model.request) : Prop := mkJ {
  J_seen : request_seen s q = Some r;
  J_c : q_fields (req_at s q) = c;
  J_new : forall k x, In (k, x) (entries_of (s_state s) c) -> (len (heap (s_state s0)) <= x)%nat;
  J_old : untouched bx s0 s;
  J_q : (len (s_reqs s0) <= q)%nat;
  J_col : (len (cols (s_state s0)) <= c)%nat;
  J_heap : (len (heap (s_state s0)) <= len (heap (s_state s)))%nat;
  J_bodies : (len (s_bodies s0) <= len (s_bodies s))%nat;
  J_body : forall b, bx = Some b -> nth_error (s_bodies s) b = Some old }.

Section Sim.
  Variables (lower upper : text -> text) (sha256 : bytes -> bytes) (hmac : bytes -> bytes -> bytes)
    (utf8_replace : bytes -> text) (async : bool) (copyable : ref -> bool).

  Lemma set_new_field c name vs st : nth_error (cols st) c <> None ->
    set_field lower c (len (heap st)) (mkState (heap st ++ [mkField name vs Header]) (cols st))
    = Ok (mkState (heap st ++ [mkField name vs Header])
                  (update c (dict_set (lower name) (len (heap st)) (entries_of st c)) (cols st))).
  Proof.
    intros _. unfold set_field, set_item, name_of, deref. cbn [heap].
    rewrite app_new. cbn [f_name]. rewrite text_eqb_refl. reflexivity.
  Qed.

  Lemma put_J s0 bx old q c s r name vs : J s0 bx old q c s r ->
    exists s', put lower q name vs s = (Ok tt, s') /\
      J s0 bx old q c s' (with_fields r (Sign_Model.set_field lower (Sign_Model.mkField name vs) (Sign_Model.r_fields r))) /\
      s_bodies s' = s_bodies s /\ s_reqs s' = s_reqs s.
  Proof.
    intros [Js Jc Jn Jo Jq Jl Jh Jb Jx]. apply seen_parts in Js. destruct Js as (rq & es & [A B C D E F]).
    unfold put. assert (Erq : req_at s q = rq) by (unfold req_at; apply nth_Some; exact A).
    rewrite Erq in *. subst c. rewrite set_new_field by (rewrite B; discriminate).
    eexists; split; [reflexivity|]. split; [|split; reflexivity].
    assert (Ees : entries_of (s_state s) (q_fields rq) = es) by (apply entries_at; exact B).
    assert (Hc : nth_error (update (q_fields rq) (dict_set (lower name) (len (heap (s_state s))) es) (cols (s_state s)))
                   (q_fields rq) = Some (dict_set (lower name) (len (heap (s_state s))) es))
      by (eapply update_at; exact B).
    rewrite Ees.
    constructor; cbn [s_reqs s_state s_bodies set_state heap cols].
    - apply seen_parts. exists rq. eexists. constructor; cbn [s_reqs s_state s_bodies set_state heap cols with_fields
        Sign_Model.r_body Sign_Model.r_fields Sign_Model.r_dest Sign_Model.r_method]; [exact A|exact Hc|exact C| |exact E|exact F].
      unfold Sign_Model.set_field. cbn [Sign_Model.f_name].
      rewrite (fields_seen_set _ _ (Sign_Model.r_fields r) _ _ (mkField name vs Header)).
      + reflexivity.
      + eapply fields_seen_mono; [|exact D]. intros x f Hx. apply app_old. exact Hx.
      + apply app_new.
    - unfold req_at; cbn [s_reqs set_state]. rewrite (nth_Some _ _ _ _ A). reflexivity.
    - rewrite (entries_at (mkState _ _) _ _ Hc). intros k x Hx. apply dict_set_In in Hx.
      destruct Hx as [[= -> ->]|Hx]; [exact Jh|]. apply (Jn k x). rewrite Ees. exact Hx.
    - destruct Jo as [O1 O2 O3 O4]. constructor; cbn [s_reqs s_state s_bodies set_state heap cols].
      + exact O1.
      + intros d x Hx. rewrite update_off; [auto|]. apply lt_of in Hx. lia.
      + intros y x Hx. apply app_old. auto.
      + exact O4.
    - exact Jq.
    - exact Jl.
    - rewrite app_length. lia.
    - exact Jb.
    - exact Jx.
  Qed.

  Lemma has_J s0 bx old q c s r name : J s0 bx old q c s r ->
    has_field lower q name s = (Ok (Sign_Model.in_fields lower name (Sign_Model.r_fields r)), s).
  Proof.
    intros [Js _ _ _ _ _ _ _ _]. apply seen_parts in Js. destruct Js as (rq & es & [A B C D E F]).
    unfold has_field, req_at, contains, Sign_Model.in_fields, dict_has.
    rewrite (nth_Some _ _ _ _ A), (entries_at _ _ _ B).
    pose proof (fields_seen_get _ _ _ (lower name) D) as G.
    destruct (dict_get (lower name) es); [destruct G as (f & _ & ->)|rewrite G]; reflexivity.
  Qed.
  Lemma values_J s0 bx old q c s r name : J s0 bx old q c s r ->
    field_values lower q name s = (Ok (match Sign_Model.get_field lower name (Sign_Model.r_fields r) with
                                       | Some f => Some (Sign_Model.f_values f) | None => None end), s).
  Proof.
    intros [Js _ _ _ _ _ _ _ _]. apply seen_parts in Js. destruct Js as (rq & es & [A B C D E F]).
    unfold field_values, req_at, get_item, Sign_Model.get_field.
    rewrite (nth_Some _ _ _ _ A), (entries_at _ _ _ B).
    pose proof (fields_seen_get _ _ _ (lower name) D) as G.
    destruct (dict_get (lower name) es); [destruct G as (f & Hf & ->)|rewrite G; reflexivity].
    unfold field_at. rewrite (nth_Some _ _ _ _ Hf). reflexivity.
  Qed.
  Lemma signing_J s0 bx old q c s r : J s0 bx old q c s r ->
    signing_fields lower q s =
      (Ok (Sign_Model.normalize_signing_fields lower (Sign_Model.r_dest r) (Sign_Model.r_fields r)), s).
  Proof.
    intros [Js _ _ _ _ _ _ _ _]. apply seen_parts in Js. destruct Js as (rq & es & [A B C D E F]).
    unfold signing_fields, req_at. rewrite (nth_Some _ _ _ _ A), E.
    rewrite (fields_seen_shown _ _ _ _ B D). reflexivity.
  Qed.
  Lemma at_J s0 bx old q c s r : J s0 bx old q c s r ->
    q_dest (req_at s q) = Sign_Model.r_dest r /\ q_method (req_at s q) = Sign_Model.r_method r.
  Proof.
    intros [Js _ _ _ _ _ _ _ _]. apply seen_parts in Js. destruct Js as (rq & es & [A B C D E F]).
    unfold req_at. rewrite (nth_Some _ _ _ _ A). auto.
  Qed.

  Lemma required_J s0 bx old q c s r date i : J s0 bx old q c s r ->
    exists s', apply_required lower q date i s = (Ok tt, s') /\
      J s0 bx old q c s' (with_fields r (Sign_Model.apply_required_fields lower date i (Sign_Model.r_fields r))) /\
      s_bodies s' = s_bodies s /\ s_reqs s' = s_reqs s.
  Proof.
    intros H. unfold apply_required, seq. rewrite (has_J _ _ _ _ _ _ _ _ H). rewrite (has_J _ _ _ _ _ _ _ _ H).
    unfold Sign_Model.apply_required_fields.
    set (cond := (negb (Sign_Model.in_fields lower (lit "Date") (Sign_Model.r_fields r))
                  && negb (Sign_Model.in_fields lower (lit "X-Amz-Date") (Sign_Model.r_fields r)))%bool).
    assert (X : exists s1, (if cond then put lower q (lit "X-Amz-Date") [date] else ret tt) s = (Ok tt, s1) /\
      J s0 bx old q c s1 (with_fields r (if cond then Sign_Model.set_field lower
             (Sign_Model.mkField (lit "X-Amz-Date") [date]) (Sign_Model.r_fields r) else Sign_Model.r_fields r)) /\
      s_bodies s1 = s_bodies s /\ s_reqs s1 = s_reqs s).
    { destruct cond.
      - apply put_J. exact H.
      - exists s. split; [reflexivity|]. split; [|split; reflexivity]. destruct r; exact H. }
    clearbody cond. destruct X as (s1 & -> & H1 & B1 & R1).
    set (fs := if cond then _ else _) in *. clearbody fs.
    destruct (Sign_Model.i_token i) as [token|].
    - rewrite (has_J _ _ _ _ _ _ _ _ H1). cbn [with_fields Sign_Model.r_fields].
      destruct (negb (Sign_Model.in_fields lower (lit "X-Amz-Security-Token") fs)).
      + destruct (put_J _ _ _ _ _ _ _ (lit "X-Amz-Security-Token") [token] H1) as (s2 & E2 & H2 & B2 & R2).
        exists s2. split; [exact E2|]. split; [exact H2|]. split; congruence.
      + exists s1. split; [reflexivity|]. split; [exact H1|]. split; congruence.
    - exists s1. split; [reflexivity|]. split; [exact H1|]. split; congruence.
  Qed.

  Definition with_body (r : Sign_Model.request) b : Sign_Model.request :=
    Sign_Model.mkRequest (Sign_Model.r_dest r) (Sign_Model.r_method r) b (Sign_Model.r_fields r).
  Definition body_known (s0 : store) (bx : option ref) (s : store) (q : ref) : Prop :=
    bx = Some (q_body (req_at s q)) \/ (bx = None /\ (len (s_bodies s0) <= q_body (req_at s q))%nat).

  (** Changing the contents of the body of the request. *)
  Lemma set_body_J s0 bx q c s r x : J s0 bx (Sign_Model.r_body r) q c s r -> body_known s0 bx s q ->
    J s0 bx x q c (snd (set_body (q_body (req_at s q)) x s)) (with_body r x).
  Proof.
    intros [Js Jc Jn Jo Jq Jl Jh Jb Jx] K. apply seen_parts in Js. destruct Js as (rq & es & [A B C D E F]).
    assert (Erq : req_at s q = rq) by (unfold req_at; apply nth_Some; exact A).
    unfold body_known in K. rewrite Erq in *.
    assert (Hb : nth_error (update (q_body rq) x (s_bodies s)) (q_body rq) = Some x) by (eapply update_at; exact C).
    constructor; cbn [set_body snd s_reqs s_state s_bodies].
    - apply seen_parts. exists rq, es. constructor; cbn; auto.
    - unfold req_at; cbn [s_reqs]. rewrite (nth_Some _ _ _ _ A). exact Jc.
    - exact Jn.
    - destruct Jo as [O1 O2 O3 O4]. constructor; cbn [s_reqs s_state s_bodies]; auto.
      intros b y Hne Hy. rewrite update_off; [auto|]. intros <-.
      destruct K as [->|[-> K]]; [apply Hne; reflexivity|]. apply lt_of in Hy. lia.
    - exact Jq.
    - exact Jl.
    - exact Jh.
    - rewrite update_length. exact Jb.
    - intros b Eb. destruct K as [K|[K _]]; [|congruence]. rewrite Eb in K. injection K as ->. exact Hb.
  Qed.
  Lemma new_body_J s0 bx old q c s r x : J s0 bx old q c s r ->
    J s0 bx old q c (snd (new_body q x s)) (with_body r x).
  Proof.
    intros [Js Jc Jn Jo Jq Jl Jh Jb Jx]. apply seen_parts in Js. destruct Js as (rq & es & [A B C D E F]).
    assert (Erq : req_at s q = rq) by (unfold req_at; apply nth_Some; exact A).
    rewrite Erq in *. unfold new_body. rewrite Erq. cbn [snd].
    set (rq' := mkRobj (q_dest rq) (q_method rq) (len (s_bodies s)) (q_fields rq)).
    assert (Hq : nth_error (update q rq' (s_reqs s)) q = Some rq') by (eapply update_at; exact A).
    constructor; cbn [s_reqs s_state s_bodies].
    - apply seen_parts. exists rq', es. constructor; cbn [s_reqs s_state s_bodies rq' q_fields q_body q_dest q_method
        with_body Sign_Model.r_body Sign_Model.r_fields Sign_Model.r_dest Sign_Model.r_method];
        [exact Hq|exact B|apply app_new|exact D|exact E|exact F].
    - unfold req_at; cbn [s_reqs]. rewrite (nth_Some _ _ _ _ Hq). exact Jc.
    - exact Jn.
    - destruct Jo as [O1 O2 O3 O4]. constructor; cbn [s_reqs s_state s_bodies]; auto.
      + intros y z Hy. rewrite update_off; [auto|]. apply lt_of in Hy. lia.
      + intros b y Hne Hy. apply app_old. auto.
    - exact Jq.
    - exact Jl.
    - exact Jh.
    - rewrite app_length. lia.
    - intros b Eb. apply app_old. auto.
  Qed.

  Lemma compute_J s0 bx q c s r p : J s0 bx (Sign_Model.r_body r) q c s r -> body_known s0 bx s q ->
    let (old', res) := Sign_Model.compute_payload_hash sha256 (Sign_Model.r_dest r) p (Sign_Model.r_body r) in
    exists s' r', compute_hash sha256 q p s = (do '(h, _) <- res; Ok h, s') /\ J s0 bx old' q c s' r' /\
      match res with Ok (_, b') => r' = with_body r b' | Err _ => True end.
  Proof.
    intros H K. pose proof (at_J _ _ _ _ _ _ _ H) as [Ed _].
    assert (Eb : body_at s (q_body (req_at s q)) = Sign_Model.r_body r).
    { pose proof (J_seen _ _ _ _ _ _ _ H) as Js. apply seen_parts in Js. destruct Js as (rq & es & [A B C D E F]).
      unfold body_at, req_at. rewrite (nth_Some _ _ _ _ A). apply nth_Some. exact C. }
    assert (Er : with_body r (Sign_Model.r_body r) = r) by (destruct r; reflexivity).
    unfold Sign_Model.compute_payload_hash, compute_hash. rewrite Ed, Eb.
    destruct (negb (Sign_Model.should_sign_payload (Sign_Model.r_dest r) p)).
    { exists s, r. split; [reflexivity|]. split; [exact H|]. symmetry; exact Er. }
    destruct (Sign_Model.r_body r) as [|data pos|cs|cs|] eqn:Er0; cbn [bind].
    - exists s, r. split; [reflexivity|]. split; [exact H|]. symmetry; exact Er.
    - eexists. exists (with_body r (Seek data pos)). split; [reflexivity|]. split; [|reflexivity].
      apply set_body_J; [rewrite Er0; exact H|exact K].
    - assert (H1 : J s0 bx (Once []) q c (snd (set_body (q_body (req_at s q)) (Once []) s)) (with_body r (Once [])))
        by (apply set_body_J; [rewrite Er0; exact H|exact K]).
      eexists. exists (with_body r (Seek (Sign_Model.contents (Once cs)) 0)). split; [reflexivity|]. split; [|reflexivity].
      apply (new_body_J _ _ _ _ _ _ _ (Seek (Sign_Model.contents (Once cs)) 0)) in H1. exact H1.
    - eexists. exists (with_body r (Seek (Sign_Model.contents (Many cs)) 0)). split; [reflexivity|]. split; [|reflexivity].
      apply (new_body_J _ _ _ _ _ _ _ (Seek (Sign_Model.contents (Many cs)) 0)) in H. exact H.
    - exists s, r. split; [reflexivity|]. split; [exact H|exact I].
  Qed.

  Lemma payload_J s0 bx q c s r p : J s0 bx (Sign_Model.r_body r) q c s r -> body_known s0 bx s q ->
    let (old', res) := Sign_Model.format_canonical_payload lower sha256 async (Sign_Model.r_dest r) p
                         (Sign_Model.r_body r) (Sign_Model.r_fields r) in
    exists s' r', format_payload lower sha256 async q p s = (do '(h, _, _) <- res; Ok h, s') /\ J s0 bx old' q c s' r' /\
      match res with Ok (_, fs, b) => r' = with_body (with_fields r fs) b | Err _ => True end.
  Proof.
    intros H K.
    assert (Er : with_body (with_fields r (Sign_Model.r_fields r)) (Sign_Model.r_body r) = r) by (destruct r; reflexivity).
    assert (X : let (old', res) := Sign_Model.compute_payload_hash sha256 (Sign_Model.r_dest r) p (Sign_Model.r_body r) in
      exists s' r', seq (compute_hash sha256 q p) (fun h =>
        seq (if Sign_Model.get_or false (Sign_Model.sp_checksum p)
             then put lower q Sign_Model.SHA_HEADER [h] else ret tt) (fun _ => ret h)) s = (do '(h, _) <- res; Ok h, s') /\
        J s0 bx old' q c s' r' /\
        match res with
        | Ok (h, b') => r' = with_body (with_fields r (if Sign_Model.get_or false (Sign_Model.sp_checksum p)
            then Sign_Model.set_field lower (Sign_Model.mkField Sign_Model.SHA_HEADER [h]) (Sign_Model.r_fields r)
            else Sign_Model.r_fields r)) b'
        | Err _ => True end).
    { pose proof (compute_J s0 bx q c s r p H K) as Y.
      destruct (Sign_Model.compute_payload_hash sha256 (Sign_Model.r_dest r) p (Sign_Model.r_body r)) as [old' res].
      destruct Y as (s1 & r1 & E1 & J1 & M1). unfold seq. rewrite E1.
      destruct res as [[h b']|e]; cbn [bind].
      - subst r1. destruct (Sign_Model.get_or false (Sign_Model.sp_checksum p)).
        + destruct (put_J _ _ _ _ _ _ _ Sign_Model.SHA_HEADER [h] J1) as (s2 & -> & J2 & _ & _).
          exists s2. eexists. split; [reflexivity|]. split; [exact J2|reflexivity].
        + exists s1. eexists. split; [reflexivity|]. split; [exact J1|reflexivity].
      - exists s1, r1. auto. }
    unfold Sign_Model.format_canonical_payload, format_payload. cbv zeta.
    set (cp := seq (compute_hash sha256 q p) _) in *. clearbody cp.
    destruct (Sign_Model.compute_payload_hash sha256 (Sign_Model.r_dest r) p (Sign_Model.r_body r)) as [old' res].
    assert (X' : exists s' r', cp s = (do '(h, _, _) <- (do '(payload_hash, b') <- res;
               Ok (payload_hash, if Sign_Model.get_or false (Sign_Model.sp_checksum p)
                    then Sign_Model.set_field lower (Sign_Model.mkField Sign_Model.SHA_HEADER [payload_hash]) (Sign_Model.r_fields r)
                    else Sign_Model.r_fields r, b')); Ok h, s') /\ J s0 bx old' q c s' r' /\
        match (do '(payload_hash, b') <- res;
               Ok (payload_hash, if Sign_Model.get_or false (Sign_Model.sp_checksum p)
                    then Sign_Model.set_field lower (Sign_Model.mkField Sign_Model.SHA_HEADER [payload_hash]) (Sign_Model.r_fields r)
                    else Sign_Model.r_fields r, b')) with
        | Ok (_, fs, b) => r' = with_body (with_fields r fs) b | Err _ => True end).
    { destruct X as (s1 & r1 & E1 & J1 & M1). exists s1, r1. destruct res as [[h b']|e]; cbn [bind] in *; auto. }
    clear X. destruct async; [|exact X'].
    assert (Y : let (old'0, res0) :=
        if Sign_Model.is_event_stream lower (Sign_Model.r_fields r)
        then (Sign_Model.r_body r, Ok (Sign_Model.EVENT_STREAM_HASH, Sign_Model.set_field lower
               (Sign_Model.mkField Sign_Model.SHA_HEADER [Sign_Model.EVENT_STREAM_HASH]) (Sign_Model.r_fields r), Sign_Model.r_body r))
        else (old', do '(payload_hash, b') <- res;
             Ok (payload_hash, if Sign_Model.get_or false (Sign_Model.sp_checksum p)
                  then Sign_Model.set_field lower (Sign_Model.mkField Sign_Model.SHA_HEADER [payload_hash]) (Sign_Model.r_fields r)
                  else Sign_Model.r_fields r, b')) in
      exists s' r', seq (field_values lower q (lit "Content-Type")) (fun ct =>
          if match ct with
             | Some vs => text_eqb (Sign_Model.as_string vs) Sign_Model.EVENT_STREAM_CONTENT_TYPE
             | None => false
             end
          then seq (put lower q Sign_Model.SHA_HEADER [Sign_Model.EVENT_STREAM_HASH])
                   (fun _ => ret Sign_Model.EVENT_STREAM_HASH)
          else cp) s = (do '(h, _, _) <- res0; Ok h, s') /\ J s0 bx old'0 q c s' r' /\
        match res0 with Ok (_, fs, b) => r' = with_body (with_fields r fs) b | Err _ => True end).
    { unfold seq at 1. rewrite (values_J _ _ _ _ _ _ _ _ H). unfold Sign_Model.is_event_stream.
      destruct (Sign_Model.get_field lower (lit "Content-Type") (Sign_Model.r_fields r)) as [[n vs]|]; [|exact X'].
      cbn [Sign_Model.f_values].
      destruct (text_eqb (Sign_Model.as_string vs) Sign_Model.EVENT_STREAM_CONTENT_TYPE); [|exact X'].
      destruct (put_J _ _ _ _ _ _ _ Sign_Model.SHA_HEADER [Sign_Model.EVENT_STREAM_HASH] H) as (s2 & E2 & J2 & _ & _).
      unfold seq. rewrite E2. exists s2. eexists. split; [reflexivity|]. split; [exact J2|reflexivity]. }
    unfold seq at 1. rewrite (values_J _ _ _ _ _ _ _ _ H).
    destruct (Sign_Model.get_field lower Sign_Model.SHA_HEADER (Sign_Model.r_fields r)) as [[n vs]|]; [|exact Y].
    cbn [Sign_Model.f_values]. destruct vs as [|v [|v2 vs]]; [exact Y| |exact Y].
    exists s, r. split; [reflexivity|]. split; [exact H|]. symmetry; exact Er.
  Qed.

  (** ** The copy *)
  Lemma fields_seen_valid h es fs : fields_seen h es = Some fs -> forall k r, In (k, r) es -> exists f, nth_error h r = Some f.
  Proof.
    revert fs. induction es as [|[k' r'] es IH]; intros fs; cbn [fields_seen]; [intros _ k r []|].
    destruct (nth_error h r') as [f|] eqn:E; [|discriminate]. destruct (fields_seen h es) as [fs'|]; [|discriminate].
    intros _ k r [[= <- <-]|H]; [eauto|]. eapply IH; eauto.
  Qed.
  Lemma fields_seen_copy st es fs : fields_seen (heap st) es = Some fs -> forall pre,
    fields_seen (pre ++ map (field_at st) (dict_values es)) (combine (dict_keys es) (List.seq (len pre) (len es))) = Some fs.
  Proof.
    revert fs. induction es as [|[k r] es IH]; intros fs; cbn [fields_seen]; intros H pre.
    - injection H as <-. reflexivity.
    - destruct (nth_error (heap st) r) as [f|] eqn:E; [|discriminate].
      destruct (fields_seen (heap st) es) as [fs'|]; [|discriminate]. injection H as <-.
      cbn [dict_keys dict_values map fst snd List.length List.seq combine fields_seen].
      rewrite nth_error_app2 by lia. rewrite Nat.sub_diag. cbn [nth_error].
      specialize (IH _ eq_refl (pre ++ [field_at st r])). rewrite app_length, <- app_assoc in IH. cbn [List.length app] in IH.
      rewrite Nat.add_1_r in IH. unfold dict_values, dict_keys in IH. rewrite IH.
      unfold field_at. rewrite (nth_Some _ _ _ _ E). reflexivity.
  Qed.
  Lemma copy_new {A} (ks : list A) n m k x : In (k, x) (combine ks (List.seq n m)) -> (n <= x)%nat.
  Proof. intros H. apply in_combine_r in H. apply in_seq in H. lia. Qed.

  Definition shared_body (cls : class) (s : store) (q : ref) : option ref :=
    match cls with OwnMethod => Some (q_body (req_at s q)) | Dataclass => None end.

  Lemma copy_J cls s q r : request_seen s q = Some r ->
    (cls = Dataclass -> copyable (q_body (req_at s q)) = true) ->
    exists s', deep_copy copyable cls q s = (Ok (len (s_reqs s)), s') /\
      J s (shared_body cls s q) (Sign_Model.r_body r) (len (s_reqs s)) (len (cols (s_state s))) s' r /\
      body_known s (shared_body cls s q) s' (len (s_reqs s)).
  Proof.
    intros Js Hc. apply seen_parts in Js. destruct Js as (rq & es & [A B C D E F]).
    assert (Erq : req_at s q = rq) by (unfold req_at; apply nth_Some; exact A).
    unfold shared_body, deep_copy. rewrite Erq in *.
    assert (Ees : entries_of (s_state s) (q_fields rq) = es) by (apply entries_at; exact B).
    assert (X : forall b bs, nth_error (s_bodies s ++ bs) b = Some (Sign_Model.r_body r) ->
      (match cls with OwnMethod => Some (q_body rq) | Dataclass => None end = Some b \/
       (match cls with OwnMethod => Some (q_body rq) | Dataclass => None end = None /\ (len (s_bodies s) <= b)%nat)) ->
      let s' := mkStore (copy_fields (q_fields rq) (s_state s))
                  (s_reqs s ++ [mkRobj (q_dest rq) (q_method rq) b (len (cols (s_state s)))]) (s_bodies s ++ bs) in
      J s (match cls with OwnMethod => Some (q_body rq) | Dataclass => None end) (Sign_Model.r_body r)
        (len (s_reqs s)) (len (cols (s_state s))) s' r /\
      body_known s (match cls with OwnMethod => Some (q_body rq) | Dataclass => None end) s' (len (s_reqs s))).
    { intros b bs Hb Hk s'.
      assert (Hreq : nth_error (s_reqs s') (len (s_reqs s)) =
                Some (mkRobj (q_dest rq) (q_method rq) b (len (cols (s_state s))))) by apply app_new.
      assert (Hcol : nth_error (cols (s_state s')) (len (cols (s_state s))) =
                Some (combine (dict_keys es) (List.seq (len (heap (s_state s))) (len es)))).
      { cbn [s' s_state copy_fields cols]. rewrite Ees. apply app_new. }
      assert (Hat : req_at s' (len (s_reqs s)) = mkRobj (q_dest rq) (q_method rq) b (len (cols (s_state s))))
        by (unfold req_at; apply nth_Some; exact Hreq).
      split.
      - constructor.
        + apply seen_parts. eexists. eexists. constructor; [exact Hreq|exact Hcol|exact Hb| |exact E|exact F].
          cbn [s' s_state copy_fields heap]. rewrite Ees. apply fields_seen_copy. exact D.
        + rewrite Hat. reflexivity.
        + intros k x Hx. rewrite (entries_at _ _ _ Hcol) in Hx. eapply copy_new; exact Hx.
        + constructor; cbn [s' s_reqs s_state s_bodies copy_fields cols heap]; intros; apply app_old; assumption.
        + lia.
        + lia.
        + cbn [s' s_state copy_fields heap]. rewrite app_length. lia.
        + cbn [s' s_bodies]. rewrite app_length. lia.
        + intros b0 Eb. destruct Hk as [Hk|[Hk _]]; [|congruence]. rewrite Hk in Eb. injection Eb as <-. exact Hb.
      - unfold body_known. rewrite Hat. cbn [q_body]. exact Hk. }
    destruct cls.
    - eexists. split; [reflexivity|].
      destruct (X (q_body rq) []) as [X1 X2]; [rewrite app_nil_r; exact C|left; reflexivity|].
      rewrite app_nil_r in X1, X2. split; assumption.
    - rewrite (Hc eq_refl). eexists. split; [reflexivity|].
      apply (X (len (s_bodies s)) [body_at s (q_body rq)]); [|right; split; [reflexivity|lia]].
      rewrite app_new. unfold body_at. rewrite (nth_Some _ _ _ _ C). reflexivity.
  Qed.

  Lemma J_own s0 bx old q c s r : J s0 bx old q c s r -> own_objects s0 s q.
  Proof.
    intros [Js Jc Jn Jo Jq Jl Jh Jb Jx]. apply seen_parts in Js. destruct Js as (rq & es & [A B C D E F]).
    split; [apply nth_error_None; exact Jq|]. exists rq, es.
    assert (Erq : req_at s q = rq) by (unfold req_at; apply nth_Some; exact A). rewrite Erq in Jc. subst c.
    split; [exact A|]. split; [apply nth_error_None; exact Jl|]. split; [exact B|].
    intros k x Hx. apply nth_error_None. apply (Jn k). rewrite (entries_at _ _ _ B). exact Hx.
  Qed.

  Definition agree (s s' : store) (want : result Sign_Model.request) (res : result ref) : Prop :=
    match want, res with
    | Ok r', Ok q' => request_seen s' q' = Some r' /\ own_objects s s' q'
    | Err e, Err e' => e' = e
    | _, _ => False
    end.

  Lemma sign_sim cls now i p q s r : request_seen s q = Some r ->
    (cls = Dataclass -> copyable (q_body (req_at s q)) = true) ->
    let (old, want) := Sign_Model.sign lower upper sha256 hmac utf8_replace async now i p r in
    let (res, s') := sign_object lower upper sha256 hmac utf8_replace async copyable cls now i p q s in
    untouched (shared_body cls s q) s s' /\
    (forall b, shared_body cls s q = Some b -> nth_error (s_bodies s') b = Some old) /\ agree s s' want res.
  Proof.
    intros Js Hc. destruct (copy_J cls s q r Js Hc) as (s1 & E1 & J1 & K1).
    unfold Sign_Model.sign, sign_object.
    destruct (Sign_Model.i_expired i).
    { unfold lift. split; [constructor; auto|]. split; [|reflexivity]. intros b Eb.
      apply seen_parts in Js. destruct Js as (rq & es & [A B C D E F]).
      destruct cls; [|discriminate]. injection Eb as <-.
      assert (Erq : req_at s q = rq) by (unfold req_at; apply nth_Some; exact A). rewrite Erq. exact C. }
    set (date := Sign_Model.get_or now (Sign_Model.sp_date p)). clearbody date. cbv zeta.
    unfold seq at 1. rewrite E1. set (bx := shared_body cls s q) in *. clearbody bx.
    set (n := len (s_reqs s)) in *. set (c := len (cols (s_state s))) in *.
    destruct (required_J _ _ _ _ _ _ _ date i J1) as (s2 & E2 & J2 & B2 & R2).
    unfold seq at 1. rewrite E2.
    set (fs := Sign_Model.apply_required_fields lower date i (Sign_Model.r_fields r)) in *. clearbody fs.
    assert (K2 : body_known s bx s2 n).
    { unfold body_known, req_at in *. rewrite R2. exact K1. }
    assert (Cn : let (old', res) := Sign_Model.canonical_request lower upper sha256 utf8_replace async p (with_fields r fs) in
      exists s' r', canonical lower upper sha256 utf8_replace async n p s2 = (do '(t, _, _) <- res; Ok t, s') /\
        J s bx old' n c s' r' /\
        match res with Ok (_, fs', b) => r' = with_body (with_fields r fs') b | Err _ => True end).
    { unfold Sign_Model.canonical_request, canonical.
      pose proof (payload_J s bx n c s2 (with_fields r fs) p J2 K2) as P.
      cbn [with_fields Sign_Model.r_dest Sign_Model.r_body Sign_Model.r_fields Sign_Model.r_method] in P |- *.
      destruct (Sign_Model.format_canonical_payload lower sha256 async (Sign_Model.r_dest r) p (Sign_Model.r_body r) fs)
        as [old' res].
      destruct P as (s3 & r3 & E3 & J3 & M3). unfold seq at 1. rewrite E3.
      destruct res as [[[h fs'] b]|e]; cbn [bind]; [|exists s3, r3; auto].
      assert (Er3 : r3 = with_body (with_fields r fs') b) by (rewrite M3; reflexivity). clear M3.
      destruct (at_J _ _ _ _ _ _ _ J3) as [Ed Em]. rewrite Er3 in Ed, Em. cbn in Ed, Em. rewrite Ed, Em.
      unfold seq, lift.
      destruct (Sign_Model.format_canonical_path (Sign_Model.u_path (Sign_Model.r_dest r)) p) as [path|e]; cbn [bind];
        [|exists s3, r3; auto].
      destruct (Sign_Model.format_canonical_query utf8_replace (Sign_Model.u_query (Sign_Model.r_dest r))) as [query|e]; cbn [bind];
        [|exists s3, r3; auto].
      rewrite (signing_J _ _ _ _ _ _ _ J3). rewrite Er3. cbn [with_body with_fields Sign_Model.r_dest Sign_Model.r_fields].
      exists s3, r3. split; [reflexivity|]. split; [exact J3|exact Er3]. }
    change (Sign_Model.mkRequest (Sign_Model.r_dest r) (Sign_Model.r_method r) (Sign_Model.r_body r) fs) with (with_fields r fs).
    destruct (Sign_Model.canonical_request lower upper sha256 utf8_replace async p (with_fields r fs)) as [old' res].
    destruct Cn as (s3 & r3 & E3 & J3 & M3). unfold seq at 1. rewrite E3.
    destruct res as [[[t fs'] b]|e]; cbn [bind].
    2:{ split; [apply J3|]. split; [apply J3|reflexivity]. }
    unfold seq, lift.
    destruct (Sign_Model.string_to_sign sha256 t date p) as [sts|e]; cbn [bind].
    2:{ split; [apply J3|]. split; [apply J3|reflexivity]. }
    destruct (Sign_Model.signature hmac sts (Sign_Model.i_secret i) date p) as [sig|e]; cbn [bind].
    2:{ split; [apply J3|]. split; [apply J3|reflexivity]. }
    rewrite (signing_J _ _ _ _ _ _ _ J3). subst r3.
    cbn [with_body with_fields Sign_Model.r_dest Sign_Model.r_fields].
    match goal with |- context [put lower n ?a ?v s3] => destruct (put_J _ _ _ _ _ _ _ a v J3) as (s4 & E4 & J4 & _ & _) end.
    rewrite E4. unfold ret. split; [apply J4|]. split; [apply J4|].
    split; [|eapply J_own; exact J4].
    apply J4.
  Qed.

  Lemma sign_uncopyable now i p q s : copyable (q_body (req_at s q)) = false ->
    sign_object lower upper sha256 hmac utf8_replace async copyable Dataclass now i p q s =
      (Err (if Sign_Model.i_expired i then ValueError else TypeError), s).
  Proof.
    intros H. unfold sign_object. destruct (Sign_Model.i_expired i); [reflexivity|].
    cbv zeta. unfold seq at 1, deep_copy. rewrite H. reflexivity.
  Qed.
End Sim.

(** ** Attempts *)

(** What was there when an attempt began. *)
Record kept (s0 s : store) : Prop := mkKept {
  k_reqs : forall q x, nth_error (s_reqs s0) q = Some x -> nth_error (s_reqs s) q = Some x;
  k_cols : forall c x, nth_error (cols (s_state s0)) c = Some x -> nth_error (cols (s_state s)) c = Some x;
  k_heap : forall r x, nth_error (heap (s_state s0)) r = Some x -> nth_error (heap (s_state s)) r = Some x }.
Lemma kept_refl s : kept s s.
Proof. constructor; auto. Qed.
Lemma kept_trans a b c : kept a b -> kept b c -> kept a c.
Proof. intros [A B C] [D E F]. constructor; auto. Qed.

Section Attempts.
  Variables (lower upper : text -> text) (sha256 : bytes -> bytes) (hmac : bytes -> bytes -> bytes)
    (utf8_replace : bytes -> text) (async : bool) (copyable : ref -> bool).

  (** Statements that only change the request [n] and its headers. *)
  Record W (s0 : store) (n : ref) (s : store) : Prop := mkW {
    W_kept : kept s0 s;
    W_n : (len (s_reqs s0) <= n < len (s_reqs s))%nat;
    W_c : (len (cols (s_state s0)) <= q_fields (req_at s n))%nat }.
  Definition safe {X} (s0 : store) (n : ref) (m : Act X) : Prop := forall s, W s0 n s -> W s0 n (snd (m s)).
  Lemma safe_seq {X Y} s0 n (m : Act X) (k : X -> Act Y) : safe s0 n m -> (forall x, safe s0 n (k x)) -> safe s0 n (seq m k).
  Proof.
    intros A B s H. unfold seq. specialize (A s H). destruct (m s) as [[x|e] s']; cbn [snd] in *; [apply B|]; exact A.
  Qed.
  Lemma safe_ret {X} s0 n (x : X) : safe s0 n (ret x).
  Proof. intros s H. exact H. Qed.
  Lemma safe_lift {X} s0 n (x : result X) : safe s0 n (lift x).
  Proof. intros s H. exact H. Qed.
  Lemma safe_put s0 n name vs : safe s0 n (put lower n name vs).
  Proof.
    intros s [[K1 K2 K3] Wn Wc]. unfold put, set_field, set_item.
    assert (X : forall cs, (forall c x, nth_error (cols (s_state s0)) c = Some x -> nth_error cs c = Some x) ->
      W s0 n (set_state (mkState (heap (s_state s) ++ [mkField name vs Header]) cs) s)).
    { intros cs Hcs. constructor; [constructor|exact Wn|exact Wc]; cbn [set_state s_reqs s_state cols heap]; auto.
      intros r x Hr. apply app_old. auto. }
    destruct (text_eqb _ _); cbn [snd]; [|apply X; auto].
    unfold set_entries; cbn [heap cols]. apply X. intros c x Hx. rewrite update_off; [auto|]. apply lt_of in Hx. lia.
  Qed.
  Lemma safe_new_body s0 n b : safe s0 n (new_body n b).
  Proof.
    intros s [[K1 K2 K3] Wn Wc]. unfold new_body; cbn [snd].
    constructor; [constructor| |]; cbn [s_reqs s_state]; auto.
    - intros q x Hx. rewrite update_off; [auto|]. apply lt_of in Hx. lia.
    - rewrite update_length. exact Wn.
    - unfold req_at; cbn [s_reqs]. rewrite nth_update_eq by lia. exact Wc.
  Qed.
  Lemma safe_set_body s0 n b x : safe s0 n (set_body b x).
  Proof. intros s [[K1 K2 K3] Wn Wc]. constructor; [constructor|exact Wn|exact Wc]; auto. Qed.

  Lemma safe_required s0 n date i : safe s0 n (apply_required lower n date i).
  Proof.
    unfold apply_required. repeat (apply safe_seq; [intros s H; exact H|intros ?]).
    apply safe_seq; [destruct (_ && _)%bool; [apply safe_put|apply safe_ret]|intros _].
    destruct (Sign_Model.i_token i); [|apply safe_ret].
    apply safe_seq; [intros s H; exact H|intros h]. destruct (negb h); [apply safe_put|apply safe_ret].
  Qed.
  Lemma safe_compute s0 n p : safe s0 n (compute_hash sha256 n p).
  Proof.
    intros s H. unfold compute_hash. destruct (negb _); [exact H|].
    destruct (body_at s (q_body (req_at s n))); try exact H.
    - apply safe_seq; [apply safe_set_body|intros; apply safe_ret|exact H].
    - apply safe_seq; [apply safe_set_body| |exact H]. intros _. apply safe_seq; [apply safe_new_body|intros; apply safe_ret].
    - apply safe_seq; [apply safe_new_body|intros; apply safe_ret|exact H].
  Qed.
  Lemma safe_payload s0 n p : safe s0 n (format_payload lower sha256 async n p).
  Proof.
    unfold format_payload. cbv zeta.
    set (cp := seq (compute_hash sha256 n p) _).
    assert (X : safe s0 n cp).
    { apply safe_seq; [apply safe_compute|intros h].
      apply safe_seq; [|intros; apply safe_ret]. destruct (Sign_Model.get_or _ _); [apply safe_put|apply safe_ret]. }
    clearbody cp. destruct async; [|exact X]. apply safe_seq; [intros s H; exact H|]. intros given.
    assert (Y : safe s0 n (seq (field_values lower n (lit "Content-Type")) (fun ct =>
            if match ct with
               | Some vs => text_eqb (Sign_Model.as_string vs) Sign_Model.EVENT_STREAM_CONTENT_TYPE
               | None => false
               end
            then seq (put lower n Sign_Model.SHA_HEADER [Sign_Model.EVENT_STREAM_HASH])
                     (fun _ => ret Sign_Model.EVENT_STREAM_HASH)
            else cp))).
    { apply safe_seq; [intros s H; exact H|]. intros ct.
      destruct (match ct with Some vs => _ | None => false end); [|exact X].
      apply safe_seq; [apply safe_put|intros; apply safe_ret]. }
    destruct given as [[|v [|v2 vs]]|]; [exact Y|apply safe_ret|exact Y|exact Y].
  Qed.
  Lemma safe_canonical s0 n p : safe s0 n (canonical lower upper sha256 utf8_replace async n p).
  Proof.
    unfold canonical. apply safe_seq; [apply safe_payload|]. intros payload s H.
    apply safe_seq; [apply safe_lift| |exact H]. intros path. apply safe_seq; [apply safe_lift|]. intros query.
    apply safe_seq; [intros s' H'; exact H'|]. intros d. apply safe_ret.
  Qed.
  Lemma sign_kept cls now i p q s :
    kept s (snd (sign_object lower upper sha256 hmac utf8_replace async copyable cls now i p q s)).
  Proof.
    unfold sign_object. destruct (Sign_Model.i_expired i); [apply kept_refl|]. cbv zeta. unfold seq at 1.
    assert (X : forall b bs, W s (len (s_reqs s))
        (mkStore (copy_fields (q_fields (req_at s q)) (s_state s))
           (s_reqs s ++ [mkRobj (q_dest (req_at s q)) (q_method (req_at s q)) b (len (cols (s_state s)))]) bs)).
    { intros b bs. constructor.
      - constructor; cbn [s_reqs s_state copy_fields cols heap]; intros; apply app_old; assumption.
      - cbn [s_reqs]. rewrite app_length. cbn [List.length]. lia.
      - unfold req_at at 1; cbn [s_reqs]. rewrite (nth_Some _ _ _ _ (app_new _ _)). cbn [q_fields]. lia. }
    assert (Y : forall s1, W s (len (s_reqs s)) s1 ->
      forall (k : Act ref), safe s (len (s_reqs s)) k -> kept s (snd (k s1))) by (intros s1 H k Hk; apply (Hk s1 H)).
    match goal with |- context [deep_copy copyable cls q s] => idtac end.
    assert (Z : forall s1, W s (len (s_reqs s)) s1 -> kept s (snd (
      seq (apply_required lower (len (s_reqs s)) (Sign_Model.get_or now (Sign_Model.sp_date p)) i) (fun _ =>
      seq (canonical lower upper sha256 utf8_replace async (len (s_reqs s)) p) (fun text_ =>
      seq (lift (Sign_Model.string_to_sign sha256 text_ (Sign_Model.get_or now (Sign_Model.sp_date p)) p)) (fun sts =>
      seq (lift (Sign_Model.signature hmac sts (Sign_Model.i_secret i) (Sign_Model.get_or now (Sign_Model.sp_date p)) p)) (fun sig =>
      seq (signing_fields lower (len (s_reqs s))) (fun d =>
      seq (put lower (len (s_reqs s)) (lit "Authorization")
             [Sign_Model.authorization_value
                (Sign_Model.i_access i ++ [47%N] ++ Sign_Model.scope (Sign_Model.get_or now (Sign_Model.sp_date p)) p) (map fst d) sig]) (fun _ =>
      ret (len (s_reqs s)))))))) s1))).
    { intros s1 H1. apply Y; [exact H1|]. apply safe_seq; [apply safe_required|intros _].
      apply safe_seq; [apply safe_canonical|intros t]. apply safe_seq; [apply safe_lift|intros sts].
      apply safe_seq; [apply safe_lift|intros sig]. apply safe_seq; [intros s' H'; exact H'|intros d].
      apply safe_seq; [apply safe_put|intros _; apply safe_ret]. }
    unfold deep_copy. destruct cls.
    - apply Z. apply X.
    - destruct (copyable _); [apply Z; apply X|apply kept_refl].
  Qed.

  (** ** One attempt *)
  Definition reqs_kept (n : nat) (s s' : store) : Prop := (len (s_reqs s) <= len (s_reqs s'))%nat /\
    forall q, (q < n)%nat -> (q < len (s_reqs s))%nat -> nth_error (s_reqs s') q = nth_error (s_reqs s) q.
  Lemma kept_length {A} (l m : list A) : (forall i x, nth_error l i = Some x -> nth_error m i = Some x) -> (len l <= len m)%nat.
  Proof.
    intros H. destruct (Nat.le_gt_cases (len l) (len m)) as [?|G]; [assumption|].
    destruct (nth_error l (len m)) as [x|] eqn:E; [|apply nth_error_None in E; lia].
    apply H in E. apply lt_of in E. lia.
  Qed.
  Lemma act_reqs fuel n a s s' : own_request n a ->
    act lower upper sha256 hmac utf8_replace async copyable fuel a s = Some s' -> reqs_kept n s s'.
  Proof.
    intros O E.
    assert (X : forall q f, (n <= q)%nat -> reqs_kept n s (set_req q f s)).
    { intros q f Hq. split; cbn [set_req s_reqs]; [rewrite update_length; lia|].
      intros x Hx _. apply update_off. lia. }
    destruct a; cbn [act own_request] in *; try (injection E as <-; auto; fail).
    - destruct (step lower fuel o (s_state s)) as [[st e]|]; [|discriminate]. injection E as <-. split; auto.
    - injection E as <-. split; auto.
    - injection E as <-. split; auto.
    - injection E as <-. pose proof (sign_kept cls now i p q s) as [K _ _].
      split; [apply kept_length; exact K|]. intros x _ Hx.
      destruct (nth_error (s_reqs s) x) as [y|] eqn:Ey; [apply K; exact Ey|]. apply nth_error_None in Ey. lia.
  Qed.
  Lemma acts_reqs fuel n l : forall s s', Forall (own_request n) l ->
    acts lower upper sha256 hmac utf8_replace async copyable fuel l s = Some s' -> reqs_kept n s s'.
  Proof.
    induction l as [|a l IH]; intros s s' F E; cbn [acts] in E.
    - injection E as <-. split; auto.
    - inversion F as [|? ? F1 F2]; subst.
      destruct (act _ _ _ _ _ _ _ fuel a s) as [s1|] eqn:E1; [|discriminate].
      apply act_reqs with (n := n) in E1; [|exact F1]. destruct (IH _ _ F2 E) as [L2 K2]. destruct E1 as [L1 K1].
      split; [lia|]. intros q Hn Hq. rewrite K2 by lia. apply K1; assumption.
  Qed.

  Lemma attempts_same fuel q l : forall s starts rq, nth_error (s_reqs s) q = Some rq ->
    attempts lower upper sha256 hmac utf8_replace async copyable fuel q l s = Some starts ->
    Every (fun mine _ a => own_request mine a) starts l ->
    Forall (fun start => nth_error (s_reqs (snd start)) (fst start) = Some rq) starts.
  Proof.
    induction l as [|a l IH]; intros s starts rq Hq E Ev; cbn [attempts] in E.
    - injection E as <-. constructor.
    - destruct (acts _ _ _ _ _ _ _ fuel a (shallow_copy q s)) as [s2|] eqn:E2; [|discriminate].
      destruct (attempts _ _ _ _ _ _ _ fuel q l s2) as [st2|] eqn:E3; [|discriminate]. injection E as <-.
      inversion Ev as [|? ? ? ? ? F1 F2]; subst.
      constructor.
      + cbn [fst snd shallow_copy s_reqs]. rewrite app_new. unfold req_at. rewrite (nth_Some _ _ _ _ Hq). reflexivity.
      + apply acts_reqs with (n := len (s_reqs s)) in E2; [|exact F1]. destruct E2 as [_ K].
        eapply IH; [|exact E3|exact F2]. rewrite K.
        * cbn [shallow_copy s_reqs]. apply app_old. exact Hq.
        * eapply lt_of; exact Hq.
        * cbn [shallow_copy s_reqs]. rewrite app_length. apply lt_of in Hq. lia.
  Qed.

  (** Headers *)
  Record hkept (s0 s : state) : Prop := mkHkept {
    hk_cols : forall c x, nth_error (cols s0) c = Some x -> nth_error (cols s) c = Some x;
    hk_heap : forall r x, nth_error (heap s0) r = Some x -> nth_error (heap s) r = Some x }.
  Lemma step_hkept fuel o st0 st st' e : own_headers st0 (OnHeaders o) -> hkept st0 st ->
    step lower fuel o st = Some (st', e) -> hkept st0 st'.
  Proof.
    intros O [Kc Kh] E.
    assert (Xc : forall c es, (len (cols st0) <= c)%nat -> hkept st0 (set_entries st c es)).
    { intros c es Hc. constructor; cbn [set_entries cols heap]; [|exact Kh].
      intros d x Hd. rewrite update_off; [auto|]. apply lt_of in Hd. lia. }
    assert (Xh : forall r f, (len (heap st0) <= r)%nat -> hkept st0 (on_field r f st)).
    { intros r f Hr. unfold on_field. destruct (deref st r); [|constructor; assumption].
      constructor; cbn [set_heap cols heap]; [exact Kc|].
      intros d x Hd. rewrite update_off; [auto|]. apply lt_of in Hd. lia. }
    assert (X0 : hkept st0 st) by (constructor; assumption).
    assert (Xs : forall c nm r, (len (cols st0) <= c)%nat ->
      match set_item lower c nm r st with Ok st1 => Some (st1, None) | Err x => Some (st, Some x) end = Some (st', e) -> hkept st0 st').
    { intros c nm r Hc. unfold set_item. destruct (text_eqb _ _); intros [= <- _]; auto. }
    destruct o; cbn [step own_headers] in *.
    - injection E as <- _. constructor; cbn [cols heap]; [exact Kc|]. intros r x Hr. apply app_old. auto.
    - unfold new_fields in E. destruct (has_dup _); injection E as <- _; [exact X0|].
      constructor; cbn [cols heap]; [|exact Kh]. intros c x Hx. apply app_old. auto.
    - eapply Xs; eauto.
    - unfold set_field in E. eapply Xs; eauto.
    - unfold del_item in E. destruct (dict_has _ _); injection E as <- _; auto.
    - contradiction.
    - injection E as <- _. auto.
    - injection E as <- _. auto.
    - injection E as <- _. auto.
  Qed.
  Lemma acts_hkept fuel st0 l : forall s s', Forall (own_headers st0) l -> hkept st0 (s_state s) ->
    acts lower upper sha256 hmac utf8_replace async copyable fuel l s = Some s' -> hkept st0 (s_state s').
  Proof.
    induction l as [|a l IH]; intros s s' F K E; cbn [acts] in E; [injection E as <-; exact K|].
    inversion F as [|? ? F1 F2]; subst.
    destruct (act _ _ _ _ _ _ _ fuel a s) as [s1|] eqn:E1; [|discriminate].
    eapply IH; [exact F2| |exact E].
    destruct a; cbn [act] in E1; try (injection E1 as <-; exact K).
    - destruct (step lower fuel o (s_state s)) as [[st e]|] eqn:Es; [|discriminate]. injection E1 as <-.
      eapply step_hkept; [exact F1|exact K|exact Es].
    - injection E1 as <-. pose proof (sign_kept cls now i p q s) as [_ K1 K2]. destruct K as [Kc Kh].
      constructor; auto.
  Qed.
  Lemma headers_kept s s' q rq h : nth_error (s_reqs s) q = Some rq -> headers_seen s q = Some h ->
    hkept (s_state s) (s_state s') -> forall q', nth_error (s_reqs s') q' = Some rq -> headers_seen s' q' = Some h.
  Proof.
    intros Hq H [Kc Kh] q' Hq'. unfold headers_seen in *. rewrite Hq in H. rewrite Hq'.
    destruct (nth_error (cols (s_state s)) (q_fields rq)) as [es|] eqn:E; [|discriminate]. rewrite (Kc _ _ E).
    destruct (fields_seen (heap (s_state s)) es) as [fs|] eqn:Ef; [|discriminate].
    rewrite (fields_seen_mono _ _ _ _ Kh Ef). exact H.
  Qed.
  Lemma attempts_headers fuel q l : forall s starts h, headers_seen s q = Some h ->
    attempts lower upper sha256 hmac utf8_replace async copyable fuel q l s = Some starts ->
    Every (fun mine s0 a => own_request mine a /\ own_headers (s_state s0) a) starts l ->
    Forall (fun start => headers_seen (snd start) (fst start) = Some h) starts.
  Proof.
    induction l as [|a l IH]; intros s starts h Hh E Ev; cbn [attempts] in E.
    - injection E as <-. constructor.
    - destruct (acts _ _ _ _ _ _ _ fuel a (shallow_copy q s)) as [s2|] eqn:E2; [|discriminate].
      destruct (attempts _ _ _ _ _ _ _ fuel q l s2) as [st2|] eqn:E3; [|discriminate]. injection E as <-.
      inversion Ev as [|? ? ? ? ? F1 F2]; subst.
      assert (Hq : exists rq, nth_error (s_reqs s) q = Some rq).
      { unfold headers_seen in Hh. destruct (nth_error (s_reqs s) q); [eauto|discriminate]. }
      destruct Hq as (rq & Hq).
      constructor; cbn [fst snd].
      + eapply headers_kept; [exact Hq|exact Hh| |].
        * constructor; intros ? ? Hx; exact Hx.
        * cbn [shallow_copy s_reqs]. rewrite app_new. unfold req_at. rewrite (nth_Some _ _ _ _ Hq). reflexivity.
      + eapply IH; [|exact E3|exact F2].
        eapply headers_kept; [exact Hq|exact Hh| |].
        * apply (acts_hkept fuel (s_state s) a (shallow_copy q s) s2); [|constructor; intros ? ? Hx; exact Hx|exact E2].
          eapply Forall_impl; [|exact F1]. intros x [_ Hx]. exact Hx.
        * apply acts_reqs with (n := len (s_reqs s)) in E2.
          2:{ eapply Forall_impl; [|exact F1]. intros x [Hx _]. exact Hx. }
          destruct E2 as [_ K]. rewrite K.
          -- cbn [shallow_copy s_reqs]. apply app_old. exact Hq.
          -- eapply lt_of; exact Hq.
          -- cbn [shallow_copy s_reqs]. rewrite app_length. apply lt_of in Hq. lia.
  Qed.
End Attempts.
