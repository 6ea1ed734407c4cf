(** C91: what signing and attempts do to the objects others hold. *)
From Verif Require Import Base PyText_Model PyDict_Model Fields_Model Attempt_Model Attempt_Spec Attempt_Proofs.
From Verif Require Sign_Model Sign_Props.
Import Sign_Model (body, Seek, Once, uri, sigprops, ident).

(** C91: signing an [AWSRequest] gives what signing is said to give for a request
    with these contents (C32, C67, C89), or raises what it is said to raise.  The
    signed request and its headers are new objects, and all the objects there were
    hold what they held, except that the body of the request was perhaps read. *)
Theorem C91_sign lower upper sha256 hmac utf8_replace async copyable now i p q s r rq :
  request_seen s q = Some r -> nth_error (s_reqs s) q = Some rq ->
  let (old, want) := Sign_Model.sign lower upper sha256 hmac utf8_replace async now i p r in
  let (res, s') := sign_object lower upper sha256 hmac utf8_replace async copyable OwnMethod now i p q s in
  untouched (Some (q_body rq)) s s' /\ nth_error (s_bodies s') (q_body rq) = Some old /\
  match want, res with
  | Ok r', Ok q' => request_seen s' q' = Some r' /\ own_objects s s' q'
  | Err e, Err e' => e' = e
  | _, _ => False
  end.
Proof.
  intros H Hq. assert (E : req_at s q = rq) by (unfold req_at; apply nth_Some; exact Hq).
  pose proof (sign_sim lower upper sha256 hmac utf8_replace async copyable OwnMethod now i p q s r H) as X.
  unfold shared_body in X. rewrite E in X.
  destruct (Sign_Model.sign _ _ _ _ _ _ _ _ _ _) as [old want].
  destruct (sign_object _ _ _ _ _ _ _ _ _ _ _ _ _) as [res s'].
  destruct X as (A & B & C); [discriminate|]. split; [exact A|]. split; [apply B; reflexivity|exact C].
Qed.
Print Assumptions C91_sign.

(** C91: signing an [HTTPRequest] does the same and leaves every object, also the
    body, as it was, if the body is one that can be copied. *)
Theorem C91_sign_dataclass lower upper sha256 hmac utf8_replace async copyable now i p q s r rq :
  request_seen s q = Some r -> nth_error (s_reqs s) q = Some rq -> copyable (q_body rq) = true ->
  let want := snd (Sign_Model.sign lower upper sha256 hmac utf8_replace async now i p r) in
  let (res, s') := sign_object lower upper sha256 hmac utf8_replace async copyable Dataclass now i p q s in
  untouched None s s' /\
  match want, res with
  | Ok r', Ok q' => request_seen s' q' = Some r' /\ own_objects s s' q'
  | Err e, Err e' => e' = e
  | _, _ => False
  end.
Proof.
  intros H Hq Hc. assert (E : req_at s q = rq) by (unfold req_at; apply nth_Some; exact Hq).
  pose proof (sign_sim lower upper sha256 hmac utf8_replace async copyable Dataclass now i p q s r H) as X.
  rewrite E in X.
  destruct (Sign_Model.sign _ _ _ _ _ _ _ _ _ _) as [old want]. cbn [snd].
  destruct (sign_object _ _ _ _ _ _ _ _ _ _ _ _ _) as [res s'].
  destruct X as (A & B & C); [intros _; exact Hc|]. split; [exact A|exact C].
Qed.
Print Assumptions C91_sign_dataclass.

(** A store for the examples: a request with two headers, whose body is the second
    of two. *)
Definition y_state : state :=
  mkState [mkField (lit "X-B") [lit "p"; lit "q"] Header; mkField (lit "Other") [] Header;
           mkField (lit "Content-Type") [lit "text/plain"] Header]
          [[(lit "other", 1)]; [(lit "content-type", 2); (lit "x-b", 0)]].
Definition y_store (b : body) : store :=
  mkStore y_state [mkRobj (Sign_Props.x_uri "a=1") (lit "PUT") 1 1] [Once []; b].
Definition y_seen (b : body) : Sign_Model.request :=
  Sign_Model.mkRequest (Sign_Props.x_uri "a=1") (lit "PUT") b
    [(lit "content-type", Sign_Model.mkField (lit "Content-Type") [lit "text/plain"]);
     (lit "x-b", Sign_Model.mkField (lit "X-B") [lit "p"; lit "q"])].
Definition y_sign (copyable : ref -> bool) (cls : class) (s : store) : result ref * store :=
  sign_object Sign_Props.x_lower Sign_Props.x_upper Sign_Props.x_sha Sign_Props.x_hmac Sign_Props.x_replace true
    copyable cls [] Sign_Props.x_ident Sign_Props.x_props 0 s.

Example C91_sign_ex : let s := y_store (Once [lit "he"; lit "llo"]) in
  request_seen s 0 = Some (y_seen (Once [lit "he"; lit "llo"])) /\
  let (res, s') := y_sign (fun _ => false) OwnMethod s in
  res = Ok 1%nat /\ s_bodies s' = [Once []; Once []; Seek (lit "hello") 0] /\
  nth_error (s_reqs s') 1 = Some (mkRobj (Sign_Props.x_uri "a=1") (lit "PUT") 2 2) /\
  map fst (nth 2 (cols (s_state s')) []) =
    [lit "content-type"; lit "x-b"; lit "x-amz-date"; lit "x-amz-security-token"; lit "x-amz-content-sha256";
     lit "authorization"].
Proof. split; [reflexivity|]. vm_compute. repeat split. Qed.
Example C91_sign_dataclass_ex : let s := y_store (Once [lit "he"; lit "llo"]) in
  let (res, s') := y_sign (fun _ => true) Dataclass s in
  res = Ok 1%nat /\ s_bodies s' = [Once []; Once [lit "he"; lit "llo"]; Once []; Seek (lit "hello") 0].
Proof. vm_compute. split; reflexivity. Qed.

(** Full statement: whatever an [AWSRequest] can be signed with, an [HTTPRequest]
    can.  It is false: a body that cannot be copied, a generator or a file, raises,
    for every request and every identity that has not expired. *)
Theorem C91_uncopyable_refuted lower upper sha256 hmac utf8_replace async copyable now i p q s rq :
  nth_error (s_reqs s) q = Some rq -> copyable (q_body rq) = false -> Sign_Model.i_expired i = false ->
  sign_object lower upper sha256 hmac utf8_replace async copyable Dataclass now i p q s = (Err TypeError, s).
Proof.
  intros Hq Hc Hi. rewrite sign_uncopyable.
  - rewrite Hi. reflexivity.
  - unfold req_at. rewrite (nth_Some _ _ _ _ Hq). exact Hc.
Qed.
Print Assumptions C91_uncopyable_refuted.
Example C91_uncopyable_ex : let s := y_store (Once [lit "hello"]) in
  fst (y_sign (fun _ => false) OwnMethod s) = Ok 1%nat /\ fst (y_sign (fun _ => false) Dataclass s) = Err TypeError.
Proof. vm_compute. split; reflexivity. Qed.

(** C91: every attempt starts with a request that has the method, the destination,
    the body object and the header collection of the request the call prepared,
    whatever the attempts before did to theirs. *)
Theorem C91_attempts lower upper sha256 hmac utf8_replace async copyable fuel q l s starts rq :
  nth_error (s_reqs s) q = Some rq ->
  attempts lower upper sha256 hmac utf8_replace async copyable fuel q l s = Some starts ->
  Every (fun mine _ a => own_request mine a) starts l ->
  List.length starts = List.length l /\
  Forall (fun start => nth_error (s_reqs (snd start)) (fst start) = Some rq) starts.
Proof.
  intros Hq E Ev. split; [|eapply attempts_same; eassumption].
  clear - Ev. induction Ev; cbn [List.length]; congruence.
Qed.
Print Assumptions C91_attempts.

(** Full statement: every attempt starts with the headers of the request the call
    prepared.  Proved: if the attempts before changed only header collections and
    fields of their own, as signing does (C91_sign). *)
Theorem C91_headers_partial lower upper sha256 hmac utf8_replace async copyable fuel q l s starts h :
  headers_seen s q = Some h ->
  attempts lower upper sha256 hmac utf8_replace async copyable fuel q l s = Some starts ->
  Every (fun mine s0 a => own_request mine a /\ own_headers (s_state s0) a) starts l ->
  Forall (fun start => headers_seen (snd start) (fst start) = Some h) starts.
Proof. apply attempts_headers. Qed.
Print Assumptions C91_headers_partial.

(** Two attempts that set the destination, sign, and add a header to what was
    signed. *)
Definition y_attempts (l : list (list action)) (s : store) : option (list (ref * store)) :=
  attempts Sign_Props.x_lower Sign_Props.x_upper Sign_Props.x_sha Sign_Props.x_hmac Sign_Props.x_replace true
    (fun _ => true) 9 0 l s.
Definition y_signing (mine fields column : ref) : list action :=
  [SetDest mine (Sign_Props.x_uri "b=2"); Sign Dataclass [] Sign_Props.x_ident Sign_Props.x_props mine;
   OnHeaders (ONewField (lit "Trace") [lit "1"] Header); OnHeaders (OSetField column fields)].
Example C91_attempts_ex : exists starts,
  y_attempts [y_signing 1 9 2; y_signing 3 16 3] (y_store (Once [lit "hello"])) = Some starts /\
  map fst starts = [1%nat; 3%nat] /\
  Every (fun mine s0 a => own_request mine a /\ own_headers (s_state s0) a) starts [y_signing 1 9 2; y_signing 3 16 3] /\
  Forall (fun start => headers_seen (snd start) (fst start) =
    Some [(lit "Content-Type", [lit "text/plain"]); (lit "X-B", [lit "p"; lit "q"])]) starts.
Proof.
  assert (E : exists s1 s2, y_attempts [y_signing 1 9 2; y_signing 3 16 3] (y_store (Once [lit "hello"])) =
              Some [(1%nat, s1); (3%nat, s2)] /\ List.length (cols (s_state s1)) = 2%nat /\ List.length (heap (s_state s1)) = 3%nat
              /\ List.length (cols (s_state s2)) = 3%nat).
  { destruct (y_attempts _ _) as [[|[a s1] [|[b s2] [|]]]|] eqn:E; vm_compute in E; try discriminate E.
    injection E as <- <- <- <-. do 2 eexists. split; [reflexivity|]. repeat split. }
  destruct E as (s1 & s2 & E & L1 & L2 & L3). exists [(1%nat, s1); (3%nat, s2)].
  assert (Ev : Every (fun mine s0 a => own_request mine a /\ own_headers (s_state s0) a) [(1%nat, s1); (3%nat, s2)]
                 [y_signing 1 9 2; y_signing 3 16 3]).
  { constructor; [|constructor; [|constructor]]; unfold y_signing; repeat (apply Forall_cons; [|]); try apply Forall_nil;
      cbn [own_request own_headers]; rewrite ?L1, ?L2, ?L3; split; try exact I; repeat constructor. }
  split; [exact E|]. split; [reflexivity|]. split; [exact Ev|].
  eapply C91_headers_partial; [|exact E|exact Ev]. reflexivity.
Qed.

(** It is false otherwise: the copy an attempt gets shares its headers with the
    request of the call.  The key that the first attempt puts into a header is
    there when the second attempt starts. *)
Theorem C91_headers_refuted : exists name value l starts,
  y_attempts l (y_store (Once [])) = Some starts /\
  l = [api_key_in_header 1 3 name value; []] /\
  Every (fun mine _ a => own_request mine a) starts l /\
  map (fun start => headers_seen (snd start) (fst start)) starts =
    [Some [(lit "Content-Type", [lit "text/plain"]); (lit "X-B", [lit "p"; lit "q"])];
     Some [(lit "Content-Type", [lit "text/plain"]); (lit "X-B", [lit "p"; lit "q"]); (name, [value])]].
Proof.
  exists (lit "X-Api-Key"), (lit "k"), [api_key_in_header 1 3 (lit "X-Api-Key") (lit "k"); []].
  destruct (y_attempts [api_key_in_header 1 3 (lit "X-Api-Key") (lit "k"); []] (y_store (Once [])))
    as [[|[a s1] [|[b s2] [|]]]|] eqn:E; pose proof E as E'; vm_compute in E'; try discriminate E'.
  exists [(a, s1); (b, s2)]. split; [reflexivity|]. split; [reflexivity|].
  split; [repeat (constructor; [repeat (apply Forall_cons; [exact I|]); apply Forall_nil|]); constructor|].
  injection E' as <- <- <- <-. reflexivity.
Qed.
Print Assumptions C91_headers_refuted.
