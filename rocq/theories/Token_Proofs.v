(** The invariant of the token cache. *)
From Verif Require Import Base Token_Model Token_Spec.

Lemma latest_snoc l o : latest (l ++ [o]) = match o with Fetched _ t => Some t | _ => latest l end.
Proof. unfold latest. rewrite fold_left_app. reflexivity. Qed.

Definition ends_request (o : obs) (i : caller) : Prop := (exists t, o = Fetched i t) \/ (exists e, o = Failed i e) \/ o = Cancelled i.
Lemma requesting_snoc l o i : requesting (l ++ [o]) i <-> (exists t, o = Sent i t) \/ (requesting l i /\ ~ ends_request o i).
Proof.
  split.
  - intros H. inversion H as [l' j t E|l' j o' R A B C E]; apply app_inj_tail in E; destruct E as [E1 E2]; subst.
    + left. exists t. reflexivity.
    + right. split; [exact R|]. intros [(t & E)|[(e & E)|E]]; [exact (A t E)|exact (B e E)|exact (C E)].
  - intros [(t & ->)|[R N]]; [constructor|]. constructor; [exact R| | |]; intros; intros E; apply N; unfold ends_request; eauto.
Qed.
Lemma requesting_nil i : ~ requesting [] i.
Proof. intros H. inversion H as [l j t E|l j o R A B C E]; destruct l; discriminate E. Qed.

Definition ends_call (o : obs) (i : caller) : Prop :=
  (exists t c, o = Returned i t c) \/ (exists e, o = Raised i e) \/ o = Cancelled i.
Lemma calling_snoc l o i : calling (l ++ [o]) i <-> o = Called i \/ (calling l i /\ ~ ends_call o i).
Proof.
  split.
  - intros H. inversion H as [l' j E|l' j o' R A B C E]; apply app_inj_tail in E; destruct E as [E1 E2]; subst.
    + left. reflexivity.
    + right. split; [exact R|]. intros [(t & c & E)|[(e & E)|E]]; [exact (A t c E)|exact (B e E)|exact (C E)].
  - intros [->|[R N]]; [constructor|]. constructor; [exact R| | |]; intros; intros E; apply N; unfold ends_call; eauto.
Qed.
Lemma calling_nil i : ~ calling [] i.
Proof. intros H. inversion H as [l j E|l j o R A B C E]; destruct l; discriminate E. Qed.

Section Ttl.
Variable ttl : Z.
Notation should_refresh := (should_refresh ttl).
Notation step := (step ttl).
Notation run := (run ttl).

Definition quiet (w : caller * future) : Prop := snd w = Pending \/ snd w = CancelledFuture.
Record Inv (c : cache) (l : list obs) : Prop := {
  inv_token : the_token c = latest l;
  inv_lock : if lock c then exists i, fetching c = [i] else fetching c = [];
  inv_requesting : forall i, requesting l i <-> In i (fetching c);
  inv_calling : forall i, calling l i <-> In i (fetching c) \/ In i (map fst (queue c));
  inv_nodup : NoDup (map fst (queue c));
  inv_disjoint : forall i, In i (fetching c) -> ~ In i (map fst (queue c));
  inv_queue : if lock c then Forall quiet (queue c)
              else match queue c with [] => True | w :: r => done (snd w) = true /\ Forall quiet r end }.

Definition fine (l : list obs) (o : obs) : Prop :=
  match o with
  | Sent i now =>
    (latest l = None \/ exists t, latest l = Some t /\ (ttl <= now - created_time t)%Z) /\ forall j, ~ requesting l j
  | Returned i t checked =>
    latest l = Some t
    /\ match checked with
       | Some now => (now - created_time t < ttl)%Z
       | None => exists l', l = l' ++ [Fetched i t]
       end
  | Raised i e => exists l', l = l' ++ [Failed i e]
  | _ => True
  end.
Definition all_fine (l o : list obs) : Prop := forall x y z, o = x ++ y :: z -> fine (l ++ x) y.

Lemma all_fine_nil l : all_fine l [].
Proof. intros [|? ?] y z E; discriminate E. Qed.
Lemma all_fine_cons l a o : fine l a -> all_fine (l ++ [a]) o -> all_fine l (a :: o).
Proof.
  intros Fa Fo [|b x] y z E; cbn in E.
  - injection E as <- <-. rewrite app_nil_r. exact Fa.
  - injection E as <- E. specialize (Fo _ _ _ E). rewrite <- app_assoc in Fo. exact Fo.
Qed.
Lemma all_fine_app l o1 o2 : all_fine l o1 -> all_fine (l ++ o1) o2 -> all_fine l (o1 ++ o2).
Proof.
  revert l. induction o1 as [|a o1 IH]; intros l F1 F2; [rewrite app_nil_r in F2; exact F2|]. cbn [app]. apply all_fine_cons.
  - specialize (F1 [] a o1 eq_refl). rewrite app_nil_r in F1. exact F1.
  - apply IH; [|rewrite <- app_assoc; exact F2]. intros x y z ->. specialize (F1 (a :: x) y z eq_refl).
    rewrite <- app_assoc. exact F1.
Qed.

(** Each observation on its own. *)
Lemma inv_called c l i : Inv c l -> ~ In i (fetching c) -> ~ In i (map fst (queue c)) ->
  latest (l ++ [Called i]) = the_token c
  /\ (forall j, requesting (l ++ [Called i]) j <-> In j (fetching c))
  /\ (forall j, calling (l ++ [Called i]) j <-> i = j \/ In j (fetching c) \/ In j (map fst (queue c))).
Proof.
  intros H Nf Nq. rewrite latest_snoc. split; [symmetry; apply inv_token, H|]. split; intros j.
  - rewrite requesting_snoc, (inv_requesting c l H). split; [intros [(t & E)|[R _]]; [discriminate E|exact R]|].
    intros R. right. split; [exact R|]. intros [(t & E)|[(e & E)|E]]; discriminate E.
  - rewrite calling_snoc, (inv_calling c l H). split.
    + intros [E|[R _]]; [injection E as ->; left; reflexivity|right; exact R].
    + intros [->|R]; [left; reflexivity|]. right. split; [exact R|]. intros [(t & k & E)|[(e & E)|E]]; discriminate E.
Qed.

(** A state that differs from [Inv] by one observation at the end. *)
Lemma inv_snoc c l o (H1 : the_token c = latest (l ++ [o]))
  (H2 : if lock c then exists i, fetching c = [i] else fetching c = [])
  (H3 : forall i, (exists t, o = Sent i t) \/ (requesting l i /\ ~ ends_request o i) <-> In i (fetching c))
  (H4 : forall i, o = Called i \/ (calling l i /\ ~ ends_call o i) <-> In i (fetching c) \/ In i (map fst (queue c)))
  (H5 : NoDup (map fst (queue c))) (H6 : forall i, In i (fetching c) -> ~ In i (map fst (queue c)))
  (H7 : if lock c then Forall quiet (queue c) else match queue c with [] => True | w :: r => done (snd w) = true /\ Forall quiet r end) :
  Inv c (l ++ [o]).
Proof.
  constructor; try assumption; intros i.
  - rewrite requesting_snoc. apply H3.
  - rewrite calling_snoc. apply H4.
Qed.

Lemma wake_ids q : map fst (wake_up_first q) = map fst q.
Proof. destruct q as [|[i f] r]; [reflexivity|]. cbn. destruct (done f); reflexivity. Qed.
Lemma wake_queue q : Forall quiet q ->
  match wake_up_first q with [] => True | w :: r => done (snd w) = true /\ Forall quiet r end.
Proof.
  intros F. destruct q as [|[i f] r]; [exact Logic.I|]. inversion F; subst. cbn. destruct (done f) eqn:D; cbn; auto.
Qed.
Lemma remove_single i : remove i [i] = [].
Proof. unfold remove. cbn. rewrite Nat.eqb_refl. reflexivity. Qed.
Lemma leave_In i q x : In x (leave i q) <-> In x q /\ fst x <> i.
Proof.
  unfold leave. rewrite filter_In, negb_true_iff, Nat.eqb_neq. split; intros [A B]; (split; [exact A|]); intros E; apply B; symmetry; exact E.
Qed.
Lemma leave_ids i q j : In j (map fst (leave i q)) <-> In j (map fst q) /\ j <> i.
Proof.
  rewrite !in_map_iff. split.
  - intros (x & <- & H). apply leave_In in H. destruct H as [H N]. split; [|exact N]. exists x. auto.
  - intros ((x & <- & H) & N). exists x. split; [reflexivity|]. apply leave_In. auto.
Qed.
Lemma leave_nodup i q : NoDup (map fst q) -> NoDup (map fst (leave i q)).
Proof.
  unfold leave. induction q as [|[j f] q IH]; intros N; [constructor|]. cbn [map] in N. inversion N as [|? ? N1 N2]; subst.
  cbn [filter fst]. destruct (negb (i =? j)%nat); [|apply IH, N2]. cbn [map fst]. constructor; [|apply IH, N2].
  intros C. apply N1. apply leave_ids in C. apply C.
Qed.
Lemma leave_quiet i q : Forall quiet q -> Forall quiet (leave i q).
Proof. intros F. rewrite Forall_forall in *. intros x H. apply leave_In in H. apply F, H. Qed.
Lemma leave_absent i q : ~ In i (map fst q) -> leave i q = q.
Proof.
  unfold leave. induction q as [|[j f] q IH]; intros N; [reflexivity|]. cbn [filter fst]. destruct (Nat.eqb_spec i j) as [->|Ne].
  - exfalso. apply N. left. reflexivity.
  - cbn [negb]. rewrite IH; [reflexivity|]. intros C. apply N. right. exact C.
Qed.
Lemma find_In i q f : find i q = Some f -> In (i, f) q.
Proof.
  unfold find. destruct (List.find (fun w : nat * future => Nat.eqb i (fst w)) q) as [w|] eqn:E; [|discriminate]. intros H. injection H as <-.
  apply find_some in E. destruct E as [E1 E2]. apply Nat.eqb_eq in E2. subst i. destruct w. exact E1.
Qed.
Lemma find_None i q : find i q = None -> ~ In i (map fst q).
Proof.
  unfold find. destruct (List.find (fun w : nat * future => Nat.eqb i (fst w)) q) as [w|] eqn:E; [discriminate|]. intros _ C. apply in_map_iff in C. destruct C as (w & <- & Hw).
  pose proof (find_none _ _ E _ Hw) as F. cbv beta in F. rewrite Nat.eqb_refl in F. discriminate F.
Qed.
Lemma find_some_In i q : In i (map fst q) -> exists f, find i q = Some f.
Proof. intros H. destruct (find i q) eqn:E; [eauto|]. apply find_None in E. contradiction. Qed.
Lemma memb_In i l : existsb (Nat.eqb i) l = true <-> In i l.
Proof.
  rewrite existsb_exists. split; [intros (x & H & E); apply Nat.eqb_eq in E; congruence|]. intros H. exists i. split; [exact H|apply Nat.eqb_refl].
Qed.

Definition same (c c' : cache) : Prop := the_token c' = the_token c /\ fetching c' = [] /\ queue c' = wake_up_first (queue c) /\ lock c' = false.

(** The request and the call of [i] end: the lock is free again. *)
Lemma inv_end c l i o c' : Inv c l -> fetching c = [i] -> lock c = true ->
  the_token c' = latest (l ++ [o]) -> fetching c' = [] -> queue c' = wake_up_first (queue c) -> lock c' = false ->
  (forall j, ends_request o j <-> i = j) -> (forall j t, o <> Sent j t) -> (forall j, ends_call o j <-> i = j) -> (forall j, o <> Called j) ->
  Inv c' (l ++ [o]).
Proof.
  intros H F L T F' Q' L' R1 R2 C1 C2. pose proof (inv_queue _ _ H) as Hq. rewrite L in Hq.
  assert (Nq : ~ In i (map fst (queue c))) by (apply (inv_disjoint _ _ H); rewrite F; left; reflexivity).
  apply inv_snoc; try rewrite F'; try rewrite L'; try rewrite Q'; try rewrite wake_ids; try reflexivity.
  - exact T.
  - intros j. rewrite (inv_requesting _ _ H), F, R1. split; [|intros []]. intros [(t & E)|[[<-|[]] N]]; [exact (R2 _ _ E)|congruence].
  - intros j. rewrite (inv_calling _ _ H), F, C1. split.
    + intros [E|[[[<-|[]]|R] N]]; [destruct (C2 _ E)|congruence|right; exact R].
    + intros [[]|R]. right. split; [right; exact R|]. intros <-. contradiction.
  - apply (inv_nodup _ _ H).
  - intros j [].
  - apply wake_queue, Hq.
Qed.

(** Observations that only change the log of requests and calls. *)
Lemma end_fetched i t : forall j, ends_request (Fetched i t) j <-> i = j.
Proof.
  intros j. unfold ends_request. split; [intros [(x & E)|[(e & E)|E]]; congruence|]. intros <-. left. eauto.
Qed.
Lemma end_failed i e : forall j, ends_request (Failed i e) j <-> i = j.
Proof.
  intros j. unfold ends_request. split; [intros [(x & E)|[(x & E)|E]]; congruence|]. intros <-. right. left. eauto.
Qed.
Lemma end_cancelled i : forall j, ends_request (Cancelled i) j <-> i = j.
Proof.
  intros j. unfold ends_request. split; [intros [(x & E)|[(e & E)|E]]; congruence|]. intros <-. auto.
Qed.
Lemma end_returned i t k : forall j, ends_call (Returned i t k) j <-> i = j.
Proof.
  intros j. unfold ends_call. split; [intros [(x & y & E)|[(e & E)|E]]; congruence|]. intros <-. eauto.
Qed.
Lemma end_raised i e : forall j, ends_call (Raised i e) j <-> i = j.
Proof.
  intros j. unfold ends_call. split; [intros [(x & y & E)|[(z & E)|E]]; congruence|]. intros <-. eauto.
Qed.
Lemma end_call_cancelled i : forall j, ends_call (Cancelled i) j <-> i = j.
Proof.
  intros j. unfold ends_call. split; [intros [(x & y & E)|[(z & E)|E]]; congruence|]. intros <-. auto.
Qed.

(** A call in which no request is in progress ends. *)
Lemma inv_return c l i o c' : Inv c l -> 
  the_token c' = the_token c -> fetching c' = fetching c -> lock c' = lock c ->
  queue c' = leave i (queue c) \/ queue c' = wake_up_first (leave i (queue c)) ->
  (if lock c' then Forall quiet (queue c') else match queue c' with [] => True | w :: r => done (snd w) = true /\ Forall quiet r end) ->
  ~ In i (fetching c) ->
  (forall j, ends_call o j <-> i = j) -> (forall j, ends_request o j -> i = j) -> (forall j t, o <> Sent j t) -> (forall j, o <> Called j) ->
  (forall j t, o <> Fetched j t) ->
  Inv c' (l ++ [o]).
Proof.
  intros H T F L Q Hq Nf C1 R1 R2 C2 Nt.
  assert (Ids : forall j, In j (map fst (queue c')) <-> In j (map fst (queue c)) /\ j <> i).
  { intros j. destruct Q as [->| ->]; rewrite ?wake_ids; apply leave_ids. }
  apply inv_snoc.
  - rewrite T, (inv_token _ _ H), latest_snoc. destruct o; try reflexivity. destruct (Nt _ _ eq_refl).
  - rewrite L, F. apply (inv_lock _ _ H).
  - intros j. rewrite (inv_requesting _ _ H), F. split; [intros [(t & E)|[R _]]; [destruct (R2 _ _ E)|exact R]|].
    intros R. right. split; [exact R|]. intros E. apply R1 in E. subst j. contradiction.
  - intros j. rewrite (inv_calling _ _ H), F, C1, Ids. split.
    + intros [E|[[R|R] N]]; [destruct (C2 _ E)|left; exact R|right; split; congruence].
    + intros [R|[R N]]; right; [|split; [right; exact R|congruence]]. split; [left; exact R|]. intros <-. contradiction.
  - destruct Q as [->| ->]; rewrite ?wake_ids; apply leave_nodup, (inv_nodup _ _ H).
  - intros j Hj. rewrite F in Hj. rewrite Ids. intros [R _]. exact (inv_disjoint _ _ H j Hj R).
  - exact Hq.
Qed.

Lemma inv_calls c l : Inv c l -> forall i, In i (fetching c) -> calling l i.
Proof. intros H i Hi. apply (inv_calling _ _ H). left. exact Hi. Qed.

(** The states just after taking the lock: as [Inv], but for the caller [i] that
    holds it and is not in the queue. *)
Record Held (i : caller) (c : cache) (l : list obs) : Prop := {
  held_token : the_token c = latest l;
  held_lock : lock c = true;
  held_fetching : fetching c = [];
  held_requesting : forall j, ~ requesting l j;
  held_calling : forall j, calling l j <-> i = j \/ In j (map fst (queue c));
  held_nodup : NoDup (map fst (queue c));
  held_absent : ~ In i (map fst (queue c));
  held_queue : Forall quiet (queue c) }.

Lemma locked_ok i now c l c' o : Held i c l -> locked ttl i now c = (c', o) -> Inv c' (l ++ o) /\ all_fine l o.
Proof.
  intros H E. destruct H as [Ht Hl Hf Hr Hc Hn Ha Hq]. unfold locked, Token_Model.should_refresh in E.
  assert (Due : forall t, expired ttl t now = true <-> (ttl <= now - created_time t)%Z).
  { intros t. unfold expired. apply Z.leb_le. }
  assert (Snd : Inv (mkCache (the_token c) (lock c) (queue c) (fetching c ++ [i])) (l ++ [Sent i now])).
  { rewrite Hl, Hf. apply inv_snoc; cbn [the_token lock queue fetching app].
    - rewrite latest_snoc. exact Ht.
    - exists i. reflexivity.
    - intros j. split; [intros [(t & E1)|[R _]]; [injection E1 as -> _; left; reflexivity|destruct (Hr j R)]|].
      intros [<-|[]]. left. eauto.
    - intros j. split; [intros [E1|[R _]]; [discriminate E1|]|].
      + apply Hc in R. cbn. intuition.
      + intros R. right. split; [apply Hc; cbn in R; intuition|]. intros [(x & y & E1)|[(z & E1)|E1]]; discriminate E1.
    - exact Hn.
    - intros j [<-|[]]. exact Ha.
    - exact Hq. }
  assert (Ret : forall t, the_token c = Some t -> expired ttl t now = false ->
    Inv (mkCache (the_token c) false (wake_up_first (queue c)) (fetching c)) (l ++ [Returned i t (Some now)]) /\ all_fine l [Returned i t (Some now)]).
  { intros t Et Ex. split.
    - rewrite Hf. apply inv_snoc; cbn [the_token lock queue fetching]; rewrite ?wake_ids.
      + rewrite latest_snoc. exact Ht.
      + reflexivity.
      + intros j. split; [intros [(x & E1)|[R _]]; [discriminate E1|destruct (Hr j R)]|intros []].
      + intros j. rewrite Hc, end_returned. split; [intros [E1|[[E1|R] N]]; [discriminate E1|congruence|right; exact R]|].
        intros [[]|R]. right. split; [right; exact R|]. intros <-. contradiction.
      + exact Hn.
      + intros j [].
      + apply wake_queue, Hq.
    - apply all_fine_cons; [|apply all_fine_nil]. cbn [fine]. rewrite <- Ht. split; [exact Et|].
      destruct (Z.lt_ge_cases (now - created_time t) ttl) as [Lt|Ge]; [exact Lt|]. apply Due in Ge. congruence. }
  destruct (the_token c) as [t|] eqn:Et; [destruct (expired ttl t now) eqn:Ex|].
  - injection E as <- <-. split; [exact Snd|]. apply all_fine_cons; [|apply all_fine_nil]. cbn [fine]. split; [|exact Hr].
    right. exists t. rewrite <- Ht. split; [reflexivity|]. apply Due, Ex.
  - unfold finish, release in E. rewrite Hl in E. cbn [the_token] in E. rewrite Et in E. injection E as <- <-.
    apply (Ret t eq_refl Ex).
  - injection E as <- <-. split; [exact Snd|]. apply all_fine_cons; [|apply all_fine_nil]. cbn [fine]. split; [|exact Hr].
    left. symmetry. exact Ht.
Qed.

Lemma lock_cases c l : Inv c l -> (lock c = true /\ exists i, fetching c = [i]) \/ (lock c = false /\ fetching c = []).
Proof. intros H. pose proof (inv_lock _ _ H) as L. destruct (lock c); [left|right]; split; auto. Qed.

Lemma inv_ended c l i o c' : Inv c l ->
  the_token c' = the_token c -> fetching c' = fetching c -> lock c' = lock c -> queue c' = queue c ->
  ~ In i (fetching c) -> ~ In i (map fst (queue c)) ->
  (forall j, ends_call o j <-> i = j) -> (forall j, ends_request o j -> i = j) -> (forall j t, o <> Sent j t) -> (forall j, o <> Called j) ->
  (forall j t, o <> Fetched j t) ->
  Inv c' (l ++ [o]).
Proof.
  intros H T F L Q Nf Nq. intros. eapply (inv_return c l i); eauto.
  - left. rewrite leave_absent; assumption.
  - rewrite L, Q. apply (inv_queue _ _ H).
Qed.

Lemma answered_ok i r now c l c' o : Inv c l -> In i (fetching c) -> answered i r now c = (c', o) -> Inv c' (l ++ o) /\ all_fine l o.
Proof.
  intros H Hi E. destruct (lock_cases c l H) as [(L & j & F)|(L & F)]; [|rewrite F in Hi; destruct Hi].
  assert (j = i) as -> by (rewrite F in Hi; destruct Hi as [->|[]]; reflexivity).
  assert (Nq : ~ In i (map fst (queue c))) by (apply (inv_disjoint _ _ H), Hi).
  (* the request ends, the call not yet *)
  assert (Mid : forall o' tk, (forall k, ends_request o' k <-> i = k) -> (forall k, ~ ends_call o' k) -> (forall k t, o' <> Sent k t) ->
    (forall k, o' <> Called k) -> tk = latest (l ++ [o']) -> Held i (mkCache tk true (queue c) []) (l ++ [o'])).
  { intros o' tk R1 C1 R2 C2 T. constructor; cbn [the_token lock queue fetching]; try reflexivity.
    - exact T.
    - intros k. rewrite requesting_snoc, (inv_requesting _ _ H), F, R1. intros [(t & E1)|[[E1|[]] N]]; [exact (R2 _ _ E1)|congruence].
    - intros k. rewrite calling_snoc, (inv_calling _ _ H), F. cbn [In]. split.
      + intros [E1|[[[E1|[]]|R] _]]; [destruct (C2 _ E1)|left; exact E1|right; exact R].
      + intros R. right. split; [destruct R; auto|apply C1].
    - apply (inv_nodup _ _ H).
    - exact Nq.
    - pose proof (inv_queue _ _ H) as Hq. rewrite L in Hq. exact Hq. }
  assert (Fin : forall tk l' o', Held i (mkCache tk true (queue c) []) l' -> (forall k, ends_call o' k <-> i = k) ->
     (forall k, ends_request o' k -> i = k) -> (forall k t, o' <> Sent k t) -> (forall k, o' <> Called k) -> (forall k t, o' <> Fetched k t) ->
     Inv (mkCache tk false (wake_up_first (queue c)) []) (l' ++ [o'])).
  { intros tk l' o' [Ht Hl Hf Hr Hc Hn Ha Hq] C1 R1 R2 C2 Nt. cbn [the_token lock queue fetching] in *.
    apply inv_snoc; cbn [the_token lock queue fetching]; rewrite ?wake_ids; auto.
    - rewrite latest_snoc, Ht. destruct o'; try reflexivity. destruct (Nt _ _ eq_refl).
    - intros k. split; [intros [(x & E1)|[R _]]; [destruct (R2 _ _ E1)|destruct (Hr k R)]|intros []].
    - intros k. rewrite Hc, C1. split; [intros [E1|[[E1|R] N]]; [destruct (C2 _ E1)|congruence|right; exact R]|].
      intros [[]|R]. right. split; [right; exact R|]. intros <-. contradiction.
    - apply wake_queue, Hq. }
  unfold answered, finish, release in E. cbn [the_token lock queue fetching] in E. rewrite F, L, remove_single in E.
  destruct r as [v|e]; cbn [the_token lock queue fetching] in E; injection E as <- <-.
  - change (l ++ [Fetched i (mkToken v now); Returned i (mkToken v now) None])
      with (l ++ [Fetched i (mkToken v now)] ++ [Returned i (mkToken v now) None]). rewrite app_assoc. split.
    + apply Fin.
      * apply Mid; try (intros; discriminate); [apply end_fetched| |rewrite latest_snoc; reflexivity].
        intros k [(x & y & E1)|[(z & E1)|E1]]; discriminate E1.
      * apply end_returned.
      * intros k [(x & E1)|[(z & E1)|E1]]; discriminate E1.
      * intros; discriminate.
      * intros; discriminate.
      * intros; discriminate.
    + apply all_fine_cons; [exact Logic.I|]. apply all_fine_cons; [|apply all_fine_nil]. cbn [fine]. rewrite latest_snoc.
      split; [reflexivity|]. exists l. reflexivity.
  - change (l ++ [Failed i e; Raised i e]) with (l ++ [Failed i e] ++ [Raised i e]). rewrite app_assoc. split.
    + apply Fin.
      * apply Mid; try (intros; discriminate); [apply end_failed| |rewrite latest_snoc; apply (inv_token _ _ H)].
        intros k [(x & y & E1)|[(z & E1)|E1]]; discriminate E1.
      * apply end_raised.
      * intros k [(x & E1)|[(z & E1)|E1]]; discriminate E1.
      * intros; discriminate.
      * intros; discriminate.
      * intros; discriminate.
    + apply all_fine_cons; [exact Logic.I|]. apply all_fine_cons; [|apply all_fine_nil]. cbn [fine]. exists l. reflexivity.
Qed.

Lemma not_in_call i c : in_call i c = false -> ~ In i (fetching c) /\ ~ In i (map fst (queue c)).
Proof.
  unfold in_call. rewrite orb_false_iff. intros [E1 E2]. split.
  - rewrite <- memb_In. congruence.
  - destruct (find i (queue c)) eqn:F; [discriminate E2|]. apply find_None, F.
Qed.

Lemma call_ok i now now' c l c' o : Inv c l -> step (Call i now now') c = (c', o) -> Inv c' (l ++ o) /\ all_fine l o.
Proof.
  intros H E. cbn [Token_Model.step] in E. destruct (in_call i c) eqn:B.
  { injection E as <- <-. rewrite app_nil_r. split; [exact H|apply all_fine_nil]. }
  apply not_in_call in B. destruct B as [Nf Nq]. destruct (get_token ttl i now now' c) as [c1 o1] eqn:G. injection E as <- <-.
  destruct (inv_called c l i H Nf Nq) as (K1 & K2 & K3).
  replace (l ++ Called i :: o1) with ((l ++ [Called i]) ++ o1) by (rewrite <- app_assoc; reflexivity).
  assert (Go : Inv c1 ((l ++ [Called i]) ++ o1) /\ all_fine (l ++ [Called i]) o1).
  2:{ split; [apply Go|]. apply all_fine_cons; [exact Logic.I|apply Go]. }
  set (l1 := l ++ [Called i]) in *. unfold get_token in G. pose proof (inv_lock _ _ H) as Hl. pose proof (inv_queue _ _ H) as Hq.
  destruct (should_refresh c now) eqn:S.
  - destruct (lock c) eqn:L; cbn [negb andb] in G.
    + (* waits *)
      injection G as <- <-. rewrite app_nil_r. split; [|apply all_fine_nil]. constructor; cbn [the_token lock queue fetching].
      * symmetry. exact K1.
      * exact Hl.
      * exact K2.
      * intros j. rewrite K3, map_app, in_app_iff. cbn. intuition.
      * rewrite map_app. cbn [map fst]. rewrite <- (rev_involutive (map fst (queue c) ++ [i])).
        apply NoDup_rev. rewrite rev_app_distr. cbn [rev app]. constructor; [rewrite <- in_rev; exact Nq|]. apply NoDup_rev, (inv_nodup _ _ H).
      * intros j Hj. rewrite map_app, in_app_iff. intros [R|[<-|[]]]; [exact (inv_disjoint _ _ H j Hj R)|contradiction].
      * apply Forall_app. split; [exact Hq|]. constructor; [left; reflexivity|constructor].
    + destruct (forallb _ (queue c)) eqn:A.
      * (* takes the lock *)
        apply (locked_ok i now' _ l1 c1 o1) in G; [exact G|]. constructor; cbn [the_token lock queue fetching]; try reflexivity.
        -- symmetry. exact K1.
        -- exact Hl.
        -- intros j R. apply K2 in R. rewrite Hl in R. destruct R.
        -- intros j. rewrite K3, Hl. cbn. intuition.
        -- apply (inv_nodup _ _ H).
        -- exact Nq.
        -- rewrite forallb_forall in A. apply Forall_forall. intros w Hw. specialize (A w Hw). right. destruct (snd w); try discriminate A. reflexivity.
      * injection G as <- <-. rewrite app_nil_r. split; [|apply all_fine_nil]. constructor; cbn [the_token lock queue fetching].
        -- symmetry. exact K1.
        -- exact Hl.
        -- exact K2.
        -- intros j. rewrite K3, map_app, in_app_iff. cbn. intuition.
        -- rewrite map_app. cbn [map fst]. rewrite <- (rev_involutive (map fst (queue c) ++ [i])).
           apply NoDup_rev. rewrite rev_app_distr. cbn [rev app]. constructor; [rewrite <- in_rev; exact Nq|]. apply NoDup_rev, (inv_nodup _ _ H).
        -- intros j Hj. rewrite Hl in Hj. destruct Hj.
        -- destruct (queue c) as [|w q] eqn:Q; [discriminate A|]. cbn [app]. destruct Hq as [D Fq]. split; [exact D|].
           apply Forall_app. split; [exact Fq|]. constructor; [left; reflexivity|constructor].
  - unfold Token_Model.should_refresh in S. destruct (the_token c) as [t|] eqn:Et; [|discriminate S]. injection G as <- <-.
    split.
    + apply inv_snoc.
      * rewrite latest_snoc, K1. exact Et.
      * exact Hl.
      * intros j. rewrite K2. split; [intros [(x & E1)|[R _]]; [discriminate E1|exact R]|]. intros R. right. split; [exact R|].
        intros [(x & E1)|[(z & E1)|E1]]; discriminate E1.
      * intros j. rewrite K3, end_returned. split; [intros [E1|[[E1|R] N]]; [discriminate E1|congruence|exact R]|].
        intros R. right. split; [right; exact R|]. intros <-. destruct R; contradiction.
      * apply (inv_nodup _ _ H).
      * apply (inv_disjoint _ _ H).
      * exact Hq.
    + apply all_fine_cons; [|apply all_fine_nil]. cbn [fine]. split; [exact K1|]. unfold expired in S. apply Z.leb_gt in S. exact S.
Qed.

Lemma resumed_ok i f now c l c' o : Inv c l -> find i (queue c) = Some f -> resumed ttl i f now c = (c', o) -> Inv c' (l ++ o) /\ all_fine l o.
Proof.
  intros H Fi E. apply find_In in Fi. pose proof (inv_queue _ _ H) as Hq.
  assert (Iq : In i (map fst (queue c))) by (apply in_map_iff; exists (i, f); auto).
  assert (Nf : ~ In i (fetching c)) by (intros C; exact (inv_disjoint _ _ H i C Iq)).
  assert (Cn : f = CancelledFuture \/ f = CancelledCaller ->
     Inv (mkCache (the_token c) (lock c) (if lock c then leave i (queue c) else wake_up_first (leave i (queue c))) (fetching c)) (l ++ [Cancelled i])).
  { intros Hf. eapply (inv_return c l i); eauto.
    - cbn [queue]. destruct (lock c); [left|right]; reflexivity.
    - cbn [lock queue]. destruct (lock c); [apply leave_quiet, Hq|]. 
      destruct (queue c) as [|[j g] q] eqn:Q; [destruct Fi|]. destruct Hq as [D Fq]. cbn [snd] in D.
      unfold leave. cbn [filter fst]. destruct (Nat.eqb_spec i j) as [->|Ne]; cbn [negb].
      + apply wake_queue. apply (leave_quiet j q Fq).
      + cbn [wake_up_first]. rewrite D. split; [exact D|]. apply (leave_quiet i q Fq).
    - apply end_call_cancelled.
    - intros j. apply end_cancelled.
    - intros; discriminate.
    - intros; discriminate.
    - intros; discriminate. }
  destruct f; cbn [resumed] in E.
  - injection E as <- <-. rewrite app_nil_r. split; [exact H|apply all_fine_nil].
  - (* the lock is free and [i] is the first *)
    destruct (lock_cases c l H) as [(L & j & F)|(L & F)]; rewrite L in Hq.
    { rewrite Forall_forall in Hq. destruct (Hq _ Fi) as [D|D]; discriminate D. }
    destruct (queue c) as [|[j g] q] eqn:Q; [destruct Fi|]. destruct Hq as [D Fq]. rewrite Forall_forall in Fq.
    assert (Ej : (j, g) = (i, Woken)). { destruct Fi as [Fi|Fi]; [exact Fi|]. destruct (Fq _ Fi) as [X|X]; discriminate X. }
    injection Ej as -> ->. pose proof (inv_nodup _ _ H) as N. rewrite Q in N. cbn [map fst] in N. inversion N as [|? ? N1 N2]; subst.
    assert (Lv : leave i ((i, Woken) :: q) = q). { unfold leave. cbn [filter fst]. rewrite Nat.eqb_refl. cbn [negb]. apply (leave_absent i q N1). }
    rewrite Lv in E. apply (locked_ok i now _ l c' o) in E; [exact E|]. constructor; cbn [the_token lock queue fetching]; try reflexivity.
    + apply (inv_token _ _ H).
    + exact F.
    + intros j R. apply (inv_requesting _ _ H) in R. rewrite F in R. destruct R.
    + intros j. rewrite (inv_calling _ _ H), F, Q. cbn. intuition.
    + exact N2.
    + exact N1.
    + apply Forall_forall, Fq.
  - injection E as <- <-. split; [apply Cn; auto|]. apply all_fine_cons; [exact Logic.I|apply all_fine_nil].
  - injection E as <- <-. split; [apply Cn; auto|]. apply all_fine_cons; [exact Logic.I|apply all_fine_nil].
Qed.

Lemma cancel_ids i q : map fst (map (fun w : caller * future => if Nat.eqb i (fst w) then (fst w, cancel_future (snd w)) else w) q) = map fst q.
Proof. rewrite map_map. apply map_ext. intros [j f]. cbn [fst]. destruct (Nat.eqb i j); reflexivity. Qed.
Lemma cancel_quiet i q : Forall quiet q -> Forall quiet (map (fun w : caller * future => if Nat.eqb i (fst w) then (fst w, cancel_future (snd w)) else w) q).
Proof.
  intros F. rewrite Forall_map. eapply Forall_impl; [|exact F]. intros [j f] Q. cbn [fst snd]. destruct (Nat.eqb i j); [|exact Q].
  unfold quiet in *. cbn [snd] in *. destruct Q as [->| ->]; right; reflexivity.
Qed.

Lemma cancel_ok i c l c' o : Inv c l -> cancel i c = (c', o) -> Inv c' (l ++ o) /\ all_fine l o.
Proof.
  intros H E. unfold cancel in E. destruct (existsb (Nat.eqb i) (fetching c)) eqn:B.
  - apply memb_In in B. destruct (lock_cases c l H) as [(L & j & F)|(L & F)]; [|rewrite F in B; destruct B].
    assert (j = i) as -> by (rewrite F in B; destruct B as [->|[]]; reflexivity).
    unfold release in E. cbn [the_token lock queue fetching] in E. rewrite L, F, remove_single in E. injection E as <- <-. split.
    + apply (inv_end c l i); auto; cbn [the_token].
      * rewrite latest_snoc. apply (inv_token _ _ H).
      * apply end_cancelled.
      * intros; discriminate.
      * apply end_call_cancelled.
      * intros; discriminate.
    + apply all_fine_cons; [exact Logic.I|apply all_fine_nil].
  - injection E as <- <-. rewrite app_nil_r. split; [|apply all_fine_nil]. constructor; cbn [the_token lock queue fetching]; rewrite ?cancel_ids.
    + apply (inv_token _ _ H).
    + apply (inv_lock _ _ H).
    + apply (inv_requesting _ _ H).
    + apply (inv_calling _ _ H).
    + apply (inv_nodup _ _ H).
    + apply (inv_disjoint _ _ H).
    + pose proof (inv_queue _ _ H) as Hq. destruct (lock c); [apply cancel_quiet, Hq|].
      destruct (queue c) as [|[j f] q]; [exact Logic.I|]. destruct Hq as [D Fq]. cbn [map fst snd] in *. split; [|apply cancel_quiet, Fq].
      destruct (Nat.eqb i j); [|exact D]. destruct f; try discriminate D; reflexivity.
Qed.

Lemma step_ok e c l c' o : Inv c l -> step e c = (c', o) -> Inv c' (l ++ o) /\ all_fine l o.
Proof.
  intros H E. destruct e as [i now now'|i s r now|i now|i].
  - apply (call_ok i now now' c l c' o H E).
  - cbn [Token_Model.step] in E. destruct (existsb (Nat.eqb i) (fetching c)) eqn:B.
    + apply memb_In in B. apply (answered_ok i r now c l c' o H B E).
    + injection E as <- <-. rewrite app_nil_r. split; [exact H|apply all_fine_nil].
  - cbn [Token_Model.step] in E. destruct (find i (queue c)) as [f|] eqn:B.
    + apply (resumed_ok i f now c l c' o H B E).
    + injection E as <- <-. rewrite app_nil_r. split; [exact H|apply all_fine_nil].
  - apply (cancel_ok i c l c' o H E).
Qed.
Lemma run_ok es : forall c l c' o, Inv c l -> run es c = (c', o) -> Inv c' (l ++ o) /\ all_fine l o.
Proof.
  induction es as [|e es IH]; intros c l c' o H E; cbn [Token_Model.run] in E.
  - injection E as <- <-. rewrite app_nil_r. split; [exact H|apply all_fine_nil].
  - destruct (step e c) as [c1 o1] eqn:E1. destruct (run es c1) as [c2 o2] eqn:E2. injection E as <- <-.
    destruct (step_ok e c l c1 o1 H E1) as [H1 F1]. destruct (IH _ _ _ _ H1 E2) as [H2 F2]. rewrite app_assoc.
    split; [exact H2|]. apply all_fine_app; assumption.
Qed.
Lemma init_ok : Inv init [].
Proof.
  constructor; cbn; auto.
  - intros i. split; [intros H; destruct (requesting_nil i H)|intros []].
  - intros i. split; [intros H; destruct (calling_nil i H)|intros [[]|[]]].
  - constructor.
Qed.

(** ** Progress *)
Definition work (c : cache) : nat := (2 * List.length (queue c) + List.length (fetching c))%nat.

Lemma leave_length i q f : NoDup (map fst q) -> In (i, f) q -> S (List.length (leave i q)) = List.length q.
Proof.
  induction q as [|[j g] q IH]; intros N H; [destruct H|]. cbn [map fst] in N. inversion N as [|? ? N1 N2]; subst.
  unfold leave. cbn [filter fst]. destruct (Nat.eqb_spec i j) as [->|Ne]; cbn [negb List.length].
  - f_equal. apply (f_equal (@List.length _) (leave_absent j q N1)).
  - f_equal. apply IH; [exact N2|]. destruct H as [H|H]; [injection H as <- _; congruence|exact H].
Qed.
Lemma wake_length q : List.length (wake_up_first q) = List.length q.
Proof. destruct q as [|[i f] r]; [reflexivity|]. cbn. destruct (done f); reflexivity. Qed.
Lemma locked_work i now c : (work (fst (locked ttl i now c)) <= work c + 1)%nat.
Proof.
  unfold locked, finish, release. destruct (should_refresh c now); cbn [fst].
  - unfold work. cbn [queue fetching]. rewrite app_length. cbn. lia.
  - destruct (lock c); cbn [fst]; unfold work; cbn [queue fetching]; rewrite ?wake_length; lia.
Qed.
Lemma resume_work i now c l : Inv c l -> snd (step (Resume i now) c) <> [] -> (work (fst (step (Resume i now) c)) < work c)%nat.
Proof.
  intros H. cbn [Token_Model.step]. destruct (find i (queue c)) as [f|] eqn:B; [|cbn; congruence]. apply find_In in B.
  pose proof (leave_length i (queue c) f (inv_nodup _ _ H) B) as Len.
  destruct f; cbn [resumed]; [cbn; congruence| | |]; intros _.
  - eapply Nat.le_lt_trans; [apply locked_work|]. unfold work. cbn [queue fetching]. lia.
  - cbn [fst]. unfold work. cbn [queue fetching]. destruct (lock c); rewrite ?wake_length; lia.
  - cbn [fst]. unfold work. cbn [queue fetching]. destruct (lock c); rewrite ?wake_length; lia.
Qed.
Lemma answer_work i s r now c l : Inv c l -> snd (step (Answer i s r now) c) <> [] -> (work (fst (step (Answer i s r now) c)) < work c)%nat.
Proof.
  intros H. cbn [Token_Model.step]. destruct (existsb (Nat.eqb i) (fetching c)) eqn:B; [|cbn; congruence]. intros _. apply memb_In in B.
  destruct (lock_cases c l H) as [(L & j & F)|(L & F)]; [|rewrite F in B; destruct B].
  assert (j = i) as -> by (rewrite F in B; destruct B as [->|[]]; reflexivity).
  unfold answered, finish, release. cbn [the_token lock queue fetching]. rewrite L, F, remove_single.
  destruct r; cbn [fst]; unfold work; cbn [queue fetching]; rewrite F, ?wake_length; cbn; lia.
Qed.
Lemma work_calls c l (cs : list caller) : Inv c l -> (forall i, calling l i -> In i cs) -> (work c <= 2 * List.length cs)%nat.
Proof.
  intros H Hc.
  assert (Le : (List.length (map fst (queue c) ++ fetching c) <= List.length cs)%nat).
  { apply NoDup_incl_length.
    - destruct (lock_cases c l H) as [(_ & j & F)|(_ & F)]; rewrite F.
      + rewrite <- (rev_involutive (map fst (queue c) ++ [j])). apply NoDup_rev. rewrite rev_app_distr. cbn [rev app].
        constructor; [rewrite <- in_rev|apply NoDup_rev, (inv_nodup _ _ H)]. apply (inv_disjoint _ _ H). rewrite F. left. reflexivity.
      + rewrite app_nil_r. apply (inv_nodup _ _ H).
    - intros i Hi. apply Hc, (inv_calling _ _ H). apply in_app_iff in Hi. tauto. }
  rewrite app_length, map_length in Le. unfold work. lia.
Qed.
End Ttl.
