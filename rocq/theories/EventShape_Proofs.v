(** Lemmas about events as messages. *)
From Verif Require Import Base Base_Proofs Utf8_Model Utf8_Proofs PyDict_Model PyDict_Proofs EventStream_Model
  EventIO_Model EventShape_Model EventShape_Spec.
Local Open Scope N_scope.

Section P.
  Context {V : Type}.
  Notation writes := (list (member * value V)).

  Lemma header_of_ok (m : member) (v : value V) h : header_of m v = Ok h <-> on_wire (mb_type m) v h.
  Proof.
    unfold header_of. destruct (mb_type m), v; split; intros H; try discriminate;
      try (injection H as <-; constructor); try (inversion H; reflexivity).
  Qed.
  Lemma read_header_ok (m : member) (v : value V) h : on_wire (mb_type m) v h -> read_header m h = Ok v.
  Proof. unfold read_header. intros H. inversion H; reflexivity. Qed.

  Definition wire (mv : member * value V) (nh : text * hvalue) : Prop :=
    fst nh = mb_name (fst mv) /\ on_wire (mb_type (fst mv)) (snd mv) (snd nh).
  Definition wname (mv : member * value V) : text := mb_name (fst mv).

  Lemma write_headers_ok (ws : writes) : forall hs0 hs,
    NoDup (map wname ws) -> (forall mv, In mv ws -> ~ In (wname mv) (dict_keys hs0)) ->
    (write_headers ws hs0 = Ok hs <-> exists hvs, hs = hs0 ++ hvs /\ Forall2 wire (filter in_header ws) hvs).
  Proof.
    induction ws as [|[m v] r IH]; intros hs0 hs Hn Hf; cbn [write_headers filter].
    - split; [intros [= <-]; exists []; rewrite app_nil_r; split; [reflexivity|constructor]|].
      intros (hvs & -> & H). inversion H. rewrite app_nil_r. reflexivity.
    - cbn [map] in Hn. apply NoDup_cons_iff in Hn as (Hnot & Hn).
      change (in_header (m, v)) with (mb_header m). destruct (mb_header m) eqn:E.
      + cbn [bind].
        assert (Hfresh : ~ In (mb_name m) (dict_keys hs0)) by exact (Hf (m, v) (or_introl eq_refl)).
        split.
        * destruct (header_of m v) as [h|e] eqn:Eh; [|discriminate]. cbn [bind].
          rewrite (dict_set_new (mb_name m) h hs0 Hfresh). intros H.
          apply IH in H as (hvs & -> & H2); [|exact Hn|].
          -- exists ((mb_name m, h) :: hvs). split; [rewrite <- app_assoc; reflexivity|].
             constructor; [|exact H2]. split; [reflexivity|]. apply header_of_ok. exact Eh.
          -- intros mv Hin. unfold dict_keys. rewrite map_app, in_app_iff. intros [H3|H3].
             ++ exact (Hf mv (or_intror Hin) H3).
             ++ cbn in H3. destruct H3 as [H3|[]]. apply Hnot. rewrite in_map_iff. exists mv. split; [symmetry; exact H3|exact Hin].
        * intros (hvs & -> & H2). inversion H2 as [|? [k h] ? hvs' (Hk & Hw) H3]; subst. cbn [fst snd] in *. subst k.
          rewrite (proj2 (header_of_ok m v h) Hw). cbn [bind].
          rewrite (dict_set_new (mb_name m) h hs0 Hfresh). apply IH; [exact Hn| |].
          -- intros mv Hin. unfold dict_keys. rewrite map_app, in_app_iff. intros [H4|H4].
             ++ exact (Hf mv (or_intror Hin) H4).
             ++ cbn in H4. destruct H4 as [H4|[]]. apply Hnot. rewrite in_map_iff. exists mv. split; [symmetry; exact H4|exact Hin].
          -- exists hvs'. split; [rewrite <- app_assoc; reflexivity|exact H3].
      + apply IH; [exact Hn|]. intros mv Hin. exact (Hf mv (or_intror Hin)).
  Qed.

  (** Reading headers *)
  Lemma find_member_In sh m : NoDup (map mb_name (sh_members sh)) -> In m (sh_members sh) -> find_member (mb_name m) sh = Some m.
  Proof.
    unfold find_member. induction (sh_members sh) as [|a l IH]; intros Hn Hin; [destruct Hin|].
    cbn [map] in Hn. apply NoDup_cons_iff in Hn as (Hnot & Hn). cbn [find].
    destruct Hin as [->|Hin]; [rewrite text_eqb_refl; reflexivity|].
    destruct (text_eqb (mb_name m) (mb_name a)) eqn:E; [|exact (IH Hn Hin)].
    apply text_eqb_eq in E. destruct Hnot. rewrite <- E. apply in_map. exact Hin.
  Qed.
  Lemma find_member_none k sh : ~ In k (map mb_name (sh_members sh)) -> find_member k sh = None.
  Proof.
    unfold find_member. induction (sh_members sh) as [|a l IH]; intros Hn; [reflexivity|]. cbn [find].
    destruct (text_eqb k (mb_name a)) eqn:E; [|apply IH; intros H; apply Hn; right; exact H].
    apply text_eqb_eq in E. destruct Hn. left. symmetry. exact E.
  Qed.
  Definition skips sh (hs : headers) : Prop := Forall (fun kh => find_member (fst kh) sh = None) hs.
  Lemma read_headers_skip sh hs r : skips sh hs -> @read_headers V sh (hs ++ r) = read_headers sh r.
  Proof. induction 1 as [|[k h] l H Hl IH]; [reflexivity|]. cbn [app read_headers]. cbn [fst] in H. rewrite H. exact IH. Qed.
  Lemma read_headers_wire sh (ws : writes) hvs :
    NoDup (map mb_name (sh_members sh)) -> Forall (fun mv => In (fst mv) (sh_members sh) /\ mb_header (fst mv) = true) ws ->
    Forall2 wire ws hvs -> forall tail, skips sh tail -> read_headers sh (hvs ++ tail) = Ok ws.
  Proof.
    intros Hn Hin H tail Ht. induction H as [|[m v] [k h] ws hvs (Hk & Hw) H IH].
    - cbn [app]. rewrite <- (app_nil_r tail), read_headers_skip by exact Ht. reflexivity.
    - apply Forall_cons_iff in Hin as ((Hm & Hh) & Hin). cbn [fst snd] in *. subst k. cbn [app read_headers].
      rewrite (find_member_In sh m Hn Hm), Hh, (read_header_ok m v h Hw). cbn [bind]. rewrite (IH Hin). reflexivity.
  Qed.

  (** Values by name *)
  Lemma value_of_app n (a b : writes) :
    value_of n (a ++ b) = match value_of n b with Some v => Some v | None => value_of n a end.
  Proof.
    induction a as [|[m v] a IH]; cbn [app value_of]; [destruct (value_of n b); reflexivity|].
    rewrite IH. destruct (value_of n b); reflexivity.
  Qed.
  Lemma value_of_none n (a : writes) : ~ In n (map wname a) -> value_of n a = None.
  Proof.
    induction a as [|[m v] a IH]; intros H; cbn [value_of]; [reflexivity|].
    rewrite IH by (intros H2; apply H; right; exact H2).
    rewrite (proj2 (text_eqb_neq _ _)); [reflexivity|]. intros ->. apply H. left. reflexivity.
  Qed.
  Lemma wname_filter (f : member * value V -> bool) n (ws : writes) : In n (map wname (filter f ws)) -> In n (map wname ws).
  Proof. rewrite !in_map_iff. intros (x & E & H). apply filter_In in H as (H & _). exists x. split; assumption. Qed.
  Lemma value_of_split n (ws : writes) : NoDup (map wname ws) ->
    value_of n ws = match value_of n (filter in_body ws) with Some v => Some v | None => value_of n (filter in_header ws) end.
  Proof.
    induction ws as [|[m v] r IH]; intros Hn; [reflexivity|].
    cbn [map] in Hn. apply NoDup_cons_iff in Hn as (Hnot & Hn). specialize (IH Hn).
    cbn [filter]. change (in_body (m, v)) with (negb (mb_header m)). change (in_header (m, v)) with (mb_header m).
    destruct (mb_header m); cbn [negb value_of]; rewrite IH; destruct (value_of n (filter in_body r)) eqn:Eb; try reflexivity.
    - destruct (text_eqb n (mb_name m)) eqn:E.
      + apply text_eqb_eq in E. rewrite value_of_none; [reflexivity|]. intros H. apply wname_filter in H. apply Hnot. unfold wname at 1. cbn [fst]. rewrite <- E. exact H.
      + destruct (value_of n (filter in_header r)); reflexivity.
  Qed.

  Lemma body_writes_in_body (ws : writes) : body_writes ws = filter in_body ws.
  Proof. reflexivity. Qed.

  (** With a payload member, what is not a header is that member. *)
  Lemma only_payload sh (ws : writes) pm :
    event_shape sh -> event_members sh ws -> In pm (sh_members sh) -> mb_payload pm = true ->
    filter in_body ws = [] /\ (forall v, ~ In (pm, v) ws) \/ exists v, filter in_body ws = [(pm, v)] /\ In (pm, v) ws.
  Proof.
    intros (Hn & _ & Hhp & Honly) (Hnd & Hin & _ & _) Hpm Hp.
    assert (Hpnh : mb_header pm = false).
    { destruct (mb_header pm) eqn:E; [|reflexivity]. rewrite Forall_forall in Hhp. rewrite (Hhp pm Hpm E) in Hp. discriminate. }
    change (fun mv : member * value V => mb_name (fst mv)) with wname in Hnd.
    revert Hnd Hin. induction ws as [|[m v] r IH]; intros Hnd Hin; [left; split; [reflexivity|intros v []]|].
    cbn [map] in Hnd. apply NoDup_cons_iff in Hnd as (Hnot & Hnd). apply Forall_cons_iff in Hin as (Hm & Hin). cbn [fst] in Hm.
    cbn [filter]. change (in_body (m, v)) with (negb (mb_header m)).
    destruct (mb_header m) eqn:E; cbn [negb].
    - destruct (IH Hnd Hin) as [(H1 & H2)|(w & H1 & H2)].
      + left. split; [exact H1|]. intros w [[= -> ->]|H]; [congruence|exact (H2 w H)].
      + right. exists w. split; [exact H1|right; exact H2].
    - assert (Em : m = pm).
      { destruct (text_eq_dec (mb_name m) (mb_name pm)) as [En|Hne].
        - pose proof (find_member_In sh m Hn Hm) as F1. pose proof (find_member_In sh pm Hn Hpm) as F2. rewrite En, F2 in F1. congruence.
        - rewrite (Honly pm Hpm Hp m Hm) in E; [discriminate|]. intros ->. exact (Hne eq_refl). }
      subst m. right. exists v. split; [|left; reflexivity]. f_equal.
      destruct (IH Hnd Hin) as [(H1 & _)|(w & _ & H2)]; [exact H1|].
      destruct Hnot. apply in_map_iff. exists (pm, w). split; [reflexivity|exact H2].
  Qed.

  Lemma get_payload_some sh pm : get_payload_member sh = Some pm -> In pm (sh_members sh) /\ mb_payload pm = true.
  Proof. apply find_some. Qed.
  Lemma get_payload_none sh : get_payload_member sh = None <-> Forall (fun m => mb_payload m = false) (sh_members sh).
  Proof.
    split; [intros H; apply Forall_forall; exact (find_none _ _ H)|].
    unfold get_payload_member. induction 1 as [|m l H Hl IH]; [reflexivity|]. cbn [find]. rewrite H. exact IH.
  Qed.
  Lemma get_payload_unique sh pm : event_shape sh -> In pm (sh_members sh) -> mb_payload pm = true -> get_payload_member sh = Some pm.
  Proof.
    intros (Hn & _ & Hhp & Honly) Hin Hp. destruct (get_payload_member sh) as [q|] eqn:E.
    - destruct (get_payload_some sh q E) as (Hq & Hqp). f_equal.
      destruct (text_eq_dec (mb_name q) (mb_name pm)) as [En|Hne].
      + pose proof (find_member_In sh q Hn Hq) as F1. pose proof (find_member_In sh pm Hn Hin) as F2. rewrite En, F2 in F1. congruence.
      + assert (Hqh : mb_header q = true) by (apply (Honly pm Hin Hp q Hq); intros ->; exact (Hne eq_refl)).
        rewrite Forall_forall in Hhp. rewrite (Hhp q Hq Hqh) in Hqp. discriminate.
    - rewrite (get_payload_none sh), Forall_forall in E. rewrite (E pm Hin) in Hp. discriminate.
  Qed.

  Section Codec.
    Variables (media : text) (cs : shape -> writes -> result bytes) (cv : writes -> result bytes).

    Definition body_step (sh : shape) (ws : writes) : result (bytes * text) :=
      match get_payload_member sh with
      | Some pm =>
        do b <- (if is_raw (mb_type pm) then raw_writes (body_writes ws) else cv (body_writes ws));
        Ok (b, payload_media_type media pm)
      | None => do b <- cs sh (body_writes ws); Ok (b, media)
      end.
    Definition labelled (b : bytes) (t : text) : headers := match b with [] => [] | _ => [(lit ":content-type", HString t)] end.

    Lemma payload_step sh ws b t :
      event_shape sh -> event_members sh ws -> body_step sh ws = Ok (b, t) -> payload_of media cs cv sh ws b t.
    Proof.
      intros Hs Hw. unfold body_step. destruct (get_payload_member sh) as [pm|] eqn:Ep.
      - destruct (get_payload_some sh pm Ep) as (Hin & Hp). rewrite body_writes_in_body.
        pose proof (proj2 (proj2 (proj2 Hw))) as Hty. rewrite Forall_forall in Hty.
        destruct (is_raw (mb_type pm)) eqn:Er.
        + destruct (only_payload sh ws pm Hs Hw Hin Hp) as [(-> & Hnone)|(v & -> & Hv)].
          * cbn [raw_writes bind]. intros [= <- <-]. apply (p_unset media cs cv sh ws pm _ Hin Hp); [|exact Hnone].
            destruct (mb_type pm); try discriminate; tauto.
          * specialize (Hty _ Hv Hp). cbn [fst snd] in Hty. destruct Hty as (Ht1 & Ht2).
            cbn [raw_writes]. unfold raw_write. cbn [fst snd]. unfold payload_media_type.
            destruct (mb_type pm) eqn:Et; try discriminate.
            -- destruct (Ht1 eq_refl) as (s & ->). destruct (utf8_encode s) as [b'|] eqn:Eu; [|discriminate].
               cbn [bind]. rewrite app_nil_r. intros [= <- <-]. exact (p_text media cs cv sh ws pm s b' Hin Hp Et Hv Eu).
            -- destruct (Ht2 eq_refl) as (b' & ->). cbn [bind]. rewrite app_nil_r. intros [= <- <-].
               exact (p_blob media cs cv sh ws pm b' Hin Hp Et Hv).
        + destruct (cv (filter in_body ws)) as [b'|] eqn:Ec; [|discriminate]. cbn [bind]. intros [= <- <-].
          replace (payload_media_type media pm) with (match mb_media pm with Some t => t | None => media end).
          * apply (p_other media cs cv sh ws pm b' Hin Hp); [| |exact Ec]; intros E; rewrite E in Er; discriminate.
          * unfold payload_media_type. destruct (mb_media pm); [reflexivity|]. destruct (mb_type pm); try reflexivity; discriminate.
      - apply get_payload_none in Ep. rewrite body_writes_in_body.
        destruct (cs sh (filter in_body ws)) as [b'|] eqn:Ec; [|discriminate]. cbn [bind]. intros [= <- <-].
        exact (p_struct media cs cv sh ws b' Ep Ec).
    Qed.

    Lemma step_payload sh ws b t :
      event_shape sh -> event_members sh ws -> payload_of media cs cv sh ws b t ->
      exists t', body_step sh ws = Ok (b, t') /\ labelled b t = labelled b t'.
    Proof.
      intros Hs Hw H. unfold body_step. rewrite body_writes_in_body.
      destruct H as [b Hno Hb|pm s b Hin Hp Ht Hv Hb|pm b Hin Hp Ht Hv|pm t Hin Hp Ht Hnone|pm b Hin Hp Hns Hnb Hb].
      - rewrite (proj2 (get_payload_none sh) Hno), Hb. exists media. split; reflexivity.
      - rewrite (get_payload_unique sh pm Hs Hin Hp), Ht. cbn [is_raw].
        destruct (only_payload sh ws pm Hs Hw Hin Hp) as [(_ & H)|(v & -> & Hv')]; [destruct (H _ Hv)|].
        assert (v = VText s) as ->.
        { destruct Hw as (Hnd & _). clear - Hnd Hv Hv'. induction ws as [|x r IH]; [destruct Hv|].
          cbn [map] in Hnd. apply NoDup_cons_iff in Hnd as (Hnot & Hnd). destruct Hv as [->|Hv], Hv' as [E|Hv'].
          - congruence.
          - destruct Hnot. apply in_map_iff. exists (pm, v). split; [reflexivity|exact Hv'].
          - subst x. destruct Hnot. apply in_map_iff. exists (pm, VText s). split; [reflexivity|exact Hv].
          - exact (IH Hnd Hv Hv'). }
        cbn [raw_writes]. unfold raw_write. cbn [fst snd]. rewrite Ht, Hb. cbn [bind]. rewrite app_nil_r.
        eexists. split; [reflexivity|]. unfold payload_media_type. rewrite Ht. reflexivity.
      - rewrite (get_payload_unique sh pm Hs Hin Hp), Ht. cbn [is_raw].
        destruct (only_payload sh ws pm Hs Hw Hin Hp) as [(_ & H)|(v & -> & Hv')]; [destruct (H _ Hv)|].
        assert (v = VBlob b) as ->.
        { destruct Hw as (Hnd & _). clear - Hnd Hv Hv'. induction ws as [|x r IH]; [destruct Hv|].
          cbn [map] in Hnd. apply NoDup_cons_iff in Hnd as (Hnot & Hnd). destruct Hv as [->|Hv], Hv' as [E|Hv'].
          - congruence.
          - destruct Hnot. apply in_map_iff. exists (pm, v). split; [reflexivity|exact Hv'].
          - subst x. destruct Hnot. apply in_map_iff. exists (pm, VBlob b). split; [reflexivity|exact Hv].
          - exact (IH Hnd Hv Hv'). }
        cbn [raw_writes]. unfold raw_write. cbn [fst snd]. rewrite Ht. cbn [bind]. rewrite app_nil_r.
        eexists. split; [reflexivity|]. unfold payload_media_type. rewrite Ht. reflexivity.
      - rewrite (get_payload_unique sh pm Hs Hin Hp).
        destruct (only_payload sh ws pm Hs Hw Hin Hp) as [(-> & _)|(v & _ & Hv')]; [|destruct (Hnone _ Hv')].
        assert (is_raw (mb_type pm) = true) as -> by (destruct Ht as [-> | ->]; reflexivity).
        cbn [raw_writes bind]. eexists. split; reflexivity.
      - rewrite (get_payload_unique sh pm Hs Hin Hp).
        assert (is_raw (mb_type pm) = false) as -> by (destruct (mb_type pm); try reflexivity; congruence).
        rewrite Hb. cbn [bind]. eexists. split; [reflexivity|]. unfold payload_media_type.
        destruct (mb_media pm); [reflexivity|]. destruct (mb_type pm); try reflexivity; congruence.
    Qed.

    Lemma colon_not_member sh k r : event_shape sh -> k = 58 :: r -> find_member k sh = None.
    Proof.
      intros (_ & Hc & _) ->. apply find_member_none. intros H. apply in_map_iff in H as (m & E & Hin).
      rewrite Forall_forall in Hc. exact (Hc m Hin r E).
    Qed.

    Definition told (x : text * text * text) : headers :=
      let '(mt, k, n) := x in [(lit ":message-type", HString mt); (k, HString n)].
    Lemma type_headers_ok client name sh : 
      type_headers client name sh = match says client name sh with Some x => Ok (told x) | None => Err ExpectationNotMet end.
    Proof. unfold type_headers, says. destruct (sh_error sh), name; reflexivity. Qed.
    Lemma says_colon client name sh mt k n : says client name sh = Some (mt, k, n) -> exists r, k = 58 :: r.
    Proof. unfold says. destruct (sh_error sh), name; intros H; try discriminate; injection H as _ <- _; eexists; reflexivity. Qed.

    Lemma wire_names (l : writes) hvs : Forall2 wire l hvs -> map fst hvs = map wname l.
    Proof. induction 1 as [|x y l hvs (H & _) _ IH]; [reflexivity|]. cbn [map]. rewrite H, IH. reflexivity. Qed.

    Lemma serialize_ok client name sh ws m :
      event_shape sh -> event_members sh ws ->
      (serialize_event media cs cv client name sh ws = Ok m <->
       exists x hvs b t, says client name sh = Some x /\ Forall2 wire (filter in_header ws) hvs /\
         payload_of media cs cv sh ws b t /\ len b <= 16777216 /\ m = mkMessage (told x ++ hvs ++ labelled b t) b).
    Proof.
      intros Hs Hw. unfold serialize_event. rewrite type_headers_ok.
      destruct (says client name sh) as [[[mt k] n]|] eqn:Es; [|split; [discriminate|intros (x & _ & _ & _ & H & _); discriminate]].
      cbn [bind]. destruct (says_colon _ _ _ _ _ _ Es) as (kr & Ek).
      assert (Hcol : forall mv, In mv ws -> forall r, wname mv <> 58 :: r).
      { intros mv Hin r. destruct Hw as (_ & Hi & _), Hs as (_ & Hc & _). rewrite Forall_forall in Hi, Hc. exact (Hc _ (Hi mv Hin) r). }
      assert (Hwh : forall hs, write_headers ws (told (mt, k, n)) = Ok hs <-> exists hvs, hs = told (mt, k, n) ++ hvs /\ Forall2 wire (filter in_header ws) hvs).
      { intros hs. apply write_headers_ok; [exact (proj1 Hw)|]. intros mv Hin H. cbn in H. destruct H as [H|[H|[]]].
        - exact (Hcol mv Hin _ (eq_sym H)).
        - rewrite Ek in H. exact (Hcol mv Hin _ (eq_sym H)). }
      assert (Hlab : forall hvs b t, Forall2 wire (filter in_header ws) hvs ->
        (match b with [] => told (mt, k, n) ++ hvs | _ => dict_set (lit ":content-type") (HString t) (told (mt, k, n) ++ hvs) end)
        = told (mt, k, n) ++ hvs ++ labelled b t).
      { intros hvs [|b0 b] t Hf; cbn [labelled]; [rewrite app_nil_r; reflexivity|].
        rewrite dict_set_new; [rewrite <- app_assoc; reflexivity|].
        unfold dict_keys. rewrite map_app, (wire_names _ _ Hf), in_app_iff. intros [H|H].
        - cbn in H. destruct H as [H|[H|[]]]; [discriminate|]. 
          unfold says in Es. rewrite H in Es. destruct (sh_error sh), name; discriminate.
        - apply wname_filter in H. apply in_map_iff in H as (mv & E & Hin). exact (Hcol mv Hin _ E). }
      fold (body_step sh ws). split.
      - destruct (write_headers ws _) as [hs|] eqn:Eh; [|discriminate]. cbn [bind].
        destruct (proj1 (Hwh hs) eq_refl) as (hvs & -> & Hf).
        destruct (body_step sh ws) as [[b t]|] eqn:Eb; [|discriminate]. cbn [bind].
        unfold mk_event_message. destruct (MAX_PAYLOAD_LENGTH <? len b) eqn:El; [discriminate|].
        intros [= <-]. exists (mt, k, n), hvs, b, t.
        split; [reflexivity|]. split; [exact Hf|]. split; [exact (payload_step sh ws b t Hs Hw Eb)|].
        split; [apply N.ltb_ge in El; exact El|]. apply f_equal2; [exact (Hlab hvs b t Hf)|reflexivity].
      - intros (x & hvs & b & t & [= <-] & Hf & Hp & Hl & ->).
        rewrite (proj2 (Hwh _) (ex_intro _ hvs (conj eq_refl Hf))). cbn [bind].
        destruct (step_payload sh ws b t Hs Hw Hp) as (t' & -> & Et). cbn [bind].
        unfold mk_event_message. rewrite (proj2 (N.ltb_ge _ _) Hl : (MAX_PAYLOAD_LENGTH <? len b) = false). apply f_equal, f_equal2; [|reflexivity].
        rewrite Et. exact (Hlab hvs b t' Hf).
    Qed.

    Lemma headers_exist sh ws : event_members sh ws -> exists hvs, Forall2 wire (filter in_header ws) hvs.
    Proof.
      intros (_ & _ & H & _). induction ws as [|[m v] r IH]; [exists []; constructor|].
      apply Forall_cons_iff in H as (H1 & H). destruct (IH H) as (hvs & Hf). cbn [filter].
      change (in_header (m, v)) with (mb_header m). destruct (mb_header m) eqn:E; [|exists hvs; exact Hf].
      destruct (H1 E) as (h & Hh). exists ((mb_name m, h) :: hvs). constructor; [split; [reflexivity|exact Hh]|exact Hf].
    Qed.

    Variables (rs : shape -> bytes -> result writes) (rv : member -> bytes -> result (value V)).

    Lemma payload_back sh ws b t :
      event_shape sh -> event_members sh ws -> comes_back cs cv rs rv sh ws -> payload_of media cs cv sh ws b t ->
      match b with
      | [] => filter in_body ws = []
      | _ => exists vs, (match get_payload_member sh with
                         | Some pm => do v <- (if is_raw (mb_type pm) then raw_read pm b else rv pm b); Ok [(pm, v)]
                         | None => rs sh b
                         end) = Ok vs /\ same_members vs (filter in_body ws)
      end.
    Proof.
      intros Hs Hw (Hc1 & Hc2 & Hc3) H.
      destruct H as [b Hno Hb|pm s b Hin Hp Ht Hv Hb|pm b Hin Hp Ht Hv|pm t Hin Hp Ht Hnone|pm b Hin Hp Hns Hnb Hb].
      - destruct (Hc1 Hno b Hb) as (Hne & Hr). rewrite (proj2 (get_payload_none sh) Hno). destruct b; [congruence|exact Hr].
      - destruct (step_payload sh ws b _ Hs Hw (p_text media cs cv sh ws pm s b Hin Hp Ht Hv Hb)) as (t' & Hst & _).
        destruct (only_payload sh ws pm Hs Hw Hin Hp) as [(_ & H)|(v & Ef & Hv')]; [destruct (H _ Hv)|].
        unfold body_step in Hst. rewrite (get_payload_unique sh pm Hs Hin Hp), body_writes_in_body, Ef, Ht in Hst. cbn [is_raw raw_writes] in Hst.
        unfold raw_write in Hst. cbn [fst snd] in Hst. rewrite Ht in Hst.
        destruct v as [| |s'|b'| |]; try discriminate Hst.
        destruct (utf8_encode s') as [b2|] eqn:Eu; [|discriminate Hst]. cbn [bind] in Hst. rewrite app_nil_r in Hst.
        injection Hst as <- _. destruct b2 as [|c b2].
        + assert (s' = []) as -> by (apply (utf8_encode_inj s' [] []); [exact Eu|reflexivity]).
          destruct (proj1 (Hc3 _ _ Hv' Hp) eq_refl).
        + rewrite (get_payload_unique sh pm Hs Hin Hp), Ht. cbn [is_raw]. unfold raw_read. rewrite Ht, (utf8_roundtrip _ _ Eu). cbn [bind].
          eexists. split; [reflexivity|]. rewrite Ef. intros n. reflexivity.
      - destruct (step_payload sh ws b _ Hs Hw (p_blob media cs cv sh ws pm b Hin Hp Ht Hv)) as (t' & Hst & _).
        destruct (only_payload sh ws pm Hs Hw Hin Hp) as [(_ & H)|(v & Ef & Hv')]; [destruct (H _ Hv)|].
        unfold body_step in Hst. rewrite (get_payload_unique sh pm Hs Hin Hp), body_writes_in_body, Ef, Ht in Hst. cbn [is_raw raw_writes] in Hst.
        unfold raw_write in Hst. cbn [fst snd] in Hst. rewrite Ht in Hst.
        destruct v as [| |s'|b'| |]; try discriminate Hst. cbn [bind] in Hst. rewrite app_nil_r in Hst.
        injection Hst as <- _. destruct b' as [|c b'].
        + destruct (proj2 (Hc3 _ _ Hv' Hp) eq_refl).
        + rewrite (get_payload_unique sh pm Hs Hin Hp), Ht. cbn [is_raw]. unfold raw_read. rewrite Ht. cbn [bind].
          eexists. split; [reflexivity|]. rewrite Ef. intros n. reflexivity.
      - destruct (only_payload sh ws pm Hs Hw Hin Hp) as [(E & _)|(v & _ & Hv')]; [exact E|destruct (Hnone _ Hv')].
      - specialize (Hc2 pm Hin Hp Hns Hnb).
        destruct (only_payload sh ws pm Hs Hw Hin Hp) as [(E & _)|(v & Ef & Hv')].
        + rewrite E in Hc2, Hb. cbn [value_back] in Hc2. rewrite Hc2 in Hb. injection Hb as <-. exact E.
        + rewrite Ef in Hc2, Hb. cbn [value_back] in Hc2. destruct (Hc2 b Hb) as (Hne & Hr).
          rewrite (get_payload_unique sh pm Hs Hin Hp).
          assert (is_raw (mb_type pm) = false) as -> by (destruct (mb_type pm); try reflexivity; congruence).
          rewrite Hr. cbn [bind]. destruct b; [congruence|]. eexists. split; [reflexivity|]. rewrite Ef. intros nm. reflexivity.
    Qed.

    Lemma read_message_back sh ws x hvs b t :
      event_shape sh -> event_members sh ws -> comes_back cs cv rs rv sh ws ->
      (exists r, snd (fst x) = 58 :: r) ->
      Forall2 wire (filter in_header ws) hvs -> payload_of media cs cv sh ws b t ->
      exists vs, read_message rs rv sh (mkMessage (told x ++ hvs ++ labelled b t) b) = Ok vs /\ same_members vs ws.
    Proof.
      intros Hs Hw Hc Hx Hf Hp. unfold read_message. cbn [m_headers m_payload].
      assert (Hrh : @read_headers V sh (told x ++ hvs ++ labelled b t) = Ok (filter in_header ws)).
      { rewrite read_headers_skip.
        - apply read_headers_wire; [exact (proj1 Hs)| |exact Hf|].
          + apply Forall_forall. intros mv H. apply filter_In in H as (H & Hh). destruct Hw as (_ & Hi & _).
            rewrite Forall_forall in Hi. split; [exact (Hi mv H)|exact Hh].
          + unfold labelled. destruct b; [constructor|]. constructor; [|constructor]. eapply colon_not_member; [exact Hs|reflexivity].
        - destruct x as [[mt k] n]. destruct Hx as (r & Hk). cbn [fst snd] in Hk. unfold told.
          constructor; [eapply colon_not_member; [exact Hs|reflexivity]|]. constructor; [|constructor].
          exact (colon_not_member sh k r Hs Hk). }
      rewrite Hrh. cbn [bind]. pose proof (payload_back sh ws b t Hs Hw Hc Hp) as Hb.
      pose proof (proj1 Hw) as Hnd. change (fun mv : member * value V => mb_name (fst mv)) with wname in Hnd.
      destruct b as [|c b].
      - eexists. split; [reflexivity|]. intros n. rewrite (value_of_split n ws Hnd), Hb. reflexivity.
      - destruct Hb as (vs & Hr & Hsame).
        destruct (get_payload_member sh) as [pm|].
        + destruct (if is_raw (mb_type pm) then _ else _) as [v|]; [|discriminate Hr]. cbn [bind] in *.
          injection Hr as <-. eexists. split; [reflexivity|]. intros n. rewrite value_of_app, (Hsame n), (value_of_split n ws Hnd). reflexivity.
        + rewrite Hr. cbn [bind]. eexists. split; [reflexivity|]. intros n. rewrite value_of_app, (Hsame n), (value_of_split n ws Hnd). reflexivity.
    Qed.
  End Codec.
End P.
