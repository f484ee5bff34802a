(** Proofs about the errors of the decoder and the parser. *)
From Verif Require Export SpecError SocketProofs OpenProofs.

(** ** The engine *)
Lemma last_answer h m r : answer_at (h ++ [m]) (length h) r <-> snd (decode (state_after DInitial h) m) = r.
Proof.
  unfold answer_at. rewrite history_snoc. rewrite nth_error_app2; unfold history_answers; rewrite answers_length; [|lia].
  rewrite Nat.sub_diag. cbn [nth_error]. split; [intros [= <-]; reflexivity|intros <-; reflexivity].
Qed.
Lemma engine_error_exact h m e : answer_at (h ++ [m]) (length h) (Err e) <-> engine_rejects h m e.
Proof.
  rewrite last_answer. unfold engine_rejects.
  assert (S : (state_after DInitial h = DClosed /\ closed h) \/
              (state_after DInitial h = DInitial /\ ~ closed h /\ ~ opened h) \/
              (state_after DInitial h = DActive /\ ~ closed h /\ opened h)).
  { destruct (state_after DInitial h) eqn:E.
    - right; left. split; [reflexivity|]. split; [|apply state_initial; exact E].
      intros H. apply state_closed in H. congruence.
    - right; right. apply state_active in E. tauto.
    - left. split; [reflexivity|]. apply state_closed. exact E. }
  destruct S as [(E & Hc)|[(E & Hc & Ho)|(E & Hc & Ho)]]; rewrite E; clear E.
  - cbn [decode snd]. split; [intros [= <-]; left; auto|intros [[_ ->]|[H _]]; [reflexivity|contradiction]].
  - split.
    + intros H. right. split; [exact Hc|]. destruct m as [t|d|d|d|d]; cbn in H; try (injection H as <-; reflexivity).
      * destruct t as [|c t]; [injection H as <-; reflexivity|]. unfold decode_text in H.
        destruct (c =b "0") eqn:E0.
        { apply byte_eqb_eq in E0. subst. destruct (parse_open t) eqn:Ep; [discriminate|]. injection H as <-.
          right; left. repeat split; auto. intros x Hx. apply parse_open_exact in Hx. congruence. }
        destruct (c =b "1") eqn:E1; [apply byte_eqb_eq in E1; subst; injection H as <-; right; right; left; cbn; auto|].
        destruct (c =b "2") eqn:E2; [apply byte_eqb_eq in E2; subst; injection H as <-; right; right; left; cbn; auto|].
        destruct (c =b "3") eqn:E3; [apply byte_eqb_eq in E3; subst; injection H as <-; right; right; left; cbn; auto|].
        destruct (c =b "4") eqn:E4; [discriminate|]. injection H as <-. right; right; right. split; [|reflexivity].
        intros Hin. cbn in Hin. destruct Hin as [<-|[<-|[<-|[<-|[<-|[]]]]]]; discriminate.
      * injection H as <-. left; auto.
    + intros [[H _]|[_ H]]; [contradiction|]. destruct m as [t|d|d|d|d]; cbn; try (subst e; reflexivity).
      * destruct t as [|c t]; [subst e; reflexivity|]. destruct H as [(-> & H & _)|[(-> & _ & H & ->)|[(H & _ & ->)|[H ->]]]].
        -- contradiction.
        -- unfold decode_text. rewrite byte_eqb_refl. destruct (parse_open t) as [x|] eqn:Ep; [|reflexivity].
           exfalso. apply (H x). apply parse_open_exact. exact Ep.
        -- cbn in H. destruct H as [<-|[<-|[<-|[]]]]; reflexivity.
        -- unfold decode_text. destruct (c =b "0") eqn:E0; [apply byte_eqb_eq in E0; subst; exfalso; apply H; cbn; auto|].
           destruct (c =b "1") eqn:E1; [apply byte_eqb_eq in E1; subst; exfalso; apply H; cbn; auto|].
           destruct (c =b "2") eqn:E2; [apply byte_eqb_eq in E2; subst; exfalso; apply H; cbn; auto|].
           destruct (c =b "3") eqn:E3; [apply byte_eqb_eq in E3; subst; exfalso; apply H; cbn; auto|].
           destruct (c =b "4") eqn:E4; [apply byte_eqb_eq in E4; subst; exfalso; apply H; cbn; auto 10|]. reflexivity.
      * destruct H as [[_ ->]|[H _]]; [reflexivity|contradiction].
  - split.
    + intros H. right. split; [exact Hc|]. destruct m as [t|d|d|d|d]; cbn in H; try (injection H as <-; reflexivity).
      * destruct t as [|c t]; [injection H as <-; reflexivity|]. unfold decode_text in H.
        destruct (c =b "0") eqn:E0; [apply byte_eqb_eq in E0; subst; injection H as <-; left; auto|].
        destruct (c =b "1") eqn:E1; [discriminate|].
        destruct (c =b "2") eqn:E2; [discriminate|].
        destruct (c =b "3") eqn:E3; [discriminate|].
        destruct (c =b "4") eqn:E4; [discriminate|]. injection H as <-. right; right; right. split; [|reflexivity].
        intros Hin. cbn in Hin. destruct Hin as [<-|[<-|[<-|[<-|[<-|[]]]]]]; discriminate.
      * right. split; [exact Ho|]. destruct d as [|c d]; [injection H as <-; split; [discriminate|reflexivity]|].
        destruct (c =b x04) eqn:E4; cbn in H; [discriminate|]. injection H as <-. split; [|reflexivity].
        intros r [= -> _]. rewrite byte_eqb_refl in E4. discriminate.
    + intros [[H _]|[_ H]]; [contradiction|]. destruct m as [t|d|d|d|d]; cbn; try (subst e; reflexivity).
      * destruct t as [|c t]; [subst e; reflexivity|]. destruct H as [(-> & _ & ->)|[(_ & H & _)|[(_ & H & _)|[H ->]]]].
        -- reflexivity.
        -- contradiction.
        -- contradiction.
        -- unfold decode_text. destruct (c =b "0") eqn:E0; [apply byte_eqb_eq in E0; subst; exfalso; apply H; cbn; auto|].
           destruct (c =b "1") eqn:E1; [apply byte_eqb_eq in E1; subst; exfalso; apply H; cbn; auto|].
           destruct (c =b "2") eqn:E2; [apply byte_eqb_eq in E2; subst; exfalso; apply H; cbn; auto|].
           destruct (c =b "3") eqn:E3; [apply byte_eqb_eq in E3; subst; exfalso; apply H; cbn; auto|].
           destruct (c =b "4") eqn:E4; [apply byte_eqb_eq in E4; subst; exfalso; apply H; cbn; auto 10|]. reflexivity.
      * destruct H as [[H _]|(_ & H & ->)]; [contradiction|]. destruct d as [|c d]; [reflexivity|].
        destruct (c =b x04) eqn:E4; [|reflexivity]. apply byte_eqb_eq in E4. subst. exfalso. exact (H d eq_refl).
Qed.

(** ** The packet parser *)
Lemma lacks_bool t w ts q k : parsed_ok t w ts q -> (kind_is_ack k = true <-> is_ack (w_kind w)) ->
  ((kind_is_ack k && is_none (pa_id q)) || is_nil (pa_args q) = true <-> lacks w ts).
Proof.
  intros (_ & _ & _ & Hi & _ & Ha) Hk. apply F2_nil in Ha. unfold lacks.
  rewrite orb_true_iff, andb_true_iff, is_none_spec, is_nil_spec, Hi. tauto.
Qed.
Lemma event_error t w ts q k atts e : parsed_ok t w ts q -> (kind_is_ack k = true <-> is_ack (w_kind w)) ->
  (deserialize_event q k (type_name (w_kind w)) atts = Err e <->
   (lacks w ts /\ e = SMissingData (type_name (w_kind w)) t) \/
   (~ lacks w ts /\ N.of_nat (length atts) <> opt_or 0 (w_count w) /\
    e = SInvalidAttachmentCount (N.of_nat (length atts)) (opt_or 0 (w_count w)))).
Proof.
  intros Hq Hk. pose proof (lacks_bool _ _ _ _ _ Hq Hk) as L. destruct Hq as (Hm & _ & Hc & _).
  unfold deserialize_event, msg_text. rewrite Hm, Hc.
  destruct ((kind_is_ack k && is_none (pa_id q)) || is_nil (pa_args q)).
  - split; [intros [= <-]; left; split; [apply L|]; reflexivity|]. intros [[_ ->]|[H _]]; [reflexivity|]. exfalso. tauto.
  - assert (NL : ~ lacks w ts) by (intros H; apply L in H; discriminate).
    destruct (N.eqb_spec (N.of_nat (length atts)) (opt_or 0 (w_count w))) as [En|En]; cbn [negb].
    + split; [discriminate|]. intros [[H _]|(_ & H & _)]; contradiction.
    + split; [intros [= <-]; right; auto|]. intros [[H _]|(_ & _ & ->)]; [contradiction|reflexivity].
Qed.
Lemma rmap_err {A B} (f : A -> B) (r : res serror A) e : rmap f r = Err e <-> r = Err e.
Proof. destruct r; cbn; split; congruence. Qed.
Lemma dispatch_error t w ts q e : parsed_ok t w ts q -> (dispatch q = Err e <-> wrong t w ts e).
Proof.
  intros Hq. pose proof Hq as (Hm & Hk & Hc & Hi & _ & Ha). apply F2_nil in Ha. unfold dispatch, wrong.
  assert (EV : forall k, (kind_is_ack k = true <-> is_ack (w_kind w)) ->
    (deserialize_event q k (type_name (w_kind w)) [] = Err e <->
     (lacks w ts /\ e = SMissingData (type_name (w_kind w)) t) \/
     (~ lacks w ts /\ exists n, w_count w = Some n /\ n <> 0%N /\ e = SInvalidAttachmentCount 0 n))).
  { intros k Hk'. rewrite (event_error t w ts q k [] e Hq Hk'). cbn [length N.of_nat].
    destruct (w_count w) as [n|]; cbn [opt_or]; split; intros [H|(H1 & H2)]; auto; right; split; auto.
    - exists n. destruct H2 as [H2 ->]. auto.
    - destruct H2 as (n' & [= <-] & H2 & ->). auto.
    - destruct H2. congruence.
    - destruct H2 as (n & H2 & _). discriminate. }
  assert (DL : forall k, deserialize_dataless q k (type_name (w_kind w)) = Err e <->
     (w_count w <> None \/ w_id w <> None \/ ts <> []) /\ e = SInvalidExtraData (type_name (w_kind w)) t).
  { intros k. unfold deserialize_dataless, msg_text. rewrite Hm, Hc, Hi.
    destruct (w_count w); [split; [intros [= <-]; split; [left; discriminate|reflexivity]|intros [_ ->]; reflexivity]|].
    destruct (w_id w); [split; [intros [= <-]; split; [right; left; discriminate|reflexivity]|intros [_ ->]; reflexivity]|].
    destruct (pa_args q).
    - split; [discriminate|]. intros [[H|[H|H]] _]; try congruence. exfalso. tauto.
    - split; [intros [= <-]; split; [right; right; intros H; apply Ha in H; discriminate|reflexivity]|intros [_ ->]; reflexivity]. }
  assert (BN : forall k, (kind_is_ack k = true <-> is_ack (w_kind w)) ->
    (deserialize_binary q k (type_name (w_kind w)) = Err e <->
     (w_count w = None \/ w_count w = Some 0%N /\ lacks w ts) /\ e = SMissingData (type_name (w_kind w)) t)).
  { intros k Hk'. unfold deserialize_binary, msg_text. rewrite Hm, Hc. specialize (EV k Hk').
    destruct (w_count w) as [n|].
    - destruct (N.eqb_spec n 0) as [->|Hn].
      + rewrite rmap_err, EV. split.
        * intros [[H ->]|(_ & n & [= <-] & H & _)]; [auto|congruence].
        * intros [[H|[_ H]] ->]; [discriminate|auto].
      + split; [discriminate|]. intros [[H|[H _]] _]; congruence.
    - split; [intros [= <-]; auto|]. intros [_ ->]. reflexivity. }
  rewrite Hk. destruct (w_kind w) eqn:Ek; cbn [type_name] in *;
    rewrite ?rmap_err; first [apply DL | apply EV | apply BN]; cbn; unfold is_ack; intuition congruence.
Qed.
Lemma parse_error_exact m t e : sub_deref_str m = Some t -> (deserialize (MText m) = Err e <-> rejects t e).
Proof.
  intros Hd. unfold rejects. destruct (deserialize_cases m t Hd) as
    [[Hn E]|[(w & Hw & Hb & E)|[(w & a & Hw & H1 & H2 & Ea & Hj & E)|(w & ts & q & Hw & H1 & H2 & Hel & Hq & E)]]]; rewrite E; clear E.
  - assert (Hno : forall w, ~ reads_as t w) by (intros w Hw; apply reads_as_header in Hw; congruence).
    split; [intros [= <-]; left; auto|]. intros [[_ ->]|(w & Hw & _)]; [reflexivity|]. exfalso. eapply Hno; eauto.
  - split; [discriminate|]. intros [[Hno _]|(w' & Hw' & H1 & H2 & _)]; [exfalso; eapply Hno; eauto|].
    rewrite (reads_as_unique _ _ _ Hw Hw') in Hb. exfalso. tauto.
  - split.
    + intros [= <-]. right. exists w. split; [exact Hw|]. split; [exact H1|]. split; [exact H2|]. left. eauto.
    + intros [[Hno _]|(w' & Hw' & _ & _ & H)]; [exfalso; eapply Hno; eauto|].
      pose proof (reads_as_unique _ _ _ Hw Hw') as <-. destruct H as [(a' & Ea' & _ & ->)|(ts & Hel & _)].
      * rewrite Ea in Ea'. injection Ea' as <-. reflexivity.
      * exfalso. rewrite Ea in Hel. exact (Hj ts Hel).
  - rewrite (dispatch_error t w ts q e Hq). split.
    + intros H. right. exists w. split; [exact Hw|]. split; [exact H1|]. split; [exact H2|]. right. eauto.
    + intros [[Hno _]|(w' & Hw' & _ & _ & H)]; [exfalso; eapply Hno; eauto|].
      pose proof (reads_as_unique _ _ _ Hw Hw') as <-. destruct H as [(a' & Ea' & Hj & _)|(ts' & Hel' & H)].
      * exfalso. rewrite Ea' in Hel. exact (Hj ts Hel).
      * rewrite (elements_unique _ _ _ Hel Hel'). exact H.
Qed.
Lemma binary_error d v e : sub_deref_vec d = Some v -> (deserialize (MBinary d) = Err e <-> e = SNonAttachmentBinary v).
Proof. intros H. cbn [deserialize]. rewrite H. split; [intros [= <-]; reflexivity|intros ->; reflexivity]. Qed.
(** Every text is accepted, or rejected for one reason, or makes the parser panic. *)
Lemma parse_trichotomy t : 
  (exists k ns id ts n, accepts t k ns id ts n) \/ (exists e, rejects t e) \/
  (exists w, reads_as t w /\ (too_big (w_count w) \/ too_big (w_id w))).
Proof.
  assert (Hd : sub_deref_str (sub_from t) = Some t) by apply (proj2 (deref_whole t)).
  destruct (deserialize (MText (sub_from t))) as [r|e|] eqn:E.
  - left. destruct (deserialize_ok_sound _ _ _ Hd E) as (k & ns & id & ts & n & Ha & _). eauto 10.
  - right; left. exists e. apply (parse_error_exact _ _ _ Hd). exact E.
  - right; right. apply (deserialize_panic_exact _ _ Hd) in E. exact E.
Qed.
Lemma rejects_unique t e e' : rejects t e -> rejects t e' -> e = e'.
Proof.
  assert (Hd : sub_deref_str (sub_from t) = Some t) by apply (proj2 (deref_whole t)).
  rewrite <- !(parse_error_exact _ _ _ Hd). congruence.
Qed.

(** ** Attachments *)
Lemma collect_error l e : Forall emsg_ok l ->
  (collect_binary l = Err e <->
   exists l1 s x l2, l = l1 ++ MText s :: l2 /\ (forall m, In m l1 -> exists d, m = MBinary d) /\
     sub_deref_str s = Some x /\ e = STextAttachment x).
Proof.
  intros H. induction H as [|m l Hm H IH].
  - split; [discriminate|]. intros ([|? ?] & s & x & l2 & E & _); discriminate.
  - destruct m as [s|d]; cbn [collect_binary emsg_ok] in *.
    + destruct (sub_deref_str s) as [x|] eqn:Es; [|congruence]. split.
      * intros [= <-]. exists [], s, x, l. cbn. intuition.
      * intros (l1 & s' & x' & l2 & E & Hl1 & Hs' & ->). destruct l1 as [|m1 l1].
        -- injection E as <- <-. rewrite Es in Hs'. injection Hs' as <-. reflexivity.
        -- injection E as <- _. destruct (Hl1 (MText s) (or_introl eq_refl)). discriminate.
    + rewrite rmap_err, IH. split.
      * intros (l1 & s & x & l2 & -> & Hl1 & Hs & ->). exists (MBinary d :: l1), s, x, l2. repeat split; auto.
        intros m [<-|Hin]; eauto.
      * intros (l1 & s & x & l2 & E & Hl1 & Hs & ->). destruct l1 as [|m1 l1]; [discriminate|].
        injection E as <- ->. exists l1, s, x, l2. repeat split; auto. intros m Hin. apply Hl1. right. exact Hin.
Qed.
Lemma all_binary_no_text l : (forall m, In m l -> exists d, m = MBinary d) ->
  ~ exists l1 s x l2 (e : serror), l = l1 ++ MText s :: l2 /\ (forall m, In m l1 -> exists d, m = MBinary d) /\
     sub_deref_str s = Some x /\ e = STextAttachment x.
Proof. intros H (l1 & s & x & l2 & e & -> & _). destruct (H (MText s) (in_elt _ _ _)). discriminate. Qed.
Lemma attachments_error_exact m t q l e : sub_deref_str m = Some t -> deserialize (MText m) = Ok (DDataNeeded q) ->
  Forall emsg_ok l -> (deserialize_partial q l = Err e <-> attachments_rejected t l e).
Proof.
  intros Hd Eq Hl. destruct (deserialize_cases m t Hd) as
    [[Hn E]|[(w & Hw & Hb & E)|[(w & a & Hw & H1 & H2 & Ea & Hj & E)|(w & ts & q' & Hw & H1 & H2 & Hel & Hq & E)]]];
    rewrite E in Eq; try discriminate. clear E.
  assert (X : q' = q /\ exists n, w_count w = Some n /\ (w_kind w = PKBinaryEvent \/ w_kind w = PKBinaryAck)).
  { pose proof Hq as (_ & Hk & Hc & _). unfold dispatch in Eq. rewrite Hk in Eq.
    destruct (w_kind w); try (unfold rmap in Eq; match type of Eq with match ?x with _ => _ end = _ => destruct x end; discriminate);
    unfold deserialize_binary in Eq; rewrite Hc in Eq; destruct (w_count w) as [n|]; try discriminate;
    destruct (n =? 0)%N; try (injection Eq as ->; eauto 10);
    unfold rmap in Eq; match type of Eq with match ?x with _ => _ end = _ => destruct x end; discriminate. }
  destruct X as (-> & n & Hn & Hk). clear Eq. pose proof Hq as (_ & Hkq & _).
  unfold deserialize_partial, attachments_rejected.
  destruct (collect_binary_spec l Hl) as [(atts & vs & E1 & E2 & _)|(x & E1 & _)].
  - assert (HB : forall m0, In m0 l -> exists d, m0 = MBinary d).
    { rewrite E2. intros m0 Hin. apply in_map_iff in Hin as (d & <- & _). eauto. }
    rewrite E1. cbn [rbind].
    assert (Elen : length l = length atts) by (rewrite E2, map_length; reflexivity).
    assert (EV : forall k, (kind_is_ack k = true <-> is_ack (w_kind w)) ->
      (deserialize_event q k (type_name (w_kind w)) atts = Err e <->
       (exists l1 s x l2, l = l1 ++ MText s :: l2 /\ (forall m, In m l1 -> exists d, m = MBinary d) /\
          sub_deref_str s = Some x /\ e = STextAttachment x) \/
       ((forall m, In m l -> exists d, m = MBinary d) /\
        exists w ts, reads_as t w /\ elements (w_args w) ts /\
        ((lacks w ts /\ e = SMissingData (type_name (w_kind w)) t) \/
         (~ lacks w ts /\ exists n, w_count w = Some n /\ N.of_nat (length l) <> n /\
           e = SInvalidAttachmentCount (N.of_nat (length l)) n))))).
    { intros k Hk'. rewrite (event_error t w ts q k atts e Hq Hk'). rewrite Hn. cbn [opt_or]. rewrite <- Elen. split.
      - intros H. right. split; [exact HB|]. exists w, ts. split; [exact Hw|]. split; [exact Hel|].
        destruct H as [H|(H3 & H4 & ->)]; [auto|]. right. split; [exact H3|]. eauto.
      - intros [(l1 & s & x & l2 & El & Hl1 & Hs & He)|(_ & w' & ts' & Hw' & Hel' & H)].
        + exfalso. apply (all_binary_no_text l HB). exists l1, s, x, l2, e. auto.
        + pose proof (reads_as_unique _ _ _ Hw Hw') as <-. rewrite <- (elements_unique _ _ _ Hel Hel') in H.
          destruct H as [H|(H3 & n' & H4 & H5 & ->)]; [auto|]. rewrite Hn in H4. injection H4 as <-. auto. }
    rewrite Hkq. destruct Hk as [Hk|Hk]; rewrite Hk in *; cbn [type_name] in EV; apply EV; cbn; unfold is_ack; intuition congruence.
  - rewrite E1. cbn [rbind]. pose proof (collect_error l e Hl) as C. rewrite E1 in C.
    split; [intros [= <-]; left; apply C; reflexivity|]. intros H. enough (e = STextAttachment x) as -> by reflexivity.
    enough (X : @Err serror (list subslice_t) (STextAttachment x) = Err e) by congruence. apply C. revert H.
    intros [H|[HB _]]; [exact H|]. exfalso. apply (all_binary_no_text l HB).
    destruct (proj1 (collect_error l (STextAttachment x) Hl) E1) as (l1 & s & x' & l2 & H). exists l1, s, x', l2, (STextAttachment x). exact H.
Qed.
(** A decoder answer is an error exactly when nothing is received, and the error is unique. *)
Lemma engine_rejects_unique h m e e' : engine_rejects h m e -> engine_rejects h m e' -> e = e'.
Proof. rewrite <- !engine_error_exact, !last_answer. congruence. Qed.
Lemma accepts_not_rejects t k ns id ts n e : accepts t k ns id ts n -> ~ rejects t e.
Proof.
  intros Ha Hr. pose proof (proj2 (deref_whole t)) as Hd. apply (parse_error_exact _ _ _ Hd) in Hr.
  destruct (accepts_deserialize _ _ _ _ _ _ _ Hd Ha) as (r & E & _). congruence.
Qed.
Lemma error_exclusive t :
  (forall e e', rejects t e -> rejects t e' -> e = e') /\
  (forall e k ns id ts n, rejects t e -> ~ accepts t k ns id ts n) /\
  ((exists k ns id ts n, accepts t k ns id ts n) \/ (exists e, rejects t e) \/
   (exists w, reads_as t w /\ (too_big (w_count w) \/ too_big (w_id w)))).
Proof.
  split; [intros; eapply rejects_unique; eauto|]. split; [|apply parse_trichotomy].
  intros e k ns id ts n Hr Ha. exact (accepts_not_rejects _ _ _ _ _ _ _ Ha Hr).
Qed.
