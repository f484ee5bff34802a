(** Proofs about the Open packet. *)
From Verif Require Export SpecOpen EngineProofs BuildFacts.

Lemma jmembers_in l t : jmembers l t -> forall m, In m l -> exists t', jvalue (snd m) t'.
Proof.
  induction 1; intros m Hm; cbn [In] in Hm.
  - destruct Hm as [<-|[]]. eauto.
  - destruct Hm as [<-|Hm]; eauto.
Qed.
Lemma jelems_in l t : jelems l t -> forall v, In v l -> exists t', jvalue v t'.
Proof.
  induction 1; intros m Hm; cbn [In] in Hm.
  - destruct Hm as [<-|[]]. eauto.
  - destruct Hm as [<-|Hm]; eauto.
Qed.
Lemma jdoc_member l s m : jdoc (RObj l) s -> In m l -> exists t, jvalue (snd m) t.
Proof.
  intros (w1 & t & w2 & _ & _ & H & _) Hm. inversion H; subst; [destruct Hm|]. eapply jmembers_in; eassumption.
Qed.
Lemma jdoc_elem l s v : jdoc (RArr l) s -> In v l -> exists t, jvalue v t.
Proof.
  intros (w1 & t & w2 & _ & _ & H & _) Hm. inversion H; subst; [destruct Hm|]. eapply jelems_in; eassumption.
Qed.

Lemma absorb_all ds : forall sig x, absorb sig ds = (x, []) -> x = undec_from sig ds.
Proof.
  induction ds as [|d ds IH]; intros sig x H; cbn [absorb undec_from] in *; [injection H as <-; reflexivity|].
  destruct (u64_max <? _)%N; [discriminate|]. apply IH. exact H.
Qed.
Lemma absorb_bound ds : forall sig x m, absorb sig ds = (x, m) -> (sig <= u64_max -> x <= u64_max)%N.
Proof.
  induction ds as [|d ds IH]; intros sig x m H; cbn [absorb] in H; [injection H as <- _; auto|].
  destruct (u64_max <? _)%N eqn:E; [injection H as <- _; auto|]. intros _. apply (IH _ _ _ H). lia.
Qed.
Lemma int_part_canon i : int_part i -> canon_dec i = true.
Proof.
  intros [->|[[H1 H2] H3]]; [reflexivity|]. destruct i as [|c i]; [congruence|]. cbn [hd] in H3. unfold canon_dec.
  destruct (c =b "0") eqn:E; [apply byte_eqb_eq in E; congruence|]. apply forallb_forall. rewrite Forall_forall in H2. exact H2.
Qed.
Lemma u64_raw r t : jvalue r t -> forall n, u64_of_raw r = Some n <-> u64_literal n r.
Proof.
  intros J n. unfold u64_literal. destruct r; cbn [u64_of_raw]; try (split; [discriminate|intros [X _]; discriminate]).
  inversion J; subst. split.
  - unfold num_of. destruct (absorb 0 (nl_int n0)) as [x m] eqn:E.
    destruct n0 as [ng i f e]. cbn [nl_frac nl_exp nl_neg nl_int] in *.
    destruct f as [f|]. { destruct (absorb x f). destruct (exp_ok _ _ _); discriminate. }
    destruct e as [e|]. { destruct (exp_ok _ _ _); discriminate. }
    destruct m as [|c m]; [|destruct (exp_ok _ _ _); discriminate].
    destruct ng; [destruct (_ && _); discriminate|]. intros [= ->].
    split; [|apply (absorb_bound _ _ _ _ E); cbv; discriminate].
    apply absorb_all in E. change (undec_from 0 i) with (undec i) in E. subst n.
    match goal with H : numlit_ok _ |- _ => destruct H as (Hi & _) end. cbn in Hi. rewrite (dec_undec i (int_part_canon i Hi)). reflexivity.
  - intros [[= ->] Hn]. pose proof (decZ_num (Z.of_N n)) as D. change (NumLit false (dec n) None None) with (int_lit false n).
    assert (A : forall ds s, (undec_from s ds <= u64_max)%N -> absorb s ds = (undec_from s ds, [])).
    { induction ds as [|d ds IH]; intros s Hs; cbn [absorb undec_from] in *; [reflexivity|].
      assert (G : forall r a, (a <= undec_from a r)%N) by (clear; induction r as [|c r IH]; intros a; cbn [undec_from]; [lia|specialize (IH (a * 10 + digit_val c)%N); lia]).
      specialize (G ds (s * 10 + digit_val d)%N). replace (u64_max <? s * 10 + digit_val d)%N with false by (symmetry; apply N.ltb_ge; lia). apply IH. exact Hs. }
    unfold num_of, int_lit. cbn [nl_int nl_frac nl_exp nl_neg]. specialize (A (dec n) 0%N).
    change (undec_from 0 (dec n)) with (undec (dec n)) in A. rewrite undec_dec in A. rewrite (A Hn). reflexivity.
Qed.
Lemma string_raw r s : string_of_raw r = Some s <-> string_literal s r.
Proof.
  unfold string_literal. destruct r; cbn [string_of_raw]; try (split; [discriminate|intros (b' & X & _); discriminate]).
  split; [eauto|]. intros (b' & [= ->] & H). exact H.
Qed.

Definition field_res {A} (f : raw -> option A) (cur : option A) (vs : list raw) (new : option A) : Prop :=
  match vs with
  | [] => new = cur
  | [v] => cur = None /\ new <> None /\ f v = new
  | _ => False
  end.
Lemma field_some {A} (f : raw -> option A) x vs y : field_res f (Some x) vs y <-> vs = [] /\ y = Some x.
Proof. destruct vs as [|v [|w vs]]; cbn; split; intros H; try tauto; try (destruct H; congruence); split; tauto || congruence. Qed.
Lemma field_cons {A} (f : raw -> option A) v vs cur new :
  field_res f cur (v :: vs) new <-> cur = None /\ exists x, f v = Some x /\ field_res f (Some x) vs new.
Proof.
  split.
  - destruct vs as [|w vs]; cbn; [|intros []]. intros (-> & Hn & E). split; [reflexivity|]. destruct new as [x|]; [|congruence].
    exists x. rewrite E. auto.
  - intros (-> & x & E & H). apply field_some in H as [-> ->]. cbn. rewrite E. repeat split; congruence.
Qed.
Lemma open_fields_spec l : forall a a', open_fields l a = Some a' <->
  (forall m, In m l -> unescape (fst m) <> None) /\
  field_res string_of_raw (oa_sid a) (values_of (bs "sid") l) (oa_sid a') /\
  field_res u64_of_raw (oa_timeout a) (values_of (bs "pingTimeout") l) (oa_timeout a') /\
  field_res u64_of_raw (oa_interval a) (values_of (bs "pingInterval") l) (oa_interval a').
Proof.
  induction l as [|[k v] l IH]; intros a a'.
  - cbn. split; [intros [= ->]; tauto|]. intros (_ & H1 & H2 & H3). destruct a, a'. cbn in *. congruence.
  - cbn [open_fields]. 
    assert (Q : (forall m, In m ((k, v) :: l) -> unescape (fst m) <> None) <-> unescape k <> None /\ (forall m, In m l -> unescape (fst m) <> None)).
    { split; [intros H; split; [apply (H (k, v)); left; reflexivity|intros m Hm; apply H; right; exact Hm]|].
      intros [H1 H2] m [<-|Hm]; [exact H1|apply H2, Hm]. }
    rewrite Q. clear Q. unfold values_of. cbn [flat_map fst snd]. fold (values_of (bs "sid") l) (values_of (bs "pingTimeout") l) (values_of (bs "pingInterval") l).
    destruct (unescape k) as [k'|]; [|split; [discriminate|intros [[N _] _]; congruence]].
    assert (T : Some k' <> None) by discriminate.
    destruct (bytes_eqb k' (bs "sid")) eqn:E1.
    { apply bytes_eqb_eq in E1. subst k'. change (bytes_eqb (bs "sid") (bs "pingTimeout")) with false. change (bytes_eqb (bs "sid") (bs "pingInterval")) with false.
      cbn [app]. rewrite field_cons. destruct (oa_sid a) as [x|] eqn:Ea.
      - split; [discriminate|]. intros (_ & (X & _) & _). discriminate.
      - destruct (string_of_raw v) as [s|] eqn:Ev; [|split; [discriminate|intros (_ & (_ & x & X & _) & _); discriminate]].
        rewrite IH. cbn [oa_sid oa_timeout oa_interval]. split.
        + intros (H0 & H1 & H2 & H3). repeat split; auto. exists s. auto.
        + intros ((_ & H0) & (_ & x & [= <-] & H1) & H2 & H3). auto. }
    destruct (bytes_eqb k' (bs "pingTimeout")) eqn:E2.
    { apply bytes_eqb_eq in E2. subst k'. change (bytes_eqb (bs "pingTimeout") (bs "pingInterval")) with false.
      cbn [app]. rewrite field_cons. destruct (oa_timeout a) as [x|] eqn:Ea.
      - split; [discriminate|]. intros (_ & _ & (X & _) & _). discriminate.
      - destruct (u64_of_raw v) as [s|] eqn:Ev; [|split; [discriminate|intros (_ & _ & (_ & x & X & _) & _); discriminate]].
        rewrite IH. cbn [oa_sid oa_timeout oa_interval]. split.
        + intros (H0 & H1 & H2 & H3). repeat split; auto. exists s. auto.
        + intros ((_ & H0) & H1 & (_ & x & [= <-] & H2) & H3). auto. }
    destruct (bytes_eqb k' (bs "pingInterval")) eqn:E3.
    { cbn [app]. rewrite field_cons. destruct (oa_interval a) as [x|] eqn:Ea.
      - split; [discriminate|]. intros (_ & _ & _ & X & _). discriminate.
      - destruct (u64_of_raw v) as [s|] eqn:Ev; [|split; [discriminate|intros (_ & _ & _ & _ & x & X & _); discriminate]].
        rewrite IH. cbn [oa_sid oa_timeout oa_interval]. split.
        + intros (H0 & H1 & H2 & H3). repeat split; auto. exists s. auto.
        + intros ((_ & H0) & H1 & H2 & (_ & x & [= <-] & H3)). auto. }
    cbn [app]. rewrite IH. tauto.
Qed.
Lemma values_in k l v : In v (values_of k l) -> exists b, In (b, v) l.
Proof.
  unfold values_of. rewrite in_flat_map. intros ([b w] & Hm & Hv). cbn [fst snd] in Hv.
  destruct (unescape b) as [k'|]; [|destruct Hv]. destruct (bytes_eqb k' k); [|destruct Hv]. destruct Hv as [->|[]]. eauto.
Qed.

Lemma parse_open_exact t x : parse_open t = Some x <-> describes t x.
Proof.
  unfold parse_open, describes. destruct (scan_doc t) as [r|] eqn:E.
  2:{ split; [discriminate|]. intros (r & J & _). apply scan_doc_exact in J. congruence. }
  apply scan_doc_exact in E.
  assert (U : (exists r0, jdoc r0 t /\ match r0 with
    | RObj l => (forall m, In m l -> unescape (fst m) <> None) /\
      exists s a b, values_of (bs "sid") l = [s] /\ values_of (bs "pingTimeout") l = [a] /\
        values_of (bs "pingInterval") l = [b] /\
        string_literal (o_sid x) s /\ u64_literal (o_timeout x) a /\ u64_literal (o_interval x) b
    | RArr [s; a; b] => string_literal (o_sid x) s /\ u64_literal (o_timeout x) a /\ u64_literal (o_interval x) b
    | _ => False end) <-> match r with
    | RObj l => (forall m, In m l -> unescape (fst m) <> None) /\
      exists s a b, values_of (bs "sid") l = [s] /\ values_of (bs "pingTimeout") l = [a] /\
        values_of (bs "pingInterval") l = [b] /\
        string_literal (o_sid x) s /\ u64_literal (o_timeout x) a /\ u64_literal (o_interval x) b
    | RArr [s; a; b] => string_literal (o_sid x) s /\ u64_literal (o_timeout x) a /\ u64_literal (o_interval x) b
    | _ => False end).
  { split; [|eauto]. intros (r0 & J & H). rewrite (jdoc_unique _ _ _ E J). exact H. }
  rewrite U. clear U. destruct r as [| | | |l|l]; try (split; [discriminate|intros []]).
  - destruct l as [|a [|b [|c [|d l]]]]; try (split; [discriminate|intros []]).
    destruct (jdoc_elem _ _ b E ltac:(cbn; auto)) as [tb Jb]. destruct (jdoc_elem _ _ c E ltac:(cbn; auto)) as [tc Jc].
    rewrite <- string_raw, <- (u64_raw _ _ Jb), <- (u64_raw _ _ Jc).
    destruct (string_of_raw a) as [s|]; [|split; [discriminate|intros (X & _); discriminate]].
    destruct (u64_of_raw b) as [n|]; [|split; [discriminate|intros (_ & X & _); discriminate]].
    destruct (u64_of_raw c) as [m|]; [|split; [discriminate|intros (_ & _ & X); discriminate]].
    split; [intros [= <-]; auto|]. intros ([= ->] & [= ->] & [= ->]). destruct x; reflexivity.
  - assert (V : forall k v, values_of k l = [v] -> exists tv, jvalue v tv).
    { intros k v Hv. destruct (values_in k l v) as [b Hb]; [rewrite Hv; left; reflexivity|]. destruct (jdoc_member _ _ _ E Hb) as [tv J]. eauto. }
    split.
    + destruct (open_fields l (OpenAcc None None None)) as [[[s|] [n|] [m|]]|] eqn:F; try discriminate. intros [= <-].
      apply open_fields_spec in F. cbn [oa_sid oa_timeout oa_interval] in F. destruct F as (H0 & H1 & H2 & H3). split; [exact H0|].
      destruct (values_of (bs "sid") l) as [|v1 [|? ?]]; cbn in H1; try discriminate; try contradiction.
      destruct (values_of (bs "pingTimeout") l) as [|v2 [|? ?]] eqn:E2; cbn in H2; try discriminate; try contradiction.
      destruct (values_of (bs "pingInterval") l) as [|v3 [|? ?]] eqn:E3; cbn in H3; try discriminate; try contradiction.
      exists v1, v2, v3. destruct (V _ _ E2) as [t2 J2]. destruct (V _ _ E3) as [t3 J3]. cbn [o_sid o_timeout o_interval].
      rewrite <- string_raw, <- (u64_raw _ _ J2), <- (u64_raw _ _ J3). intuition.
    + intros (H0 & s & a & b & E1 & E2 & E3 & H1 & H2 & H3). destruct (V _ _ E2) as [t2 J2]. destruct (V _ _ E3) as [t3 J3].
      apply string_raw in H1. apply (u64_raw _ _ J2) in H2. apply (u64_raw _ _ J3) in H3.
      assert (F : open_fields l (OpenAcc None None None) = Some (OpenAcc (Some (o_sid x)) (Some (o_timeout x)) (Some (o_interval x)))).
      { apply open_fields_spec. rewrite E1, E2, E3. cbn. repeat split; auto; discriminate. }
      rewrite F. destruct x; reflexivity.
Qed.

Lemma open_exact ms t x :
  answer_at (ms ++ [WText ("0"%byte :: t)]) (length ms) (Ok (PktOpen x)) <-> ~ opened ms /\ describes t x.
Proof.
  rewrite <- parse_open_exact, <- state_initial. unfold answer_at. rewrite history_snoc.
  rewrite nth_error_app2; unfold history_answers; rewrite answers_length; [|lia]. rewrite Nat.sub_diag. cbn [nth_error].
  change decoder_new with DInitial. destruct (state_after DInitial ms); cbn.
  - destruct (parse_open t) as [y|]; cbn; split; [intros [= ->]; auto|intros (_ & [= ->]); reflexivity|discriminate|intros (_ & X); discriminate].
  - split; [discriminate|intros (X & _); discriminate].
  - split; [discriminate|intros (X & _); discriminate].
Qed.
Lemma describes_unique t x y : describes t x -> describes t y -> x = y.
Proof. rewrite <- !parse_open_exact. congruence. Qed.

Lemma open_round_trip x : (o_timeout x <= u64_max)%N -> (o_interval x <= u64_max)%N ->
  exists t, json_ser (open_sval x) [] = (t, OOk) /\ describes t x.
Proof.
  intros Ht Hi.
  set (ts := [json_str (bs "sid") ++ ":"%byte :: json_str (o_sid x);
              json_str (bs "pingTimeout") ++ ":"%byte :: dec (o_timeout x);
              json_str (bs "pingInterval") ++ ":"%byte :: dec (o_interval x)]).
  assert (D : forall n, decZ (Z.of_N n) = dec n) by (intros [|p]; reflexivity).
  exists ("{"%byte :: seps true ts ++ ["}"%byte]). split.
  - cbn -[json_str dec]. rewrite !D. repeat (rewrite <- app_assoc; cbn [app]). reflexivity.
  - exists (RObj [(bs "sid", RStr (escape (o_sid x))); (bs "pingTimeout", RNum (int_lit false (o_timeout x))); (bs "pingInterval", RNum (int_lit false (o_interval x)))]).
    split.
    + eexists [], _, []. split; [apply ws_nil|]. split; [apply ws_nil|]. split; [|rewrite app_nil_r; reflexivity].
      apply jobj_seps. assert (B : forall k, In k [bs "sid"; bs "pingTimeout"; bs "pingInterval"] -> escape k = k /\ jbody k).
      { intros k [<-|[<-|[<-|[]]]]; (split; [vm_compute; reflexivity|]); [change (bs "sid") with (escape (bs "sid"))|change (bs "pingTimeout") with (escape (bs "pingTimeout"))|change (bs "pingInterval") with (escape (bs "pingInterval"))]; apply escape_body. }
      repeat constructor; cbn [fst snd]; eexists; (split; [reflexivity|]).
      * split; [apply (B (bs "sid")); cbn; auto|]. apply jv_str, escape_body.
      * split; [apply (B (bs "pingTimeout")); cbn; auto|]. rewrite <- int_lit_text. apply jv_num, int_lit_ok.
      * split; [apply (B (bs "pingInterval")); cbn; auto|]. rewrite <- int_lit_text. apply jv_num, int_lit_ok.
    + split; [intros m [<-|[<-|[<-|[]]]]; vm_compute; discriminate|].
      eexists _, _, _. split; [vm_compute; reflexivity|]. split; [vm_compute; reflexivity|]. split; [vm_compute; reflexivity|].
      split; [exists (escape (o_sid x)); split; [reflexivity|apply unescape_escape]|]. split; split; auto.
Qed.
