(** Texts of values without sequences contain no bracket. *)
From Verif Require Export BuildFacts.

Lemma nb_app a b : no_bracket a -> no_bracket b -> no_bracket (a ++ b).
Proof. unfold no_bracket. intros Ha Hb H. apply in_app_or in H as [H|H]; auto. Qed.
Lemma nb_cons c b : (c =b "[") = false -> no_bracket b -> no_bracket (c :: b).
Proof. intros H Hb [E|E]; [subst; discriminate|auto]. Qed.
Lemma nb_check s : forallb (fun c => negb (c =b "[")) s = true -> no_bracket s.
Proof. intros H Hi. rewrite forallb_forall in H. specialize (H _ Hi). discriminate. Qed.
Lemma nb_digits s : forallb is_digit s = true -> no_bracket s.
Proof. intros H Hi. rewrite forallb_forall in H. specialize (H _ Hi). discriminate. Qed.
Lemma nb_num n : numlit_ok n -> no_bracket (numlit_text n).
Proof.
  intros H Hi. apply num_chars in H. rewrite forallb_forall in H. specialize (H _ Hi). discriminate.
Qed.
Lemma nb_esc c : (c =b "[") = false -> no_bracket (esc_byte c).
Proof.
  intros H. pose proof (byte_forall (fun c => implb (negb (c =b "[")) (forallb (fun d => negb (d =b "[")) (esc_byte c)))
    ltac:(vm_compute; reflexivity) c) as X. cbv beta in X. rewrite H in X. apply nb_check. exact X.
Qed.
Lemma nb_escape s : no_bracket s -> no_bracket (escape s).
Proof.
  induction s as [|c s IH]; intros H; [intros []|]. rewrite escape_cons. apply nb_app.
  - apply nb_esc. apply byte_eqb_neq. intros ->. apply H. left. reflexivity.
  - apply IH. intros Hi. apply H. right. exact Hi.
Qed.
Lemma nb_str s : no_bracket s -> no_bracket (json_str s).
Proof.
  intros H. unfold json_str. apply nb_cons; [reflexivity|]. apply nb_app; [apply nb_escape; exact H|].
  apply nb_check. reflexivity.
Qed.
Lemma nb_seps ts : Forall no_bracket ts -> forall first, no_bracket (seps first ts).
Proof.
  induction 1 as [|t ts H _ IH]; intros first; cbn [seps]; [intros []|].
  apply nb_app; [destruct first; apply nb_check; reflexivity|]. apply nb_app; auto.
Qed.
Lemma nb_key k kt : plain k -> key_text k = Some kt -> no_bracket kt.
Proof.
  revert kt. induction k; intros kt Hp E; cbn [key_text plain] in *; try discriminate; try (injection E as <-); auto.
  - destruct b; apply nb_check; reflexivity.
  - apply nb_cons; [reflexivity|]. apply nb_app; [apply nb_digits, dec_digits|apply nb_check; reflexivity].
  - apply nb_cons; [reflexivity|]. apply nb_app; [|apply nb_check; reflexivity].
    rewrite decZ_text. apply nb_num, int_lit_ok.
  - destruct t as [t|]; [|discriminate]. injection E as <-.
    apply nb_cons; [reflexivity|]. apply nb_app; [apply nb_num; exact Hp|apply nb_check; reflexivity].
  - apply nb_str. exact Hp.
  - apply nb_str. exact Hp.
  - apply nb_str. exact Hp.
Qed.
Definition nb_ok (v : sval) : Prop := plain v -> forall t, (forall o, json_ser v o = (o ++ t, OOk)) -> no_bracket t.
Lemma nb_object l : Forall (fun kx => nb_ok (snd kx)) l -> allP (fun '(k, x) => plain k /\ plain x) l ->
  forall t, (forall o, ser_object l o = (o ++ t, OOk)) -> no_bracket t.
Proof.
  intros H Hp t Ht.
  destruct (entries_wr l ltac:(apply Forall_forall; intros kx _; apply writer_ok) true) as (t' & oc & E & _ & _ & Hts).
  specialize (Ht []). unfold ser_object in Ht. rewrite E in Ht. unfold obind in Ht. destruct oc; try discriminate.
  unfold close in Ht. injection Ht as <-. destruct (Hts eq_refl) as (ts & -> & F). cbn [app].
  apply nb_cons; [reflexivity|]. apply nb_app; [|apply nb_check; reflexivity]. apply nb_seps.
  clear E Hts. revert H Hp. induction F as [|[k x] m l ts (kt & s & t & Ek & _ & -> & W) F IH]; intros H Hp; [constructor|].
  cbn [allP fst snd] in *. inversion H as [|? ? H1 H2]; subst. destruct Hp as [[Pk Px] Hp]. constructor; [|auto].
  apply nb_app; [apply (nb_key k kt Pk Ek)|]. apply nb_cons; [reflexivity|]. apply H1; [exact Px|]. apply W.
Qed.
Lemma plain_as l : allP (fun '(k, x) => no_bracket k /\ plain x) l -> allP (fun '(k, x) => plain k /\ plain x) (as_entries l).
Proof. induction l as [|[k x] l IH]; [auto|]. cbn. intuition. Qed.
Lemma nb_variant n body t : no_bracket n -> (forall t, (forall o, body o = (o ++ t, OOk)) -> no_bracket t) ->
  (exists t' oc, forall o, body o = (o ++ t', oc)) ->
  (forall o, ser_variant n body o = (o ++ t, OOk)) -> no_bracket t.
Proof.
  intros Hn Hb (t' & oc & E) H. pose proof (variant_ser n body t' oc E) as V. specialize (H []). rewrite V in H.
  destruct oc; try discriminate. injection H as <-. specialize (Hb t' E).
  change (no_bracket ("{"%byte :: json_str n ++ ":"%byte :: t' ++ ["}"%byte])).
  apply nb_cons; [reflexivity|]. apply nb_app; [apply nb_str; exact Hn|]. apply nb_cons; [reflexivity|].
  apply nb_app; [exact Hb|apply nb_check; reflexivity].
Qed.
Theorem plain_text v : nb_ok v.
Proof.
  unfold nb_ok. induction v using sval_ind'; cbn [plain]; intros Hp u Hu; try contradiction;
    pose proof (Hu []) as H0; cbn [app] in H0.
  - injection H0 as <-. destruct b; apply nb_check; reflexivity.
  - injection H0 as <-. apply nb_digits, dec_digits.
  - injection H0 as <-. rewrite decZ_text. apply nb_num, int_lit_ok.
  - destruct t as [t|]; injection H0 as <-; [apply nb_num; exact Hp|apply nb_check; reflexivity].
  - injection H0 as <-. apply nb_str. exact Hp.
  - injection H0 as <-. apply nb_str. exact Hp.
  - injection H0 as <-. apply nb_check; reflexivity.
  - apply IHv; auto.
  - injection H0 as <-. apply nb_check; reflexivity.
  - injection H0 as <-. apply nb_check; reflexivity.
  - injection H0 as <-. apply nb_str. exact Hp.
  - apply IHv; auto.
  - destruct Hp as [Hn Hp]. apply (nb_variant n (json_ser v) u Hn); auto.
    destruct (writer_ok v) as (t & oc & H & _). eauto.
  - apply (nb_object l); auto.
  - apply (nb_object (as_entries l)); [|apply plain_as; exact Hp|intros o; rewrite <- ser_struct; apply Hu].
    apply (forall_as_entries l). exact H.
  - destruct Hp as [Hn Hp]. apply (nb_variant n (ser_object (as_entries l)) u Hn).
    + apply nb_object; [apply (forall_as_entries l); exact H|apply plain_as; exact Hp].
    + destruct (object_wr (as_entries l) ltac:(apply Forall_forall; intros kx _; apply writer_ok)) as (t & oc & X & _). eauto.
    + intros o. rewrite <- ser_structv. apply Hu.
  - discriminate.
Qed.

Lemma plain_not_misreadable ts : Forall no_bracket ts -> ~ misreadable ("["%byte :: seps true ts ++ ["]"%byte]).
Proof.
  intros H (x & o & y & E).
  assert (N : no_bracket (seps true ts ++ ["]"%byte])) by (apply nb_app; [apply nb_seps; exact H|apply nb_check; reflexivity]).
  destruct x as [|c x]; cbn [app] in E; [discriminate|]. injection E as _ E. apply N. rewrite E.
  apply in_or_app. right. right. apply in_or_app. right. left. reflexivity.
Qed.
Lemma plain_arrives h src ns args fs : opened h -> ~ closed h -> ns_ok ns -> fits (src_id src) -> starts src args ->
  usable (all_args src args) -> Forall plain (all_args src args) -> build src ns false args = Some fs ->
  exists p, arrives h fs p /\ carries p (src_kind src) ns (src_id src) (json_values (all_args src args)).
Proof.
  intros Ho Hc Hns Hid Hst Hu Hp Hb.
  destruct (arrives_exact h src ns false args fs Ho Hc Hns Hid Hst Hu ltac:(discriminate) Hb) as (a & Hfs & Hex & Hcar & _).
  destruct (build_shape src ns false args) as (ts & E & W). rewrite E in Hb. injection Hb as <-.
  assert (Ea : a = "["%byte :: seps true ts ++ ["]"%byte]).
  { pose proof (packet_args src ns false args ts Hst) as Ea. cbn [out_wire w_args] in Ea.
    cbn [hd_error] in Hfs. unfold out_wire in Hfs. rewrite Ea in Hfs. injection Hfs as Hfs.
    cbn [opt_text w_count w_ns w_id w_args app] in Hfs. apply app_inv_head, app_inv_head in Hfs. auto. }
  assert (N : ~ misreadable a).
  { rewrite Ea. apply plain_not_misreadable. cbn [written] in W. clear - W Hp.
    assert (Hk : Forall plain (kept (all_args src args))).
    { apply Forall_forall. intros v Hv. apply filter_In in Hv as [Hv _]. rewrite Forall_forall in Hp. auto. }
    revert Hk. generalize (kept (all_args src args)) W. clear. intros l W. induction W as [|v t l ts H W IH]; intros Hk; [constructor|].
    inversion Hk; subst. constructor; [|auto]. apply (plain_text v); [assumption|apply H]. }
  destruct (proj2 Hex (or_intror N)) as [p Hp']. exists p. split; [exact Hp'|]. apply (Hcar p Hp').
Qed.
