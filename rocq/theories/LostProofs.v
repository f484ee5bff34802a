(** An ack whose first argument fails is written without its opening bracket: what can arrive. *)
From Verif Require Export BuildFacts.

Lemma digit_head i : exists c d, dec i = c :: d /\ is_digit c = true.
Proof.
  destruct (dec_spec i) as (Hd & Hne & _). destruct (dec i) as [|c d]; [congruence|]. exists c, d. split; [reflexivity|].
  cbn in Hd. apply andb_true_iff in Hd. apply Hd.
Qed.
(** A rest of the text that begins with a comma or a closing bracket. *)
Definition stop (s : bytes) : Prop := exists c r, s = c :: r /\ (c = ","%byte \/ c = "]"%byte).
Lemma stop_seps ts : stop (seps false ts ++ ["]"%byte]).
Proof. destruct ts; cbn; unfold stop; eauto 10. Qed.
Lemma digits_stop d d' c r s : forallb is_digit d = true -> forallb is_digit d' = true -> is_digit c = false -> stop s ->
  d ++ s = d' ++ c :: r -> d = d' /\ s = c :: r.
Proof.
  intros Hd Hd' Hc (x & y & -> & Hx) E. symmetry in E.
  destruct (digits_split d' d c r (x :: y) Hd' Hd Hc) as [-> E']; [destruct Hx; subst; reflexivity|exact E|auto].
Qed.
Lemma id_digits o : forallb is_digit (opt_text dec o) = true.
Proof. destruct o; [apply dec_digits|reflexivity]. Qed.

Lemma unopened_parts k n ns i s w' : ns_ok ns -> stop s ->
  reads_as (wire_text (Wire k n (ns_opt ns) (Some i) (Some s))) w' ->
  w_kind w' = k /\ w_count w' = n /\
  opt_text (fun x => x ++ bs ",") (ns_opt ns) ++ dec i ++ s =
  opt_text (fun x => x ++ bs ",") (w_ns w') ++ opt_text dec (w_id w') ++ opt_text (fun a => a) (w_args w').
Proof.
  intros Hns Hs Hr. pose proof Hr as (Et & _). unfold wire_text in Et. cbn [w_kind w_count w_ns w_id w_args opt_text] in Et.
  injection Et as Ek E. split; [destruct k, (w_kind w'); (reflexivity || discriminate)|].
  assert (C : w_count w' = n).
  { destruct n as [n|].
    - unfold wire_text in Hr. cbn [w_kind w_count w_ns w_id w_args opt_text] in Hr. rewrite <- app_assoc in Hr.
      eapply count_read. exact Hr.
    - destruct (w_count w') as [m|]; [exfalso|reflexivity]. cbn [opt_text app] in E. rewrite <- app_assoc in E.
      change (bs "-" ++ ?x) with ("-"%byte :: x) in E.
      destruct (ns_opt ns) as [x|] eqn:En; cbn [opt_text app] in E.
      + destruct (ns_opt_ok ns x Hns En) as [(c & r & ->) _]. destruct (digit_head m) as (d & e & Em & Hd).
        rewrite Em in E. injection E as <- _. discriminate.
      + destruct Hs as (c & r & -> & Hc).
        apply digits_stop in E as [_ E]; [|apply dec_digits|apply dec_digits|reflexivity|exists c, r; auto].
        injection E as -> _. destruct Hc; discriminate. }
  split; [exact C|]. rewrite C in E. apply app_inv_head in E. exact E.
Qed.
Lemma unopened_read k n ns i ts rs w' a' ts' : ns_ok ns -> Forall2 jvalue rs ts ->
  reads_as (wire_text (Wire k n (ns_opt ns) (Some i) (Some (seps false ts ++ ["]"%byte])))) w' ->
  w_args w' = Some a' -> jarray ts' a' ->
  exists ns' y, w_ns w' = Some ns' /\ ns = ns' ++ ","%byte :: opt_text dec (w_id w') ++ "["%byte :: y.
Proof.
  intros Hns Hj Hr Ea J. destruct (unopened_parts _ _ _ _ _ _ Hns (stop_seps ts) Hr) as (_ & _ & E).
  destruct Hr as (_ & [Hn' Ha'] & _). rewrite Ea in E. destruct (Ha' a' Ea) as [[b ->] _]. cbn [opt_text] in E.
  destruct (ns_opt ns) as [x|] eqn:En; cbn [opt_text app] in E.
  - assert (x = ns) by (pose proof (ns_opt_back ns) as B; rewrite En in B; exact B). subst x.
    destruct (ns_opt_ok ns ns Hns En) as [(c & r & Ens) _].
    destruct (w_ns w') as [ns'|]; cbn [opt_text app] in E.
    + exists ns'. rewrite <- !app_assoc in E. change (bs "," ++ ?z) with (","%byte :: z) in E.
      apply prefix_app in E as [(z & Ez & E)|(z & Ez & E)].
      * (* a shorter namespace *)
        destruct z as [|c0 z].
        { exfalso. cbn [app] in E. injection E as E. symmetry in E.
          apply digits_stop in E as [_ E]; [|apply dec_digits|apply id_digits|reflexivity|apply stop_seps].
          destruct (stop_seps ts) as (c1 & r1 & E1 & Hc1). rewrite E1 in E. injection E as -> _. destruct Hc1; discriminate. }
        cbn [app] in E. injection E as <- E. symmetry in E.
        apply prefix_app in E as [(q & Eq & E)|(q & Eq & E)].
        -- destruct q as [|c1 q]; cbn [app] in E; [discriminate|]. injection E as <- _.
           exists q. split; [reflexivity|]. rewrite Ez, Eq. reflexivity.
        -- exfalso. destruct q as [|c1 q]; cbn [app] in E; [discriminate|]. injection E as <- E.
           pose proof (id_digits (w_id w')) as D. rewrite Eq, forallb_app in D. cbn in D. rewrite andb_false_r in D. discriminate.
      * (* not a longer one *)
        exfalso. destruct z as [|c0 z].
        { cbn [app] in E. injection E as E.
          apply digits_stop in E as [_ E]; [|apply dec_digits|apply id_digits|reflexivity|apply stop_seps].
          destruct (stop_seps ts) as (c1 & r1 & E1 & Hc1). rewrite E1 in E. injection E as -> _. destruct Hc1; discriminate. }
        cbn [app] in E. injection E as <- E.
        replace (z ++ ","%byte :: opt_text dec (w_id w') ++ "["%byte :: b ++ ["]"%byte])
          with ((z ++ ","%byte :: opt_text dec (w_id w')) ++ "["%byte :: b ++ ["]"%byte]) in E
          by (rewrite <- app_assoc; reflexivity).
        apply prefix_app in E as [(q & Eq & _)|(q & Eq & E)].
        -- apply (dec_no_comma i). exists z, (opt_text dec (w_id w') ++ q). rewrite Eq, <- !app_assoc. reflexivity.
        -- destruct ts as [|t ts].
           { cbn in E. destruct q as [|c1 [|c2 q]]; discriminate. }
           pose proof (seps_safe (t :: ts) rs Hj true 1) as Hsafe.
           destruct q as [|c1 q]; [cbn in E; discriminate|].
           assert (E' : seps true (t :: ts) ++ ["]"%byte] = q ++ "["%byte :: b ++ ["]"%byte]).
           { cbn [seps comma_unless app] in E |- *. injection E as _ E. exact E. }
           pose proof (no_array_suffix _ ("["%byte :: q) (b ++ ["]"%byte]) ts' Hsafe) as X.
           discriminate X; [|exact J]. cbn [app]. f_equal. exact E'.
    + exfalso. subst ns. destruct (w_id w') as [j|]; cbn [opt_text app] in E; [|discriminate].
      destruct (digit_head j) as (d & e & Ej & Hd). rewrite Ej in E. injection E as <- _. discriminate.
  - exfalso. destruct (w_ns w') as [ns'|] eqn:En'; cbn [opt_text app] in E.
    + destruct (Hn' ns' eq_refl) as [(c & r & ->) _]. destruct (digit_head i) as (d & e & Ei & Hd). rewrite Ei in E.
      injection E as -> _. discriminate.
    + apply digits_stop in E as [_ E]; [|apply dec_digits|apply id_digits|reflexivity|apply stop_seps].
      destruct (stop_seps ts) as (c1 & r1 & E1 & Hc1). rewrite E1 in E. injection E as -> _. destruct Hc1; discriminate.
Qed.

Lemma not_first_ok src args : ~ first_ok src args -> exists i v l, src = OfAck i /\ args = v :: l /\ serialises v = false.
Proof.
  destruct src as [e i|i], args as [|v l]; cbn; intros H; try (exfalso; exact (H I)).
  exists i, v, l. split; [reflexivity|]. split; [reflexivity|]. destruct (serialises v); [congruence|reflexivity].
Qed.
Lemma lost_bracket h src ns bin args fs p : opened h -> ~ closed h -> ns_ok ns -> ~ first_ok src args ->
  usable (all_args src args) -> build src ns bin args = Some fs -> arrives h fs p ->
  exists ns' i a, cut_short ns ns' i /\ packet_namespace p = Some ns' /\ packet_data p = Some (DataAck i a).
Proof.
  intros Ho Hc Hns Hf Hu Hbuild Hp. destruct (not_first_ok _ _ Hf) as (i & v & l & -> & -> & Hv).
  destruct (build_shape (OfAck i) ns bin (v :: l)) as (ts & E & W). rewrite E in Hbuild. injection Hbuild as <-.
  apply arrives_received in Hp; try assumption.
  destruct (received_view _ _ _ _ (tsub_wire _) (bmsgs_ok _) Hp) as (k & ns' & id & ts' & vs & Ha & Hb & Hview).
  destruct (view_data _ _ Hview) as (Hn & d & Hd & Hm). cbn [v_ns v_kind v_id v_args v_atts] in *.
  destruct Ha as (w' & Hr & _ & _ & Hel & En & Ei & Hk).
  unfold out_wire, arg_text, opening in Hr. cbn [all_args src_id] in Hr. rewrite Hv in Hr.
  destruct (unopened_parts _ _ _ _ _ _ Hns (stop_seps ts) Hr) as (Ek & _ & _). rewrite Ek in Hk.
  assert (Hack : k = KAck) by (destruct bin; cbn in Hk; apply Hk). subst k.
  destruct d as [| |j a|j a]; try discriminate; try (destruct Hm as [Hm0 _]; discriminate).
  destruct Hm as (_ & Ej & Hav).
  assert (Hne : ts' <> []).
  { destruct (proj1 (received_exact _ _ _ KAck ns' id ts' vs (tsub_wire _) (bmsgs_ok _)) (ex_intro _ p (conj Hp Hview))) as (_ & _ & X).
    apply X. right. reflexivity. }
  destruct (w_args w') as [a'|] eqn:Ea'; cbn [elements] in Hel; [|congruence].
  pose proof (written_facts _ _ _ W) as (_ & X & _). destruct (usable_kept _ Hu) as [Hval _].
  destruct (X Hval) as [_ [rs Hj]].
  destruct (unopened_read _ _ _ _ _ _ _ _ _ Hns Hj Hr Ea' Hel) as (n2 & y & En2 & Ecut).
  rewrite En2 in En. subst n2. exists ns', j, a. split; [|auto]. exists y. rewrite Ecut, <- Ei, Ej. reflexivity.
Qed.
Lemma cut_short_other ns ns' i : cut_short ns ns' i -> ns' <> ns.
Proof.
  intros (y & E) H. subst ns'. apply (f_equal (@length _)) in E. rewrite app_length in E. cbn [length] in E. lia.
Qed.
(** Unless the namespace contains such a thing, nothing is corrupted. *)
Lemma no_corruption_ns h src ns bin args fs p : opened h -> ~ closed h -> ns_ok ns -> fits (src_id src) ->
  first_ok src args \/ (forall ns' i, ~ cut_short ns ns' i) ->
  usable (all_args src args) -> (bin = true -> usable_binary (all_args src args)) ->
  build src ns bin args = Some fs -> arrives h fs p ->
  carries p (src_kind src) ns (src_id src) (pkt_values bin (all_args src args)).
Proof.
  intros Ho Hc Hns Hid Hf Hu Hb Hbuild Hp.
  assert (D : first_ok src args \/ ~ first_ok src args).
  { destruct src as [e i|i], args as [|v l]; cbn; auto. destruct (serialises v); [left; reflexivity|right; discriminate]. }
  destruct D as [D|D]; [eapply no_corruption; eauto|].
  destruct (lost_bracket h src ns bin args fs p Ho Hc Hns D Hu Hbuild Hp) as (ns' & i & a & Hcut & _).
  destruct Hf as [Hf|Hf]; [contradiction|]. exfalso. exact (Hf ns' i Hcut).
Qed.
Lemma no_corruption_exact h src ns bin args fs : opened h -> ~ closed h -> ns_ok ns -> fits (src_id src) ->
  usable (all_args src args) -> (bin = true -> usable_binary (all_args src args)) ->
  build src ns bin args = Some fs ->
  ((forall p, arrives h fs p -> carries p (src_kind src) ns (src_id src) (pkt_values bin (all_args src args))) <->
   first_ok src args \/ (forall p, ~ arrives h fs p)).
Proof.
  intros Ho Hc Hns Hid Hu Hb Hbuild. split.
  - intros H.
    assert (D : first_ok src args \/ ~ first_ok src args).
    { destruct src as [e i|i], args as [|v l]; cbn; auto. destruct (serialises v); [left; reflexivity|right; discriminate]. }
    destruct D as [D|D]; [auto|right]. intros p Hp.
    destruct (lost_bracket h src ns bin args fs p Ho Hc Hns D Hu Hbuild Hp) as (ns' & i & a & Hcut & Hn & _).
    destruct (H p Hp) as [Hn' _]. rewrite Hn in Hn'. injection Hn' as Hn'. exact (cut_short_other _ _ _ Hcut Hn').
  - intros [H|H] p Hp; [|exfalso; exact (H p Hp)]. eapply no_corruption; eauto.
Qed.
Lemma no_comma_uncut ns : ~ In ","%byte ns -> forall ns' i, ~ cut_short ns ns' i.
Proof. intros H ns' i (y & ->). apply H. apply in_elt. Qed.
