(** Acks sent by ack builders as the other side reads them (C31); what callbacks may do (C34). *)
From Verif Require Export CloseProofs BuildFacts PlainProofs.

Lemma ack_answer log s o l i bin args s' o' : trace log s o -> l = LAck i bin args \/ l = LCbAck i bin args ->
  step log s l = Some (s', o') ->
  exists ns id fs, In (ns, id) (builders_given o) /\ ns_ok ns /\
    (o' = [OQueued (ByAck ns id) fs] \/ o' = [OLost (ByAck ns id) fs] /\ (In OChannelClosed o \/ exists e, In (OEnd e) o)) /\
    forall h, opened h -> ~ closed h -> usable args -> (bin = true -> usable_binary args) ->
      (first_ok (OfAck id) args -> forall p, arrives h fs p -> carries p KAck ns (Some id) (pkt_values bin args)) /\
      (starts (OfAck id) args -> ns = bs "/" \/ (bin = false /\ Forall plain args) ->
         exists p, arrives h fs p /\ carries p KAck ns (Some id) (pkt_values bin args)).
Proof.
  intros Ht Hl H. destruct (ack_step _ _ _ _ _ _ _ _ _ Ht Hl H) as (ns & id & fs & Hg & Hns & Hid & Hb & Ho).
  exists ns, id, fs. split; [exact Hg|]. split; [exact Hns|]. split; [exact Ho|]. intros h Hop Hcl Hu Hub.
  assert (C : first_ok (OfAck id) args -> forall p, arrives h fs p -> carries p KAck ns (Some id) (pkt_values bin args)).
  { intros Hf p Hp. exact (no_corruption h (OfAck id) ns bin args fs p Hop Hcl Hns Hid Hf Hu Hub Hb Hp). }
  split; [exact C|]. intros Hst Hc.
  assert (Hf : first_ok (OfAck id) args) by (destruct args; [exact I|exact Hst]).
  assert (X : exists p, arrives h fs p).
  { destruct Hc as [-> |[-> Hp]].
    - destruct (arrives_exact h (OfAck id) (bs "/") bin args fs Hop Hcl Hns Hid Hst Hu Hub Hb) as (a & _ & Ha & _). apply Ha. auto.
    - destruct (plain_arrives h (OfAck id) ns args fs Hop Hcl Hns Hid Hst Hu Hp Hb) as (p & Hp' & _). eauto. }
  destruct X as [p Hp]. eauto.
Qed.

Definition argless_run : list label := opened_run ++
  [LTable (SetEvent (bs "/") (bs "news") 7%N); LRead (WText (bs "425[""news"",1]")); LCbAck 0 false []].
Lemma C31_refuted_lemma : ~ C31_full.
Proof.
  intros H. destruct (execute false init argless_run) as [[s o]|] eqn:E; [|vm_compute in E; discriminate].
  assert (Hi : In (OQueued (ByAck (bs "/") 5) [WText (bs "435")]) o) by (vm_compute in E; injection E as _ <-; cbn; auto 10).
  destruct sample_opened as [Ho Hc].
  destruct (H false s o _ _ _ _ (run_trace _ _ _ _ E) Hi Ho Hc) as (p & a & (m & l & Ea & Hr) & _).
  remember (history_answers ([sample_open] ++ [WText (bs "435")])) as x eqn:Ex. vm_compute in Ex. subst x.
  remember (history_answers [sample_open]) as y eqn:Ey. vm_compute in Ey. subst y.
  injection Ea as Ea El. subst m. destruct l; [|discriminate].
  destruct Hr as [[Hr _]|(q & Hr & _)]; vm_compute in Hr; discriminate.
Qed.

(** What a callback may do without blocking. *)
Lemma callback_free log s o l s' o' c k : trace log s o -> s_phase s = PCalling c k -> step log s l = Some (s', o') ->
  (exists e, l = LCbEmit e /\ chosen_callback (em_calls e) = None) \/ (exists i bin args, l = LCbAck i bin args) ->
  s_phase s' = PCalling c k /\ ~ In OBlocked o'.
Proof.
  intros Ht Hp H Hl. split.
  - assert (NA : forall e args, event_packets e args <> None) by (intros a args; rewrite event_packets_build; apply build_no_panic).
    assert (NB : forall e args, ack_packets e args <> None) by (intros a args; rewrite ack_packets_build; apply build_no_panic).
    destruct Hl as [(e & -> & He)|(i & bin & args & ->)]; cbn [step] in H; rewrite Hp in H.
    + destruct (usable_client s); [|discriminate]. destruct (emission_builder s e) as [n b] eqn:Eb.
      destruct (emission_choice _ _ _ _ Eb) as (_ & _ & _ & C & _). rewrite He in C. rewrite C in H.
      destruct (event_packets b (em_args e)) eqn:E; [|destruct (NA _ _ E)]. unfold push in H.
      destruct (_ || _) in H; injection H as <- <-; exact Hp.
    + destruct (nth_error (s_acks s) i) as [[ns id]|]; [|discriminate].
      destruct (ack_packets _ args) eqn:E; [|destruct (NB _ _ E)]. unfold push in H.
      destruct (_ || _) in H; injection H as <- <-; exact Hp.
  - intros Hi. apply (blocked_exact _ _ _ _ _ _ Ht H) in Hi as [_ Hi].
    destruct Hl as [(e & -> & He)|(i & bin & args & ->)], Hi as [[op Q]|(e' & f & Q & Hf)]; try discriminate. injection Q as <-. congruence.
Qed.
Lemma callback_possible log s c k : s_phase s = PCalling c k ->
  (forall e, usable_client s = true -> exists s' o', step log s (LCbEmit e) = Some (s', o')) /\
  (forall i bin args x, nth_error (s_acks s) i = Some x -> exists s' o', step log s (LCbAck i bin args) = Some (s', o')).
Proof.
  intros Hp. split.
  - intros e Hu. cbn [step]. rewrite Hp, Hu. destruct (emission_builder s e) as [n b]. destruct (event_packets _ _); [|eauto].
    destruct (eb_callback b); [eauto|]. destruct (push _ _ _); eauto.
  - intros i bin args [ns id] Hn. cbn [step]. rewrite Hp, Hn. destruct (ack_packets _ _); [|eauto]. destruct (push _ _ _); eauto.
Qed.

(** Every call of an ack callback has a registration, and no registration two calls (C28). *)
Lemma fires_from log s o j p f a : trace log s o -> nth_error o j = Some (OCall p (AckCall f a)) -> exists i, fires o i j.
Proof.
  intros Ht Hj. destruct (nth_error_split _ _ Hj) as (o1 & o2 & -> & Hlen).
  destruct (ack_calls_registered _ _ _ _ _ _ _ Ht) as (o0 & m & ns & id & b1 & b2 & -> & _ & Hns & Hd & -> & Hf).
  exists (length b1), ns, id, f, p, a.
  assert (L : j = length b1 + S (length b2 + 1)) by (rewrite <- Hlen, !app_length; cbn; lia).
  split. { rewrite <- !app_assoc, nth_error_app2, Nat.sub_diag by lia. reflexivity. }
  split; [exact Hj|]. split; [exact Hns|]. split; [exact Hd|]. split; [lia|].
  intros k y Hk Hy. rewrite <- !app_assoc in Hy. rewrite nth_error_app2 in Hy by lia.
  destruct (k - length b1) as [|k'] eqn:Ek; [lia|]. cbn [app nth_error] in Hy.
  destruct (Nat.lt_ge_cases k' (length b2)) as [L2|L2].
  - rewrite nth_error_app1 in Hy by exact L2. apply (proj1 (Forall_forall _ _) Hf). eapply nth_error_In; eauto.
  - rewrite nth_error_app2 in Hy by exact L2. replace (k' - length b2) with 0 in Hy by lia. injection Hy as <-.
    intros [[g Q]|[(p' & a' & f' & b' & Q & _)|(p' & a' & Q & _)]]; discriminate.
Qed.
Lemma call_about p f a ns id : packet_namespace p = Some ns -> packet_data p = Some (DataAck id a) -> about_ack ns id (OCall p (AckCall f a)).
Proof. intros H1 H2. right. left. exists p, a, f, a. auto. Qed.
Lemma fires_once o i j j' : fires o i j -> fires o i j' -> j = j'.
Proof.
  intros (ns & id & f & p & a & Hi & Hj & Hn & Hd & L & H) (ns' & id' & f' & p' & a' & Hi' & Hj' & Hn' & Hd' & L' & H').
  rewrite Hi in Hi'. injection Hi' as <- <- <-. destruct (Nat.lt_trichotomy j j') as [Q|[Q|Q]]; [|exact Q|].
  - destruct (H' j _ (conj L Q) Hj). apply call_about; auto.
  - destruct (H j' _ (conj L' Q) Hj'). apply call_about; auto.
Qed.
Lemma fires_one_source o i i' j : fires o i j -> fires o i' j -> i = i'.
Proof.
  intros (ns & id & f & p & a & Hi & Hj & Hn & Hd & L & H) (ns' & id' & f' & p' & a' & Hi' & Hj' & Hn' & Hd' & L' & H').
  rewrite Hj in Hj'. injection Hj' as <- <- <-. rewrite Hn in Hn'. rewrite Hd in Hd'. injection Hn' as <-. injection Hd' as <-.
  destruct (Nat.lt_trichotomy i i') as [Q|[Q|Q]]; [|exact Q|].
  - destruct (H i' _ (conj Q L') Hi'). left. eauto.
  - destruct (H' i _ (conj Q L) Hi). left. eauto.
Qed.
Lemma one_close_frame log s o1 o2 : trace log s (o1 ++ OCloseFrame :: o2) -> ~ In OCloseFrame o1 /\ ~ In OCloseFrame o2.
Proof.
  intros H. apply close_frame in H as (_ & H1 & H2). split; [exact H1|]. intros Hi.
  exact (proj1 (Forall_forall _ _) H2 _ Hi).
Qed.
