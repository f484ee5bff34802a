(** Received packets in traces, acks sent for them (C31), reassembly (C32), pongs (C33). *)
From Verif Require Export EndProofs ArriveProofs.

(** ** Completed packets *)
Lemma assembled_last es ps p : assembled es (ps ++ [p]) [] ->
  exists es0 m l, es = es0 ++ MText m :: l /\ assembled es0 ps [] /\ received m l p.
Proof.
  remember (ps ++ [p]) as qs eqn:Eq. intros H. remember [] as r0 eqn:Er in H. revert ps Eq Er.
  induction H as [|m q n l _ _ _|m l p' es qs rest Hr H IH]; intros ps Eq Er.
  - destruct ps; discriminate.
  - discriminate.
  - destruct ps as [|p0 ps]; cbn [app] in Eq; injection Eq as <- Eq.
    + subst qs rest. inversion H; subst. exists [], m, l. rewrite app_nil_r. split; [reflexivity|]. split; [apply as_nothing|exact Hr].
    + subst rest. destruct (IH _ Eq eq_refl) as (es0 & m' & l' & -> & H0 & Hr').
      exists (MText m :: l ++ es0), m', l'. split; [cbn [app]; rewrite <- app_assoc; reflexivity|]. split; [apply as_packet; assumption|exact Hr'].
Qed.
(** The text message and the attachments of a completed packet. *)
Lemma completed log s o m p o' : trace log s (o ++ ORead m :: o') -> completes o m p ->
  exists ps es t text l, messages (reads (o ++ [ORead m])) = es ++ MText t :: l /\ assembled es ps [] /\
    sub_deref_str t = Some text /\ Forall emsg_ok l /\ received t l p.
Proof.
  intros Ht (Hd & x & ps & rest & Hx & Ha & Hp).
  assert (Em : messages (reads (o ++ [ORead m])) = messages (reads o) ++ [x]).
  { rewrite reads_app. cbn [reads flat_map app]. rewrite messages_snoc, Hd. apply engine_answer_decode in Hx. rewrite Hx. reflexivity. }
  destruct (assembled_last _ _ _ Hp) as (es & t & l & E & H0 & Hr).
  assert (Hok : Forall emsg_ok (messages (reads (o ++ [ORead m])))).
  { destruct (read_in_trace _ _ _ _ _ Ht) as (s0 & s1 & out & o3 & _ & _ & _ & H1 & _). apply messages_ok. intros u Hu.
    apply (v_valid _ _ (trace_invariant _ _ _ H1)). change (ORead m :: out) with ([ORead m] ++ out). rewrite app_assoc, reads_app.
    apply in_app_iff. left. exact Hu. }
  rewrite Em, E in Hok. apply Forall_app in Hok as [_ Hok]. inversion Hok as [|? ? Ht0 Hl]; subst.
  cbn in Ht0. destruct (sub_deref_str t) as [text|] eqn:Et; [|congruence].
  exists ps, es, t, text, l. rewrite Em, E. auto.
Qed.
Lemma received_ns m t l p ns : sub_deref_str m = Some t -> Forall emsg_ok l -> received m l p ->
  packet_namespace p = Some ns -> ns_ok ns.
Proof.
  intros Hm Hl Hr Hn. destruct (received_view _ _ _ _ Hm Hl Hr) as (k & ns' & id & ts & vs & Ha & _ & Hv).
  apply view_data in Hv as (Hn' & _). rewrite Hn in Hn'. injection Hn' as <-.
  destruct Ha as (w & (_ & [Hw _] & _) & _ & _ & _ & -> & _). destruct (w_ns w) as [x|] eqn:E.
  - destruct (Hw x eq_refl) as [(c & r & ->) H]. split; eauto.
  - split; [exists []; reflexivity|]. intros [H|[]]. discriminate.
Qed.
Lemma received_id m t l p id a : sub_deref_str m = Some t -> Forall emsg_ok l -> received m l p ->
  packet_data p = Some (DataEvent id a) -> fits id.
Proof.
  intros Hm Hl Hr Hd. destruct (received_view _ _ _ _ Hm Hl Hr) as (k & ns' & id' & ts & vs & Ha & _ & Hv).
  apply view_data in Hv as (_ & d & Hd' & Hx). rewrite Hd in Hd'. injection Hd' as <-.
  destruct Ha as (w & _ & _ & Hb & _ & _ & Hid & _). cbn [v_id v_kind v_args v_atts] in Hx. assert (id = w_id w) as ->.
  { destruct Hx as (_ & Hx & _). congruence. }
  destruct (w_id w) as [n|]; cbn; [|exact I]. destruct (N.leb_spec n u64_max); [assumption|]. destruct Hb. exists n. split; [reflexivity|lia].
Qed.

(** ** Acks are sent for events that asked for one (C31) *)
Lemma given_in o ns id : In (ns, id) (builders_given o) <-> exists p f a b o1 o2, o = o1 ++ OCall p (EventCall f a (Some b)) :: o2 /\ ns = ab_ns b /\ id = ab_id b.
Proof.
  unfold builders_given. rewrite in_flat_map. split.
  - intros (x & Hx & Hi). destruct x as [|p [f a [b|]|f a]| | | | | | | | | | | | | | |]; try destruct Hi. 2: destruct H.
    injection H as <- <-. apply in_split in Hx as (o1 & o2 & ->). exists p, f, a, b, o1, o2. auto.
  - intros (p & f & a & b & o1 & o2 & -> & -> & ->). eexists. split; [apply in_app_iff; right; left; reflexivity|]. left. reflexivity.
Qed.
(** An event asked for an ack: it was read, carries the namespace and the id, and its callback got
    the builder. *)
Lemma given_source log s o ns id : trace log s o -> In (ns, id) (builders_given o) ->
  (exists o1 p f a o2, o = o1 ++ OCall p (EventCall f a (Some (AckBuilder ns id false))) :: o2 /\
    packet_namespace p = Some ns /\ packet_data p = Some (DataEvent (Some id) a)) /\ ns_ok ns /\ (id <= u64_max)%N.
Proof.
  intros Ht Hi. apply given_in in Hi as (p & f & a & b & o1 & o2 & -> & -> & ->).
  destruct (event_calls_routed _ _ _ _ _ _ _ _ Ht) as (o0 & m & ns & i & name & -> & Hc & Hn & Hd & _ & _ & Hb).
  destruct i as [i|]; [|discriminate]. injection Hb as ->. cbn [ab_ns ab_id].
  rewrite <- app_assoc in Ht. cbn [app] in Ht. destruct (completed _ _ _ _ _ _ Ht Hc) as (ps & es & t & text & l & _ & _ & Htx & Hl & Hr).
  split; [|split].
  - exists (o0 ++ [ORead m]), p, f, a, o2. auto.
  - eapply received_ns; eauto.
  - exact (received_id _ _ _ _ _ _ Htx Hl Hr Hd).
Qed.
Lemma ack_step log s o l i bin args s' o' : trace log s o -> l = LAck i bin args \/ l = LCbAck i bin args ->
  step log s l = Some (s', o') ->
  exists ns id fs, In (ns, id) (builders_given o) /\ ns_ok ns /\ (id <= u64_max)%N /\ build (OfAck id) ns bin args = Some fs /\
    (o' = [OQueued (ByAck ns id) fs] \/
     o' = [OLost (ByAck ns id) fs] /\ (In OChannelClosed o \/ exists e, In (OEnd e) o)).
Proof.
  intros Ht Hl H.
  assert (K : exists ns id, nth_error (s_acks s) i = Some (ns, id) /\
    match ack_packets (ack_binary bin (ack_builder_new ns id)) args with
    | None => True
    | Some fs => push (ByAck ns id) fs (set_acks (list_delete i (s_acks s)) s) = (s', o')
    end).
  { destruct Hl as [-> | ->]; cbn [step] in H.
    - destruct (nth_error (s_acks s) i) as [[ns id]|] eqn:E; [|discriminate]. exists ns, id. split; [reflexivity|].
      destruct (ack_packets _ _); [|exact I]. injection H as H. exact H.
    - destruct (s_phase s); try discriminate. destruct (nth_error (s_acks s) i) as [[ns id]|] eqn:E; [|discriminate]. exists ns, id. split; [reflexivity|].
      destruct (ack_packets _ _); [|exact I]. injection H as H. exact H. }
  destruct K as (ns & id & E & K). rewrite ack_packets_build in K.
  change (ab_id (ack_binary bin (ack_builder_new ns id))) with id in K. change (ab_ns (ack_binary bin (ack_builder_new ns id))) with ns in K.
  change (ab_binary (ack_binary bin (ack_builder_new ns id))) with bin in K.
  destruct (build (OfAck id) ns bin args) as [fs|] eqn:Eb; [|destruct (build_no_panic _ _ _ _ Eb)].
  assert (Hi : In (ns, id) (builders_given o)).
  { eapply Permutation_in; [symmetry; apply (c_builders _ _ (trace_sources _ _ _ Ht))|]. apply in_app_iff. right. eapply nth_error_In; eauto. }
  destruct (given_source _ _ _ _ _ Ht Hi) as (_ & Hn & Hid).
  exists ns, id, fs. conj; auto. unfold push in K. cbn [s_chan_closed set_acks] in K. 
  destruct (s_chan_closed s || task_ended (set_acks (list_delete i (s_acks s)) s)) eqn:Ec; injection K as <- <-; [right|left; reflexivity].
  split; [reflexivity|]. apply orb_true_iff in Ec as [Ec|Ec].
  - left. apply (v_closed _ _ (trace_invariant _ _ _ Ht)). exact Ec.
  - right. apply (ended_iff _ _ _ Ht). exact Ec.
Qed.
(** Every ack in a trace. *)
Lemma ack_sources log s o ns id fs : trace log s o -> In (OQueued (ByAck ns id) fs) o \/ In (OLost (ByAck ns id) fs) o ->
  (exists bin args, build (OfAck id) ns bin args = Some fs) /\
  (exists o1 p f a o2, o = o1 ++ OCall p (EventCall f a (Some (AckBuilder ns id false))) :: o2 /\
    packet_namespace p = Some ns /\ packet_data p = Some (DataEvent (Some id) a)) /\ ns_ok ns /\ (id <= u64_max)%N.
Proof.
  intros Ht Hi. split; [apply (c_ack _ _ (trace_sources _ _ _ Ht) _ _ _ Hi)|].
  apply (given_source _ _ _ _ _ Ht). eapply Permutation_in; [symmetry; apply (c_builders _ _ (trace_sources _ _ _ Ht))|].
  apply in_app_iff. left. unfold builders_used. apply in_flat_map. destruct Hi as [Hi|Hi]; eexists; (split; [exact Hi|left; reflexivity]).
Qed.
(** Every builder sends at most once. *)
Lemma builders_once log s o : trace log s o -> exists unused, Permutation (builders_given o) (builders_used o ++ unused).
Proof. intros Ht. exists (s_acks s). apply (c_builders _ _ (trace_sources _ _ _ Ht)). Qed.

(** ** Pongs (C33) *)
Definition is_ping (r : res eerror epacket) : bool := match r with Ok PktPing => true | _ => false end.
Lemma ping_count_snoc h m : ping_count (h ++ [m]) = ping_count h +
  (if is_data m then if is_ping (snd (decode (decoder_of h) m)) then 1 else 0 else 0).
Proof.
  unfold ping_count. rewrite data_frames_app. unfold data_frames at 2. cbn [filter]. destruct (is_data m).
  - rewrite history_snoc, filter_app, app_length. unfold decoder_of. cbn [filter].
    destruct (snd (decode _ m)) as [[]| |]; reflexivity.
  - rewrite app_nil_r. lia.
Qed.
Lemma pongs_app a b : pongs (a ++ b) = pongs a ++ pongs b.
Proof. apply flat_map_app. Qed.
Lemma requests_pongs n l : pongs (requests n l) = [].
Proof. revert n. induction l as [|[b|f] l IH]; intros n; cbn [requests]; auto. apply IH. Qed.
Lemma reaction_pongs log o m out : reaction log o m out ->
  pongs out = (if is_data m then if is_ping (snd (decode (decoder_of (reads o)) m)) then [[WText (bs "3")]] else [] else []).
Proof.
  intros [Hd|e Hd He|x Hd He|Hd He|Hd He|Hd He|Hd He|x out' Hd He H]; rewrite Hd; try (apply engine_answer_decode in He; rewrite He); try reflexivity.
  cbn [is_ping]. destruct H as [ps p out2 _ _ H| | | |]; try reflexivity. destruct H; reflexivity.
Qed.
Lemma pongs_are log s o : trace log s o -> pongs o = repeat [WText (bs "3")] (ping_count (reads o)).
Proof.
  revert s o. apply (trace_ind2 log (fun _ o => pongs o = repeat [WText (bs "3")] (ping_count (reads o)))); [reflexivity| |].
  - intros s o m s' o' Ht IH H. destruct (reaction_exact _ _ _ _ _ _ Ht H) as (out & -> & Hr).
    assert (Er : reads (ORead m :: out) = [m]).
    { change (ORead m :: out) with ([ORead m] ++ out). rewrite reads_app. enough (reads out = []) as -> by reflexivity.
      clear -Hr. destruct Hr as [| | | | | | |x out' _ _ H]; try reflexivity. destruct H as [ps p out2 _ _ H| | | |]; try reflexivity. destruct H; reflexivity. }
    rewrite pongs_app, reads_app, Er, IH, ping_count_snoc. change (pongs (ORead m :: out)) with (pongs out).
    rewrite (reaction_pongs _ _ _ _ Hr), repeat_app. f_equal. destruct (is_data m); [|reflexivity]. destruct (is_ping _); reflexivity.
  - intros s o l s' o' Ht IH Hl H.
    assert (K : pongs o' = []). { clear IH. other_cases H Hl; cbn; rewrite ?pongs_app, ?requests_pongs; reflexivity. }
    rewrite pongs_app, reads_app, K, (q_reads _ _ _ (quiet_step _ _ _ _ _ (unborn _ _ _ Ht) H Hl)), !app_nil_r. exact IH.
Qed.
Lemma ping_answered log s o m s' o' : trace log s o -> step log s (LRead m) = Some (s', o') ->
  is_data m = true -> engine_answer (reads o) m (Ok PktPing) -> ~ In OChannelClosed o ->
  o' = [ORead m; OQueued ByReceiver [WText (bs "3")]].
Proof.
  intros Ht H Hd He Hn. destruct (reaction_exact _ _ _ _ _ _ Ht H) as (out & -> & Hr). f_equal.
  apply (reaction_unique _ _ _ _ _ Hr). apply re_ping; auto.
Qed.
Lemma pong_for_ping log s o1 fs o2 : trace log s (o1 ++ OQueued ByReceiver fs :: o2) ->
  fs = [WText (bs "3")] /\ exists o0 m, o1 = o0 ++ [ORead m] /\ is_data m = true /\ engine_answer (reads o0) m (Ok PktPing).
Proof.
  intros Ht. destruct (by_read_follows _ _ _ _ _ Ht I) as (o0 & m & -> & Hr); [discriminate|].
  inversion Hr as [| | | | |? ? ?| |x out ? ? H]; subst.
  - split; [reflexivity|]. eauto.
  - inversion H as [? ? ? ? ? H'| | | |]; subst. inversion H'.
Qed.

(** ** Reassembly (C32) *)
Lemma messages_control h m h' : is_data m = false -> messages (h ++ m :: h') = messages (h ++ h').
Proof. intros Hm. unfold messages. rewrite !data_frames_app. unfold data_frames. cbn [filter]. rewrite Hm. reflexivity. Qed.
Lemma history_cut a b : history_answers (a ++ b) = history_answers a ++ answers (state_after DInitial a) b.
Proof. unfold history_answers. apply answers_app. Qed.
Lemma ping_keeps_state st m r : snd (decode st m) = Ok r -> r = PktPing \/ r = PktPong -> fst (decode st m) = st.
Proof.
  intros H Hr. destruct (decode st m) as [st' x] eqn:E. cbn in H. subst x. apply decode_step in E. cbn [fst].
  inversion E; subst; destruct Hr; try discriminate; reflexivity.
Qed.
Lemma messages_ping h m h' r : is_data m = true -> engine_answer h m (Ok r) -> r = PktPing \/ r = PktPong ->
  messages (h ++ m :: h') = messages (h ++ h').
Proof.
  intros Hd He Hr. apply engine_answer_decode in He. pose proof (ping_keeps_state _ _ _ He Hr) as Hs.
  unfold messages. rewrite !data_frames_app. unfold data_frames at 2. cbn [filter]. rewrite Hd. fold (data_frames h').
  rewrite !history_cut, !flat_map_app. f_equal. cbn [answers]. unfold decoder_of in He, Hs.
  destruct (decode _ m) as [st' x]. cbn in He, Hs. subst. destruct Hr as [-> | ->]; reflexivity.
Qed.
Lemma reassembled log s o m s' o' x es ps t l p : trace log s o -> step log s (LRead m) = Some (s', o') ->
  is_data m = true -> engine_answer (reads o) m (Ok (PktMessage x)) ->
  messages (reads o) ++ [x] = es ++ MText t :: l -> assembled es ps [] -> received t l p ->
  exists out, o' = ORead m :: out /\ packet_reaction log o p out.
Proof.
  intros Ht H Hd He Em Ha Hr. destruct (reaction_exact _ _ _ _ _ _ Ht H) as (out & -> & Hx). exists out. split; [reflexivity|].
  apply (completes_reaction _ _ m). 2: exact Hx. split; [exact Hd|].
  assert (Hall : assembled (messages (reads o) ++ [x]) (ps ++ [p]) []).
  { rewrite Em. apply assembled_app; [exact Ha|]. apply assembled_one. exact Hr. }
  assert (Hb : exists rest, assembled (messages (reads o)) ps rest).
  { destruct l as [|y l] using rev_ind.
    - apply app_inj_tail in Em as [-> _]. eauto.
    - rewrite app_comm_cons, app_assoc in Em. apply app_inj_tail in Em as [-> <-]. exists (MText t :: l).
      rewrite <- (app_nil_r ps). apply assembled_app; [exact Ha|].
      apply received_length in Hr as [[_ E]|(q & E & En)]; [destruct l; discriminate|]. rewrite app_length in En. cbn [length] in En.
      eapply as_waiting; [exact E|exact En|lia]. }
  destruct Hb as [rest Hb]. exists x, ps, rest. auto.
Qed.
Lemma not_before log s o m s' o' x es ps t l q n : trace log s o -> step log s (LRead m) = Some (s', o') ->
  is_data m = true -> engine_answer (reads o) m (Ok (PktMessage x)) ->
  messages (reads o) ++ [x] = es ++ MText t :: l -> assembled es ps [] ->
  deserialize (MText t) = Ok (DDataNeeded q) -> partial_attachments q = Some n -> (N.of_nat (length l) < n)%N ->
  o' = [ORead m].
Proof.
  intros Ht H Hd He Em Ha E En L. destruct (reaction_exact _ _ _ _ _ _ Ht H) as (out & -> & Hx). f_equal.
  apply (reaction_unique _ _ _ _ _ Hx). apply (re_message _ _ _ x); auto.
  assert (Hall : assembled (messages (reads o) ++ [x]) ps (MText t :: l)).
  { rewrite Em, <- (app_nil_r ps). apply assembled_app; [exact Ha|]. eapply as_waiting; eauto. }
  apply (mr_incomplete _ _ _ ps (MText t :: l)); [|exact Hall|discriminate].
  destruct l as [|y l] using rev_ind.
  - apply app_inj_tail in Em as [-> _]. eauto.
  - rewrite app_comm_cons, app_assoc in Em. apply app_inj_tail in Em as [-> <-]. exists (MText t :: l).
    rewrite <- (app_nil_r ps). apply assembled_app; [exact Ha|]. rewrite app_length in L. cbn [length] in L.
    eapply as_waiting; [exact E|exact En|lia].
Qed.
Lemma call_attachments log s o1 p c o2 : trace log s (o1 ++ OCall p c :: o2) ->
  exists o0 m es ps t text l d a, o1 = o0 ++ [ORead m] /\
    messages (reads o1) = es ++ MText t :: l /\ assembled es ps [] /\ received t l p /\ sub_deref_str t = Some text /\
    packet_data p = Some d /\ data_args d = Some a /\ (match c with EventCall _ a' _ | AckCall _ a' => a' = a end) /\
    length (a_attachments a) = length l /\
    all_some (map sub_deref_vec (a_attachments a)) = all_some (map binary_content l).
Proof.
  intros Ht. destruct (by_read_follows _ _ _ _ _ Ht I) as (o0 & m & -> & Hr); [discriminate|].
  destruct (call_completes _ _ _ _ Hr p) as [Hc Hp]; [left; eexists; left; reflexivity|].
  rewrite <- app_assoc in Ht. cbn [app] in Ht. destruct (completed _ _ _ _ _ _ Ht Hc) as (ps & es & t & text & l & Em & Ha & Htx & Hl & Hrc).
  assert (K : exists d a, packet_data p = Some d /\ data_args d = Some a /\ (match c with EventCall _ a' _ | AckCall _ a' => a' = a end)).
  { inversion Hp; subst; do 2 eexists; (split; [eassumption|]); cbn; auto. }
  destruct K as (d & a & K1 & K2 & K3).
  destruct (arguments_are_elements _ _ _ _ _ _ Htx Hl Hrc K1 K2) as (w & ts & _ & _ & _ & _ & _ & H1 & H2).
  exists o0, m, es, ps, t, text, l, d, a. conj; auto.
Qed.
