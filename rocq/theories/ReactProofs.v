(** The reaction of the client to everything it reads. *)
From Verif Require Export TraceProofs.

Lemma needed_count m q : deserialize (MText m) = Ok (DDataNeeded q) ->
  exists n, partial_attachments q = Some n /\ (0 < n)%N.
Proof.
  cbn. unfold deserialize_text. destruct (parse_text m) as [q'|e|]; try discriminate. cbn [rbind].
  destruct (pa_kind q'); try (destruct (deserialize_dataless _ _ _); discriminate);
    try (destruct (deserialize_event _ _ _ _); discriminate);
    unfold deserialize_binary; (destruct (pa_attachments q') as [n|] eqn:En; [|discriminate]; destruct (N.eqb_spec n 0); [destruct (deserialize_event _ _ _ _); discriminate|];
     intros [= <-]; exists n; split; [exact En|lia]).
Qed.
Lemma needed_text x q : deserialize x = Ok (DDataNeeded q) -> exists m, x = MText m.
Proof. destruct x as [m|d]; [eauto|]. cbn. destruct (sub_deref_vec d); discriminate. Qed.
Lemma packet_text x p : deserialize x = Ok (DPacket p) -> exists m, x = MText m.
Proof. destruct x as [m|d]; [eauto|]. cbn. destruct (sub_deref_vec d); discriminate. Qed.

Lemma string_read g : (exists name, arg_deserialize TyString g = Ok (XStr name)) \/
  exists e, arg_deserialize TyString g = Err e.
Proof.
  assert (P : forall n d r v, de_plain n TyString d r = Some v -> exists b, v = XStr b).
  { intros n d [] v; cbn [de_plain]; try discriminate. destruct (unescape _); [|discriminate]. intros [= <-]. eauto. }
  unfold arg_deserialize. match goal with |- context [match ?x with Some v => Ok v | None => _ end] => destruct x as [v|] eqn:E end; [|eauto].
  left. enough (exists b, v = XStr b) as [b ->] by eauto.
  destruct (g_attachments g) as [|a atts].
  - unfold from_str_typed in E. destruct (scan_doc (g_text g)) as [r|]; [|discriminate]. eauto.
  - unfold deserialize_with in E. destruct (scan_value _ (g_text g)) as [[r ?]|]; [|discriminate].
    cbn [de_wrap] in E. destruct r; eauto. destruct (enter _); [|discriminate]. destruct (classify_obj _ _); try discriminate.
    destruct (utf8_valid _); [|discriminate]. injection E as <-. eauto.
Qed.

Lemma packet_reacts log o c p c' out m t l : c = table_after (table_history o) ->
  sub_deref_str m = Some t -> Forall emsg_ok l -> received m l p ->
  process_packet log false c p = (c', out) -> packet_reaction log o p (outcome_obs out).
Proof.
  intros Hc Hm Hl Hr. destruct (well_formed m t l p Hm Hl Hr) as (v & w & Hv & _ & _ & _ & _ & Hk).
  destruct (accessors_ok m t l p Hm Hl Hr) as (Hn & d & Hd & Hacc).
  unfold process_packet. destruct (log && _) eqn:El.
  { intros [= <- <-]. apply andb_true_iff in El as [-> E]. destruct (show_packet p) eqn:Es; [discriminate|]. apply pr_unshowable; auto. }
  assert (Hs : log = true -> show_packet p <> None).
  { intros -> E. rewrite E in El. discriminate. }
  clear El. destruct (packet_namespace p) as [ns|] eqn:En; [|congruence]. rewrite Hd.
  pose proof Hv as Hv'. unfold view in Hv'. rewrite En, Hd in Hv'.
  destruct d as [| |id a|id a].
  - intros [= <- <-]. eapply pr_connect; [exact Hs|]. rewrite Hv, Hv'. reflexivity.
  - intros [= <- <-]. eapply pr_disconnect; [exact Hs|]. rewrite Hv, Hv'. reflexivity.
  - destruct (Hacc a eq_refl) as (Hget & _). destruct (Hget 0) as (g & Eg & Hg).
    assert (Hlen : 0 < args_len a).
    { destruct (args_view a) as [[ts vs]|] eqn:Ea; [|discriminate]. injection Hv' as <-. cbn in Hk. destruct Hk as (_ & Hts & _).
      apply args_view_accessors in Ea as (-> & _). destruct ts; [congruence|cbn; lia]. }
    rewrite Eg. destruct g as [g|]; [|destruct Hg as [Hg _]; specialize (Hg eq_refl); lia].
    destruct (string_read g) as [[name E]|[e E]]; rewrite E.
    + destruct (get_event c ns name) as [f|] eqn:Ef; intros [= <- <-]; cbn [outcome_obs]; subst c.
      * apply routing_exact in Ef.
        eapply (pr_event log o p ns id a name f); auto. exists id, a, g. auto.
      * apply (pr_event_unheard log o p ns id a name); auto; [exists id, a, g; auto|]. intros f Hf. apply routing_exact in Hf. congruence.
    + intros [= <- <-]. apply pr_event_unnamed; auto. exists id, a, g. auto.
  - destruct (get_and_clear_ack c ns id) as [c1 [f|]] eqn:E; intros [= <- <-]; cbn [outcome_obs]; subst c.
    + eapply pr_ack; eauto. apply take_exact. rewrite E. reflexivity.
    + eapply pr_ack_unexpected; eauto. intros f Hf. apply take_exact in Hf. rewrite E in Hf. discriminate.
Qed.

Definition going (out : routcome) : Prop := match out with Return (Ok _) | CallOf _ _ => True | _ => False end.
Lemma process_packet_shape log po c p : exists c' out, process_packet log po c p = (c', out).
Proof. destruct (process_packet log po c p). eauto. Qed.

Lemma emsg_reacts log o c d pr op x ps rest : c = table_after (table_history o) ->
  Forall emsg_ok (messages (reads o)) -> emsg_ok x ->
  assembled (messages (reads o)) ps rest -> progress_is pr rest ->
  let r := process_emsg log false d pr op c x in
  message_reaction log o x (outcome_obs (pr_outcome r)) /\
  pr_open r = None /\ pr_queue r = None /\ r_decoder (pr_receiver r) = d /\ r_open (pr_receiver r) = op /\
  (going (pr_outcome r) -> exists ps' rest', assembled (messages (reads o) ++ [x]) ps' rest' /\
     progress_is (r_progress (pr_receiver r)) rest').
Proof.
  intros Hc Hok Hx Ha Hp. cbv zeta. unfold process_emsg. destruct pr as [[q l]|]; cbn [progress_is] in Hp.
  - destruct Hp as (m & n & -> & E & En & L). unfold progress_ready. rewrite En.
    destruct (assembled_split _ _ _ Ha) as (es0 & Hes & H0).
    assert (Hm : emsg_ok (MText m) /\ Forall emsg_ok (l ++ [x])).
    { rewrite Hes in Hok. apply Forall_app in Hok as [_ Hok]. inversion Hok; subst. split; [assumption|]. apply Forall_app. auto. }
    destruct Hm as [Hm Hl]. cbn [emsg_ok] in Hm. destruct (sub_deref_str m) as [t|] eqn:Et; [|congruence].
    destruct (N.eqb_spec n (N.of_nat (length (l ++ [x])))) as [El|El].
    + destruct (deserialize_partial q (l ++ [x])) as [p|e|] eqn:Ep.
      * assert (Hr : received m (l ++ [x]) p) by (right; eauto).
        assert (Ha' : assembled (messages (reads o) ++ [x]) (ps ++ [p]) []).
        { rewrite Hes, <- app_assoc. cbn [app]. apply assembled_app; [exact H0|]. apply assembled_one. exact Hr. }
        destruct (process_packet log false c p) as [c' out] eqn:Eo. cbn.
        assert (packet_reaction log o p (outcome_obs out)) by (eapply packet_reacts; eauto).
        split. { eapply mr_complete; eauto. }
        do 4 (split; [reflexivity|]). intros _. exists (ps ++ [p]), []. auto.
      * cbn. split. { rewrite <- El in En || idtac. eapply mr_not_completed; [exact Ha|exact E| |exact Ep]. rewrite En. congruence. } do 4 (split; [reflexivity|]). intros [].
      * destruct (partial_no_panic _ _ _ E Hl Ep).
    + cbn. assert (Ha' : assembled (messages (reads o) ++ [x]) ps (MText m :: l ++ [x])).
      { rewrite Hes, <- app_assoc. cbn [app]. rewrite <- (app_nil_r ps). apply assembled_app; [exact H0|].
        eapply as_waiting; eauto. rewrite app_length in *. cbn [length] in *. lia. }
      split. { eapply mr_incomplete; eauto. discriminate. }
      do 4 (split; [reflexivity|]). intros _. exists ps, (MText m :: l ++ [x]). split; [exact Ha'|]. exists m, n.
      do 3 (split; [auto|]). rewrite app_length in *. cbn [length] in *. lia.
  - subst rest. destruct (deserialize x) as [[p|q]|e|] eqn:E.
    + destruct (packet_text _ _ E) as [m ->]. cbn [emsg_ok] in Hx. destruct (sub_deref_str m) as [t|] eqn:Et; [|congruence].
      assert (Hr : received m [] p) by (left; auto).
      assert (Ha' : assembled (messages (reads o) ++ [MText m]) (ps ++ [p]) []) by (apply assembled_app; [exact Ha|apply assembled_one; exact Hr]).
      destruct (process_packet log false c p) as [c' out] eqn:Eo. cbn.
      assert (packet_reaction log o p (outcome_obs out)) by (apply (packet_reacts log o c p c' out m t []); auto).
      split. { eapply mr_complete; eauto. }
      do 4 (split; [reflexivity|]). intros _. exists (ps ++ [p]), []. auto.
    + destruct (needed_text _ _ E) as [m ->]. destruct (needed_count _ _ E) as (n & En & Hn).
      assert (Ha' : assembled (messages (reads o) ++ [MText m]) ps [MText m]).
      { rewrite <- (app_nil_r ps). apply assembled_app; [exact Ha|]. eapply as_waiting; eauto. }
      cbn. split. { eapply mr_incomplete; eauto. discriminate. }
      do 4 (split; [reflexivity|]). intros _. exists ps, [MText m]. split; [exact Ha'|]. exists m, n. auto.
    + cbn. split. { eapply mr_not_a_packet; eauto. } do 4 (split; [reflexivity|]). intros [].
    + cbn. split. { eapply mr_panic; eauto. } do 4 (split; [reflexivity|]). intros [].
Qed.

Lemma decode_never_panics st m : snd (decode st m) <> Panic.
Proof. destruct (decode st m) as [st' r] eqn:E. apply decode_step in E. cbn [snd]. inversion E; discriminate. Qed.

(** Reading one message. *)
Lemma read_reacts log s o m b s' o' : invariant s o ->
  task_ended s = false -> ws_valid m = true -> read_step log b m s = (s', o') ->
  (exists out, o' = ORead m :: out /\ reaction log o m out) /\ invariant s' (o ++ o').
Proof.
  intros [V1 V2 V3 V4 V5 V6 V7] He Hw H.
  assert (Hpo : s_poisoned s = false).
  { destruct (s_poisoned s); [|reflexivity]. rewrite (V5 eq_refl) in He. discriminate. }
  pose proof (read_step_obs log b m s) as Ho. rewrite H in Ho. cbn [snd] in Ho.
  apply read_step_fields in H as (F1 & F2 & F3 & F4 & _ & _ & _ & _ & _ & _ & _ & F5).
  pose proof (process_table log (s_poisoned s) (s_receiver s) (s_table s) m) as Ht. cbv zeta in *.
  rewrite Hpo in *. rewrite He, orb_false_r in Ho.
  assert (Hv : forall t, In (WText t) (reads o ++ [m]) -> utf8_valid t = true).
  { intros t Hi. apply in_app_iff in Hi as [Hi|[->|[]]]; [auto|]. exact Hw. }
  destruct (V7 He) as (ps & rest & Ha & Hp).
  set (r := process_websocket_packet log false (s_receiver s) (s_table s) m) in *.
  (* what the step needs *)
  assert (K : reaction log o m (match pr_open r with Some o => [OOpened o] | None => [] end ++
       match pr_queue r with Some fs => if s_chan_closed s then [OLost ByReceiver fs] else [OQueued ByReceiver fs] | None => [] end ++
       outcome_obs (pr_outcome r)) /\
     r_decoder (pr_receiver r) = decoder_of (reads o ++ [m]) /\
     (decoder_of (reads o ++ [m]) = DInitial -> r_open (pr_receiver r) = true) /\
     (going (pr_outcome r) -> exists ps rest, assembled (messages (reads o ++ [m])) ps rest /\ progress_is (r_progress (pr_receiver r)) rest)).
  { unfold r, process_websocket_packet. rewrite messages_snoc, decoder_of_snoc.
    assert (Hctl : is_data m = false \/ is_data m = true) by (destruct (is_data m); auto). destruct Hctl as [Hd|Hd].
    - destruct m; try discriminate; cbn; rewrite ?app_nil_r; (split; [apply re_control; reflexivity|]);
        (split; [exact V2|split; [exact V3|intros _; exists ps, rest; auto]]).
    - replace (match m with WText _ | WBinary _ => process_message log false (s_receiver s) (s_table s) m
               | _ => Processed (s_receiver s) (s_table s) None None (Return (Ok tt)) end)
        with (process_message log false (s_receiver s) (s_table s) m) by (destruct m; try discriminate; reflexivity).
      rewrite Hd. unfold process_message. rewrite V2.
      destruct (decode (decoder_of (reads o)) m) as [d a] eqn:Ed. cbn [fst snd].
      assert (Hans : forall a', a = a' -> engine_answer (reads o) m a').
      { intros a' <-. apply engine_answer_decode. rewrite Ed. reflexivity. }
      destruct a as [[op| | | |x]|e|].
      + pose proof (decode_step _ _ _ _ Ed) as Hst. inversion Hst as [mm oo E1 E2 E3 E4| | | | | |]; subst.
        rewrite (V3 (eq_sym E1)). cbn. split; [apply re_open; auto|]. split; [reflexivity|]. split; [discriminate|].
        intros _. rewrite app_nil_r. eauto.
      + pose proof (decode_step _ _ _ _ Ed) as Hst. inversion Hst; subst. cbn. split; [apply re_close; auto|].
        split; [reflexivity|]. split; [discriminate|]. intros _. rewrite app_nil_r. eauto.
      + pose proof (decode_step _ _ _ _ Ed) as Hst. inversion Hst; subst. cbn. split.
        * destruct (s_chan_closed s) eqn:Ec; [apply re_ping_lost|apply re_ping]; auto.
          -- apply V6. reflexivity.
          -- intros Hi. apply V6 in Hi. discriminate.
        * split; [reflexivity|]. split; [discriminate|]. intros _. rewrite app_nil_r. eauto.
      + pose proof (decode_step _ _ _ _ Ed) as Hst. inversion Hst; subst. cbn. split; [apply re_pong; auto|].
        split; [reflexivity|]. split; [discriminate|]. intros _. rewrite app_nil_r. eauto.
      + assert (Hx : emsg_ok x).
        { eapply decode_emsg_ok; [|exact Ed]. intros t ->. apply Hv. apply in_app_iff. cbn. auto. }
        destruct (emsg_reacts log o (s_table s) d (r_progress (s_receiver s)) (r_open (s_receiver s)) x ps rest V1
                    (messages_ok _ V4) Hx Ha Hp) as (R1 & R2 & R3 & R4 & R5 & R6). cbv zeta in *.
        rewrite R2, R3. cbn [app]. split; [eapply re_message; eauto|]. split; [exact R4|]. split; [|exact R6].
        rewrite R5. intros ->. apply V3. pose proof (decode_step _ _ _ _ Ed) as Hst. inversion Hst; congruence.
      + pose proof (decode_step _ _ _ _ Ed) as Hst. inversion Hst; subst. cbn. split; [eapply re_error; eauto|].
        split; [reflexivity|]. split; [exact V3|]. intros [].
      + exfalso. apply (decode_never_panics (decoder_of (reads o)) m). rewrite Ed. reflexivity. }
  destruct K as (K1 & K2 & K3 & K4). split; [eexists; split; [exact Ho|exact K1]|].
  assert (Hreads : reads (o ++ o') = reads o ++ [m]).
  { rewrite reads_app. f_equal. rewrite Ho. destruct (pr_open r); destruct (pr_queue r); try destruct (s_chan_closed s);
      destruct (pr_outcome r) as [[u|e|]|p c]; reflexivity. }
  constructor; rewrite ?Hreads; auto.
  - rewrite F2, Ht, table_history_app, table_after_app, <- V1. f_equal. rewrite Ho.
    destruct (pr_open r); destruct (pr_queue r); try destruct (s_chan_closed s); reflexivity.
  - rewrite F1. exact K2.
  - rewrite F1. exact K3.
  - rewrite F3. discriminate.
  - rewrite F4, V6, in_app_iff. split; [auto|]. intros [Hi|Hi]; [exact Hi|]. exfalso. rewrite Ho in Hi.
    destruct (pr_open r); destruct (pr_queue r); try destruct (s_chan_closed s);
      destruct (pr_outcome r) as [[u|e|]|p c]; cbn in Hi; intuition discriminate.
  - rewrite F1. unfold task_ended. rewrite F5. intros Hn. apply K4. destruct (pr_outcome r) as [[u|e|]|p c]; cbn; auto; discriminate.
Qed.

Lemma invariant_init : invariant init [].
Proof.
  constructor; cbn; try reflexivity; auto; try discriminate; try (intros ? []).
  - split; [discriminate|intros []].
  - intros _. exists [], []. split; [apply as_nothing|reflexivity].
Qed.
Lemma trace_invariant log s o : trace log s o -> invariant s o.
Proof.
  revert s o. apply (trace_ind log invariant); [apply invariant_init|].
  intros s o l s' o' Ht IH H. assert (Hl : (exists m, l = LRead m) \/ forall m, l <> LRead m) by (destruct l; eauto; right; discriminate).
  destruct Hl as [[m ->]|Hl].
  - apply read_label in H as (b & Hp & Hw & H).
    assert (He : task_ended s = false) by (unfold task_ended; rewrite Hp; destruct b; reflexivity).
    apply (read_reacts _ _ _ _ _ _ _ IH He Hw H).
  - eapply quiet_invariant; [|exact IH]. eapply quiet_step; eauto. apply (unborn _ _ _ Ht).
Qed.

(** The reaction to a read, for every reachable state. *)
Theorem reaction_exact log s o m s' o' : trace log s o -> step log s (LRead m) = Some (s', o') ->
  exists out, o' = ORead m :: out /\ reaction log o m out.
Proof.
  intros Ht H. apply read_label in H as (b & Hp & Hw & H).
  assert (He : task_ended s = false) by (unfold task_ended; rewrite Hp; destruct b; reflexivity).
  apply (read_reacts _ _ _ _ _ _ _ (trace_invariant _ _ _ Ht) He Hw H).
Qed.
