(** Delivery: packets that were built are read and handed to the right callback. *)
From Verif Require Export SpecDeliver PlainProofs CloseProofs.

Lemma reads_ORead fs : reads (map ORead fs) = fs.
Proof. induction fs as [|m fs IH]; [reflexivity|]. cbn. unfold reads in IH. rewrite IH. reflexivity. Qed.
Lemma table_history_ORead fs : table_history (map ORead fs) = [].
Proof. induction fs; [reflexivity|assumption]. Qed.

Lemma message_is_data d m d' x : decode d m = (d', Ok (PktMessage x)) -> is_data m = true.
Proof. destruct m; try reflexivity; destruct d; cbn; discriminate. Qed.
Lemma data_frames_id fs : Forall (fun m => is_data m = true) fs -> data_frames fs = fs.
Proof. induction 1 as [|m fs Hm _ IH]; [reflexivity|]. unfold data_frames in *. cbn [filter]. rewrite Hm, IH. reflexivity. Qed.
Lemma all_messages fs : forall d ms, answers d fs = map (fun x => Ok (PktMessage x)) ms ->
  Forall (fun m => is_data m = true) fs /\ length fs = length ms.
Proof.
  induction fs as [|m fs IH]; intros d ms H.
  - destruct ms; [split; [constructor|reflexivity]|discriminate].
  - cbn [answers] in H. destruct (decode d m) as [d' r] eqn:E. destruct ms as [|x ms]; [discriminate|]. cbn [map] in H. injection H as -> H.
    destruct (IH _ _ H) as [H1 H2]. split; [constructor; [eapply message_is_data; eauto|exact H1]|cbn; congruence].
Qed.

Section Deliver.
Variables (log : bool) (s : state) (o : list obs) (fs : list wsmsg) (m : subslice_t) (l : list emsg) (p : packet) (ps : list packet).
Hypothesis Ht : trace log s o.
Hypothesis Hs : reading s.
Hypothesis Hps : assembled (messages (reads o)) ps [].
Hypothesis Hv : Forall (fun x => ws_valid x = true) fs.
Hypothesis Ha : answers (decoder_of (reads o)) fs = map (fun x => Ok (PktMessage x)) (MText m :: l).
Hypothesis Hr : received m l p.

Lemma prefix_answers a b : fs = a ++ b ->
  exists la lb, MText m :: l = la ++ lb /\ length la = length a /\ length lb = length b /\
    answers (decoder_of (reads o)) a = map (fun x => Ok (PktMessage x)) la /\
    answers (state_after (decoder_of (reads o)) a) b = map (fun x => Ok (PktMessage x)) lb.
Proof.
  intros ->. rewrite answers_app in Ha.
  exists (firstn (length a) (MText m :: l)), (skipn (length a) (MText m :: l)).
  pose proof (all_messages _ _ _ (eq_trans (answers_app a _ b) Ha)) as [_ L]. rewrite app_length in L.
  split; [symmetry; apply firstn_skipn|]. rewrite firstn_length, skipn_length, <- L.
  split; [lia|]. split; [lia|]. rewrite <- firstn_map, <- skipn_map, <- Ha, firstn_app, skipn_app, answers_length, Nat.sub_diag, app_nil_r.
  rewrite firstn_all2, skipn_all2 by (rewrite answers_length; lia). split; reflexivity.
Qed.
(** Reading [a], a part of the frames, and then [x]. *)
Lemma read_state a b : fs = a ++ b ->
  decoder_of (reads (o ++ map ORead a)) = state_after (decoder_of (reads o)) a /\
  exists la, messages (reads (o ++ map ORead a)) = messages (reads o) ++ la /\ length la = length a /\ exists lb, MText m :: l = la ++ lb.
Proof.
  intros E. destruct (prefix_answers a b E) as (la & lb & El & L1 & L2 & Aa & _).
  destruct (all_messages _ _ _ Aa) as [Hd _].
  rewrite reads_app, reads_ORead. split.
  - unfold decoder_of. rewrite data_frames_app, (data_frames_id a Hd), state_after_app. reflexivity.
  - exists la. split; [|eauto]. unfold messages. rewrite data_frames_app, (data_frames_id a Hd). unfold history_answers.
    rewrite answers_app, flat_map_app. f_equal. fold decoder_new. unfold decoder_of in Aa. unfold decoder_new. rewrite Aa.
    clear. induction la as [|y la IH]; [reflexivity|]. cbn. rewrite IH. reflexivity.
Qed.
Lemma step_facts a x b : fs = a ++ x :: b ->
  exists y la, engine_answer (reads (o ++ map ORead a)) x (Ok (PktMessage y)) /\ is_data x = true /\
    messages (reads (o ++ map ORead a)) = messages (reads o) ++ la /\ length la = length a /\
    exists lb, MText m :: l = (la ++ [y]) ++ lb /\ length lb = length b.
Proof.
  intros E. destruct (read_state a _ E) as (D & la & M & L & lb & El).
  destruct (prefix_answers a _ E) as (la' & lb' & El' & L1 & L2 & _ & Ab).
  assert (la' = la /\ lb' = lb) as [-> ->].
  { rewrite El in El'. assert (length la = length la') as Q by congruence. clear -El' Q. revert la' El' Q.
    induction la as [|z la IH]; intros [|z' la'] H Q; try discriminate; [auto|]. cbn in *. injection H as <- H. injection Q as Q.
    destruct (IH _ H Q) as [-> ->]. auto. }
  destruct lb as [|y lb]; [discriminate|]. exists y, la.
  cbn [answers] in Ab. destruct (decode (state_after (decoder_of (reads o)) a) x) as [d' r] eqn:Ed. cbn [map] in Ab. injection Ab as -> Ab.
  split; [apply engine_answer_decode; rewrite D, Ed; reflexivity|]. split; [eapply message_is_data; eauto|].
  split; [exact M|]. split; [exact L|]. exists lb. rewrite <- app_assoc. split; [exact El|]. cbn in L2. lia.
Qed.
Lemma read_prefix a : forall b, fs = a ++ b -> b <> [] ->
  exists sa, execute log s (map LRead a) = Some (sa, map ORead a) /\ trace log sa (o ++ map ORead a) /\ s_phase sa = s_phase s.
Proof.
  induction a as [|x a IH] using rev_ind; intros b E Hb.
  - exists s. cbn. rewrite app_nil_r. auto.
  - assert (E' : fs = a ++ x :: b) by (rewrite E, <- app_assoc; reflexivity).
    destruct (IH (x :: b) E' ltac:(discriminate)) as (sa & Ex & Ta & Pa).
    destruct (step_facts _ _ _ E') as (y & la & He & Hd & M & L & lb & El & Lb).
    assert (Hx : ws_valid x = true) by (rewrite Forall_forall in Hv; apply Hv; rewrite E'; apply in_app_iff; cbn; auto).
    assert (exists s1 o1, step log sa (LRead x) = Some (s1, o1)) as (s1 & o1 & Hst).
    { cbn [step]. rewrite Hx, Pa. cbn [negb]. destruct Hs as [-> | ->]; destruct (read_step _ _ _ _) as [s1 o1]; eauto. }
    assert (Ho1 : o1 = [ORead x]).
    { destruct (received_length _ _ _ Hr) as [[_ El']|(q & Eq & En)].
      - exfalso. subst l. destruct la as [|? [|]]; [|discriminate|discriminate]. cbn in El. injection El as _ El. subst lb. destruct b; [congruence|discriminate].
      - destruct (la ++ [y]) as [|z ll] eqn:Ell; [destruct la; discriminate|]. cbn [app] in El. injection El as <- El.
        eapply (not_before log sa (o ++ map ORead a) x s1 o1 y (messages (reads o)) ps m ll q); eauto.
        + rewrite M, <- app_assoc, Ell. reflexivity.
        + rewrite El, app_length. destruct lb; [destruct b; [congruence|discriminate]|]. cbn [length]. lia. }
    subst o1. exists s1. split.
    { rewrite map_app, execute_app, Ex. cbn [map execute]. rewrite Hst, map_app. reflexivity. }
    split. { rewrite map_app, app_assoc. eapply trace_step; eauto. }
    rewrite <- Pa. apply read_label in Hst as (b0 & Hp & _ & Hst). pose proof (read_step_obs log b0 x sa) as Hob. rewrite Hst in Hob. cbn [snd] in Hob.
    apply read_step_fields in Hst as (_ & _ & _ & _ & _ & _ & _ & _ & _ & _ & _ & F). rewrite F.
    destruct (pr_outcome _) as [[u|e|]|p' c]; [reflexivity|exfalso..];
      cbn [outcome_obs] in Hob; injection Hob as Hob; destruct (pr_open _); try discriminate; destruct (pr_queue _); try (destruct (_ || _)); discriminate.
Qed.
Lemma deliver : exists s' out, execute log s (map LRead fs) = Some (s', map ORead fs ++ out) /\
  trace log s' (o ++ map ORead fs ++ out) /\ packet_reaction log o p out /\
  (forall q c, out = [OCall q c] -> s_phase s' = PCalling (match s_phase s with PReading => true | _ => false end) c) /\
  (out = [] -> s_phase s' = s_phase s).
Proof.
  assert (exists a x, fs = a ++ [x]) as (a & x & E).
  { destruct (all_messages _ _ _ Ha) as [_ L]. destruct fs as [|x0 f0] using rev_ind; [discriminate|eauto]. }
  destruct (read_prefix a [x] E ltac:(discriminate)) as (sa & Ex & Ta & Pa).
  destruct (step_facts a x [] E) as (y & la & He & Hd & M & L & lb & El & Lb). destruct lb; [|discriminate]. rewrite app_nil_r in El.
  assert (Hx : ws_valid x = true) by (rewrite Forall_forall in Hv; apply Hv; rewrite E; apply in_app_iff; cbn; auto).
  assert (exists s1 o1, step log sa (LRead x) = Some (s1, o1)) as (s1 & o1 & Hst).
  { cbn [step]. rewrite Hx, Pa. cbn [negb]. destruct Hs as [-> | ->]; destruct (read_step _ _ _ _) as [s1 o1]; eauto. }
  destruct (reassembled log sa (o ++ map ORead a) x s1 o1 y (messages (reads o)) ps m l p) as (out & -> & Hp); auto.
  { rewrite M, <- app_assoc, <- El. reflexivity. }
  exists s1, out. rewrite E, !map_app, execute_app, Ex. cbn [map execute]. rewrite Hst, app_nil_r, <- app_assoc. cbn [app].
  split; [reflexivity|]. split. { replace (o ++ map ORead a ++ ORead x :: out) with ((o ++ map ORead a) ++ ORead x :: out) by (rewrite <- app_assoc; reflexivity). eapply trace_step; eauto. }
  split.
  { assert (Eh : table_history (o ++ map ORead a) = table_history o) by (rewrite table_history_app, table_history_ORead, app_nil_r; reflexivity).
    destruct Hp; try rewrite Eh in *; try (econstructor; eauto; fail). }
  apply read_label in Hst as (b0 & Hph & _ & Hst). pose proof (read_step_obs log b0 x sa) as Hob. rewrite Hst in Hob. cbn [snd] in Hob.
  apply read_step_fields in Hst as (_ & _ & _ & _ & _ & _ & _ & _ & _ & _ & _ & F). rewrite F, <- Pa. injection Hob as Hob.
  split.
  - intros q c ->. destruct (pr_outcome _) as [[u|e|]|p' c']; cbn [outcome_obs] in Hob;
      (destruct (pr_open _) as [op|]; [try (cbn in Hob; discriminate); destruct (pr_queue _); try (destruct (_ || _)); discriminate|]);
      (destruct (pr_queue _); [destruct (_ || _); discriminate|]); try discriminate.
    cbn [app] in Hob. injection Hob as _ <-. rewrite Hph. destruct b0; reflexivity.
  - intros ->. destruct (pr_outcome _) as [[u|e|]|p' c']; cbn [outcome_obs] in Hob; [reflexivity|exfalso..];
      destruct (pr_open _); try discriminate; destruct (pr_queue _); try (destruct (_ || _)); discriminate.
Qed.
End Deliver.

(** ** A built packet *)
Lemma live_active o : live o <-> decoder_of (reads o) = DActive.
Proof. unfold live, decoder_of. symmetry. apply state_active. Qed.
Lemma frames_stay bl : state_after DActive (map frame bl) = DActive.
Proof. induction bl as [|b bl IH]; [reflexivity|]. cbn [map state_after]. exact IH. Qed.

Lemma built src ns bin args fs : deliverable src ns bin args -> build src ns bin args = Some fs ->
  exists m l p ts, answers DActive fs = map (fun x => Ok (PktMessage x)) (MText m :: l) /\ received m l p /\
    state_after DActive fs = DActive /\ Forall (fun x => ws_valid x = true) fs /\
    view p = Some (PView (src_kind src) ns (src_id src) ts (out_blobs bin (all_args src args))) /\
    written bin (kept (all_args src args)) ts /\
    carries p (src_kind src) ns (src_id src) (pkt_values bin (all_args src args)) /\ show_packet p <> None.
Proof.
  intros (Hns & Hu8 & Hid & Hst & Hstrs & Hu & Hb & Hread) Hbuild.
  assert (Hval8 : Forall (fun x => ws_valid x = true) fs).
  { apply Forall_forall. intros x Hx. destruct x as [t| | | |]; try reflexivity. exact (frames_utf8 _ _ _ _ _ _ Hstrs Hu8 Hbuild Hx). }
  destruct sample_opened as [Ho Hc].
  assert (exists p, arrives [sample_open] fs p) as (p & Hp).
  { destruct Hread as [-> |[-> Hpl]].
    - destruct (root_arrives _ _ _ _ _ Ho Hc Hid Hst Hu Hb Hbuild) as (p & Hp & _). eauto.
    - destruct (plain_arrives _ _ _ _ _ Ho Hc Hns Hid Hst Hu Hpl Hbuild) as (p & Hp & _). eauto. }
  destruct (arrives_exact _ _ _ _ _ _ Ho Hc Hns Hid Hst Hu Hb Hbuild) as (_ & _ & _ & Hcar & _). specialize (Hcar p Hp).
  destruct (build_shape src ns bin args) as (ts & E & W). rewrite E in Hbuild. injection Hbuild as <-.
  pose proof (usable_kept _ Hu) as [Hval _]. pose proof (count_ok bin _ Hb) as Hcount.
  apply arrives_received in Hp; [|assumption|assumption].
  destruct (packet_only src ns bin args ts Hns Hid Hst Hcount (packet_trees src bin args ts Hval W) W p Hp) as [R V].
  eexists _, _, p, ts. split; [|split; [exact Hp|]].
  { pose proof (decode_frames [sample_open] (wire_text (out_wire src ns bin (all_args src args) ts)) (out_blobs bin (all_args src args)) Ho Hc) as D.
    unfold history_answers, decoder_new in D. rewrite answers_app in D. apply app_inv_head in D.
    rewrite (proj2 (state_active _) (conj Ho Hc)) in D. exact D. }
  split; [cbn [state_after decode fst]; apply frames_stay|]. split; [exact Hval8|]. split; [exact V|]. split; [exact W|]. split; [exact Hcar|].
  intros Hn. apply (show_exact _ _ _ _ (tsub_wire _) (bmsgs_ok _) Hp) in Hn as (g & (d & a & i & Hd & Hda & Hg) & Hno).
  destruct Hcar as (_ & a' & gs & Hd' & Hit & Hm).
  assert (a' = a) as ->.
  { destruct src as [e i0|i0]; cbn [src_kind src_id] in Hd'; rewrite Hd in Hd'; injection Hd' as ->; cbn in Hda; congruence. }
  rewrite (args_iter_get _ _ Hit) in Hg. injection Hg as Hg. apply nth_error_In in Hg.
  apply (in_map to_json_value) in Hg. rewrite Hm in Hg. apply in_map_iff in Hg as (v & Hv & _). exact (Hno v (eq_sym Hv)).
Qed.
Lemma name_text ev l bin ts : written bin (kept (SStr ev :: l)) ts -> exists ts', ts = json_str ev :: ts'.
Proof.
  unfold kept. cbn [filter serialises json_of]. intros W. destruct bin; cbn [written] in W.
  - inversion W as [|? ? ? t ts' H H']; subst. exists ts'. f_equal.
    destruct H as [H _]. specialize (H ([], []) eq_refl). cbn in H. injection H as <-. reflexivity.
  - inversion W as [|? t ? ts' H H']; subst. exists ts'. f_equal.
    destruct H as [H _]. specialize (H []). cbn in H. injection H as <-. reflexivity.
Qed.
Lemma built_name ev id l bin ts p ns bl : view p = Some (PView KEvent ns id ts bl) -> written bin (kept (SStr ev :: l)) ts ->
  event_name p (Ok ev).
Proof.
  intros V W. destruct (name_text _ _ _ _ W) as (ts' & ->). destruct (view_data _ _ V) as (_ & d & Hd & Hm). cbn [v_kind v_id v_args v_atts] in Hm.
  destruct d as [| |i a|i a]; try discriminate; [|destruct Hm; discriminate]. destruct Hm as (_ & <- & Ha).
  apply args_view_accessors in Ha as (_ & Hget & _). eexists _, a, _. split; [exact Hd|]. split; [exact (Hget 0)|]. apply string_typed.
Qed.

Lemma event_delivered log s o e fs f : trace log s o -> reading s -> between_packets o -> live o ->
  event_deliverable e -> event_frames e = Some fs -> routed (table_history o) (e_ns e) (e_name e) f ->
  exists s' p a ack, execute log s (map LRead fs) = Some (s', map ORead fs ++ [OCall p (EventCall f a ack)]) /\ sees p a ack e /\
    s_phase s' = PCalling (match s_phase s with PReading => true | _ => false end) (EventCall f a ack) /\
    trace log s' (o ++ map ORead fs ++ [OCall p (EventCall f a ack)]) /\
    between_packets (o ++ map ORead fs ++ [OCall p (EventCall f a ack)]) /\ live (o ++ map ORead fs ++ [OCall p (EventCall f a ack)]).
Proof.
  intros Ht Hs [ps Hps] Hlive Hd Hb Hf. destruct e as [ev id ns bin args]. cbn [e_name e_id e_ns e_binary e_args] in *. unfold event_frames, event_deliverable in *. cbn [e_name e_id e_ns e_binary e_args] in *.
  destruct (built _ _ _ _ _ Hd Hb) as (m & l & p & ts & Ha & Hr & Hst & Hv & V & W & Hcar & Hshow).
  pose proof (proj1 (live_active o) Hlive) as Hact. rewrite <- Hact in Ha.
  destruct (deliver log s o fs m l p ps Ht Hs Hps Hv Ha Hr) as (s' & out & Ex & Tr & Hp & Hcall & _).
  pose proof (built_name _ _ _ _ _ _ _ _ V W) as Hname. cbn [src_kind src_id] in *.
  destruct Hcar as (Hn & a & gs & Hdata & Hit & Hm). cbn [src_kind src_id] in Hdata.
  assert (out = [OCall p (EventCall f a (option_map (fun i => AckBuilder ns i false) id))]) as ->.
  { eapply packet_reaction_unique; [exact Hp|]. eapply pr_event; eauto. }
  exists s', p, a, (option_map (fun i => AckBuilder ns i false) id). split; [exact Ex|]. split.
  { unfold sees. cbn [e_id e_ns e_binary e_name e_args]. split; [exact Hdata|]. split; [|destruct id; cbn; auto].
    split; [exact Hn|]. exists a, gs. auto. }
  split; [eapply Hcall; reflexivity|]. split; [exact Tr|].
  assert (Er : forall x, reads (o ++ map ORead fs ++ [OCall p x]) = reads o ++ fs) by (intros x; rewrite !reads_app, reads_ORead; cbn; rewrite app_nil_r; reflexivity).
  destruct (all_messages _ _ _ Ha) as [Hdata' _].
  unfold between_packets. rewrite Er. split.
  - exists (ps ++ [p]). unfold messages. rewrite data_frames_app, (data_frames_id _ Hdata'). unfold history_answers. rewrite answers_app, flat_map_app.
    apply assembled_app; [exact Hps|]. unfold decoder_new. unfold decoder_of in Ha. rewrite Ha.
    replace (flat_map _ _) with (MText m :: l); [apply assembled_one; exact Hr|]. clear.
    cbn [map flat_map app]. f_equal. induction l as [|y l IH]; [reflexivity|]. cbn. rewrite <- IH. reflexivity.
  - apply live_active. rewrite Er. unfold decoder_of. rewrite data_frames_app, (data_frames_id _ Hdata'), state_after_app.
    fold (decoder_of (reads o)). rewrite Hact. exact Hst.
Qed.
Lemma ack_delivered log s o id ns bin args fs f : trace log s o -> reading s -> between_packets o -> live o ->
  deliverable (OfAck id) ns bin args -> build (OfAck id) ns bin args = Some fs -> awaiting (table_history o) ns id f ->
  exists s' p a, execute log s (map LRead fs) = Some (s', map ORead fs ++ [OCall p (AckCall f a)]) /\
    packet_data p = Some (DataAck id a) /\ carries p KAck ns (Some id) (pkt_values bin args).
Proof.
  intros Ht Hs [ps Hps] Hlive Hd Hb Hf. destruct (built _ _ _ _ _ Hd Hb) as (m & l & p & ts & Ha & Hr & Hst & Hv & V & W & Hcar & Hshow).
  pose proof (proj1 (live_active o) Hlive) as Hact. rewrite <- Hact in Ha.
  destruct (deliver log s o fs m l p ps Ht Hs Hps Hv Ha Hr) as (s' & out & Ex & Tr & Hp & Hcall & _). cbn [src_kind src_id all_args] in *.
  pose proof Hcar as (Hn & a & gs & Hdata & Hit & Hm).
  assert (out = [OCall p (AckCall f a)]) as -> by (eapply packet_reaction_unique; [exact Hp|]; eapply pr_ack; eauto).
  exists s', p, a. auto.
Qed.
Lemma unheard_harmless log s o e fs : trace log s o -> reading s -> between_packets o -> live o ->
  event_deliverable e -> event_frames e = Some fs -> (forall f, ~ routed (table_history o) (e_ns e) (e_name e) f) ->
  exists s', execute log s (map LRead fs) = Some (s', map ORead fs) /\ s_phase s' = s_phase s.
Proof.
  intros Ht Hs [ps Hps] Hlive Hd Hb Hf. destruct e as [ev id ns bin args]. cbn [e_name e_id e_ns e_binary e_args] in *. unfold event_frames, event_deliverable in *. cbn [e_name e_id e_ns e_binary e_args] in *.
  destruct (built _ _ _ _ _ Hd Hb) as (m & l & p & ts & Ha & Hr & Hst & Hv & V & W & Hcar & Hshow).
  pose proof (proj1 (live_active o) Hlive) as Hact. rewrite <- Hact in Ha.
  destruct (deliver log s o fs m l p ps Ht Hs Hps Hv Ha Hr) as (s' & out & Ex & Tr & Hp & _ & Hnil).
  pose proof (built_name _ _ _ _ _ _ _ _ V W) as Hname. cbn [src_kind src_id] in *.
  destruct Hcar as (Hn & a & gs & Hdata & Hit & Hm). cbn [src_kind src_id] in Hdata.
  assert (out = []) as -> by (eapply packet_reaction_unique; [exact Hp|]; eapply pr_event_unheard; eauto).
  exists s'. rewrite app_nil_r in Ex. auto.
Qed.

(** ** Several packets *)
Lemma calls_app a b : calls (a ++ b) = calls a ++ calls b.
Proof. apply flat_map_app. Qed.
Lemma calls_ORead fs : calls (map ORead fs) = [].
Proof. induction fs; [reflexivity|assumption]. Qed.
Lemma events_delivered log es : forall s o fss, trace log s o -> reading s -> between_packets o -> live o ->
  Forall event_deliverable es -> Forall2 (fun e fs => event_frames e = Some fs) es fss ->
  Forall (fun e => exists f, routed (table_history o) (e_ns e) (e_name e) f) es ->
  exists s' o', execute log s (read_all fss) = Some (s', o') /\ s_phase s' = s_phase s /\ reads o' = concat fss /\
    Forall2 (fun e pc => exists f a ack, snd pc = EventCall f a ack /\ routed (table_history o) (e_ns e) (e_name e) f /\ sees (fst pc) a ack e)
      es (calls o').
Proof.
  induction es as [|e es IH]; intros s o fss Ht Hs Hb Hl Hd Hf Hr; inversion Hf as [|? fs ? fss' Hfs Hf']; subst.
  - exists s, []. cbn. auto.
  - inversion Hd as [|? ? Hd1 Hd2]; subst. inversion Hr as [|? ? [f Hr1] Hr2]; subst.
    destruct (event_delivered _ _ _ _ _ _ Ht Hs Hb Hl Hd1 Hfs Hr1) as (s1 & p & a & ack & Ex & Hsee & Hph & Ht1 & Hb1 & Hl1).
    set (o1 := map ORead fs ++ [OCall p (EventCall f a ack)]) in *.
    assert (Hret : step log s1 LCbReturn = Some (set_phase (s_phase s) s1, [])).
    { cbn [step]. rewrite Hph. destruct Hs as [-> | ->]; reflexivity. }
    pose proof (trace_step _ _ _ _ _ _ Ht1 Hret) as Ht2. rewrite app_nil_r in Ht2.
    assert (Et : table_history (o ++ o1) = table_history o).
    { unfold o1. rewrite !table_history_app, table_history_ORead. cbn. apply app_nil_r. }
    destruct (IH (set_phase (s_phase s) s1) (o ++ o1) fss' Ht2 Hs Hb1 Hl1 Hd2 Hf') as (s' & o' & Ex' & Hph' & Hrd & Hc); [rewrite Et; exact Hr2|].
    rewrite Et in Hc. exists s', (o1 ++ o'). cbn [read_all flat_map]. rewrite <- app_assoc, execute_app, Ex. cbn [app].
    replace (LCbReturn :: flat_map _ fss') with ([LCbReturn] ++ read_all fss') by reflexivity. rewrite execute_app. cbn [execute]. rewrite Hret, Ex'.
    split; [reflexivity|]. split; [exact Hph'|]. split.
    + rewrite reads_app, Hrd. unfold o1. rewrite reads_app, reads_ORead. cbn. rewrite app_nil_r. reflexivity.
    + rewrite calls_app. unfold o1. rewrite calls_app, calls_ORead. cbn. constructor; [|exact Hc]. cbn [fst snd]. eauto 10.
Qed.
Lemma one_event log s o e fs f : trace log s o -> reading s -> between_packets o -> live o ->
  event_deliverable e -> event_frames e = Some fs -> routed (table_history o) (e_ns e) (e_name e) f ->
  exists s' p a ack, execute log s (map LRead fs) = Some (s', map ORead fs ++ [OCall p (EventCall f a ack)]) /\ sees p a ack e.
Proof. intros H1 H2 H3 H4 H5 H6 H7. destruct (event_delivered _ _ _ _ _ _ H1 H2 H3 H4 H5 H6 H7) as (s' & p & a & ack & E & S & _). eauto 6. Qed.

(** ** A case *)
Definition deliver_events : list event :=
  [Event (bs "news") (Some 3%N) (bs "/") true [SSeq [SBytes (bs "a"); SBytes []]; SInt 1];
   Event (bs "other") None (bs "/chat") false [SStr (bs "x,y")]].
Definition deliver_run : list label := opened_run ++
  [LTable (SetEvent (bs "/") (bs "news") 7%N); LTable (SetFallback (bs "/chat") 8%N);
   LEmit (Emission (bs "/") (bs "ask") [SetCallback 9%N] [SInt 1]); LRegister 0; LPush 0].
Lemma deliver_case : exists s o, trace true s o /\ reading s /\ between_packets o /\ live o /\
  Forall event_deliverable deliver_events /\
  Forall2 (fun e fs => event_frames e = Some fs) deliver_events
    [[WText (bs "452-3[""news"",[{""_placeholder"":true,""num"":0},{""_placeholder"":true,""num"":1}],1]"); WBinary (x04 :: bs "a"); WBinary [x04]];
     [WText (bs "42/chat,[""other"",""x,y""]")]] /\
  Forall (fun e => exists f, routed (table_history o) (e_ns e) (e_name e) f) deliver_events /\
  awaiting (table_history o) (bs "/") 0 9%N /\
  deliverable (OfAck 0) (bs "/") true [SBytes (bs "ok")] /\
  (forall f, ~ routed (table_history o) (bs "/") (bs "nobody") f) /\
  event_deliverable (Event (bs "nobody") None (bs "/") false []).
Proof.
  destruct (execute true init deliver_run) as [[s o]|] eqn:E; [|vm_compute in E; discriminate].
  exists s, o. split; [eapply run_trace; exact E|]. vm_compute in E. injection E as <- <-.
  split; [left; reflexivity|]. split; [exists []; apply as_nothing|].
  split; [apply live_active; reflexivity|].
  assert (N1 : ns_ok (bs "/")) by (apply ns_ok_check; reflexivity).
  assert (N2 : ns_ok (bs "/chat")) by (apply ns_ok_check; reflexivity).
  split; [|split; [|split; [|split; [|split; [|split]]]]].
  - constructor; [|constructor; [|constructor]]; unfold event_deliverable, deliverable; cbn [e_name e_id e_ns e_binary e_args src_id starts all_args fits].
    + split; [exact N1|]. split; [reflexivity|]. split; [unfold u64_max; lia|]. split; [exact I|].
      split; [repeat constructor|]. split; [repeat constructor; cbn; intros; try lia; repeat split; auto; lia|].
      split; [|left; reflexivity]. intros _. split; [repeat constructor|vm_compute; discriminate].
    + split; [exact N2|]. split; [reflexivity|]. split; [exact I|]. split; [exact I|].
      split; [repeat constructor|]. split; [repeat constructor; cbn; lia|].
      split; [discriminate|]. right. split; [reflexivity|]. repeat constructor; cbn; unfold no_bracket; cbn; intuition discriminate.
  - repeat constructor.
  - constructor; [|constructor; [|constructor]]; cbn [e_name e_ns].
    + exists 7%N. apply routing_exact. reflexivity.
    + exists 8%N. apply routing_exact. reflexivity.
  - apply ack_exact. reflexivity.
  - split; [exact N1|]. split; [reflexivity|]. split; [cbn; unfold u64_max; lia|]. split; [reflexivity|].
    split; [repeat constructor|]. split; [repeat constructor; cbn; lia|]. split; [|left; reflexivity].
    intros _. split; [repeat constructor|vm_compute; discriminate].
  - intros f Hf. apply routing_exact in Hf. discriminate.
  - split; [exact N1|]. split; [reflexivity|]. split; [exact I|]. split; [exact I|].
    split; [repeat constructor|]. split; [repeat constructor; cbn; lia|]. split; [discriminate|left; reflexivity].
Qed.
