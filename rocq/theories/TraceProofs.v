(** Runs of the client: basic lemmas and the invariants behind the statements about traces. *)
From Verif Require Export SpecClient CallbacksProofs ReadProofs.

(** ** Runs *)
Lemma execute_app log ls : forall s ls', execute log s (ls ++ ls') =
  match execute log s ls with
  | Some (s1, o1) => match execute log s1 ls' with Some (s2, o2) => Some (s2, o1 ++ o2) | None => None end
  | None => None
  end.
Proof.
  induction ls as [|l ls IH]; intros s ls'; cbn [app execute].
  - destruct (execute log s ls') as [[s2 o2]|]; reflexivity.
  - destruct (step log s l) as [[s1 o1]|]; [|reflexivity]. rewrite IH.
    destruct (execute log s1 ls) as [[s2 o2]|]; [|reflexivity].
    destruct (execute log s2 ls') as [[s3 o3]|]; [|reflexivity]. rewrite app_assoc. reflexivity.
Qed.
Lemma trace_init log : trace log init [].
Proof. exists []. reflexivity. Qed.
Lemma trace_step log s o l s' o' : trace log s o -> step log s l = Some (s', o') -> trace log s' (o ++ o').
Proof.
  intros [ls H] Hs. exists (ls ++ [l]). rewrite execute_app, H. cbn [execute]. rewrite Hs, app_nil_r. reflexivity.
Qed.
Lemma trace_ind log (P : state -> list obs -> Prop) : P init [] ->
  (forall s o l s' o', trace log s o -> P s o -> step log s l = Some (s', o') -> P s' (o ++ o')) ->
  forall s o, trace log s o -> P s o.
Proof.
  intros H0 HS s o [ls H]. revert s o H. induction ls as [|l ls IH] using rev_ind; intros s o H.
  - injection H as <- <-. exact H0.
  - rewrite execute_app in H. destruct (execute log init ls) as [[s1 o1]|] eqn:E; [|discriminate]. cbn [execute] in H.
    destruct (step log s1 l) as [[s2 o2]|] eqn:Es; [|discriminate]. injection H as <- <-. rewrite app_nil_r.
    apply (HS s1 o1 l); [exists ls; exact E|apply IH; reflexivity|exact Es].
Qed.

(** ** Steps *)
Lemma push_cases o fs s : (s_chan_closed s || task_ended s = true /\ push o fs s = (s, [OLost o fs])) \/
  (s_chan_closed s = false /\ task_ended s = false /\ push o fs s = (set_chan (s_chan s ++ [fs]) s, [OQueued o fs])).
Proof.
  unfold push. destruct (s_chan_closed s), (task_ended s); cbn [orb]; auto.
Qed.

(** All cases of a step other than reading. *)
Ltac step_cases H :=
  repeat (match type of H with
  | context [match ?x with _ => _ end] =>
      lazymatch x with
      | context [match _ with _ => _ end] => fail
      | _ => first [ is_var x; destruct x; try discriminate H
                   | let E := fresh "E" in destruct x eqn:E; try discriminate H ]
      end
  end; cbv beta iota in H).

Lemma requests_table n l : table_history (requests n l) = [].
Proof. revert n. induction l as [|[b|f] l IH]; intros n; cbn [requests]; auto. apply IH. Qed.
Lemma table_history_app a b : table_history (a ++ b) = table_history a ++ table_history b.
Proof. apply flat_map_app. Qed.
Lemma push_table o fs s s' o' : push o fs s = (s', o') -> s_table s' = s_table s /\ table_history o' = [].
Proof. intros H. destruct (push_cases o fs s) as [[_ E]|(_ & _ & E)]; rewrite E in H; injection H as <- <-; auto. Qed.

Lemma process_packet_table log po c p c' out : process_packet log po c p = (c', out) ->
  c' = fold_left (fun c o => fst (do_op c o)) (table_history
    (match out with
     | Return (Ok _) => []
     | Return (Err e) => [OEnd (EndErr e)]
     | Return Panic => [OEnd EndPanic]
     | CallOf p c => [OCall p c]
     end)) c.
Proof.
  unfold process_packet. destruct (log && _); [intros [= <- <-]; reflexivity|].
  destruct (packet_namespace p) as [ns|] eqn:En; [|intros [= <- <-]; reflexivity].
  destruct (packet_data p) as [d|] eqn:Ed; [|intros [= <- <-]; reflexivity].
  destruct d as [| |id a|id a]; try (intros [= <- <-]; reflexivity).
  - destruct (args_get a 0) as [[g|]|e|]; try (intros [= <- <-]; reflexivity).
    destruct (arg_deserialize TyString g) as [[]|e|]; try (intros [= <- <-]; reflexivity).
    destruct po; [intros [= <- <-]; reflexivity|]. destruct (get_event c ns s); intros [= <- <-]; reflexivity.
  - destruct po; [intros [= <- <-]; reflexivity|]. destruct (get_and_clear_ack c ns id) as [c1 [f|]] eqn:E; intros [= <- <-]; cbn [table_history flat_map app]; rewrite En, Ed; cbn [app fold_left do_op]; rewrite E; reflexivity.
Qed.
Definition outcome_obs (out : routcome) : list obs :=
  match out with
  | Return (Ok _) => []
  | Return (Err e) => [OEnd (EndErr e)]
  | Return Panic => [OEnd EndPanic]
  | CallOf p c => [OCall p c]
  end.
Lemma process_table log po r c m : let x := process_websocket_packet log po r c m in
  pr_callbacks x = fold_left (fun c o => fst (do_op c o)) (table_history (outcome_obs (pr_outcome x))) c.
Proof.
  cbv zeta. unfold process_websocket_packet, process_message. destruct m as [t|t|t|t|t]; try reflexivity.
  all: destruct (decode (r_decoder r) _) as [d [[o| | | |e]|e|]]; try reflexivity.
  all: cbv beta iota; unfold process_emsg; destruct (r_progress r) as [[q l]|].
  all: try (destruct (progress_ready q (l ++ [e])) as [[|]|]; try reflexivity).
  all: try (destruct (deserialize_partial q (l ++ [e])) as [p|e'|]; try reflexivity).
  all: try (destruct (deserialize e) as [[p|q]|e'|]; try reflexivity).
  all: destruct (process_packet log po c p) as [c' out] eqn:E; cbn [pr_callbacks pr_outcome]; apply (process_packet_table _ _ _ _ _ _ E).
Qed.
Lemma read_step_obs log closing m s : snd (read_step log closing m s) = ORead m ::
  let r := process_websocket_packet log (s_poisoned s) (s_receiver s) (s_table s) m in
  (match pr_open r with Some o => [OOpened o] | None => [] end) ++
  (match pr_queue r with Some fs => if s_chan_closed s || task_ended s then [OLost ByReceiver fs] else [OQueued ByReceiver fs] | None => [] end) ++
  outcome_obs (pr_outcome r).
Proof.
  unfold read_step. cbv zeta. destruct (process_websocket_packet _ _ _ _ _) as [r c op q out]. cbn [pr_receiver pr_callbacks pr_open pr_queue pr_outcome].
  destruct op; destruct q; unfold push; cbn [s_chan_closed task_ended s_phase set_open set_table set_receiver];
    try (destruct (s_chan_closed s || _)); destruct out as [[u|e|]|p k]; reflexivity.
Qed.

Lemma requests_form n l x : In x (requests n l) -> exists id, x = ORequest id.
Proof. revert n. induction l as [|[b|f] l IH]; intros n; cbn [requests]; [intros []|apply IH|]. intros [<-|H]; eauto. Qed.
Lemma reads_app a b : reads (a ++ b) = reads a ++ reads b.
Proof. apply flat_map_app. Qed.
Lemma requests_reads n l : reads (requests n l) = [].
Proof. revert n. induction l as [|[b|f] l IH]; intros n; cbn [requests]; auto. apply IH. Qed.

(** What steps other than reading leave alone. *)
Record quiet (s s' : state) (o' : list obs) : Prop := Quiet {
  q_reads : reads o' = [];
  q_receiver : s_receiver s' = s_receiver s;
  q_ended : task_ended s = true -> task_ended s' = true;
  q_poisoned : s_poisoned s' = true -> s_poisoned s = true \/ task_ended s' = true;
  q_closed : s_chan_closed s' = true <-> s_chan_closed s = true \/ In OChannelClosed o';
  q_table : s_table s' = fold_left (fun c o => fst (do_op c o)) (table_history o') (s_table s)
}.
Lemma requests_not_closed n l : ~ In OChannelClosed (requests n l).
Proof. intros H. apply requests_form in H as [id [=]]. Qed.

Ltac quiet_tac :=
  constructor; cbn; rewrite ?reads_app, ?requests_reads, ?table_history_app, ?requests_table; cbn; auto;
  try (split; [auto|intros [H|H]; auto; repeat (apply in_app_iff in H as [H|H]; auto); try (destruct (requests_not_closed _ _ H)); repeat (destruct H as [H|H]; [discriminate H|]); destruct H]);
  try (intros ?; congruence).

Lemma read_phase log b m s : s_conn (fst (read_step log b m s)) = s_conn s.
Proof.
  unfold read_step. destruct (process_websocket_packet _ _ _ _ _) as [r c op q out]. cbn [pr_receiver pr_callbacks pr_open pr_queue pr_outcome].
  destruct op; destruct q; unfold push; try (destruct (_ || _)); destruct out as [[u|e|]|p k]; reflexivity.
Qed.
Lemma read_label log s m s' o' : step log s (LRead m) = Some (s', o') ->
  exists b : bool, s_phase s = (if b then PReading else PLoop) /\ ws_valid m = true /\ read_step log b m s = (s', o').
Proof.
  cbn [step]. destruct (ws_valid m) eqn:V; [|discriminate]. destruct (s_phase s) eqn:E; try discriminate; cbn [negb]; intros [= H].
  - exists false. auto.
  - exists true. auto.
Qed.
Lemma unborn log s o : trace log s o -> s_conn s = CHandshake -> s_phase s = PUnborn.
Proof.
  revert s o. apply (trace_ind log (fun s _ => s_conn s = CHandshake -> s_phase s = PUnborn)); [reflexivity|].
  intros s o l s' o' _ IH H.
  destruct l.
  5: { apply read_label in H as (b & Hp & _ & H). intros Hc. rewrite <- (read_phase log b m s), H in IH. cbn [fst] in IH.
       specialize (IH Hc). destruct b; congruence. }
  all: unfold step, push in H; step_cases H; injection H as <- <-; cbn; intros ?; auto; try congruence.
  all: specialize (IH ltac:(assumption)); congruence.
Qed.

Lemma quiet_step log s l s' o' : (s_conn s = CHandshake -> s_phase s = PUnborn) ->
  step log s l = Some (s', o') -> (forall m, l <> LRead m) -> quiet s s' o'.
Proof.
  intros Hu H Hl. unfold step, push in H. destruct l; try (destruct (Hl _ eq_refl); fail).
  all: step_cases H.
  all: injection H as <- <-.
  all: unfold task_ended in *.
  all: try (quiet_tac; fail).
  all: try (match goal with E : s_phase ?x = _ |- _ => constructor; unfold task_ended; cbn; rewrite ?E, ?reads_app, ?requests_reads, ?table_history_app, ?requests_table; cbn; auto; try discriminate;
     split; [auto|intros [Q|Q]; auto; repeat (apply in_app_iff in Q as [Q|Q]; auto); try (destruct (requests_not_closed _ _ Q)); repeat (destruct Q as [Q|Q]; [discriminate Q|]); destruct Q] end; fail).
  - specialize (Hu eq_refl). constructor; unfold task_ended; cbn; rewrite ?Hu; auto; try discriminate; intuition.
  - constructor; cbn; auto.
    + split; [auto|]. intros [Q|[Q|[]]]; [auto|discriminate].
    + destruct o; reflexivity.
Qed.

Lemma read_step_fields log b m s s' o' : read_step log b m s = (s', o') ->
  let r := process_websocket_packet log (s_poisoned s) (s_receiver s) (s_table s) m in
  s_receiver s' = pr_receiver r /\ s_table s' = pr_callbacks r /\ s_poisoned s' = s_poisoned s /\
  s_chan_closed s' = s_chan_closed s /\ s_conn s' = s_conn s /\ s_next_id s' = s_next_id s /\
  s_handle s' = s_handle s /\ s_signal s' = s_signal s /\ s_inflight s' = s_inflight s /\ s_client s' = s_client s /\
  s_open s' = (match pr_open r with Some o => Some o | None => s_open s end) /\
  s_phase s' = (match pr_outcome r with
                | Return (Ok _) => s_phase s
                | Return (Err e) => PEnded (EndErr e)
                | Return Panic => PEnded EndPanic
                | CallOf _ c => PCalling b c
                end).
Proof.
  unfold read_step. cbv zeta. destruct (process_websocket_packet _ _ _ _ _) as [r c op q out]. cbn [pr_receiver pr_callbacks pr_open pr_queue pr_outcome].
  destruct op; destruct q; unfold push; cbn [s_chan_closed task_ended s_phase set_open set_table set_receiver];
    try (destruct (s_chan_closed s || _)); destruct out as [[u|e|]|p k]; intros [= <- <-]; cbn; auto 20.
Qed.

(** ** Assembly of packets *)
Lemma received_length m l p : received m l p ->
  (deserialize (MText m) = Ok (DPacket p) /\ l = []) \/
  (exists q, deserialize (MText m) = Ok (DDataNeeded q) /\ partial_attachments q = Some (N.of_nat (length l))).
Proof.
  intros [H|(q & E & Hp)]; [left; exact H|right]. exists q. split; [exact E|].
  assert (L : forall l atts, collect_binary l = Ok atts -> length atts = length l).
  { clear. induction l as [|[t|d] l IH]; cbn [collect_binary]; intros atts.
    - intros [= <-]. reflexivity.
    - destruct (sub_deref_str t); discriminate.
    - destruct (collect_binary l); cbn [rmap]; try discriminate. intros [= <-]. cbn. f_equal. auto. }
  unfold deserialize_partial in Hp. destruct (collect_binary l) as [atts|e|] eqn:Ec; try discriminate. apply L in Ec.
  cbn [rbind] in Hp. assert (Hq : exists n, pa_attachments q = Some n).
  { cbn in E. unfold deserialize_text in E. destruct (parse_text m) as [q'|e|]; try discriminate. cbn [rbind] in E.
    unfold deserialize_binary in E. destruct (pa_kind q'); try (destruct (deserialize_dataless _ _ _); discriminate);
      try (destruct (deserialize_event _ _ _ _); discriminate);
      (destruct (pa_attachments q') as [n|] eqn:En; [|discriminate]; destruct (n =? 0)%N; [destruct (deserialize_event _ _ _ _); discriminate|];
       injection E as <-; eauto). }
  destruct Hq as [n En]. unfold partial_attachments. rewrite En. f_equal.
  assert (D : forall k name, deserialize_event q k name atts = Ok p -> n = N.of_nat (length l)).
  { intros k name. unfold deserialize_event. destruct (_ || _); [discriminate|]. rewrite En, Ec. cbn [opt_or].
    destruct (N.eqb_spec (N.of_nat (length l)) n); [auto|discriminate]. }
  destruct (pa_kind q); try discriminate; eauto.
Qed.
Lemma assembled_app es ps es' ps' rest' : assembled es ps [] -> assembled es' ps' rest' ->
  assembled (es ++ es') (ps ++ ps') rest'.
Proof.
  intros H. remember [] as r eqn:Er in H. revert Er. induction H as [|m q n l _ _ _|m l p es ps rest Hr H IH]; intros Er Ha.
  - exact Ha.
  - discriminate.
  - cbn [app]. rewrite <- app_assoc. apply as_packet; auto.
Qed.
Lemma assembled_split es ps rest : assembled es ps rest -> exists es0, es = es0 ++ rest /\ assembled es0 ps [].
Proof.
  induction 1 as [|m q n l E En L|m l p es ps rest Hr H (es0 & -> & H0)].
  - exists []. split; [reflexivity|apply as_nothing].
  - exists []. split; [reflexivity|apply as_nothing].
  - exists (MText m :: l ++ es0). split; [cbn [app]; rewrite <- app_assoc; reflexivity|]. apply as_packet; auto.
Qed.
Lemma assembled_one m l p : received m l p -> assembled (MText m :: l) [p] [].
Proof. intros H. rewrite <- (app_nil_r l). apply as_packet; [exact H|apply as_nothing]. Qed.
Lemma assembled_rest es ps rest : assembled es ps rest ->
  rest = [] \/ exists m q n l, rest = MText m :: l /\ deserialize (MText m) = Ok (DDataNeeded q) /\
    partial_attachments q = Some n /\ (N.of_nat (length l) < n)%N.
Proof. induction 1; eauto 10. Qed.
Lemma assembled_cons x l ps rest : assembled (x :: l) ps rest ->
  (exists m q n, x = MText m /\ ps = [] /\ rest = x :: l /\ deserialize (MText m) = Ok (DDataNeeded q) /\
     partial_attachments q = Some n /\ (N.of_nat (length l) < n)%N) \/
  (exists m l1 l2 p ps', x = MText m /\ l = l1 ++ l2 /\ ps = p :: ps' /\ received m l1 p /\ assembled l2 ps' rest).
Proof. intros H. inversion H; subst; eauto 20. Qed.
Lemma assembled_unique es ps rest : assembled es ps rest -> forall ps' rest', assembled es ps' rest' -> ps = ps' /\ rest = rest'.
Proof.
  induction 1 as [|m q n l E En L|m l p es ps rest Hr H IH]; intros ps' rest' H'.
  - inversion H'. auto.
  - apply assembled_cons in H' as [(m' & q' & n' & Ex & -> & -> & _)|(m' & l1 & l2 & p' & ps'' & Ex & -> & -> & Hr' & H')]; [auto|].
    injection Ex as <-.
    apply received_length in Hr' as [[E' _]|(q' & E' & En')]; [congruence|]. rewrite E in E'. injection E' as <-.
    rewrite En in En'. injection En' as ->. rewrite app_length in L. lia.
  - apply assembled_cons in H' as [(m' & q' & n' & Ex & -> & -> & E' & En' & L')|(m' & l1 & l2 & p' & ps'' & Ex & Em & -> & Hr' & H')];
      injection Ex as <-.
    + apply received_length in Hr as [[E _]|(q & E & En)]; [congruence|]. rewrite E in E'. injection E' as <-.
      rewrite En in En'. injection En' as <-. rewrite app_length in L'. lia.
    + assert (Hl : length l = length l1).
      { apply received_length in Hr as [[E ->]|(q & E & En)]; apply received_length in Hr' as [[E' ->]|(q' & E' & En')]; try congruence.
        rewrite E in E'. injection E' as <-. rewrite En in En'. injection En'. lia. }
      assert (l = l1 /\ es = l2) as [<- <-].
      { clear -Em Hl. revert l1 Hl Em. induction l as [|x l IH]; intros [|y l'] Hl Em; try discriminate; [auto|].
        cbn [app] in Em. injection Em as <- Em. injection Hl as Hl. destruct (IH l' Hl Em) as [<- <-]. auto. }
      destruct (IH _ _ H') as [<- <-]. split; [|reflexivity]. f_equal.
      destruct Hr as [[E _]|(q & E & Ep)]; destruct Hr' as [[E' _]|(q' & E' & Ep')]; rewrite E in E'; try discriminate; injection E' as E'; subst; congruence.
Qed.

(** ** The incoming history *)
Lemma data_frames_app a b : data_frames (a ++ b) = data_frames a ++ data_frames b.
Proof. apply filter_app. Qed.
Definition decoder_of (h : list wsmsg) : dstate := state_after DInitial (data_frames h).
Lemma engine_answer_decode h m r : engine_answer h m r <-> snd (decode (decoder_of h) m) = r.
Proof.
  unfold engine_answer, decoder_of. rewrite history_snoc. split.
  - intros H. apply app_inv_head in H. injection H. auto.
  - intros ->. reflexivity.
Qed.
Lemma decoder_of_snoc h m : decoder_of (h ++ [m]) = if is_data m then fst (decode (decoder_of h) m) else decoder_of h.
Proof.
  unfold decoder_of. rewrite data_frames_app, state_after_app. unfold data_frames at 2. cbn [filter].
  destruct (is_data m); reflexivity.
Qed.
Lemma messages_snoc h m : messages (h ++ [m]) = messages h ++
  (if is_data m then match snd (decode (decoder_of h) m) with Ok (PktMessage x) => [x] | _ => [] end else []).
Proof.
  unfold messages. rewrite data_frames_app. unfold data_frames at 2. cbn [filter]. destruct (is_data m).
  - rewrite history_snoc, flat_map_app. cbn [flat_map]. rewrite app_nil_r. reflexivity.
  - rewrite !app_nil_r. reflexivity.
Qed.
Lemma messages_ok h : (forall t, In (WText t) h -> utf8_valid t = true) -> Forall emsg_ok (messages h).
Proof.
  intros Hu. apply Forall_forall. intros x Hx. unfold messages in Hx. apply in_flat_map in Hx as (r & Hr & Hx).
  destruct r as [[o| | | |e]|e|]; try destruct Hx as [<-|[]]; try destruct Hx.
  apply In_nth_error in Hr as [i Hi]. apply (decoder_emsg_ok (data_frames h) i); [|exact Hi].
  intros s Hs. apply Hu. apply filter_In in Hs as [Hs _]. exact Hs.
Qed.

(** ** The invariant *)
Definition progress_is (pr : option (parse * list emsg)) (rest : list emsg) : Prop :=
  match pr with
  | None => rest = []
  | Some (q, l) => exists m n, rest = MText m :: l /\ deserialize (MText m) = Ok (DDataNeeded q) /\
      partial_attachments q = Some n /\ (N.of_nat (length l) < n)%N
  end.
Record invariant (s : state) (o : list obs) : Prop := Invariant {
  v_table : s_table s = table_after (table_history o);
  v_decoder : r_decoder (s_receiver s) = decoder_of (reads o);
  v_fresh : decoder_of (reads o) = DInitial -> r_open (s_receiver s) = true;
  v_valid : forall t, In (WText t) (reads o) -> utf8_valid t = true;
  v_poisoned : s_poisoned s = true -> task_ended s = true;
  v_closed : s_chan_closed s = true <-> In OChannelClosed o;
  v_progress : task_ended s = false ->
    exists ps rest, assembled (messages (reads o)) ps rest /\ progress_is (r_progress (s_receiver s)) rest
}.

Lemma table_after_app a b : table_after (a ++ b) = fold_left (fun c o => fst (do_op c o)) b (table_after a).
Proof. apply fold_left_app. Qed.
Lemma quiet_invariant s o s' o' : quiet s s' o' -> invariant s o -> invariant s' (o ++ o').
Proof.
  intros [Q1 Q2 Q3 Q4 Q5 Q6] [V1 V2 V3 V4 V5 V6 V7]. constructor.
  - rewrite table_history_app, table_after_app, <- V1. exact Q6.
  - rewrite reads_app, Q1, app_nil_r, Q2. exact V2.
  - rewrite reads_app, Q1, app_nil_r, Q2. exact V3.
  - rewrite reads_app, Q1, app_nil_r. exact V4.
  - intros H. apply Q4 in H as [H|H]; auto.
  - rewrite in_app_iff, Q5, V6. reflexivity.
  - rewrite reads_app, Q1, app_nil_r, Q2. intros H. apply V7. destruct (task_ended s); [|reflexivity].
    rewrite (Q3 eq_refl) in H. discriminate.
Qed.
