(** The channel, closing, connecting, and callbacks that block (C34-C37, C40). *)
From Verif Require Export SentProofs.

Lemma queued_app a b : queued (a ++ b) = queued a ++ queued b.
Proof. apply flat_map_app. Qed.
Lemma writes_app a b : writes (a ++ b) = writes a ++ writes b.
Proof. apply flat_map_app. Qed.
Lemma requests_sent n l : queued (requests n l) = [] /\ writes (requests n l) = [].
Proof. revert n. induction l as [|[b|f] l IH]; intros n; cbn [requests]; auto. apply IH. Qed.

(** ** The channel (C35, C36) *)
Definition pending (s : state) : list wsmsg := match s_phase s with PSending rest => rest | _ => [] end.
Record sent (s : state) (o : list obs) : Prop := Sent {
  n_running : task_ended s = false -> exists q1, queued o = q1 ++ s_chan s /\ writes o ++ pending s = concat q1;
  n_prefix : exists r, concat (queued o) = writes o ++ r
}.
(** Effect of a step on the channel. *)
Inductive channel_step (s s' : state) (o' : list obs) : Prop :=
| ch_nothing : queued o' = [] -> writes o' = [] -> s_chan s' = s_chan s -> pending s' = pending s -> task_ended s' = task_ended s -> channel_step s s' o'
| ch_push fs : queued o' = [fs] -> writes o' = [] -> s_chan s' = s_chan s ++ [fs] -> pending s' = pending s ->
    task_ended s = false -> task_ended s' = false -> channel_step s s' o'
| ch_end : writes o' = [] -> task_ended s' = true -> channel_step s s' o'
| ch_take fs : queued o' = [] -> writes o' = [] -> s_chan s = fs :: s_chan s' -> pending s = [] -> pending s' = fs ->
    task_ended s = false -> task_ended s' = false -> channel_step s s' o'
| ch_write m : queued o' = [] -> writes o' = [m] -> s_chan s' = s_chan s -> pending s = m :: pending s' ->
    task_ended s = false -> task_ended s' = false -> channel_step s s' o'.
Lemma sending_pending rest : match sending rest with PSending r => r | _ => [] end = rest.
Proof. destruct rest; reflexivity. Qed.
Lemma sending_running rest : match sending rest with PEnded _ => true | _ => false end = false.
Proof. destruct rest; reflexivity. Qed.
Lemma read_channel log s o m s' o' : trace log s o -> step log s (LRead m) = Some (s', o') -> channel_step s s' o'.
Proof.
  intros Ht H. pose proof H as H0. apply read_label in H as (b & Hp & Hw & H).
  assert (He : task_ended s = false) by (unfold task_ended; rewrite Hp; destruct b; reflexivity).
  assert (Hq : pending s = []) by (unfold pending; rewrite Hp; destruct b; reflexivity).
  clear H0 Hw. revert H. unfold read_step. cbv zeta. destruct (process_websocket_packet _ _ _ _ _) as [r c op q out]. cbn [pr_receiver pr_callbacks pr_open pr_queue pr_outcome].
  assert (Hpp : forall s1, s_phase s1 = s_phase s -> task_ended s1 = false /\ pending s1 = []).
  { intros s1 E. unfold task_ended, pending in *. rewrite E. auto. }
  destruct op; destruct q as [fs|]; unfold push; cbn [s_chan_closed task_ended s_phase set_open set_table set_receiver];
    try (destruct (s_chan_closed s || _) eqn:Ec); destruct out as [[u|e|]|p k]; intros [= <- <-].
  all: try (apply ch_nothing; try reflexivity; unfold pending, task_ended in *; cbn; rewrite ?Hp; destruct b; reflexivity).
  all: try (apply ch_end; reflexivity).
  all: try (eapply ch_push; try reflexivity; try exact He; unfold pending, task_ended in *; cbn; rewrite ?Hp; destruct b; reflexivity).
Qed.
Lemma other_channel log s o l s' o' : trace log s o -> (forall m, l <> LRead m) -> step log s l = Some (s', o') -> channel_step s s' o'.
Proof.
  intros Ht Hl H. pose proof (unborn _ _ _ Ht) as Hu.
  other_cases H Hl.
  all: try (apply ch_nothing; unfold pending, task_ended; cbn; rewrite ?queued_app, ?writes_app, ?(proj1 (requests_sent _ _)), ?(proj2 (requests_sent _ _)); reflexivity).
  all: try (apply ch_end; cbn; rewrite ?writes_app, ?(proj2 (requests_sent _ _)); reflexivity).
  all: try (match goal with E : (_ || _) = false |- _ => apply orb_false_iff in E as [_ E]; eapply ch_push; unfold pending, task_ended in *; cbn in *; rewrite ?queued_app, ?writes_app, ?(proj1 (requests_sent _ _)), ?(proj2 (requests_sent _ _)); try reflexivity; exact E end).
  all: try (apply ch_nothing; unfold pending, task_ended; cbn; rewrite ?queued_app, ?writes_app, ?(proj1 (requests_sent _ _)), ?(proj2 (requests_sent _ _)); try reflexivity;
    try (rewrite (Hu eq_refl); reflexivity); match goal with E : s_phase _ = _ |- _ => rewrite E; reflexivity end).
  - match goal with E : s_chan _ = ?x :: _ |- _ => apply (ch_take _ _ _ x) end; unfold pending, task_ended; cbn; try reflexivity; try eassumption; try (match goal with E : s_phase _ = _ |- _ => rewrite E; reflexivity end);
      [apply sending_pending|apply sending_running].
  - match goal with |- channel_step _ _ [OWrite ?x] => apply (ch_write _ _ _ x) end; unfold pending, task_ended; cbn; try reflexivity; try (rewrite sending_pending); try (match goal with E : s_phase _ = _ |- _ => rewrite E; reflexivity end).
    apply sending_running.
Qed.
Lemma trace_sent log s o : trace log s o -> sent s o.
Proof.
  revert s o. apply (trace_ind log sent).
  - constructor; [intros _; exists []; auto|exists []; reflexivity].
  - intros s o l s' o' Ht [H1 [r H2]] H.
    assert (Hc : channel_step s s' o').
    { assert (Hl : (exists m, l = LRead m) \/ forall m, l <> LRead m) by (destruct l; eauto; right; discriminate).
      destruct Hl as [[m ->]|Hl]; [eapply read_channel; eauto|eapply other_channel; eauto]. }
    assert (R : task_ended s' = false -> exists q1, queued (o ++ o') = q1 ++ s_chan s' /\ writes (o ++ o') ++ pending s' = concat q1).
    { intros He. rewrite queued_app, writes_app. destruct Hc as [Q W C P E|fs Q W C P E E'|W E|fs Q W C P P' E E'|m Q W C P E E'].
      - rewrite Q, W, C, P, !app_nil_r. apply H1. congruence.
      - destruct (H1 E) as (q1 & -> & Hw). exists q1. rewrite Q, W, C, P, app_nil_r, app_assoc. auto.
      - congruence.
      - destruct (H1 E) as (q1 & -> & Hw). exists (q1 ++ [fs]). rewrite Q, W, C, P', !app_nil_r, <- app_assoc. split; [reflexivity|].
        rewrite P, app_nil_r in Hw. rewrite concat_app, Hw. cbn. rewrite app_nil_r. reflexivity.
      - destruct (H1 E) as (q1 & -> & Hw). exists q1. rewrite Q, W, C, app_nil_r. split; [reflexivity|]. rewrite <- app_assoc. cbn. rewrite <- P. exact Hw. }
    constructor; [exact R|].
    destruct (task_ended s') eqn:He.
    + rewrite queued_app, writes_app, concat_app, H2.
      destruct Hc as [Q W C P E|fs Q W C P E E'|W E|fs Q W C P P' E E'|m Q W C P E E']; try congruence.
      * rewrite Q, W, !app_nil_r. exists r. reflexivity.
      * rewrite W, app_nil_r, <- app_assoc. eauto.
    + destruct (R eq_refl) as (q1 & -> & Hw). exists (pending s' ++ concat (s_chan s')). rewrite app_assoc, Hw. apply concat_app.
Qed.
(** C35 *)
Lemma frames_contiguous log s o : trace log s o -> exists r, concat (queued o) = writes o ++ r.
Proof. intros Ht. apply (n_prefix _ _ (trace_sent _ _ _ Ht)). Qed.
(** When the frame for closing goes out, whole packets have been written, and nothing will be. *)
Definition closing (s : state) : bool :=
  match s_phase s with PReading | PCalling true _ | PStuck | PEnded _ => true | _ => false end.
Lemma requests_no_write n l : Forall no_write (requests n l).
Proof. apply Forall_forall. intros x H. apply requests_form in H as [id ->]. exact I. Qed.

Lemma closing_step log s o l s' o' : trace log s o -> closing s = true -> step log s l = Some (s', o') ->
  closing s' = true /\ Forall no_write o'.
Proof.
  intros Ht Hc H. assert (Hl : (exists m, l = LRead m) \/ forall m, l <> LRead m) by (destruct l; eauto; right; discriminate).
  destruct Hl as [[m ->]|Hl].
  - destruct (reaction_exact _ _ _ _ _ _ Ht H) as (out & E & Hr). split.
    + apply read_label in H as (b & Hp & _ & H). unfold closing in Hc. rewrite Hp in Hc. destruct b; [|discriminate].
      apply read_step_fields in H as (_ & _ & _ & _ & _ & _ & _ & _ & _ & _ & _ & F). unfold closing.
      destruct (pr_outcome _) as [[u|e|]|p c]; rewrite F; try reflexivity. rewrite Hp. reflexivity.
    + rewrite E. constructor; [exact I|]. apply Forall_forall. intros x Hx. apply (read_out _ _ _ _ _ Hr) in Hx as [Hx|Hx]; [|subst; exact I].
      destruct x; cbn in *; auto.
  - pose proof (unborn _ _ _ Ht) as Hu. unfold closing in Hc. other_cases H Hl; unfold closing; cbn; try discriminate Hc.
    all: try (unfold closing in *; match goal with E : s_phase ?s = _ |- _ => rewrite E in *; discriminate end).
    all: split; [try reflexivity; try exact Hc|rewrite ?Forall_app; repeat split; repeat constructor; try (apply requests_no_write)].
    all: try (rewrite (Hu eq_refl) in Hc; discriminate).
    all: try (match goal with E : s_phase ?s = _ |- _ => rewrite E in *; try assumption; try discriminate; try reflexivity end).
Qed.
Lemma closing_execute log ls : forall s o s' o', trace log s o -> closing s = true ->
  execute log s ls = Some (s', o') -> closing s' = true /\ Forall no_write o'.
Proof.
  induction ls as [|l ls IH]; intros s o s' o' Ht He H; cbn [execute] in H.
  - injection H as <- <-. auto.
  - destruct (step log s l) as [[s1 o1]|] eqn:E1; [|discriminate]. destruct (execute log s1 ls) as [[s2 o2]|] eqn:E2; [|discriminate].
    injection H as <- <-. destruct (closing_step _ _ _ _ _ _ Ht He E1) as [H1 H2].
    destruct (IH _ _ _ _ (trace_step _ _ _ _ _ _ Ht E1) H1 E2) as [H3 H4]. split; [exact H3|]. apply Forall_app. auto.
Qed.
Lemma frame_label log s o l s' o' : trace log s o -> step log s l = Some (s', o') -> In OCloseFrame o' ->
  s_phase s = PClosing /\ s_phase s' = PReading /\ o' = [OCloseFrame].
Proof.
  intros Ht H Hi. assert (Hl : (exists m, l = LRead m) \/ forall m, l <> LRead m) by (destruct l; eauto; right; discriminate).
  destruct Hl as [[m ->]|Hl].
  - destruct (step_read _ _ _ _ _ _ Ht H) as [Hx _]. apply Hx in Hi as [[]|[=]].
  - other_cases H Hl; cbn in *; in_cases Hi. auto.
Qed.
(** The close frame is sent at most once; until then whole packets have been written, in the order
    in which they were queued; the rest of them never is. *)
Lemma close_frame log s o1 o2 : trace log s (o1 ++ OCloseFrame :: o2) ->
  (exists q1 q2, queued o1 = q1 ++ q2 /\ writes o1 = concat q1) /\ ~ In OCloseFrame o1 /\ Forall no_write o2.
Proof.
  intros Ht. destruct (trace_split _ _ _ _ _ _ Ht eq_refl) as (s0 & o0 & l & s1 & oa & ob & o3 & H1 & H2 & H3 & -> & -> & ls & Hls).
  destruct (frame_label _ _ _ _ _ _ H1 H2) as (P0 & P1 & E); [apply in_app_iff; cbn; auto|].
  assert (oa = [] /\ ob = []) as [-> ->] by (destruct oa; [injection E as ->; auto|destruct oa; discriminate]).
  rewrite app_nil_r. split; [|split].
  - destruct (n_running _ _ (trace_sent _ _ _ H1)) as (q1 & Q & W); [unfold task_ended; rewrite P0; reflexivity|].
    exists q1, (s_chan s0). split; [exact Q|]. unfold pending in W. rewrite P0, app_nil_r in W. exact W.
  - intros Hi. apply in_split in Hi as (x & y & ->).
    destruct (trace_split _ _ _ _ _ _ H1 eq_refl) as (t0 & p0 & k & t1 & pa & pb & p3 & K1 & K2 & K3 & -> & -> & ks & Hks).
    destruct (frame_label _ _ _ _ _ _ K1 K2) as (R0 & R1 & E'); [apply in_app_iff; cbn; auto|].
    assert (closing t1 = true) by (unfold closing; rewrite R1; reflexivity).
    destruct (closing_execute _ _ _ _ _ _ K3 H Hks) as [Q _]. unfold closing in Q. rewrite P0 in Q. discriminate.
  - cbn [app]. refine (proj2 (closing_execute _ _ _ _ _ _ H3 _ Hls)). unfold closing. rewrite P1. reflexivity.
Qed.

(** ** Calls of close (C37) *)
Ltac no_in := let Hi := fresh in intros Hi; in_cases Hi; try discriminate Hi.
Lemma handle_step log s o l s' o' : trace log s o -> step log s l = Some (s', o') ->
  (In OCloseCalled o' -> s_handle s = HHeld /\ s_handle s' = HClosing /\ o' = [OCloseCalled]) /\
  (forall r, In (OClose r) o' -> o' = [OClose r] /\
     ((r = CloseAlready /\ s_handle s <> HHeld /\ s' = s) \/
      (r <> CloseAlready /\ s_handle s = HClosing /\ s_handle s' = HGone))) /\
  (s_handle s' = HHeld -> s_handle s = HHeld) /\
  (s_handle s' = HClosing -> s_handle s = HClosing \/ o' = [OCloseCalled]).
Proof.
  intros Ht H. assert (Hl : (exists m, l = LRead m) \/ forall m, l <> LRead m) by (destruct l; eauto; right; discriminate).
  destruct Hl as [[m ->]|Hl].
  - destruct (step_read _ _ _ _ _ _ Ht H) as (Hx & _ & _ & Hh & _). rewrite Hh.
    split; [intros Hi; apply Hx in Hi as [[]|[=]]|]. split; [intros r Hi; apply Hx in Hi as [[]|[=]]|]. auto.
  - other_cases H Hl; cbn.
    all: split; [try (no_in; fail)|split; [try (intros ?; no_in; fail)|split; [try discriminate; auto|try discriminate; auto]]].
    all: try (intros _; auto; fail).
    all: try (intros r Hi; in_cases Hi; injection Hi as <-; split; [reflexivity|]; first [left; split; [reflexivity|]; split; [|reflexivity]; congruence|right; split; [discriminate|auto]]).
    all: intros; congruence.
Qed.
Record handled (s : state) (o : list obs) : Prop := Handled {
  h_held : s_handle s = HHeld -> ~ In OCloseCalled o /\ forall r, ~ In (OClose r) o;
  h_closing : s_handle s = HClosing -> In OCloseCalled o /\ forall r, In (OClose r) o -> r = CloseAlready;
  h_result : forall r, In (OClose r) o -> r <> CloseAlready -> In OCloseCalled o
}.
Lemma trace_handled log s o : trace log s o -> handled s o.
Proof.
  revert s o. apply (trace_ind log handled).
  - constructor; [intros _; split; [intros []|intros r []]|discriminate|intros r []].
  - intros s o l s' o' Ht [H1 H2 H3] H. destruct (handle_step _ _ _ _ _ _ Ht H) as (S1 & S2 & S3 & S4). constructor.
    + intros Hs. specialize (S3 Hs). destruct (H1 S3) as [A B]. split.
      * rewrite in_app_iff. intros [Hi|Hi]; [auto|]. apply S1 in Hi as (_ & Hi & _). congruence.
      * intros r. rewrite in_app_iff. intros [Hi|Hi]; [eapply B; eauto|]. apply S2 in Hi as (_ & [(_ & Hi & _)|(_ & Hi & _)]); congruence.
    + intros Hs. destruct (S4 Hs) as [Hc| ->].
      * destruct (H2 Hc) as [A B]. split; [apply in_app_iff; auto|]. intros r. rewrite in_app_iff. intros [Hi|Hi]; [auto|].
        apply S2 in Hi as (_ & [(Hi & _)|(_ & _ & Hi)]); congruence.
      * destruct (S1 (or_introl eq_refl)) as (Hh & _). destruct (H1 Hh) as [A B]. split; [apply in_app_iff; cbn; auto|].
        intros r. rewrite in_app_iff. intros [Hi|[Hi|[]]]; [destruct (B _ Hi)|discriminate].
    + intros r. rewrite !in_app_iff. intros [Hi|Hi] Hn; [left; eauto|]. left. apply S2 in Hi as (_ & [(Hi & _)|(_ & Hi & _)]); [congruence|]. apply (H2 Hi).
Qed.
Lemma not_held_execute log ls : forall s o s' o', trace log s o -> s_handle s <> HHeld ->
  execute log s ls = Some (s', o') -> s_handle s' <> HHeld /\ ~ In OCloseCalled o'.
Proof.
  induction ls as [|l ls IH]; intros s o s' o' Ht He H; cbn [execute] in H.
  - injection H as <- <-. auto.
  - destruct (step log s l) as [[s1 o1]|] eqn:E1; [|discriminate]. destruct (execute log s1 ls) as [[s2 o2]|] eqn:E2; [|discriminate].
    injection H as <- <-. destruct (handle_step _ _ _ _ _ _ Ht E1) as (S1 & _ & S3 & _).
    destruct (IH _ _ _ _ (trace_step _ _ _ _ _ _ Ht E1) (fun Q => He (S3 Q)) E2) as [H3 H4].
    split; [exact H3|]. rewrite in_app_iff. intros [Hi|Hi]; [|auto]. apply S1 in Hi as [Hi _]. auto.
Qed.
Lemma gone_execute log ls : forall s o s' o', trace log s o -> s_handle s = HGone ->
  execute log s ls = Some (s', o') -> s_handle s' = HGone /\ forall r, In (OClose r) o' -> r = CloseAlready.
Proof.
  induction ls as [|l ls IH]; intros s o s' o' Ht He H; cbn [execute] in H.
  - injection H as <- <-. split; [auto|intros r []].
  - destruct (step log s l) as [[s1 o1]|] eqn:E1; [|discriminate]. destruct (execute log s1 ls) as [[s2 o2]|] eqn:E2; [|discriminate].
    injection H as <- <-. destruct (handle_step _ _ _ _ _ _ Ht E1) as (S1 & S2 & S3 & S4).
    assert (Hg : s_handle s1 = HGone).
    { destruct (s_handle s1) eqn:E; [specialize (S3 eq_refl); congruence| |reflexivity].
      destruct (S4 eq_refl) as [Q| ->]; [congruence|]. destruct (S1 (or_introl eq_refl)). congruence. }
    destruct (IH _ _ _ _ (trace_step _ _ _ _ _ _ Ht E1) Hg E2) as [H3 H4].
    split; [exact H3|]. intros r. rewrite in_app_iff. intros [Hi|Hi]; [|auto]. apply S2 in Hi as (_ & [(Hi & _)|(_ & Hi & _)]); congruence.
Qed.
Lemma close_called_once log s o1 o2 : trace log s (o1 ++ OCloseCalled :: o2) ->
  ~ In OCloseCalled o1 /\ ~ In OCloseCalled o2 /\ forall r, ~ In (OClose r) o1.
Proof.
  intros Ht. destruct (trace_split _ _ _ _ _ _ Ht eq_refl) as (s0 & o0 & l & s1 & oa & ob & o3 & H1 & H2 & H3 & -> & -> & ls & Hls).
  destruct (handle_step _ _ _ _ _ _ H1 H2) as (S1 & _). destruct S1 as (P0 & P1 & E); [apply in_app_iff; cbn; auto|].
  assert (oa = [] /\ ob = []) as [-> ->] by (destruct oa; [injection E as ->; auto|destruct oa; discriminate]).
  rewrite app_nil_r. destruct (h_held _ _ (trace_handled _ _ _ H1) P0) as [A B]. split; [exact A|]. split; [|exact B].
  cbn [app]. refine (proj2 (not_held_execute _ _ _ _ _ _ H3 _ Hls)). congruence.
Qed.
Lemma close_result_once log s o1 r o2 : trace log s (o1 ++ OClose r :: o2) -> r <> CloseAlready ->
  In OCloseCalled o1 /\ (forall r', In (OClose r') o1 \/ In (OClose r') o2 -> r' = CloseAlready).
Proof.
  intros Ht Hn. destruct (trace_split _ _ _ _ _ _ Ht eq_refl) as (s0 & o0 & l & s1 & oa & ob & o3 & H1 & H2 & H3 & -> & -> & ls & Hls).
  destruct (handle_step _ _ _ _ _ _ H1 H2) as (_ & S2 & _). destruct (S2 r) as (E & [(Q & _)|(_ & P0 & P1)]); [apply in_app_iff; cbn; auto|congruence|].
  assert (oa = [] /\ ob = []) as [-> ->] by (destruct oa; [injection E as ->; auto|destruct oa; discriminate]).
  rewrite app_nil_r. destruct (h_closing _ _ (trace_handled _ _ _ H1) P0) as [A B]. split; [exact A|].
  intros r' [Hi|Hi]; [auto|]. exact (proj2 (gone_execute _ _ _ _ _ _ H3 P1 Hls) _ Hi).
Qed.
Lemma close_again log s o : trace log s o -> usable_client s = true -> In OCloseCalled o ->
  step log s LCloseCall = Some (s, [OClose CloseAlready]).
Proof.
  intros Ht Hu Hi. cbn [step]. rewrite Hu. destruct (s_handle s) eqn:E; try reflexivity.
  destruct (h_held _ _ (trace_handled _ _ _ Ht) E) as [A _]. contradiction.
Qed.
(** The result of close is how the task ended. *)
Lemma close_reports log s o1 r o2 : trace log s (o1 ++ OClose r :: o2) ->
  match r with
  | CloseOk => In (OEnd EndOk) o1
  | ClosePanic => In (OEnd EndPanic) o1 \/ In (OEnd EndAborted) o1
  | CloseErr e => In (OEnd e) o1 /\ e <> EndOk /\ e <> EndPanic /\ e <> EndAborted
  | CloseTimeout | CloseAlready => True
  end.
Proof.
  intros Ht. destruct (trace_split _ _ _ _ _ _ Ht eq_refl) as (s0 & o0 & l & s1 & oa & ob & o3 & H1 & H2 & H3 & -> & -> & ls & Hls).
  pose proof (trace_ended _ _ _ H1) as He.
  assert (Hl : forall m, l <> LRead m).
  { intros m ->. destruct (step_read _ _ _ _ _ _ H1 H2) as [Hx _]. specialize (Hx (OClose r)). destruct Hx as [[]|[=]]. apply in_app_iff. cbn. auto. }
  assert (Hi : In (OClose r) (oa ++ OClose r :: ob)) by (apply in_app_iff; cbn; auto).
  remember (oa ++ OClose r :: ob) as oo eqn:Eo. clear H3.
  assert (K : match r with
  | CloseOk => In (OEnd EndOk) o0
  | ClosePanic => In (OEnd EndPanic) o0 \/ In (OEnd EndAborted) o0
  | CloseErr e => In (OEnd e) o0 /\ e <> EndOk /\ e <> EndPanic /\ e <> EndAborted
  | CloseTimeout | CloseAlready => True
  end).
  { other_cases H2 Hl; cbn in *; in_cases Hi; injection Hi as <-; first [exact I|apply He; congruence|left; apply He; congruence|right; apply He; congruence|split; [apply He; congruence|]; split; [discriminate|]; split; discriminate]. }
  destruct r; try exact I; rewrite ?in_app_iff; intuition auto.
Qed.

(** ** Connecting (C40) *)
Record opening (s : state) (o : list obs) : Prop := Opening {
  p_open : forall x, s_open s = Some x -> In (OOpened x) o;
  p_none : s_open s = None -> forall x, ~ In (OOpened x) o;
  p_conn : forall c, In (OConnect c) o -> s_conn s = c;
  p_early : s_conn s = CHandshake \/ s_conn s = COpening -> forall c, ~ In (OConnect c) o
}.
Lemma conn_step log s o l s' o' : trace log s o -> (forall m, l <> LRead m) -> step log s l = Some (s', o') ->
  s_open s' = s_open s /\ (forall x, ~ In (OOpened x) o') /\
  ((s_conn s' = s_conn s /\ forall c, ~ In (OConnect c) o') \/
   (s_conn s = CHandshake /\ s_conn s' = COpening /\ o' = []) \/
   ((s_conn s = CHandshake \/ s_conn s = COpening) /\ o' = [OConnect (s_conn s')] /\ s_conn s' <> CHandshake /\ s_conn s' <> COpening /\
    (s_conn s' = CPanicked -> s_conn s = COpening /\ s_open s = None /\ task_ended s = true) /\
    (forall sid, s_conn s' = CConnected sid -> exists x, s_open s = Some x /\ sid = o_sid x))).
Proof.
  intros Ht Hl H. other_cases H Hl; cbn.
  all: split; [try reflexivity; auto|]; split; [intros ? Hi; in_cases Hi|].
  all: try (left; split; [reflexivity|]; intros ? Hi; in_cases Hi; fail).
  all: right.
  all: try (left; auto; fail).
  all: right; split; [auto|]; split; [reflexivity|]; split; [discriminate|]; split; [discriminate|].
  all: split; [try discriminate; auto|try discriminate].
  intros sid [= <-]. eauto.
Qed.
Lemma reaction_open log o m out x : reaction log o m out -> In (OOpened x) out -> out = [OOpened x].
Proof.
  intros [| | | | | | |y out' _ _ H] Hi; try (destruct H as [ps p out2 _ _ H| | | |]; try destruct H);
    repeat (destruct Hi as [Hi|Hi]); try contradiction; try discriminate Hi. injection Hi as <-. reflexivity.
Qed.
Lemma trace_opening log s o : trace log s o -> opening s o.
Proof.
  revert s o. apply (trace_ind2 log opening).
  - constructor; cbn; try discriminate; try (intros ? []); auto.
  - intros s o m s' o' Ht [H1 H2 H3 H4] H. destruct (step_read _ _ _ _ _ _ Ht H) as (Hx & _ & _ & _ & _ & Hc & _).
    destruct (reaction_exact _ _ _ _ _ _ Ht H) as (out & E & Hr).
    assert (Ho : match out with [OOpened x] => s_open s' = Some x | _ => s_open s' = s_open s /\ forall x, ~ In (OOpened x) out end).
    { apply read_label in H as (b & Hp & _ & H). pose proof (read_step_obs log b m s) as Ho. rewrite H in Ho. cbn [snd] in Ho.
      apply read_step_fields in H as (_ & _ & _ & _ & _ & _ & _ & _ & _ & _ & F & _). rewrite E in Ho. injection Ho as Ho. clear E.
      destruct (pr_open _) as [y|].
      - assert (Hi : In (OOpened y) out) by (rewrite Ho; apply in_app_iff; cbn; auto).
        rewrite (reaction_open _ _ _ _ _ Hr Hi). exact F.
      - assert (Hn : forall x, ~ In (OOpened x) out).
        { intros x Hi. rewrite Ho in Hi. cbn [app] in Hi. apply in_app_iff in Hi as [Hi|Hi].
          - destruct (pr_queue _); [destruct (_ || _)|]; repeat (destruct Hi as [Hi|Hi]); try discriminate; destruct Hi.
          - destruct (pr_outcome _) as [[u|e|]|p c]; repeat (destruct Hi as [Hi|Hi]); try discriminate; destruct Hi. }
        destruct out as [|[] [|]]; auto. destruct (Hn o0). left. reflexivity. }
    assert (Hc' : forall c, ~ In (OConnect c) o') by (intros c Hi; apply Hx in Hi as [[]|[=]]).
    constructor.
    + intros x Hs. apply in_app_iff. destruct out as [|[] [|]]; try (destruct Ho as [Ho _]; left; apply H1; congruence).
      right. rewrite E. right. left. congruence.
    + intros Hs x. rewrite in_app_iff. intros [Hi|Hi].
      * destruct out as [|[] [|]]; try (destruct Ho as [Ho _]; eapply H2; [|exact Hi]; congruence). congruence.
      * rewrite E in Hi. destruct Hi as [Hi|Hi]; [discriminate|]. rewrite (reaction_open _ _ _ _ _ Hr Hi) in Ho. congruence.
    + intros c. rewrite in_app_iff, Hc. intros [Hi|Hi]; [auto|]. destruct (Hc' _ Hi).
    + rewrite Hc. intros Q c. rewrite in_app_iff. intros [Hi|Hi]; [exact (H4 Q c Hi)|exact (Hc' _ Hi)].
  - intros s o l s' o' Ht [H1 H2 H3 H4] Hl H.
    destruct (conn_step _ _ _ _ _ _ Ht Hl H) as (Eo & No & Hc). constructor.
    + rewrite Eo. intros x Hs. apply in_app_iff. auto.
    + rewrite Eo. intros Hs x. rewrite in_app_iff. intros [Hi|Hi]; [exact (H2 Hs x Hi)|exact (No x Hi)].
    + intros c. rewrite in_app_iff. destruct Hc as [(-> & Hn)|[(Es & -> & ->)|(Es & -> & _)]].
      * intros [Hi|Hi]; [auto|destruct (Hn _ Hi)].
      * intros [Hi|[]]. destruct (H4 (or_introl Es) _ Hi).
      * intros [Hi|[Hi|[]]]; [|congruence]. destruct (H4 Es _ Hi).
    + destruct Hc as [(-> & Hn)|[(Es & -> & ->)|(Es & _ & N1 & N2 & _)]].
      * intros Q c. rewrite in_app_iff. intros [Hi|Hi]; [exact (H4 Q c Hi)|exact (Hn _ Hi)].
      * intros _ c. rewrite app_nil_r. apply H4. auto.
      * intros [Q|Q]; congruence.
Qed.
Lemma connect_panics log s o1 o2 : trace log s (o1 ++ OConnect CPanicked :: o2) ->
  (exists e, In (OEnd e) o1) /\ (forall x, ~ In (OOpened x) o1).
Proof.
  intros Ht. destruct (trace_split _ _ _ _ _ _ Ht eq_refl) as (s0 & o0 & l & s1 & oa & ob & o3 & H1 & H2 & H3 & -> & -> & ls & Hls).
  assert (Hl : forall m, l <> LRead m).
  { intros m ->. destruct (step_read _ _ _ _ _ _ H1 H2) as [Hx _]. destruct (Hx (OConnect CPanicked)) as [[]|[=]]. apply in_app_iff. cbn. auto. }
  destruct (conn_step _ _ _ _ _ _ H1 Hl H2) as (Eo & No & Hc).
  assert (Hi : In (OConnect CPanicked) (oa ++ OConnect CPanicked :: ob)) by (apply in_app_iff; cbn; auto).
  destruct Hc as [(_ & Hn)|[(_ & _ & E)|(Es & E & _ & _ & Hp & _)]]; [destruct (Hn _ Hi)|destruct oa; discriminate|].
  rewrite E in Hi. destruct Hi as [Hi|[]]. injection Hi as Hi. destruct (Hp Hi) as (_ & Hn & He).
  assert (oa = []) as -> by (destruct oa as [|? [|]]; [reflexivity|discriminate|discriminate]). rewrite app_nil_r.
  split; [apply (ended_iff _ _ _ H1); exact He|]. apply (p_none _ _ (trace_opening _ _ _ H1) Hn).
Qed.
Lemma connect_panics_when log s o : trace log s o -> s_conn s = COpening ->
  (exists e, In (OEnd e) o) -> (forall x, ~ In (OOpened x) o) ->
  exists s', step log s LOpenSeen = Some (s', [OConnect CPanicked]).
Proof.
  intros Ht Hc He Hn. cbn [step]. rewrite Hc. destruct (s_open s) as [x|] eqn:E.
  - destruct (Hn x). apply (p_open _ _ (trace_opening _ _ _ Ht) _ E).
  - apply (ended_iff _ _ _ Ht) in He. rewrite He. eauto.
Qed.
Lemma connected_sid log s o1 sid o2 : trace log s (o1 ++ OConnect (CConnected sid) :: o2) ->
  exists x, In (OOpened x) o1 /\ sid = o_sid x.
Proof.
  intros Ht. destruct (trace_split _ _ _ _ _ _ Ht eq_refl) as (s0 & o0 & l & s1 & oa & ob & o3 & H1 & H2 & H3 & -> & -> & ls & Hls).
  assert (Hl : forall m, l <> LRead m).
  { intros m ->. destruct (step_read _ _ _ _ _ _ H1 H2) as [Hx _]. destruct (Hx (OConnect (CConnected sid))) as [[]|[=]]. apply in_app_iff. cbn. auto. }
  destruct (conn_step _ _ _ _ _ _ H1 Hl H2) as (Eo & No & Hc).
  assert (Hi : In (OConnect (CConnected sid)) (oa ++ OConnect (CConnected sid) :: ob)) by (apply in_app_iff; cbn; auto).
  destruct Hc as [(_ & Hn)|[(_ & _ & E)|(Es & E & _ & _ & _ & Hp)]]; [destruct (Hn _ Hi)|destruct oa; discriminate|].
  rewrite E in Hi. destruct Hi as [Hi|[]]. injection Hi as Hi. destruct (Hp sid Hi) as (x & Ex & ->).
  exists x. split; [|reflexivity]. apply in_app_iff. left. apply (p_open _ _ (trace_opening _ _ _ H1) _ Ex).
Qed.

(** ** Blocking callbacks (C34) *)
Lemma builder_choice l : forall n e n' e', builder_calls n e l = (n', e') ->
  eb_event e' = eb_event e /\ eb_ns e' = eb_ns e /\
  eb_binary e' = match chosen_binary l with Some b => b | None => eb_binary e end /\
  eb_callback e' = match chosen_callback l, chosen_id n l with Some f, Some k => Some (f, k) | _, _ => eb_callback e end /\
  (chosen_callback l = None <-> chosen_id n l = None).
Proof.
  induction l as [|[b|f] l IH]; intros n e n' e'; cbn [builder_calls chosen_binary chosen_callback chosen_id].
  - intros [= _ <-]. repeat split; auto.
  - intros H. apply IH in H as (H1 & H2 & H3 & H4 & H5). cbn [event_binary eb_event eb_ns eb_binary eb_callback] in *.
    repeat split; auto; try apply H5. rewrite H3. destruct (chosen_binary l); reflexivity.
  - unfold event_callback. intros H. apply IH in H as (H1 & H2 & H3 & H4 & H5). cbn [eb_event eb_ns eb_binary eb_callback] in *.
    change (next_u64 n) with ((n + 1) mod 2 ^ 64)%N in *.
    split; [exact H1|]. split; [exact H2|]. split; [exact H3|]. rewrite H4.
    destruct (chosen_callback l), (chosen_id _ l); try (split; [reflexivity|]; split; discriminate);
      exfalso; destruct H5 as [H5 H6]; [discriminate (H6 eq_refl)|discriminate (H5 eq_refl)].
Qed.
Lemma emission_choice s e n b : emission_builder s e = (n, b) ->
  eb_event b = em_event e /\ eb_ns b = em_ns e /\
  eb_binary b = match chosen_binary (em_calls e) with Some x => x | None => false end /\
  eb_callback b = match chosen_callback (em_calls e), chosen_id (s_next_id s) (em_calls e) with Some f, Some k => Some (f, k) | _, _ => None end /\
  (chosen_callback (em_calls e) = None <-> chosen_id (s_next_id s) (em_calls e) = None).
Proof. intros H. apply builder_choice in H. exact H. Qed.

(** Exactly when a callback blocks. *)
Lemma blocked_exact log s o l s' o' : trace log s o -> step log s l = Some (s', o') ->
  (In OBlocked o' <-> (exists c k, s_phase s = PCalling c k) /\
    ((exists op, l = LCbTable op) \/ (exists e f, l = LCbEmit e /\ chosen_callback (em_calls e) = Some f))).
Proof.
  intros Ht H. assert (Hl : (exists m, l = LRead m) \/ forall m, l <> LRead m) by (destruct l; eauto; right; discriminate).
  destruct Hl as [[m ->]|Hl].
  - split.
    + intros Hi. destruct (step_read _ _ _ _ _ _ Ht H) as [Hx _]. apply Hx in Hi as [[]|[=]].
    + intros [_ [[op Q]|(e & f & Q & _)]]; discriminate.
  - assert (NA : forall e args, event_packets e args <> None) by (intros a args; rewrite event_packets_build; apply build_no_panic).
    assert (C : forall e n b, emission_builder s e = (n, b) -> eb_callback b = None <-> chosen_callback (em_calls e) = None).
    { intros e n b E. apply emission_choice in E as (_ & _ & _ & E & Hi). rewrite E.
      destruct (chosen_callback _), (chosen_id _ _); split; intros; try discriminate; try reflexivity; destruct Hi as [Hi Hj]; try discriminate (Hi eq_refl); try discriminate (Hj eq_refl). }
    other_cases H Hl; cbn.
    all: try (destruct (NA _ _ ltac:(eassumption))).
    all: try (split; [no_in|intros [_ [[op Q]|(e' & f & Q & _)]]; discriminate Q]; fail).
    + split; [|auto]. intros _. split; [eauto|left; eauto].
    + split; [|intros _; apply in_app_iff; cbn; auto]. intros _. split; [eauto|right].
      match goal with E : emission_builder _ ?e = _, E2 : eb_callback _ = Some _ |- _ => apply C in E; exists e; destruct (chosen_callback (em_calls e)) as [f|] end; [eauto|].
      exfalso. match goal with E : _ <-> _, E2 : eb_callback _ = Some _ |- _ => destruct E as [_ E]; rewrite E2 in E; discriminate (E eq_refl) end.
    + split; [no_in|]. intros [_ [[op Q]|(e' & f & Q & Hf)]]; [discriminate|]. injection Q as <-.
      match goal with E : emission_builder _ ?e = _, E2 : eb_callback _ = None |- _ => apply C in E; apply E in E2; congruence end.
    + split; [no_in|]. intros [_ [[op Q]|(e' & f & Q & Hf)]]; [discriminate|]. injection Q as <-.
      match goal with E : emission_builder _ ?e = _, E2 : eb_callback _ = None |- _ => apply C in E; apply E in E2; congruence end.
Qed.
Lemma requests_while n l : Forall while_blocked (requests n l).
Proof. apply Forall_forall. intros x H. apply requests_form in H as [id ->]. exact I. Qed.
Lemma stuck_step log s o l s' o' : trace log s o -> s_phase s = PStuck -> step log s l = Some (s', o') ->
  s_phase s' = PStuck /\ Forall while_blocked o'.
Proof.
  intros Ht Hp H.
  assert (Hl : forall m, l <> LRead m).
  { intros m ->. apply read_label in H as (b & Hb & _). rewrite Hp in Hb. destruct b; discriminate. }
  assert (Hpo : s_poisoned s = false).
  { destruct (s_poisoned s) eqn:E; [|reflexivity]. apply (v_poisoned _ _ (trace_invariant _ _ _ Ht)) in E. unfold task_ended in E. rewrite Hp in E. discriminate. }
  assert (Hlk : locked s = true) by (unfold locked; rewrite Hp; reflexivity).
  pose proof (unborn _ _ _ Ht) as Hu.
  other_cases H Hl; cbn.
  all: try congruence.
  all: try (specialize (Hu eq_refl); congruence).
  all: split; [first [exact Hp|congruence]|rewrite ?Forall_app; repeat match goal with |- _ /\ _ => split | |- Forall _ (requests _ _) => apply requests_while | |- Forall _ [] => constructor | |- Forall _ (_ :: _) => constructor end; cbn; auto; try congruence].
Qed.
Lemma blocked_forever log s o1 o2 : trace log s (o1 ++ OBlocked :: o2) -> s_phase s = PStuck /\ Forall while_blocked o2.
Proof.
  intros Ht. destruct (trace_split _ _ _ _ _ _ Ht eq_refl) as (s0 & o0 & l & s1 & oa & ob & o3 & H1 & H2 & H3 & -> & -> & ls & Hls).
  assert (K : s_phase s1 = PStuck /\ ob = []).
  { assert (Hl : forall m, l <> LRead m).
    { intros m ->. destruct (step_read _ _ _ _ _ _ H1 H2) as [Hx _]. destruct (Hx OBlocked) as [[]|[=]]. apply in_app_iff. cbn. auto. }
    assert (Hi : In OBlocked (oa ++ OBlocked :: ob)) by (apply in_app_iff; cbn; auto).
    remember (oa ++ OBlocked :: ob) as oo eqn:Eo. clear H3 Hls.
    assert (Hlast : forall l1 l2 : list obs, ~ In OBlocked l1 -> l1 ++ [OBlocked] = l2 ++ OBlocked :: ob -> ob = []).
    { clear. intros l1. induction l1 as [|x l1 IH]; intros [|y l2] Hn E; cbn [app] in E.
      - injection E as E. auto.
      - injection E as _ E. destruct l2; discriminate.
      - injection E as E _. subst. destruct Hn. left. reflexivity.
      - injection E as _ E. eapply IH; [|exact E]. intros Hi. apply Hn. right. exact Hi. }
    other_cases H2 Hl; cbn in *; in_cases Hi; split; try reflexivity.
    - apply (Hlast [] oa); [intros []|exact Eo].
    - apply (Hlast _ oa) in Eo; [exact Eo|]. intros Hi2. apply requests_in in Hi2 as [? [=]]. }
  destruct K as [K ->]. cbn [app].
  assert (G : forall ls s o s' o', trace log s o -> s_phase s = PStuck -> execute log s ls = Some (s', o') -> s_phase s' = PStuck /\ Forall while_blocked o').
  { clear. induction ls as [|l ls IH]; intros s o s' o' Ht He H; cbn [execute] in H.
    - injection H as <- <-. auto.
    - destruct (step log s l) as [[s1 o1]|] eqn:E1; [|discriminate]. destruct (execute log s1 ls) as [[s2 o2]|] eqn:E2; [|discriminate].
      injection H as <- <-. destruct (stuck_step _ _ _ _ _ _ Ht He E1) as [H1 H2].
      destruct (IH _ _ _ _ (trace_step _ _ _ _ _ _ Ht E1) H1 E2) as [H3 H4]. split; [exact H3|]. apply Forall_app. auto. }
  exact (G _ _ _ _ _ H3 K Hls).
Qed.

(** ** Emission: what is queued *)
Lemma push_result log s o og fs s1 s' o' : trace log s o -> s_chan_closed s1 = s_chan_closed s -> task_ended s1 = task_ended s ->
  push og fs s1 = (s', o') -> o' = [OQueued og fs] /\ ~ lost_reason o \/ o' = [OLost og fs] /\ lost_reason o.
Proof.
  intros Ht E1 E2 H. unfold push in H. rewrite E1, E2 in H. unfold lost_reason.
  rewrite <- (v_closed _ _ (trace_invariant _ _ _ Ht)), <- (ended_iff _ _ _ Ht).
  destruct (s_chan_closed s), (task_ended s); injection H as <- <-; intuition discriminate.
Qed.
Lemma emit_step log s o l e s' o' : trace log s o -> l = LEmit e \/ l = LCbEmit e -> step log s l = Some (s', o') ->
  match chosen_callback (em_calls e) with
  | None => exists fs, build (OfEvent (em_event e) None) (em_ns e) (binary_or_not (em_calls e)) (em_args e) = Some fs /\
      (o' = [OQueued (ByEmit (em_ns e) None) fs] /\ ~ lost_reason o \/ o' = [OLost (ByEmit (em_ns e) None) fs] /\ lost_reason o)
  | Some f => exists id fs, chosen_id (s_next_id s) (em_calls e) = Some id /\
      build (OfEvent (em_event e) (Some id)) (em_ns e) (binary_or_not (em_calls e)) (em_args e) = Some fs /\
      In (ORequest id) o' /\
      (l = LEmit e -> s_inflight s' = s_inflight s ++ [Inflight (em_ns e) id f false fs]) /\
      (l = LCbEmit e -> In OBlocked o')
  end.
Proof.
  intros Ht Hl H.
  assert (RN : forall l n, chosen_callback l = None -> requests n l = []).
  { induction l0 as [|[b|f] l0 IH]; intros n E; cbn in *; auto. destruct (chosen_callback l0); discriminate. }
  assert (RS : forall l n k, chosen_id n l = Some k -> In (ORequest k) (requests n l)).
  { induction l0 as [|[b|f] l0 IH]; intros n k; cbn [chosen_id requests In]; [discriminate|apply IH|].
    change ((n + 1) mod 2 ^ 64)%N with (next_u64 n). destruct (chosen_id (next_u64 n) l0) eqn:Ec; intros [= <-]; auto. }
  destruct (emission_builder s e) as [n b] eqn:Eb.
  destruct (emission_choice _ _ _ _ Eb) as (C1 & C2 & C3 & C4 & C5).
  pose proof (event_packets_build b (em_args e)) as Bd. rewrite C1, C2, C3 in Bd. fold (binary_or_not (em_calls e)) in Bd.
  destruct (chosen_callback (em_calls e)) as [f|] eqn:Ef.
  - destruct (chosen_id (s_next_id s) (em_calls e)) as [id|] eqn:Ei; [|destruct C5 as [_ C5]; discriminate (C5 eq_refl)].
    rewrite C4 in Bd. cbn [option_map snd] in Bd. exists id.
    destruct (build (OfEvent (em_event e) (Some id)) (em_ns e) _ (em_args e)) as [fs|] eqn:Ebd; [|destruct (build_no_panic _ _ _ _ Ebd)].
    exists fs. split; [reflexivity|]. split; [reflexivity|].
    destruct Hl as [-> | ->]; cbn [step] in H.
    + destruct (usable_client s); [|discriminate]. rewrite Eb, Bd, C4 in H. injection H as <- <-. split; [apply RS; exact Ei|]. split; [|discriminate].
      intros _. cbn. rewrite C2. reflexivity.
    + destruct (s_phase s); try discriminate. destruct (usable_client s); [|discriminate]. rewrite Eb, Bd, C4 in H. injection H as <- <-.
      split; [apply in_app_iff; left; apply RS; exact Ei|]. split; [discriminate|]. intros _. apply in_app_iff. cbn. auto.
  - rewrite C4 in Bd. cbn [option_map] in Bd.
    destruct (build (OfEvent (em_event e) None) (em_ns e) _ (em_args e)) as [fs|] eqn:Ebd; [|destruct (build_no_panic _ _ _ _ Ebd)].
    exists fs. split; [reflexivity|].
    assert (K : exists s1, push (emit_origin b) fs s1 = (s', o') /\ s_chan_closed s1 = s_chan_closed s /\ task_ended s1 = task_ended s).
    { exists (set_next_id n s). split; [|split; reflexivity]. destruct Hl as [-> | ->]; cbn [step] in H.
      - destruct (usable_client s); [|discriminate]. rewrite Eb, Bd, C4, (RN _ _ Ef) in H.
        destruct (push _ fs (set_next_id n s)) as [s2 o2] eqn:Ep. injection H as <- <-. reflexivity.
      - destruct (s_phase s); try discriminate. destruct (usable_client s); [|discriminate]. rewrite Eb, Bd, C4, (RN _ _ Ef) in H.
        destruct (push _ fs (set_next_id n s)) as [s2 o2] eqn:Ep. injection H as <- <-. reflexivity. }
    destruct K as (s1 & K1 & K2 & K3). unfold emit_origin in K1. rewrite C2, C4 in K1. cbn [option_map] in K1. eapply push_result; eauto.
Qed.

(** ** Witnesses *)
Definition opened_run : list label := [LHandshake None; LRead sample_open; LOpenSeen].
Definition blocking_run : list label := opened_run ++
  [LTable (SetEvent (bs "/") (bs "news") 7%N); LRead (WText (bs "42[""news"",1]")); LCbTable (ClearFallback (bs "/"))].
Lemma run_trace log ls s o : execute log init ls = Some (s, o) -> trace log s o.
Proof. intros H. exists ls. exact H. Qed.
Lemma C34_refuted_lemma : ~ C34_full.
Proof.
  intros H. destruct (execute false init blocking_run) as [[s o]|] eqn:E; [|vm_compute in E; discriminate].
  apply (H false s o (run_trace _ _ _ _ E)). vm_compute in E. injection E as _ <-. cbn. auto 10.
Qed.
Definition dropping_run : list label := opened_run ++
  [LEmit (Emission (bs "/") (bs "news") [] [SStr (bs "x")]); LCloseCall; LClosed; LCloseFrame true].
Lemma C36_refuted_lemma : ~ C36_full.
Proof.
  intros H. destruct (execute false init dropping_run) as [[s o]|] eqn:E; [|vm_compute in E; discriminate].
  pose proof (run_trace _ _ _ _ E) as Ht. vm_compute in E. injection E as _ <-.
  match type of Ht with trace _ _ [?a; ?b; ?c; ?d; ?e; ?f] => destruct (H false s [a; b; c; d] [] [] Ht) as [r Hr] end. discriminate Hr.
Qed.
Lemma C40_refuted_lemma : ~ C40_full.
Proof.
  intros H. destruct (execute false init [LHandshake None; LReadEnd; LOpenSeen]) as [[s o]|] eqn:E; [|vm_compute in E; discriminate].
  apply (H false s o (run_trace _ _ _ _ E)). vm_compute in E. injection E as _ <-. cbn. auto.
Qed.
