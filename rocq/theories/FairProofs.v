(** Proofs about runs that go on for ever. *)
From Verif Require Export SpecFair CloseLive FlowProofs.
From Coq Require Import Lia.

(** ** Steps of the task *)
Inductive moves : phase -> label -> phase -> Prop :=
| mv_same p l : moves p l p
| mv_born : moves PUnborn (LHandshake None) PLoop
| mv_read b m : moves (if b : bool then PReading else PLoop) (LRead m) (if b then PReading else PLoop)
| mv_call b m c : moves (if b : bool then PReading else PLoop) (LRead m) (PCalling b c)
| mv_end p l e : moves p l (PEnded e)
| mv_take fs : moves PLoop LTake (sending fs)
| mv_write m rest : moves (PSending (m :: rest)) LWrite (sending rest)
| mv_closed : moves PLoop LClosed PClosing
| mv_frame b : moves PClosing (LCloseFrame b) PReading
| mv_stuck b c l : moves (PCalling b c) l PStuck
| mv_return b c : moves (PCalling b c) LCbReturn (if b then PReading else PLoop).
Lemma moving log s o l s' o' : trace log s o -> step log s l = Some (s', o') -> moves (s_phase s) l (s_phase s').
Proof.
  intros Ht H. assert (Hl : (exists m, l = LRead m) \/ forall m, l <> LRead m) by (destruct l; eauto; right; discriminate).
  destruct Hl as [[m ->]|Hl].
  - destruct (read_label _ _ _ _ _ H) as (b & Hb & _ & E). rewrite Hb. unfold read_step in E.
    destruct (pr_open _); destruct (pr_queue _); unfold push in E; destruct (pr_outcome _) as [[| |]|]; step_cases E; injection E as <- <-; cbn; rewrite ?Hb; constructor.
  - pose proof (unborn _ _ _ Ht) as Hu.
    other_cases H Hl; cbn; try (constructor; fail); repeat match goal with E : s_phase _ = _ |- _ => rewrite E end; try (constructor; fail).
    + rewrite (Hu eq_refl). constructor.
Qed.
Lemma past_stays p l p' : moves p l p' ->
  match p with PClosing | PReading | PCalling true _ | PStuck | PEnded _ => True | _ => False end ->
  match p' with PClosing | PReading | PCalling true _ | PStuck | PEnded _ => True | _ => False end.
Proof. intros H. destruct H; cbn; auto; try contradiction; destruct b; auto. Qed.
Lemma main_goes p l p' : moves p l p' -> match p with PLoop | PSending _ | PCalling false _ => True | _ => False end ->
  match p' with PLoop | PSending _ | PCalling false _ => True | _ => False end \/
  match p' with PClosing | PReading | PCalling true _ | PStuck | PEnded _ => True | _ => False end.
Proof. intros H. destruct H; cbn; auto; try (destruct b; auto; fail); [destruct fs|destruct rest]; auto. Qed.
Lemma main_or_past s : s_phase s = PUnborn \/ in_main_loop s \/ past_loop s.
Proof. unfold in_main_loop, past_loop. destruct (s_phase s) as [| | | | | [] ? | |]; auto. Qed.
Lemma main_not_past s : in_main_loop s -> past_loop s -> False.
Proof. unfold in_main_loop, past_loop. destruct (s_phase s) as [| | | | | [] ? | |]; auto. Qed.

(** Before the task exists nothing is sent. *)
Lemma moves_unborn p l p' : moves p l p' -> p' = PUnborn -> p = PUnborn.
Proof. intros H. destruct H; auto; try discriminate; try (destruct b; discriminate); [destruct fs|destruct rest]; discriminate. Qed.
Lemma unborn_empty log s o : trace log s o -> s_phase s = PUnborn -> s_inflight s = [] /\ s_acks s = [] /\ queued o = [].
Proof.
  revert s o. apply (trace_ind2 log (fun s o => s_phase s = PUnborn -> s_inflight s = [] /\ s_acks s = [] /\ queued o = [])).
  - auto.
  - intros s o m s' o' Ht _ H Hp. exfalso. pose proof (moves_unborn _ _ _ (moving _ _ _ _ _ _ Ht H) Hp) as E.
    destruct (read_label _ _ _ _ _ H) as (b & Hb & _). rewrite Hb in E. destruct b; discriminate.
  - intros s o l s' o' Ht IH Hl H Hp.
    assert (Hu : s_phase s = PUnborn).
    { exact (moves_unborn _ _ _ (moving _ _ _ _ _ _ Ht H) Hp). }
    destruct (IH Hu) as (A & B & C). destruct (unborn_waits _ _ _ Ht Hu) as (_ & D & _). rewrite queued_app, C. cbn [app].
    clear IH Ht. other_cases H Hl; cbn in *; rewrite ?A, ?B in *; try discriminate; auto; try congruence;
      unfold usable_client in *; rewrite ?D in *; try discriminate;
      repeat match goal with E : nth_error [] ?i = _ |- _ => destruct i; discriminate E end.
Qed.

(** ** Lives *)
Section Life.
Context (log : bool) (r : life) (L : lives log r).
Notation at_ k := (at_time r k).
Notation ph k := (s_phase (at_time r k)).

Lemma life_trace k : trace log (at_ k) (seen r k).
Proof.
  induction k as [|k IH].
  - destruct L as [-> _]. exists []. reflexivity.
  - cbn [seen]. destruct L as [_ H]. specialize (H k). destruct (does r k) as [l|].
    + refine (trace_extend _ _ _ [l] _ _ IH _). cbn [execute]. rewrite H, app_nil_r. reflexivity.
    + destruct H as [-> ->]. rewrite app_nil_r. exact IH.
Qed.
Lemma life_moves k : (at_ (S k) = at_ k /\ sees r k = [] /\ does r k = None) \/
  exists l, does r k = Some l /\ step log (at_ k) l = Some (at_ (S k), sees r k) /\ moves (ph k) l (ph (S k)).
Proof.
  pose proof (proj2 L k) as H. destruct (does r k) as [l|] eqn:E; [right|left; tauto].
  exists l. split; [reflexivity|]. split; [exact H|]. exact (moving _ _ _ _ _ _ (life_trace k) H).
Qed.
Lemma seen_grows k j : k <= j -> exists o, seen r j = seen r k ++ o.
Proof.
  intros H. induction H as [|j H [o IH]]; [exists []; rewrite app_nil_r; reflexivity|]. cbn [seen]. rewrite IH, <- app_assoc. eauto.
Qed.
Lemma past_mono k j : k <= j -> past_loop (at_ k) -> past_loop (at_ j).
Proof.
  intros H Hp. induction H as [|j H IH]; [exact Hp|]. destruct (life_moves j) as [(-> & _)|(l & _ & _ & M)]; [exact IH|].
  exact (past_stays _ _ _ M IH).
Qed.
Lemma main_mono k j : k <= j -> in_main_loop (at_ k) -> in_main_loop (at_ j) \/ past_loop (at_ j).
Proof.
  intros H Hp. induction H as [|j H IH]; [auto|]. destruct (life_moves j) as [(-> & _)|(l & _ & _ & M)]; [exact IH|].
  destruct IH as [IH|IH]; [exact (main_goes _ _ _ M IH)|right; exact (past_stays _ _ _ M IH)].
Qed.
(** A phase that is not kept is left. *)
Lemma until (p : phase) (Q : phase -> Prop) : (forall l p', moves p l p' -> p' = p \/ Q p') ->
  forall d k, ph k = p -> ph (d + k) <> p -> exists i, k < i /\ Q (ph i).
Proof.
  intros HQ. induction d as [|d IH]; intros k Hk Hj; [contradiction|].
  destruct (life_moves k) as [(E & _)|(l & _ & _ & M)].
  - destruct (IH (S k)) as (i & Hi & HQi); [congruence|rewrite Nat.add_succ_r; exact Hj|]. exists i. split; [lia|exact HQi].
  - rewrite Hk in M. destruct (HQ _ _ M) as [E|E]; [|exists (S k); split; [lia|exact E]].
    destruct (IH (S k)) as (i & Hi & HQi); [congruence|rewrite Nat.add_succ_r; exact Hj|]. exists i. split; [lia|exact HQi].
Qed.
Lemma until' (p : phase) (Q : phase -> Prop) k j : (forall l p', moves p l p' -> p' = p \/ Q p') ->
  k <= j -> ph k = p -> ph j <> p -> exists i, k < i /\ Q (ph i).
Proof. intros HQ H Hk Hj. apply (until p Q HQ (j - k) k Hk). replace (j - k + k) with j by lia. exact Hj. Qed.

Context (W : writes_end r) (C : callbacks_end r).
Lemma reach_loop k : in_main_loop (at_ k) -> exists j, k <= j /\ (past_loop (at_ j) \/ ph j = PLoop).
Proof.
  assert (S : forall n k rest, length rest <= n -> ph k = PSending rest -> exists j, k <= j /\ (past_loop (at_ j) \/ ph j = PLoop)).
  { clear k. induction n as [|n IH]; intros k rest Hn Hk.
    - destruct rest; [|cbn in Hn; lia]. exfalso. exact (sending_nonempty _ _ _ _ (life_trace k) Hk eq_refl).
    - destruct (W k rest Hk) as (j & Hkj & Hj).
      destruct (until' (PSending rest) (fun p => match p with PEnded _ | PLoop => True | PSending x => length x <= n | _ => False end) k j) as (i & Hi & Q); auto.
      { intros l p' M. inversion M; subst; auto; try (destruct b; discriminate).
        right. unfold sending. destruct rest0; auto. cbn in *. lia. }
      destruct (ph i) as [| |x| | | | |] eqn:Ei; try contradiction.
      + exists i. split; [lia|auto].
      + destruct (IH i x Q Ei) as (j' & Hj' & H'). exists j'. split; [lia|exact H'].
      + exists i. split; [lia|]. left. unfold past_loop. rewrite Ei. exact I. }
  intros Hm. unfold in_main_loop in Hm. destruct (ph k) as [| |rest| | | [] c | |] eqn:Ek; try contradiction.
  - exists k. auto.
  - exact (S (length rest) k rest (le_n _) Ek).
  - destruct (C k _ _ Ek) as (j & Hkj & Hj).
    destruct (until' (PCalling false c) (fun p => match p with PEnded _ | PLoop | PStuck => True | _ => False end) k j) as (i & Hi & Q); auto.
    { intros l p' M. inversion M; subst; auto; destruct b; discriminate. }
    exists i. split; [lia|]. unfold past_loop. destruct (ph i); try contradiction; auto.
Qed.

(** Packets taken from the channel so far. *)
Definition taken (j : nat) : nat := length (queued (seen r j)) - length (s_chan (at_ j)).
Lemma main_running s : in_main_loop s -> task_ended s = false.
Proof. unfold in_main_loop, task_ended. destruct (s_phase s); auto; contradiction. Qed.
Lemma chan_le j : in_main_loop (at_ j) -> length (s_chan (at_ j)) <= length (queued (seen r j)).
Proof.
  intros H. destruct (n_running _ _ (trace_sent _ _ _ (life_trace j)) (main_running _ H)) as (q & -> & _). rewrite app_length. lia.
Qed.
Lemma step_channel k l : does r k = Some l -> channel_step (at_ k) (at_ (S k)) (sees r k).
Proof.
  intros E. pose proof (proj2 L k) as H. rewrite E in H.
  assert (Hl : (exists m, l = LRead m) \/ forall m, l <> LRead m) by (destruct l; eauto; right; discriminate).
  destruct Hl as [[m ->]|Hl]; [eapply read_channel|eapply other_channel]; eauto using life_trace.
Qed.
Lemma take_shrinks s s' o' : step log s LTake = Some (s', o') -> task_ended s' = false -> length (s_chan s) = S (length (s_chan s')).
Proof.
  cbn. destruct (s_phase s); try discriminate. destruct (s_chan s) as [|f q]; [destruct (s_chan_closed s)|]; try discriminate; intros [= <- <-] E; [discriminate|reflexivity].
Qed.
Lemma taken_step j : in_main_loop (at_ j) -> in_main_loop (at_ (S j)) ->
  taken j <= taken (S j) /\ (does r j = Some LTake -> taken j < taken (S j)).
Proof.
  intros H H'. pose proof (chan_le j H) as A. pose proof (chan_le (S j) H') as A'. apply main_running in H, H'. unfold taken. cbn [seen] in *.
  destruct (life_moves j) as [(-> & E & D)|(l & D & St & M)].
  - rewrite E, app_nil_r. split; [lia|congruence].
  - rewrite queued_app, app_length in *. destruct (step_channel _ _ D) as [Q _ K _ _|fs Q _ K _ _ _|_ E|fs Q _ K _ _ _ _|m Q _ K _ _ _]; try rewrite Q in *; cbn [length] in *.
    + rewrite K in *. split; [lia|]. intros E. exfalso. rewrite D in E. injection E as ->. pose proof (take_shrinks _ _ _ St H') as X. rewrite K, ?app_length in X. cbn in X. lia.
    + rewrite K, app_length in *. cbn [length] in *. split; [lia|]. intros E. exfalso. rewrite D in E. injection E as ->. pose proof (take_shrinks _ _ _ St H') as X. rewrite K, ?app_length in X. cbn in X. lia.
    + congruence.
    + rewrite K in *. cbn [length] in *. lia.
    + rewrite K in *. split; [lia|]. intros E. exfalso. rewrite D in E. injection E as ->. pose proof (take_shrinks _ _ _ St H') as X. rewrite K, ?app_length in X. cbn in X. lia.
Qed.
Lemma taken_mono k j : k <= j -> in_main_loop (at_ k) -> past_loop (at_ j) \/ (in_main_loop (at_ j) /\ taken k <= taken j).
Proof.
  intros H Hm. induction H as [|j H IH]; [auto|]. destruct IH as [IH|[IH1 IH2]].
  - left. apply (past_mono j); auto.
  - destruct (main_mono j (S j)) as [M|M]; auto. right. split; [exact M|]. pose proof (taken_step j IH1 M). lia.
Qed.
Context (F : fair_to log r LTake).
Lemma take_one k n : in_main_loop (at_ k) -> n <= length (queued (seen r k)) -> taken k < n ->
  exists j, k <= j /\ (past_loop (at_ j) \/ (in_main_loop (at_ j) /\ taken k < taken j)).
Proof.
  intros Hm Hn Ht. destruct (F k) as (j & Hkj & [D|D]).
  - destruct (taken_mono k j Hkj Hm) as [P|[M T]]; [exists j; auto|].
    destruct (main_mono j (S j)) as [M'|P]; auto; [|exists (S j); split; [lia|auto]].
    exists (S j). split; [lia|]. right. split; [exact M'|]. pose proof (taken_step j M M') as [_ X]. specialize (X D). lia.
  - destruct (main_mono k j Hkj Hm) as [M|P]; [|exists j; auto].
    destruct (reach_loop j M) as (i & Hji & [P|E]); [exists i; split; [lia|auto]|].
    assert (Hki : k <= i) by lia. destruct (taken_mono k i Hki Hm) as [P|[Mi T]]; [exists i; auto|].
    destruct (le_lt_dec (taken i) (taken k)) as [Le|Lt]; [|exists i; auto].
    exfalso. specialize (D i Hji). cbn in D. rewrite E in D. destruct (s_chan (at_ i)) as [|f q] eqn:Ec; [|discriminate].
    unfold taken in Le at 1. rewrite Ec in Le. cbn in Le. destruct (seen_grows k i Hki) as [o Eo]. rewrite Eo, queued_app, app_length in Le. lia.
Qed.
Lemma take_all k n : in_main_loop (at_ k) -> n <= length (queued (seen r k)) ->
  exists j, k <= j /\ (past_loop (at_ j) \/ (in_main_loop (at_ j) /\ n <= taken j)).
Proof.
  remember (n - taken k) as d eqn:Ed. revert k Ed. induction d as [d IH] using (well_founded_induction Wf_nat.lt_wf). intros k Ed Hm Hn.
  destruct (le_lt_dec n (taken k)) as [Le|Lt]; [exists k; auto|].
  destruct (take_one k n Hm Hn Lt) as (j & Hkj & [P|[M T]]); [exists j; auto|].
  destruct (IH (n - taken j)) with (k := j) as (i & Hi & H); auto; [lia| |exists i; split; [lia|exact H]].
  destruct (seen_grows k j Hkj) as [o ->]. rewrite queued_app, app_length. lia.
Qed.
Lemma prefix_split {A} (a b c d : list A) : a ++ b = c ++ d -> length a <= length c -> exists e, c = a ++ e.
Proof.
  revert c. induction a as [|x a IH]; intros c E H; [exists c; reflexivity|]. destruct c as [|y c]; [cbn in H; lia|].
  injection E as -> E. destruct (IH c E) as [e ->]; [cbn in H; lia|]. exists e. reflexivity.
Qed.
Lemma queued_is_written k : exists j, k <= j /\
  (past_loop (at_ j) \/ exists rest, writes (seen r j) = concat (queued (seen r k)) ++ rest).
Proof.
  destruct (main_or_past (at_ k)) as [U|[M|P]]; [| |exists k; auto].
  - exists k. split; [lia|]. right. destruct (unborn_empty _ _ _ (life_trace k) U) as (_ & _ & ->). exists (writes (seen r k)). reflexivity.
  - destruct (take_all k _ M (le_n _)) as (j & Hkj & [P|[Mj T]]); [exists j; auto|].
    destruct (reach_loop j Mj) as (i & Hji & [P|E]); [exists i; split; [lia|auto]|].
    exists i. split; [lia|]. right.
    assert (Mi : in_main_loop (at_ i)) by (unfold in_main_loop; rewrite E; exact I).
    destruct (n_running _ _ (trace_sent _ _ _ (life_trace i)) (main_running _ Mi)) as (q & Q & Wr).
    unfold pending in Wr. rewrite E, app_nil_r in Wr.
    destruct (taken_mono j i Hji Mj) as [P|[_ Ti]]; [destruct (main_not_past _ Mi P)|].
    destruct (seen_grows k i ltac:(lia)) as [o Eo]. rewrite Eo, queued_app in Q.
    destruct (prefix_split _ _ _ _ Q) as [e ->].
    { unfold taken in *. rewrite Eo, queued_app, Q, !app_length in *. lia. }
    exists (concat e). rewrite Wr, concat_app. reflexivity.
Qed.
End Life.

Lemma signal_step log s o l s' o' : trace log s o -> step log s l = Some (s', o') -> s_signal s = true -> s_signal s' = true.
Proof.
  intros Ht H Hs. assert (Hl : (exists m, l = LRead m) \/ forall m, l <> LRead m) by (destruct l; eauto; right; discriminate).
  destruct Hl as [[m ->]|Hl].
  - destruct (step_read _ _ _ _ _ _ Ht H) as (_ & _ & _ & _ & -> & _). exact Hs.
  - other_cases H Hl; cbn; auto.
Qed.
Lemma closing_handle_step log s o l s' o' : trace log s o -> step log s l = Some (s', o') -> s_handle s = HClosing ->
  s_handle s' = HClosing \/ (exists x, x <> CloseAlready /\ In (OClose x) o') \/ l = LCloseDrop \/ l = LDropClient \/ l = LConnectDrop \/ l = LOpenTimeout \/ l = LOpenSeen.
Proof.
  intros Ht H Hs. assert (Hl : (exists m, l = LRead m) \/ forall m, l <> LRead m) by (destruct l; eauto; right; discriminate).
  destruct Hl as [[m ->]|Hl].
  - destruct (step_read _ _ _ _ _ _ Ht H) as (_ & _ & _ & -> & _). auto.
  - other_cases H Hl; cbn; auto 10; try discriminate Hs; right; left; eexists; (split; [|left; reflexivity]); try discriminate; destruct e; discriminate.
Qed.
Lemma past_signal log s o : trace log s o -> past_loop s -> s_signal s = true \/ In OBlocked o \/ exists e, In (OEnd e) o.
Proof.
  intros Ht. revert s o Ht. 
  assert (K : forall s o, trace log s o -> match s_phase s with PClosing | PReading | PCalling true _ => s_signal s = true | _ => True end).
  { apply (trace_ind log (fun s o => match s_phase s with PClosing | PReading | PCalling true _ => s_signal s = true | _ => True end)); [exact I|].
    intros s o l s' o' Ht IH H. pose proof (moving _ _ _ _ _ _ Ht H) as M. pose proof (signal_step _ _ _ _ _ _ Ht H) as Sg.
    revert IH. destruct (s_phase s) eqn:Ep, (s_phase s') eqn:Ep'; auto; inversion M; subst; auto;
      repeat match goal with b : bool |- _ => destruct b end; try discriminate; auto;
      try (match goal with E : sending ?x = _ |- _ => destruct x; discriminate E end).
    all: intros _; apply Sg; cbn in H; rewrite Ep in H; destruct (s_signal s); [reflexivity|discriminate]. }
  intros s o Ht Hp. specialize (K s o Ht). unfold past_loop in Hp. destruct (s_phase s) as [| | | | |[] c| |e] eqn:Ep; auto; try contradiction.
  - right. left. exact (stuck_blocked _ _ _ Ht Ep).
  - right. right. exists e. apply (trace_ended _ _ _ Ht). exact Ep.
Qed.

Lemma connected_step log s o l s' o' : trace log s o -> step log s l = Some (s', o') -> is_connected s = true -> is_connected s' = true.
Proof.
  intros Ht H Hs. assert (Hl : (exists m, l = LRead m) \/ forall m, l <> LRead m) by (destruct l; eauto; right; discriminate).
  destruct Hl as [[m ->]|Hl].
  - destruct (step_read _ _ _ _ _ _ Ht H) as (_ & _ & _ & _ & _ & E & _). unfold is_connected in *. rewrite E. exact Hs.
  - unfold is_connected in *. other_cases H Hl; cbn; auto; match goal with E : s_conn _ = _ |- _ => rewrite E in Hs; discriminate end.
Qed.
Lemma connected_if_closed log s o : trace log s o -> In OCloseCalled o -> is_connected s = true.
Proof.
  revert s o. apply (trace_ind log (fun s o => In OCloseCalled o -> is_connected s = true)); [intros []|].
  intros s o l s' o' Ht IH H Hi. apply (connected_step _ _ _ _ _ _ Ht H). apply in_app_iff in Hi as [Hi|Hi]; [auto|].
  assert (Hl : (exists m, l = LRead m) \/ forall m, l <> LRead m) by (destruct l; eauto; right; discriminate).
  destruct Hl as [[m ->]|Hl].
  - destruct (step_read _ _ _ _ _ _ Ht H) as (Hx & _). apply Hx in Hi as [[]|[=]].
  - other_cases H Hl; cbn in Hi; in_cases Hi; try discriminate Hi. unfold usable_client in *.
    match goal with E : _ && _ = true |- _ => apply andb_true_iff in E as [E _]; exact E end.
Qed.

Section Close.
Context (log : bool) (r : life) (L : lives log r).
Notation at_ k := (at_time r k).
Notation ph k := (s_phase (at_time r k)).
Lemma signal_mono k j : k <= j -> s_signal (at_ k) = true -> s_signal (at_ j) = true.
Proof.
  intros H Hs. induction H as [|j H IH]; [exact Hs|]. destruct (life_moves log r L j) as [(-> & _)|(l & _ & St & _)]; [exact IH|].
  exact (signal_step _ _ _ _ _ _ (life_trace log r L j) St IH).
Qed.
Context (W : writes_end r) (C : callbacks_end r) (F : fair_to log r LClosed).
Lemma loop_is_left k : in_main_loop (at_ k) -> s_signal (at_ k) = true -> exists j, k <= j /\ past_loop (at_ j).
Proof.
  intros Hm Hs. destruct (F k) as (j & Hkj & [D|D]).
  - exists (S j). split; [lia|]. pose proof (proj2 L j) as St. rewrite D in St. cbn in St.
    destruct (ph j); try discriminate. destruct (s_signal (at_ j)); [|discriminate].
    assert (X := f_equal (fun o => match o with Some (s, _) => s_phase s | None => PLoop end) St). cbn in X. unfold past_loop. rewrite <- X. exact I.
  - destruct (main_mono log r L k j Hkj Hm) as [M|P]; [|exists j; auto].
    destruct (reach_loop log r L W C j M) as (i & Hji & [P|E]); [exists i; split; [lia|auto]|].
    exfalso. specialize (D i Hji). cbn in D. rewrite E, (signal_mono k i ltac:(lia) Hs) in D. discriminate.
Qed.
Context (E : closing_ends r) (V : server_ends r).
Lemma reading_ends k : ph k = PReading -> exists j, k <= j /\ over (at_ j).
Proof.
  intros Hk. destruct (V k Hk) as (j & Hkj & H). 
  assert (X : forall l, does r j = Some l -> l = LReadEnd \/ l = LReadErr -> exists j, k <= j /\ over (at_ j)).
  { intros l D Hl. exists (S j). split; [lia|]. right. pose proof (proj2 L j) as St. rewrite D in St.
    destruct Hl as [-> | ->]; cbn in St; destruct (ph j); try discriminate; injection St as <- _; reflexivity. }
  destruct H as [D|[D|[H|H]]]; [eapply X; eauto|eapply X; eauto|exists j; unfold over; auto|exists j; unfold over; auto].
Qed.
Lemma past_ends k : past_loop (at_ k) -> exists j, k <= j /\ over (at_ j).
Proof.
  intros Hp. unfold past_loop in Hp. destruct (ph k) as [| | | | |[] c| |e] eqn:Ek; try contradiction.
  - destruct (E k Ek) as (j & Hkj & Hj).
    destruct (until' log r L PClosing (fun p => match p with PEnded _ | PReading => True | _ => False end) k j) as (i & Hi & Q); auto.
    { intros l p' M. inversion M; subst; auto; destruct b; discriminate. }
    destruct (ph i) eqn:Ei; try contradiction.
    + destruct (reading_ends i Ei) as (j' & Hj' & O). exists j'. split; [lia|exact O].
    + exists i. split; [lia|]. right. unfold task_ended. rewrite Ei. reflexivity.
  - apply reading_ends. exact Ek.
  - destruct (C k _ _ Ek) as (j & Hkj & Hj).
    destruct (until' log r L (PCalling true c) (fun p => match p with PEnded _ | PReading | PStuck => True | _ => False end) k j) as (i & Hi & Q); auto.
    { intros l p' M. inversion M; subst; auto; destruct b; discriminate. }
    destruct (ph i) eqn:Ei; try contradiction.
    + destruct (reading_ends i Ei) as (j' & Hj' & O). exists j'. split; [lia|exact O].
    + exists i. split; [lia|]. left. exact Ei.
    + exists i. split; [lia|]. right. unfold task_ended. rewrite Ei. reflexivity.
  - exists k. split; [lia|]. left. exact Ek.
  - exists k. split; [lia|]. right. unfold task_ended. rewrite Ek. reflexivity.
Qed.
Lemma close_called_handle k : In OCloseCalled (seen r k) -> s_handle (at_ k) = HClosing \/ close_answered r k.
Proof.
  induction k as [|k IH]; [intros []|]. cbn [seen]. rewrite in_app_iff.
  pose proof (life_trace log r L k) as Ht.
  assert (Mono : close_answered r k -> close_answered r (S k)).
  { intros [(x & Hx & Hi)|(i & Hi & D)]; [left; exists x; split; [exact Hx|]; cbn [seen]; apply in_app_iff; auto|right; exists i; split; [lia|exact D]]. }
  destruct (life_moves log r L k) as [(Ek & Eo & _)|(l & D & St & _)].
  - rewrite Eo, Ek. intros [H|[]]. destruct (IH H); auto.
  - intros [H|H].
    + destruct (IH H) as [Hh|A]; [|auto]. destruct (closing_handle_step _ _ _ _ _ _ Ht St Hh) as [X|[(x & Hx & Hi)|[->|[->|X]]]]; auto.
      * right. left. exists x. split; [exact Hx|]. cbn [seen]. apply in_app_iff. auto.
      * right. right. exists k. split; [lia|auto].
      * right. right. exists k. split; [lia|auto].
      * exfalso. destruct (h_closing _ _ (trace_handled _ _ _ Ht) Hh) as [Hc _].
        pose proof (connected_if_closed _ _ _ Ht H) as Cn. unfold is_connected in Cn.
        destruct X as [->|[->| ->]]; cbn in St; destruct (s_conn (at_ k)); discriminate.
    + left. apply (handle_step _ _ _ _ _ _ Ht St). exact H.
Qed.
Lemma answered_mono k j : k <= j -> close_answered r k -> close_answered r j.
Proof.
  intros H [(x & Hx & Hi)|(i & Hi & D)].
  - left. exists x. split; [exact Hx|]. destruct (seen_grows r k j H) as [o ->]. apply in_app_iff. auto.
  - right. exists i. split; [lia|exact D].
Qed.
Lemma close_called_seen k j : k <= j -> In OCloseCalled (seen r k) -> In OCloseCalled (seen r j).
Proof. intros H Hi. destruct (seen_grows r k j H) as [o ->]. apply in_app_iff. auto. Qed.
Context (G : fair_to log r LCloseReturn).
Lemma stuck_mono k j : k <= j -> ph k = PStuck -> In OBlocked (seen r j).
Proof.
  intros H Hk. destruct (seen_grows r k j H) as [o ->]. apply in_app_iff. left. exact (stuck_blocked _ _ _ (life_trace log r L k) Hk).
Qed.
Lemma ended_mono k j : k <= j -> task_ended (at_ k) = true -> task_ended (at_ j) = true.
Proof.
  intros H Hk. apply (ended_iff _ _ _ (life_trace log r L k)) in Hk as [e He]. apply (ended_iff _ _ _ (life_trace log r L j)).
  exists e. destruct (seen_grows r k j H) as [o ->]. apply in_app_iff. auto.
Qed.
Lemma close_returns k : In OCloseCalled (seen r k) -> exists j, k <= j /\ (In OBlocked (seen r j) \/ close_answered r j).
Proof.
  intros Hc. pose proof (signal_called _ _ _ (life_trace log r L k) Hc) as Hs.
  assert (P : exists j, k <= j /\ past_loop (at_ j)).
  { destruct (main_or_past (at_ k)) as [U|[M|P]]; [|apply loop_is_left; auto|exists k; auto].
    exfalso. pose proof (connected_if_closed _ _ _ (life_trace log r L k) Hc) as Cn. destruct (unborn_waits _ _ _ (life_trace log r L k) U) as (_ & X & _). congruence. }
  destruct P as (j & Hkj & P). destruct (past_ends j P) as (i & Hji & [O|O]).
  - exists i. split; [lia|]. left. apply (stuck_mono i); auto.
  - destruct (G i) as (n & Hin & [D|D]).
    + exists (S n). split; [lia|]. right. left. pose proof (proj2 L n) as St. rewrite D in St. cbn in St.
      destruct (s_handle (at_ n)); try discriminate. destruct (ph n) as [| | | | | | |e]; try discriminate.
      exists (match e with EndOk => CloseOk | EndPanic | EndAborted => ClosePanic | _ => CloseErr e end). split; [destruct e; discriminate|].
      cbn [seen]. apply in_app_iff. right. injection St as _ <-. left. reflexivity.
    + exists n. split; [lia|]. right. destruct (close_called_handle n) as [Hh|A]; [eapply close_called_seen; [|exact Hc]; lia| |exact A].
      exfalso. specialize (D n (le_n _)). cbn in D. rewrite Hh in D. pose proof (ended_mono i n Hin O) as En. unfold task_ended in En.
      destruct (ph n); try discriminate.
Qed.
End Close.
(** With the time-out alone. *)
Lemma close_times_out log r : lives log r -> fair_to log r LCloseTimeout -> forall k, In OCloseCalled (seen r k) -> exists j, k <= j /\ close_answered r j.
Proof.
  intros L G k Hc. destruct (G k) as (n & Hin & [D|D]).
  - exists (S n). split; [lia|]. left. pose proof (proj2 L n) as St. rewrite D in St. cbn in St. destruct (s_handle (at_time r n)); try discriminate.
    exists CloseTimeout. split; [discriminate|]. cbn [seen]. apply in_app_iff. right. injection St as _ <-. left. reflexivity.
  - exists n. split; [lia|]. destruct (close_called_handle log r L n) as [Hh|A]; [exact (close_called_seen r k n Hin Hc)| |exact A].
    exfalso. specialize (D n (le_n _)). cbn in D. rewrite Hh in D. discriminate.
Qed.

(** ** Pings *)
Lemma filter_concat_length (l : list (list wsmsg)) : length (filter is_pong (concat l)) = list_sum (map (fun fs => length (filter is_pong fs)) l).
Proof. induction l as [|x l IH]; [reflexivity|]. cbn. rewrite filter_app, app_length, IH. reflexivity. Qed.
Lemma pongs_queued o : (forall fs, ~ In (OLost ByReceiver fs) o) -> Forall (eq [WText (bs "3")]) (pongs o) ->
  length (pongs o) <= length (filter is_pong (concat (queued o))).
Proof.
  rewrite filter_concat_length. induction o as [|x o IH]; intros Hn Hf; [cbn; lia|].
  assert (Hn' : forall fs, ~ In (OLost ByReceiver fs) o) by (intros fs H; apply (Hn fs); right; exact H).
  destruct x as [| | | | |[| | |] fs|[| | |] fs| | | | | | | | | |]; cbn [pongs queued flat_map app] in *; try (apply IH; assumption).
  - inversion Hf as [|? ? <- Hf']; subst. exact (le_n_S _ _ (IH Hn' Hf')).
  - exact (Nat.le_trans _ _ _ (IH Hn' Hf) (Nat.le_add_l _ (length (filter is_pong fs)))).
  - exact (Nat.le_trans _ _ _ (IH Hn' Hf) (Nat.le_add_l _ (length (filter is_pong fs)))).
  - exact (Nat.le_trans _ _ _ (IH Hn' Hf) (Nat.le_add_l _ (length (filter is_pong fs)))).
  - destruct (Hn fs). left. reflexivity.
Qed.
Lemma nothing_lost log s o og fs : trace log s o -> In (OLost og fs) o -> In OChannelClosed o \/ task_ended s = true.
Proof.
  intros Ht Hi. assert (K : In OChannelClosed o \/ exists e, In (OEnd e) o); [|destruct K as [K|K]; [auto|right; apply (ended_iff _ _ _ Ht); exact K]].
  revert s o Ht Hi. apply (trace_ind log (fun s o => In (OLost og fs) o -> In OChannelClosed o \/ exists e, In (OEnd e) o)); [intros []|].
  intros s o l s' o' Ht IH H Hi. assert (K : lost_reason o \/ In (OLost og fs) o).
  { apply in_app_iff in Hi as [Hi|Hi]; [auto|]. left.
    assert (X : s_chan_closed s || task_ended s = true).
    { assert (Hl : (exists m, l = LRead m) \/ forall m, l <> LRead m) by (destruct l; eauto; right; discriminate).
      destruct Hl as [[m ->]|Hl].
      - destruct (read_label _ _ _ _ _ H) as (b & Hb & _ & E). unfold read_step in E. 
        destruct (pr_open _); destruct (pr_queue _); unfold push in E; destruct (pr_outcome _) as [[| |]|]; step_cases E; injection E as <- <-;
          cbn in Hi; rewrite ?in_app_iff in Hi; cbn in Hi; intuition discriminate.
      - clear IH Ht. other_cases H Hl; cbn in Hi; in_cases Hi; try discriminate Hi; try assumption; try reflexivity. }
    apply orb_true_iff in X as [X|X]; [left; apply (v_closed _ _ (trace_invariant _ _ _ Ht)); exact X|right; apply (ended_iff _ _ _ Ht); exact X]. }
  assert (Y : lost_reason o) by (destruct K as [K|K]; [exact K|exact (IH K)]).
  destruct Y as [Y|[e Y]]; [left; apply in_app_iff; auto|right; exists e; apply in_app_iff; auto].
Qed.
Lemma unborn_reads log s o : trace log s o -> s_phase s = PUnborn -> reads o = [].
Proof.
  revert s o. apply (trace_ind log (fun s o => s_phase s = PUnborn -> reads o = [])); [auto|].
  intros s o l s' o' Ht IH H Hp. pose proof (moves_unborn _ _ _ (moving _ _ _ _ _ _ Ht H) Hp) as Hu. unfold reads in *. rewrite flat_map_app, (IH Hu). cbn [app].
  assert (Hl : (exists m, l = LRead m) \/ forall m, l <> LRead m) by (destruct l; eauto; right; discriminate).
  destruct Hl as [[m ->]|Hl].
  - destruct (read_label _ _ _ _ _ H) as (b & Hb & _). rewrite Hb in Hu. destruct b; discriminate.
  - clear Ht. change (reads o' = []). other_cases H Hl; cbn; rewrite ?reads_app, ?requests_reads; try reflexivity.
Qed.
Lemma in_dec_closed o : In OChannelClosed o \/ ~ In OChannelClosed o.
Proof. induction o as [|x o [IH|IH]]; [right; intros []|left; right; exact IH|]. destruct x; try (right; intros [H|H]; [discriminate|contradiction]). left. left. reflexivity. Qed.
Lemma pings_answered log r : lives log r -> writes_end r -> callbacks_end r -> fair_to log r LTake ->
  forall k, exists j, k <= j /\ (past_loop (at_time r j) \/ In OChannelClosed (seen r j) \/ ping_count (reads (seen r k)) <= pongs_written (seen r j)).
Proof.
  intros L W C F k. destruct (queued_is_written log r L W C F k) as (j & Hkj & [P|[rest E]]); [exists j; auto|].
  destruct (main_or_past (at_time r k)) as [U|[M|P]].
  - exists j. split; [exact Hkj|]. right. right. pose proof (pongs_are _ _ _ (life_trace log r L k)) as Hp.
    enough (ping_count (reads (seen r k)) = 0) by lia. rewrite (unborn_reads _ _ _ (life_trace log r L k) U). reflexivity.
  - exists j. split; [exact Hkj|]. right.
    destruct (in_dec_closed (seen r k)) as [Cl|Nc]; [left; destruct (seen_grows r k j Hkj) as [o ->]; apply in_app_iff; auto|].
    right. pose proof (pongs_are _ _ _ (life_trace log r L k)) as Hp. unfold pongs_written. rewrite E, filter_app, app_length.
    enough (X : length (pongs (seen r k)) <= length (filter is_pong (concat (queued (seen r k))))).
    { rewrite Hp, repeat_length in X. lia. }
    apply pongs_queued.
    + intros fs Hi. destruct (nothing_lost _ _ _ _ _ (life_trace log r L k) Hi) as [X|X]; [contradiction|]. rewrite (main_running _ M) in X. discriminate.
    + rewrite Hp. apply Forall_forall. intros x Hx. apply repeat_spec in Hx. congruence.
  - exists j. split; [exact Hkj|]. left. exact (past_mono log r L k j Hkj P).
Qed.

(** ** Lives that follow a list of labels, and then a cycle of labels for ever *)
Lemma following_lives log f : (forall k, match f k with Some l => step log (follow log f k) l <> None | None => True end) ->
  lives log (following log f).
Proof.
  intros H. split; [reflexivity|]. intros k. cbn [does following at_time sees follow]. specialize (H k).
  destruct (f k) as [l|]; [|auto]. destruct (step log (follow log f k) l) as [[s o]|] eqn:E; [reflexivity|contradiction].
Qed.
Lemma follow_prefix log ls : forall f s o, execute log init ls = Some (s, o) -> (forall i, i < length ls -> f i = nth_error ls i) -> follow log f (length ls) = s.
Proof.
  induction ls as [|l ls IH] using rev_ind; intros f s o H Hf; [injection H as <- <-; reflexivity|].
  rewrite execute_app in H. destruct (execute log init ls) as [[s1 o1]|] eqn:E; [|discriminate]. cbn in H.
  destruct (step log s1 l) as [[s2 o2]|] eqn:E2; [|discriminate]. injection H as <- _.
  rewrite app_length, Nat.add_1_r. cbn [follow]. rewrite app_length in Hf. cbn in Hf.
  rewrite (IH f s1 o1 eq_refl); [|intros i Hi; rewrite Hf, nth_error_app1 by lia; reflexivity].
  rewrite Hf, nth_error_app2, Nat.sub_diag by lia. cbn. rewrite E2. reflexivity.
Qed.
Section Lasso.
Context (log : bool) (pre cycle : list label) (s0 : state) (o0 o1 : list obs).
Context (Hpre : execute log init pre = Some (s0, o0)) (Hcyc : execute log s0 cycle = Some (s0, o1)) (Hn : cycle <> []).
Notation f := (lasso_label pre cycle).
Lemma lasso_pre i : i < length pre -> f i = nth_error pre i.
Proof. intros H. unfold lasso_label. destruct (Nat.ltb_spec i (length pre)); [reflexivity|lia]. Qed.
Lemma cycle_pos : length cycle <> 0.
Proof. destruct cycle; [contradiction|discriminate]. Qed.
Lemma lasso_cycle q i : i < length cycle -> f (length pre + (q * length cycle + i)) = nth_error cycle i.
Proof.
  intros H. unfold lasso_label. destruct (Nat.ltb_spec (length pre + (q * length cycle + i)) (length pre)); [lia|].
  f_equal. replace (length pre + (q * length cycle + i) - length pre) with (i + q * length cycle) by lia.
  rewrite Nat.mod_add by apply cycle_pos. apply Nat.mod_small. exact H.
Qed.
Lemma execute_firstn s ls i s' o : execute log s ls = Some (s', o) -> exists s1 oa, execute log s (firstn i ls) = Some (s1, oa) /\
  match nth_error ls i with Some l => step log s1 l <> None | None => True end.
Proof.
  rewrite <- (firstn_skipn i ls) at 1. rewrite execute_app. destruct (execute log s (firstn i ls)) as [[s1 oa]|]; [|discriminate].
  intros H. exists s1, oa. split; [reflexivity|]. destruct (nth_error ls i) as [l|] eqn:E; [|exact I].
  apply nth_error_split in E as (a & b & -> & <-). rewrite skipn_app, Nat.sub_diag, skipn_all in H. cbn in H. destruct (step log s1 l); [discriminate|discriminate H].
Qed.
Lemma follow_more s ls o s' : forall k, follow log f k = s -> execute log s ls = Some (s', o) ->
  (forall i, i < length ls -> f (k + i) = nth_error ls i) -> follow log f (k + length ls) = s'.
Proof.
  revert s o s'. induction ls as [|l ls IH]; intros s o s' k Hk H Hf.
  - cbn in H. injection H as <- <-. rewrite Nat.add_0_r. exact Hk.
  - cbn [execute] in H. destruct (step log s l) as [[s1 oa]|] eqn:E; [|discriminate]. destruct (execute log s1 ls) as [[s2 ob]|] eqn:E2; [|discriminate].
    injection H as <- <-. cbn [length]. rewrite Nat.add_succ_r, <- Nat.add_succ_l. apply (IH s1 ob); [|exact E2|].
    + cbn [follow]. pose proof (Hf 0 ltac:(cbn; lia)) as H0. rewrite Nat.add_0_r in H0. rewrite H0. cbn. rewrite Hk, E. reflexivity.
    + intros i Hi. rewrite Nat.add_succ_l, <- Nat.add_succ_r. exact (Hf (S i) ltac:(cbn; lia)).
Qed.
Lemma lasso_return q : follow log f (length pre + q * length cycle) = s0.
Proof.
  induction q as [|q IH].
  - rewrite Nat.mul_0_l, Nat.add_0_r. apply (follow_prefix log pre f s0 o0 Hpre). exact lasso_pre.
  - replace (length pre + S q * length cycle) with (length pre + q * length cycle + length cycle) by (cbn; lia).
    apply (follow_more s0 cycle o1 s0 _ IH Hcyc). intros i Hi. rewrite <- (lasso_cycle q i Hi). f_equal. lia.
Qed.
Lemma lasso_in q i : i < length cycle -> exists oa, execute log s0 (firstn i cycle) = Some (follow log f (length pre + (q * length cycle + i)), oa).
Proof.
  intros Hi. destruct (execute_firstn s0 cycle i s0 o1 Hcyc) as (s1 & oa & E & _). exists oa. rewrite E. do 2 f_equal. symmetry.
  assert (Hl : length (firstn i cycle) = i) by (apply firstn_length_le; lia).
  replace (length pre + (q * length cycle + i)) with (length pre + q * length cycle + length (firstn i cycle)) by lia.
  apply (follow_more s0 _ oa s1 _ (lasso_return q) E). rewrite Hl. intros j Hj.
  rewrite <- Nat.add_assoc, lasso_cycle by lia. rewrite <- (firstn_skipn i cycle) at 1. rewrite nth_error_app1 by lia. reflexivity.
Qed.
Lemma lasso_where k : k < length pre \/ exists q i, i < length cycle /\ k = length pre + (q * length cycle + i).
Proof.
  destruct (le_lt_dec (length pre) k) as [H|H]; [right|auto]. exists ((k - length pre) / length cycle), ((k - length pre) mod length cycle).
  split; [apply Nat.mod_upper_bound; apply cycle_pos|]. pose proof (Nat.div_mod (k - length pre) (length cycle) cycle_pos). lia.
Qed.
Lemma lasso_lives : lives log (following log f).
Proof.
  apply following_lives. intros k. destruct (lasso_where k) as [H|(q & i & Hi & ->)].
  - rewrite lasso_pre by exact H. destruct (execute_firstn init pre k s0 o0 Hpre) as (s1 & oa & E & St).
    replace (follow log f k) with s1; [exact St|]. symmetry. assert (Hl : length (firstn k pre) = k) by (apply firstn_length_le; lia).
    rewrite <- Hl at 1. apply (follow_prefix log (firstn k pre) f s1 oa E). rewrite Hl. intros i Hi. rewrite lasso_pre by lia.
    rewrite <- (firstn_skipn k pre) at 1. rewrite nth_error_app1 by lia. reflexivity.
  - rewrite lasso_cycle by exact Hi. destruct (execute_firstn s0 cycle i s0 o1 Hcyc) as (s1 & oa & E & St).
    destruct (lasso_in q i Hi) as [ob E']. rewrite E in E'. injection E' as -> _. exact St.
Qed.
(** Whatever is a label of the cycle, or is never possible in it, is treated fairly. *)
Lemma lasso_later k q : exists q', k <= length pre + (q' * length cycle + 0) /\ q <= q'.
Proof. exists (q + k). pose proof cycle_pos. split; nia. Qed.
Lemma lasso_fair_in l i : nth_error cycle i = Some l -> fair_to log (following log f) l.
Proof.
  intros H k. destruct (lasso_later k 0) as (q & Hq & _). assert (Hi : i < length cycle) by (apply nth_error_Some; congruence).
  exists (length pre + (q * length cycle + i)). split; [lia|]. left. cbn [does following]. rewrite lasso_cycle by exact Hi. exact H.
Qed.
Lemma lasso_fair_never l : (forall i s o, i < length cycle -> execute log s0 (firstn i cycle) = Some (s, o) -> step log s l = None) ->
  fair_to log (following log f) l.
Proof.
  intros H k. destruct (lasso_later k 0) as (q & Hq & _). exists (length pre + (q * length cycle + 0)). split; [exact Hq|]. right.
  intros j Hj. destruct (lasso_where j) as [X|(q' & i & Hi & ->)]; [lia|]. destruct (lasso_in q' i Hi) as [oa E].
  cbn [at_time following]. exact (H i _ _ Hi E).
Qed.
(** A phase in which the cycle does not rest. *)
Lemma lasso_leaves (p : phase) : s_phase s0 <> p -> forall k, exists j, k <= j /\ s_phase (at_time (following log f) j) <> p.
Proof.
  intros H k. destruct (lasso_later k 0) as (q & Hq & _). exists (length pre + (q * length cycle + 0)). split; [exact Hq|].
  cbn [at_time following]. rewrite Nat.add_0_r, lasso_return. exact H.
Qed.
End Lasso.
