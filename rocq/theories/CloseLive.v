(** Closing: what may be lost, and that it can always be completed. *)
From Verif Require Import FlowProofs.
From Coq Require Import Lia.

Lemma signalled log s o : trace log s o -> s_handle s <> HHeld -> s_signal s = true.
Proof.
  revert s o. apply (trace_ind2 log (fun s o => s_handle s <> HHeld -> s_signal s = true)).
  - intros N. destruct (N eq_refl).
  - intros s o m s' o' Ht IH H Hi. destruct (step_read _ _ _ _ _ _ Ht H) as (_ & _ & _ & E1 & E2 & _). rewrite E2. apply IH. rewrite <- E1. exact Hi.
  - intros s o l s' o' Ht IH Hl H Hi. other_cases H Hl; cbn in *; auto; try congruence; try (apply IH; discriminate).
Qed.
Lemma signal_called log s o : trace log s o -> In OCloseCalled o -> s_signal s = true.
Proof.
  intros Ht Hi. apply (signalled log s o Ht). intros E. destruct (h_held _ _ (trace_handled _ _ _ Ht) E) as [X _]. contradiction.
Qed.
Lemma drain_first log q2 q1 : forall s, s_phase s = PLoop -> s_chan s = q1 ++ q2 -> exists ls s',
  Forall writing ls /\ execute log s ls = Some (s', map OWrite (concat q1)) /\ s_phase s' = PLoop /\ s_chan s' = q2 /\ s_handle s' = s_handle s.
Proof.
  induction q1 as [|fs q IH]; intros s Hp Hc.
  - exists [], s. cbn. auto.
  - set (s1 := set_chan (q ++ q2) (set_phase (sending fs) s)).
    assert (E1 : step log s LTake = Some (s1, [])) by (cbn; rewrite Hp, Hc; reflexivity).
    destruct fs as [|m fs].
    + destruct (IH s1 eq_refl eq_refl) as (ls & s' & F & E & P & C & Hh). exists (LTake :: ls), s'.
      split; [constructor; [left; reflexivity|exact F]|]. split; [|auto].
      cbn [execute]. rewrite E1, E. reflexivity.
    + destruct (write_all log (m :: fs) s1 eq_refl) as (s2 & E2 & P2 & C2 & H2).
      destruct (IH s2 (P2 ltac:(discriminate)) C2) as (ls & s' & F & E & P & C & Hh).
      exists (LTake :: repeat LWrite (length (m :: fs)) ++ ls), s'. split; [|split; [|split; [exact P|split; [exact C|rewrite Hh, H2; reflexivity]]]].
      * constructor; [left; reflexivity|]. apply Forall_app. split; [|exact F]. apply Forall_forall. intros x Hx. apply repeat_spec in Hx. subst x. right. left. reflexivity.
      * cbn [execute]. rewrite E1, execute_app, E2, E. cbn [concat]. rewrite map_app. reflexivity.
Qed.
Lemma trace_extend log s o ls s' o' : trace log s o -> execute log s ls = Some (s', o') -> trace log s' (o ++ o').
Proof. intros [l0 E0] E. exists (l0 ++ ls). rewrite execute_app, E0, E. reflexivity. Qed.

(** At the select, with the signal given: any number of the packets queued may still be written. *)
Lemma close_any_moment log s o q1 q2 : trace log s o -> In OCloseCalled o -> s_phase s = PLoop -> s_chan s = q1 ++ q2 ->
  exists q0 ls s' o', queued o = q0 ++ q1 ++ q2 /\ writes o = concat q0 /\ Forall own_step ls /\
    execute log s ls = Some (s', o' ++ [OCloseFrame]) /\ writes o' = concat q1.
Proof.
  intros Ht Hc Hp Hq. destruct (n_running _ _ (trace_sent _ _ _ Ht)) as (q0 & Q & W); [unfold task_ended; rewrite Hp; reflexivity|].
  unfold pending in W. rewrite Hp, app_nil_r in W. rewrite Hq in Q.
  destruct (drain_first log q2 q1 s Hp Hq) as (ls & s1 & F & E & P & C & _).
  pose proof (trace_extend _ _ _ _ _ _ Ht E) as Ht1.
  assert (Sg : s_signal s1 = true) by (apply (signal_called log s1 _ Ht1); apply in_app_iff; auto).
  exists q0, (ls ++ [LClosed; LCloseFrame true]), (set_phase PReading (set_phase PClosing s1)), (map OWrite (concat q1)).
  split; [exact Q|]. split; [exact W|]. split; [|split; [|apply writes_map]].
  - apply Forall_app. split; [eapply Forall_impl; [|exact F]; intros l [->|[->| ->]]; exact I|repeat constructor].
  - rewrite execute_app, E. cbn [execute step]. rewrite P, Sg. reflexivity.
Qed.

Lemma stuck_blocked log s o : trace log s o -> s_phase s = PStuck -> In OBlocked o.
Proof.
  revert s o. apply (trace_ind2 log (fun s o => s_phase s = PStuck -> In OBlocked o)).
  - discriminate.
  - intros s o m s' o' Ht IH H Hi. destruct (read_label _ _ _ _ _ H) as (b & Hb & _ & E). exfalso. unfold read_step in E.
    destruct (pr_open _); destruct (pr_queue _); unfold push in E; destruct (pr_outcome _) as [[| |]|]; step_cases E; injection E as <- <-; cbn in Hi; try discriminate; rewrite Hb in Hi; destruct b; discriminate.
  - intros s o l s' o' Ht IH Hl H Hi. rewrite in_app_iff.
    other_cases H Hl; cbn in Hi; try discriminate Hi; try (left; apply IH; congruence); try (left; apply IH; exact Hi); try (right; cbn; rewrite ?in_app_iff; cbn; tauto);
    try (unfold sending in Hi; match type of Hi with context [match ?x with [] => _ | _ :: _ => _ end] => destruct x end; discriminate Hi);
    try (match type of Hi with context [if ?x then _ else _] => destruct x end; discriminate Hi).
Qed.
Lemma unborn_waits log s o : trace log s o -> s_phase s = PUnborn -> s_conn s <> COpening /\ is_connected s = false /\ s_handle s <> HClosing.
Proof.
  revert s o. apply (trace_ind2 log (fun s o => s_phase s = PUnborn -> s_conn s <> COpening /\ is_connected s = false /\ s_handle s <> HClosing)).
  - intros _. repeat split; discriminate.
  - intros s o m s' o' Ht IH H Hi. destruct (read_label _ _ _ _ _ H) as (b & Hb & _ & E). exfalso. unfold read_step in E.
    destruct (pr_open _); destruct (pr_queue _); unfold push in E; destruct (pr_outcome _) as [[| |]|]; step_cases E; injection E as <- <-; cbn in Hi; try discriminate; rewrite Hb in Hi; destruct b; discriminate.
  - intros s o l s' o' Ht IH Hl H Hi. unfold is_connected in *.
    other_cases H Hl; cbn in *; try discriminate Hi; try congruence;
    try (unfold sending in Hi; match type of Hi with context [match ?x with [] => _ | _ :: _ => _ end] => destruct x end; discriminate Hi);
    try (match type of Hi with context [if ?x then _ else _] => destruct x end; discriminate Hi);
    try (destruct (IH Hi) as (A & B & C); repeat split; auto; try discriminate; congruence);
    try (repeat split; try discriminate; destruct (IH Hi) as (A & B & C); congruence).
    exfalso. destruct (IH Hi) as (_ & B & _). unfold usable_client, is_connected in E. rewrite B in E. discriminate.
Qed.
Lemma writing_handle log ls : forall s s' o', Forall writing ls -> execute log s ls = Some (s', o') -> s_handle s' = s_handle s.
Proof.
  induction ls as [|l ls IH]; intros s s' o' F H; cbn [execute] in H; [injection H as <- <-; reflexivity|]. inversion F as [|? ? Hl Hf]; subst.
  destruct (step log s l) as [[s1 o1]|] eqn:E1; [|discriminate]. destruct (execute log s1 ls) as [[s2 o2]|] eqn:E2; [|discriminate].
  injection H as <- <-. rewrite (IH _ _ _ Hf E2). destruct Hl as [->|[->| ->]]; cbn in E1.
  - destruct (s_phase s); try discriminate. destruct (s_chan s); [destruct (s_chan_closed s); [|discriminate]|]; injection E1 as <- <-; reflexivity.
  - destruct (s_phase s) as [| |[|? ?]| | | | |]; try discriminate. injection E1 as <- <-. reflexivity.
  - destruct (s_phase s); try discriminate. injection E1 as <- <-. reflexivity.
Qed.
(** While close() is awaited and the task is not blocked, the rest can happen: all packets queued are
    written (unless closing has begun), the close frame is sent, the server ends the stream, close()
    returns. *)
Lemma close_completes log s o : trace log s o -> s_handle s = HClosing -> ~ In OBlocked o ->
  exists ls s' o' r, Forall to_the_end ls /\ execute log s ls = Some (s', o' ++ [OClose r]) /\
    ((forall e, ~ In (OEnd e) o) -> r = CloseOk) /\
    (in_main_loop s -> In OCloseFrame o' /\ writes (o ++ o') = concat (queued o)).
Proof.
  intros Ht Hh Hb.
  assert (Own : forall ls, Forall writing ls -> Forall to_the_end ls).
  { intros ls F. eapply Forall_impl; [|exact F]. intros l [->|[->| ->]]; left; exact I. }
  assert (Fin : Forall to_the_end [LReadEnd; LCloseReturn]) by (constructor; [right; left; reflexivity|constructor; [right; right; reflexivity|constructor]]).
  assert (Fr : to_the_end (LCloseFrame true)) by (left; exact I). assert (Fc : to_the_end LClosed) by (left; exact I). assert (Fb : to_the_end LCbReturn) by (left; exact I).
  assert (Loop : in_main_loop s -> exists ls s' o', Forall to_the_end ls /\ execute log s ls = Some (s', o' ++ [OClose CloseOk]) /\
             In OCloseFrame o' /\ writes (o ++ o') = concat (queued o)).
  { intros Hm. destruct (progress_loop log s o Ht Hm) as (ls & s1 & o1 & F & E & W & _ & P).
    pose proof (trace_extend _ _ _ _ _ _ Ht E) as Ht1. pose proof (writing_handle _ _ _ _ _ F E) as Hh1. rewrite Hh in Hh1.
    assert (Sg : s_signal s1 = true) by (apply (signalled log s1 _ Ht1); congruence).
    exists (ls ++ [LClosed; LCloseFrame true; LReadEnd; LCloseReturn]). eexists. exists (o1 ++ [OCloseFrame; OEnd EndOk]). split; [|split; [|split]].
    - apply Forall_app. split; [apply Own; exact F|]. constructor; [exact Fc|]. constructor; [exact Fr|exact Fin].
    - rewrite execute_app, E. cbn [execute step]. rewrite P, Sg. cbn [execute step s_phase set_phase]. cbn [s_handle set_handle set_phase end_task set_chan s_phase]. rewrite Hh1.
      cbn [app]. rewrite <- app_assoc. reflexivity.
    - apply in_app_iff. right. left. reflexivity.
    - rewrite app_assoc, writes_app, W. cbn. apply app_nil_r. }
  destruct (s_phase s) as [| |rest| | |b c| |e] eqn:Ep.
  - exfalso. destruct (unborn_waits _ _ _ Ht Ep) as (_ & _ & X). contradiction.
  - destruct (Loop ltac:(unfold in_main_loop; rewrite Ep; exact I)) as (ls & s' & o' & F & E & C & W). exists ls, s', o', CloseOk. auto.
  - destruct (Loop ltac:(unfold in_main_loop; rewrite Ep; exact I)) as (ls & s' & o' & F & E & C & W). exists ls, s', o', CloseOk. auto.
  - exists [LCloseFrame true; LReadEnd; LCloseReturn]. eexists. exists [OCloseFrame; OEnd EndOk], CloseOk. split; [constructor; [exact Fr|exact Fin]|].
    split; [|split; [reflexivity|unfold in_main_loop; rewrite Ep; intros []]]. cbn [execute step]. rewrite Ep. cbn. rewrite Hh. reflexivity.
  - exists [LReadEnd; LCloseReturn]. eexists. exists [OEnd EndOk], CloseOk. split; [exact Fin|].
    split; [|split; [reflexivity|unfold in_main_loop; rewrite Ep; intros []]]. cbn [execute step]. rewrite Ep. cbn. rewrite Hh. reflexivity.
  - destruct b.
    + exists [LCbReturn; LReadEnd; LCloseReturn]. eexists. exists [OEnd EndOk], CloseOk. split; [constructor; [exact Fb|exact Fin]|].
      split; [|split; [reflexivity|unfold in_main_loop; rewrite Ep; intros []]]. cbn [execute step]. rewrite Ep. cbn. rewrite Hh. reflexivity.
    + destruct (Loop ltac:(unfold in_main_loop; rewrite Ep; exact I)) as (ls & s' & o' & F & E & C & W). exists ls, s', o', CloseOk. auto.
  - destruct (Hb (stuck_blocked _ _ _ Ht Ep)).
  - exists [LCloseReturn]. eexists. exists []. eexists. split; [constructor; [right; right; reflexivity|constructor]|].
    split; [cbn; rewrite Hh, Ep; reflexivity|]. split; [|unfold in_main_loop; rewrite Ep; intros []].
    intros N. exfalso. apply (N e). apply (trace_ended _ _ _ Ht). exact Ep.
Qed.
Lemma blocked_close log s o1 o2 r : trace log s (o1 ++ OBlocked :: o2) -> In (OClose r) o2 -> r = CloseTimeout \/ r = CloseAlready.
Proof. intros Ht Hi. destruct (blocked_forever _ _ _ _ Ht) as [_ Hf]. rewrite Forall_forall in Hf. exact (Hf _ Hi). Qed.
