(** Runs with a clock and an inbox: time goes on, the bound is reached, and the runs are those of the client. *)
From Verif Require Export InboxProofs PaceCloseDemo CloseLive EndProofs.
From Coq Require Import Lia.

(** ** The runs are those of the client *)
Lemma attended_is_trace log d k c : attended log d k c -> trace log (e_state c) (noticed c) /\ e_came c = reads (noticed c) ++ e_inbox c.
Proof. intros P. pose proof (attended_manned _ _ _ _ P) as C. split; [exact (u_trace _ _ _ _ C)|exact (u_came _ _ _ _ C)]. Qed.
(** Everything at one instant: each message is read as soon as it arrives. *)
Lemma read_at_once log d k t ls : forall s h o s' o', execute log s ls = Some (s', o') ->
  onward log d k (Desk s t t 0 [] h o) (Desk s' t t 0 [] (h ++ reads o') (o ++ map (pair t) o')).
Proof.
  induction ls as [|l ls IH]; intros s h o s' o' H; cbn [execute] in H.
  - injection H as <- <-. cbn. rewrite !app_nil_r. apply on_here.
  - destruct (step log s l) as [[s1 o1]|] eqn:E1; [|discriminate]. destruct (execute log s1 ls) as [[s2 o2]|] eqn:E2; [|discriminate].
    injection H as <- <-. rewrite map_app, app_assoc, reads_app, app_assoc. eapply onward_trans; [|exact (IH _ _ _ _ _ E2)].
    rewrite (step_reads _ _ _ _ _ E1). assert (Hl : (exists m, l = LRead m) \/ forall m, l <> LRead m) by (destruct l; eauto; right; discriminate).
    destruct Hl as [[m ->]|Hl].
    + destruct (read_label _ _ _ _ _ E1) as (b & Hb & Hv & _). eapply on_turn; [eapply on_turn; [apply on_here|apply (tn_arrive log d k s t t 0 [] h o m); [rewrite Hb; destruct b; discriminate|exact Hv]]|].
      replace (if occupied s [] then t else t) with t by (destruct (occupied s []); reflexivity).
      exact (tn_step log d k s t t 0 [m] (h ++ [m]) o (LRead m) s1 o1 [] E1 eq_refl ltac:(discriminate)).
    + replace (match l with LRead m => [m] | _ => [] end) with (@nil wsmsg) by (destruct l; try reflexivity; exfalso; eapply Hl; reflexivity). rewrite app_nil_r.
      assert (R : reads_from [] l []) by (destruct l; try reflexivity; exfalso; eapply Hl; reflexivity).
      pose proof (tn_step log d k s t t 0 [] h o l s1 o1 [] E1 R ltac:(destruct l; discriminate)) as T.
      replace (if by_task l || negb (occupied s []) then t else t) with t in T by (destruct (_ || _); reflexivity).
      eapply on_turn; [apply on_here|]. destruct l; exact T.
Qed.
Lemma trace_is_attended log d k s o : trace log s o -> exists c, attended log d k c /\ e_state c = s /\ noticed c = o.
Proof.
  intros [ls H]. exists (Desk s 0 0 0 [] ([] ++ reads o) ([] ++ map (pair 0) o)). split; [exists 0; exact (read_at_once log d k 0 ls init [] [] s o H)|].
  split; [reflexivity|]. unfold noticed. cbn [e_seen app]. apply map_snd_pair.
Qed.

Theorem handled_in_time log d k f c c' : attended log d k c -> onward log d k c c' ->
  Forall (fun fs => length fs <= f) (queued (noticed c')) ->
  e_now c + d * steps_to_read k f c < e_now c' ->
  In OBlocked (noticed c') \/ (exists e, In (OEnd e) (noticed c')) \/
  exists rest, reads (noticed_until (e_now c + d * steps_to_read k f c) c') = e_came c ++ rest.
Proof.
  intros P L F N. destruct (attended_is_trace _ _ _ _ (attended_onward _ _ _ _ _ P L)) as [Ht _].
  destruct (arrived_read_in_time _ _ _ _ _ _ P L F N) as [X|X]; [|auto]. apply over_is in X as [X|[e X]].
  - left. exact (CloseLive.stuck_blocked _ _ _ Ht X).
  - right. left. exists e. apply (trace_ended _ _ _ Ht). exact X.
Qed.

(** ** Time goes on *)
Lemma inbox_valid log d k c c' : onward log d k c c' -> Forall (fun m => ws_valid m = true) (e_inbox c) -> Forall (fun m => ws_valid m = true) (e_inbox c').
Proof.
  intros H F. induction H as [|c1 c2 _ IH T]; [exact F|]. destruct T as [| |s t a n i h o l s' o' i' E R Hp]; cbn [e_inbox] in *; [exact IH|apply Forall_app; auto|].
  destruct l; cbn in R; subst; try exact IH. inversion IH; assumption.
Qed.
(** The task ends for what it reads only. *)
Definition ends_reading (e : ending) : Prop := e = EndPanic \/ exists r, e = EndErr r.
Lemma read_ends log b m s s' o e : read_step log b m s = (s', o) -> In (OEnd e) o -> ends_reading e.
Proof.
  unfold read_step, ends_reading. cbv zeta. destruct (process_websocket_packet _ _ _ _ _) as [r c op q out]. cbn [pr_receiver pr_callbacks pr_open pr_queue pr_outcome].
  destruct op; destruct q as [fs|]; unfold push; cbn [s_chan_closed task_ended s_phase set_open set_table set_receiver];
    try (destruct (s_chan_closed s || _) eqn:Ec); destruct out as [[u|x|]|p y]; intros [= <- <-]; cbn; intuition (try discriminate);
    match goal with H : OEnd _ = OEnd _ |- _ => injection H as <-; eauto end.
Qed.
Lemma next_turn log d k c : attended log d k c -> occupied (e_state c) (e_inbox c) = true -> exists c', turns log d k c c' /\ e_now c' = e_now c /\ e_since c' = e_now c /\
  forall e, In (OEnd e) (noticed c') -> In (OEnd e) (noticed c) \/ ends_reading e.
Proof.
  intros P B. pose proof (attended_manned _ _ _ _ P) as C. destruct P as [t0 P]. pose proof (inbox_valid _ _ _ _ _ P ltac:(constructor)) as V.
  destruct c as [s t a n i h o]. cbn [e_state e_now e_since e_inbox] in *.
  assert (X : exists l s' o' i', step log s l = Some (s', o') /\ reads_from i l i' /\ by_task l = true /\ passes_reading i l = false /\ forall e, In (OEnd e) o' -> ends_reading e).
  { unfold occupied in B. destruct (s_phase s) as [| |rest| | |b c| |] eqn:E; try discriminate.
    - destruct i as [|m i]; [discriminate|]. inversion V as [|? ? Vm _]; subst. destruct (read_step log false m s) as [s' o'] eqn:Er. exists (LRead m), s', o', i. cbn. rewrite Vm, E, Er. pose proof (fun e => read_ends _ _ _ _ _ _ e Er). auto 6.
    - destruct rest as [|m rest]; [exfalso; exact (sending_nonempty _ _ _ _ (u_trace _ _ _ _ C) E eq_refl)|].
      exists LWrite, (set_phase (sending rest) s), [OWrite m], i. cbn. rewrite E. repeat split; auto; intros e X; cbn in X; intuition discriminate.
    - exists (LCloseFrame true), (set_phase PReading s), [OCloseFrame], i. cbn. rewrite E. repeat split; auto; intros e X; cbn in X; intuition discriminate.
    - destruct i as [|m i]; [discriminate|]. inversion V as [|? ? Vm _]; subst. destruct (read_step log true m s) as [s' o'] eqn:Er. exists (LRead m), s', o', i. cbn. rewrite Vm, E, Er. pose proof (fun e => read_ends _ _ _ _ _ _ e Er). auto 6.
    - exists LCbReturn. eexists. eexists. exists i. cbn. rewrite E. repeat split; auto; intros e X; cbn in X; intuition discriminate. }
  destruct X as (l & s' & o' & i' & H & R & Bt & Pa & En). eexists. split; [apply (tn_step log d k s t a n i h o l s' o' i' H R); rewrite Pa; discriminate|].
  rewrite Bt. split; [reflexivity|]. split; [reflexivity|]. intros e X. unfold noticed in *. cbn [e_seen] in *.
  rewrite map_app, map_snd_pair in X. apply in_app_iff in X as [X|X]; [left; exact X|right; exact (En e X)].
Qed.
Lemma desk_goes_on log d k c t : 0 < d -> attended log d k c -> exists c', onward log d k c c' /\ t <= e_now c' /\
  forall e, In (OEnd e) (noticed c') -> In (OEnd e) (noticed c) \/ ends_reading e.
Proof.
  intros D P. induction t as [|t (c1 & L & H & En)]; [exists c; split; [apply on_here|split; [lia|auto]]|].
  assert (X : exists c2, onward log d k c1 c2 /\ e_now c1 < e_now c2 /\ forall e, In (OEnd e) (noticed c2) -> In (OEnd e) (noticed c1) \/ ends_reading e).
  { pose proof (attended_onward _ _ _ _ _ P L) as P1. destruct (occupied (e_state c1) (e_inbox c1)) eqn:B.
    - destruct (next_turn _ _ _ _ P1 B) as (c2 & T & N & S & En2). destruct c2 as [s u a n i h o]. cbn [e_now e_since] in *. subst u a.
      exists (Desk s (S (e_now c1)) (e_now c1) n i h o). split; [|split; [cbn; lia|exact En2]].
      eapply on_turn; [eapply on_turn; [apply on_here|exact T]|]. apply tn_wait; lia.
    - destruct c1 as [s u a n i h o]. cbn [e_state e_now e_inbox] in *. exists (Desk s (S u) a n i h o). split; [|split; [cbn; lia|auto]].
      eapply on_turn; [apply on_here|]. apply tn_wait; [lia|]. rewrite B. discriminate. }
  destruct X as (c2 & L2 & H2 & En2). exists c2. split; [exact (onward_trans _ _ _ _ _ _ L L2)|split; [lia|]].
  intros e X. destruct (En2 e X) as [Y|Y]; auto.
Qed.

(** ** The bound is reached *)
(** The client is connected, [k + 1] packets have been queued, the first is taken, and [close()] is called. *)
Definition late_labels (k : nat) : list label := opened_run ++ repeat (LRaw [tick_frame]) (S k) ++ [LTake; LCloseCall].
Definition late_obs (k : nat) : list obs := snd opened_state ++ repeat (OQueued ByUser [tick_frame]) (S k) ++ [OCloseCalled].
Lemma raw_runs n : forall ch, execute false (with_queue ch) (repeat (LRaw [tick_frame]) n) =
  Some (with_queue (ch ++ repeat [tick_frame] n), repeat (OQueued ByUser [tick_frame]) n).
Proof.
  induction n as [|n IH]; intros ch; [cbn; rewrite app_nil_r; reflexivity|]. cbn [repeat execute]. rewrite queue_step, IH, <- app_assoc. reflexivity.
Qed.
Lemma late_runs k : execute false init (late_labels k) = Some (told_sending (repeat [tick_frame] k), late_obs k).
Proof.
  unfold late_labels, late_obs. rewrite execute_app. replace (execute false init opened_run) with (Some (with_queue [], snd opened_state)) by (vm_compute; reflexivity).
  rewrite execute_app, raw_runs. reflexivity.
Qed.
Definition late_message : wsmsg := WText (bs "42[""x"",2]").
Definition late_start (k : nat) : desk :=
  Desk (told_sending (repeat [tick_frame] k)) 0 0 0 [late_message] (([] ++ reads (late_obs k)) ++ [late_message]) ([] ++ map (pair 0) (late_obs k)).
Lemma late_attended d k : attended false d k (late_start k).
Proof.
  exists 0. eapply on_turn; [exact (read_at_once false d k 0 _ init [] [] _ _ (late_runs k))|].
  exact (tn_arrive false d k (told_sending (repeat [tick_frame] k)) 0 0 0 [] _ _ late_message ltac:(discriminate) eq_refl).
Qed.
Lemma late_seen k : queued (noticed (late_start k)) = repeat [tick_frame] (S k) /\ reads (noticed (late_start k)) = [sample_open].
Proof.
  unfold noticed, late_start, late_obs. cbn [e_seen app]. rewrite map_snd_pair, !queued_app, !reads_app.
  assert (Q : forall n, queued (repeat (OQueued ByUser [tick_frame]) n) = repeat [tick_frame] n /\ reads (repeat (OQueued ByUser [tick_frame]) n) = []).
  { induction n as [|n [IH1 IH2]]; [split; reflexivity|]. cbn [repeat]. split; [change (queued (?x :: ?y)) with (queued ([x] ++ y)) | change (reads (?x :: ?y)) with (reads ([x] ++ y))]; rewrite ?queued_app, ?reads_app, ?IH1, ?IH2; reflexivity. }
  destruct (Q (S k)) as [Q1 Q2]. rewrite Q1, Q2.
  replace (queued (snd opened_state)) with (@nil (list wsmsg)) by (vm_compute; reflexivity).
  replace (reads (snd opened_state)) with [sample_open] by (vm_compute; reflexivity).
  split; [cbn [queued flat_map app]; rewrite ?app_nil_r; reflexivity|reflexivity].
Qed.
Lemma late_rounds d k n : n <= k -> exists o, onward false d k (late_start k)
    (Desk (told_sending (repeat [tick_frame] (k - n))) (2 * n * d) (2 * n * d) n [late_message] (e_came (late_start k)) o) /\
  reads (map snd o) = [sample_open] /\ queued_many o k.
Proof.
  induction n as [|n IH]; intros Hn.
  - exists (e_seen (late_start k)). rewrite Nat.sub_0_r. split; [apply on_here|]. destruct (late_seen k) as (A & B). split; [exact B|exact A].
  - destruct (IH ltac:(lia)) as (o & L & W & Q). clear IH. set (t := 2 * n * d) in *.
    replace (k - n) with (S (k - S n)) in L by lia. set (ch := repeat [tick_frame] (k - S n)) in *. cbn [repeat] in L. fold ch in L.
    exists ((o ++ map (pair (t + d)) [OWrite tick_frame]) ++ map (pair (t + d + d)) []). split; [|split].
    + replace (2 * S n * d) with (t + d + d) by (unfold t; lia).
      eapply on_turn; [eapply on_turn; [eapply on_turn; [eapply on_turn; [exact L|]|]|]|].
      * apply (tn_wait false d k (told_sending ([tick_frame] :: ch)) t (t + d) t n [late_message] _ o); lia.
      * exact (tn_step false d k (told_sending ([tick_frame] :: ch)) (t + d) t n [late_message] _ o LWrite (told_loop ([tick_frame] :: ch)) [OWrite tick_frame] [late_message] eq_refl eq_refl ltac:(discriminate)).
      * apply (tn_wait false d k (told_loop ([tick_frame] :: ch)) (t + d) (t + d + d) (t + d) n [late_message] _); lia.
      * exact (tn_step false d k (told_loop ([tick_frame] :: ch)) (t + d + d) (t + d) n [late_message] _ _ LTake (told_sending ch) [] [late_message] eq_refl eq_refl ltac:(intros _; exact Hn)).
    + rewrite !map_app, !map_snd_pair, !reads_app, W, app_nil_r. reflexivity.
    + unfold queued_many in *. rewrite !map_app, !map_snd_pair, !queued_app, Q, !app_nil_r. reflexivity.
Qed.
(** At time [t] of the end of the run, all is written, the close frame is sent, and the message is not read. *)
Definition late_reading : state := set_phase PReading (told_loop []).
Lemma late_end d k : exists o, onward false d k (late_start k)
    (Desk late_reading (d * (2 * k + 4)) (d * (2 * k + 3)) k [late_message] (e_came (late_start k)) o) /\
  reads (map snd o) = [sample_open] /\ queued_many o k.
Proof.
  destruct (late_rounds d k k (le_n k)) as (o & L & W & Q). rewrite Nat.sub_diag in L. cbn [repeat] in L. set (t := 2 * k * d) in *.
  replace (d * (2 * k + 4)) with (t + d + d + d + d) by (unfold t; lia). replace (d * (2 * k + 3)) with (t + d + d + d) by (unfold t; lia).
  exists (((o ++ map (pair (t + d)) [OWrite tick_frame]) ++ map (pair (t + d + d)) []) ++ map (pair (t + d + d + d)) [OCloseFrame]). split; [|split].
  - eapply on_turn; [eapply on_turn; [eapply on_turn; [eapply on_turn; [eapply on_turn; [eapply on_turn; [eapply on_turn; [exact L|]|]|]|]|]|]|].
    + apply (tn_wait false d k (told_sending []) t (t + d) t k [late_message] _ o); lia.
    + exact (tn_step false d k (told_sending []) (t + d) t k [late_message] _ o LWrite (told_loop []) [OWrite tick_frame] [late_message] eq_refl eq_refl ltac:(discriminate)).
    + apply (tn_wait false d k (told_loop []) (t + d) (t + d + d) (t + d) k [late_message] _ _); lia.
    + exact (tn_step false d k (told_loop []) (t + d + d) (t + d) k [late_message] _ _ LClosed (set_phase PClosing (told_loop [])) [] [late_message] eq_refl eq_refl ltac:(discriminate)).
    + apply (tn_wait false d k (set_phase PClosing (told_loop [])) (t + d + d) (t + d + d + d) (t + d + d) k [late_message] _ _); lia.
    + exact (tn_step false d k (set_phase PClosing (told_loop [])) (t + d + d + d) (t + d + d) k [late_message] _ _ (LCloseFrame true) late_reading [OCloseFrame] [late_message] eq_refl eq_refl ltac:(discriminate)).
    + apply (tn_wait false d k late_reading (t + d + d + d) (t + d + d + d + d) (t + d + d + d) k [late_message] _ _); lia.
  - rewrite !map_app, !map_snd_pair, !reads_app, W, ?app_nil_r. reflexivity.
  - unfold queued_many in *. rewrite !map_app, !map_snd_pair, !queued_app, Q. cbn [queued flat_map app]. rewrite !app_nil_r. reflexivity.
Qed.
Lemma repeat_short n : Forall (fun fs => length fs <= 1) (repeat [tick_frame] n).
Proof. apply Forall_forall. intros x Hx. apply repeat_spec in Hx. subst x. cbn. lia. Qed.
Lemma read_bound_reached d k : exists c c', attended false d k c /\ onward false d k c c' /\
  Forall (fun fs => length fs <= 1) (queued (noticed c')) /\ e_now c' = e_now c + d * steps_to_read k 1 c /\ ~ over (e_state c') /\
  e_came c = [sample_open; late_message] /\ reads (noticed c') = [sample_open].
Proof.
  destruct (late_end d k) as (o & L & W & Q). exists (late_start k). eexists. split; [apply late_attended|]. split; [exact L|].
  split; [|split; [|split; [|split]]].
  - unfold noticed, queued_many in *. cbn [e_seen]. rewrite Q. exact (repeat_short (S k)).
  - unfold steps_to_read, in_hand. cbn [e_now e_state e_inbox late_start told_sending s_phase set_chan set_phase length]. lia.
  - cbn. intros [X|X]; discriminate.
  - rewrite (u_came _ _ _ _ (attended_manned _ _ _ _ (late_attended d k))), (proj2 (late_seen k)). reflexivity.
  - exact W.
Qed.
Lemma read_at_last d k : exists c c', attended false d k c /\ onward false d k c c' /\
  Forall (fun fs => length fs <= 1) (queued (noticed c')) /\ e_now c + d * steps_to_read k 1 c < e_now c' /\ ~ over (e_state c') /\
  reads (noticed c) = [sample_open] /\ e_came c = [sample_open; late_message] /\ reads (noticed c') = [sample_open; late_message].
Proof.
  destruct (late_end d k) as (o & L & W & Q). set (t := d * (2 * k + 4)) in *.
  assert (X : exists s' o', step false late_reading (LRead late_message) = Some (s', o') /\ queued o' = [] /\ s_phase s' = PReading).
  { eexists. eexists. split; [vm_compute; reflexivity|]. split; vm_compute; reflexivity. }
  destruct X as (s' & o' & E & Eq & Ep).
  exists (late_start k), (Desk s' (S t) t 0 [] (e_came (late_start k)) (o ++ map (pair t) o')). split; [apply late_attended|].
  split; [|split; [|split; [|split; [|split; [|split]]]]].
  - eapply on_turn; [eapply on_turn; [exact L|]|].
    + exact (tn_step false d k late_reading t _ k [late_message] _ o (LRead late_message) s' o' [] E eq_refl ltac:(discriminate)).
    + apply (tn_wait false d k s' t (S t) t 0 [] _ _); [lia|]. unfold occupied. rewrite Ep. discriminate.
  - unfold noticed, queued_many in *. cbn [e_seen]. rewrite map_app, map_snd_pair, queued_app, Q, Eq, app_nil_r. exact (repeat_short (S k)).
  - unfold steps_to_read, in_hand, t. cbn [e_now e_state e_inbox late_start told_sending s_phase set_chan set_phase length]. lia.
  - cbn [e_state]. unfold over, task_ended. rewrite Ep. intros [Y|Y]; discriminate.
  - exact (proj2 (late_seen k)).
  - rewrite (u_came _ _ _ _ (attended_manned _ _ _ _ (late_attended d k))), (proj2 (late_seen k)). reflexivity.
  - unfold noticed in *. cbn [e_seen] in *. rewrite map_app, map_snd_pair, reads_app, W, (step_reads _ _ _ _ _ E). reflexivity.
Qed.
Lemma no_read_bound d B : 0 < d -> exists k c c', attended false d k c /\ onward false d k c c' /\
  Forall (fun fs => length fs <= 1) (queued (noticed c')) /\ e_now c + B < e_now c' /\ ~ over (e_state c') /\
  e_came c = [sample_open; late_message] /\ reads (noticed c') = [sample_open].
Proof.
  intros D. destruct (read_bound_reached d B) as (c & c' & P & L & F & N & O & C & W). exists B, c, c'.
  split; [exact P|]. split; [exact L|]. split; [exact F|]. split; [|auto]. unfold steps_to_read in N.
  assert (I : e_inbox c <> []).
  { intros X. pose proof (u_came _ _ _ _ (attended_manned _ _ _ _ P)) as U. rewrite X, C, app_nil_r in U.
    destruct (noticed_onward _ _ _ _ _ L) as [o Eo]. rewrite Eo, reads_app, <- U in W. discriminate W. }
  destruct (e_inbox c) as [|m i]; [contradiction|]. cbn [length] in N. nia.
Qed.
