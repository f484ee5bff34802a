(** Whether a client notices that the server is gone (C72). *)
From Verif Require Export SpecSilence FairDemo PeerReadProofs.
From Coq Require Import Lia.

(** ** The task comes to rest *)
Lemma own_chan log s l s' o' : own_step l -> step log s l = Some (s', o') -> s_chan_closed s' = s_chan_closed s.
Proof.
  intros Hl H. destruct l; cbn [own_step] in Hl; try contradiction; try (match type of Hl with match ?b with _ => _ end => destruct b; [|contradiction] end); cbn [step] in H.
  all: repeat match type of H with context [match ?x with _ => _ end] => destruct x eqn:?; try discriminate end; injection H as <- <-; cbn; auto.
Qed.
Lemma own_chan_run log ls : forall s s' o', Forall own_step ls -> execute log s ls = Some (s', o') -> s_chan_closed s' = s_chan_closed s.
Proof.
  induction ls as [|l ls IH]; intros s s' o' F H; [injection H as <- <-; reflexivity|]. inversion F as [|? ? F1 F2]; subst. cbn [execute] in H.
  destruct (step log s l) as [[s1 o1]|] eqn:E; [|discriminate]. destruct (execute log s1 ls) as [[s2 o2]|] eqn:E2; [|discriminate].
  injection H as <- _. rewrite (IH _ _ _ F2 E2). exact (own_chan _ _ _ _ _ F1 E).
Qed.
Lemma writing_own ls : Forall writing ls -> Forall own_step ls.
Proof. intros H. eapply Forall_impl; [|exact H]. intros l [->|[->| ->]]; exact I. Qed.
Lemma rest_by_phase log s : (s_phase s = PReading \/ s_phase s = PUnborn \/ s_phase s = PStuck \/ (exists e, s_phase s = PEnded e)) \/
    (s_phase s = PLoop /\ s_chan s = [] /\ s_chan_closed s = false /\ s_signal s = false) -> at_rest log s.
Proof.
  intros H l Hl. destruct H as [[H|[H|[H|[e H]]]]|(H & Hc & Hd & Hs)];
    destruct l; cbn [own_step] in Hl; try contradiction; try (match type of Hl with match ?b with _ => _ end => destruct b; [|contradiction] end); cbn [step]; rewrite H; try reflexivity.
  - rewrite Hc, Hd. reflexivity.
  - rewrite Hs. reflexivity.
Qed.
Lemma loop_rests log s : s_phase s = PLoop -> s_chan_closed s = false ->
  exists ls s' o', Forall own_step ls /\ execute log s ls = Some (s', o') /\ at_rest log s' /\ task_ended s' = false.
Proof.
  intros Hp Hc. destruct (drain log (s_chan s) s Hp eq_refl) as (ls & s1 & F & E & P & C).
  pose proof (own_chan_run _ _ _ _ _ (writing_own _ F) E) as Hd. rewrite Hc in Hd.
  destruct (s_signal s1) eqn:Es.
  - exists (ls ++ [LClosed; LCloseFrame true]), (set_phase PReading (set_phase PClosing s1)), (map OWrite (concat (s_chan s)) ++ [OCloseFrame]).
    split; [apply Forall_app; split; [apply writing_own; exact F|repeat constructor]|]. split; [|split; [apply rest_by_phase; left; left; reflexivity|reflexivity]].
    rewrite execute_app, E. cbn [execute step]. rewrite P, Es. reflexivity.
  - exists ls, s1, (map OWrite (concat (s_chan s))). split; [apply writing_own; exact F|]. split; [exact E|]. split; [|unfold task_ended; rewrite P; reflexivity].
    apply rest_by_phase. right. auto.
Qed.
Lemma comes_to_rest log s o : trace log s o -> task_ended s = false -> ~ In OChannelClosed o ->
  exists ls s' o', Forall own_step ls /\ execute log s ls = Some (s', o') /\ at_rest log s' /\ task_ended s' = false.
Proof.
  intros Ht He Hn. assert (Hc : s_chan_closed s = false).
  { destruct (s_chan_closed s) eqn:E; [|reflexivity]. apply (v_closed _ _ (trace_invariant _ _ _ Ht)) in E. contradiction. }
  assert (M : in_main_loop s -> exists ls s' o', Forall own_step ls /\ execute log s ls = Some (s', o') /\ at_rest log s' /\ task_ended s' = false).
  { intros Hm. destruct (progress_loop log s o Ht Hm) as (ls & s1 & o1 & F & E & _ & _ & P).
    pose proof (own_chan_run _ _ _ _ _ (writing_own _ F) E) as Hd. rewrite Hc in Hd.
    destruct (loop_rests log s1 P Hd) as (ls2 & s2 & o2 & F2 & E2 & R). exists (ls ++ ls2), s2, (o1 ++ o2).
    split; [apply Forall_app; split; [apply writing_own; exact F|exact F2]|]. split; [rewrite execute_app, E, E2; reflexivity|exact R]. }
  unfold in_main_loop in M. destruct (s_phase s) as [| |rest| | |[] c| |e] eqn:Ep; try (apply M; exact I).
  - exists [], s, []. split; [constructor|]. split; [reflexivity|]. split; [|exact He]. apply rest_by_phase. auto.
  - exists [LCloseFrame true], (set_phase PReading s), [OCloseFrame]. split; [repeat constructor|]. split; [cbn [execute step]; rewrite Ep; reflexivity|].
    split; [apply rest_by_phase; left; left; reflexivity|reflexivity].
  - exists [], s, []. split; [constructor|]. split; [reflexivity|]. split; [|exact He]. apply rest_by_phase. auto.
  - exists [LCbReturn], (set_phase PReading s), []. split; [repeat constructor|]. split; [cbn [execute step]; rewrite Ep; reflexivity|].
    split; [apply rest_by_phase; left; left; reflexivity|reflexivity].
  - exists [], s, []. split; [constructor|]. split; [reflexivity|]. split; [|exact He]. apply rest_by_phase. auto.
  - unfold task_ended in He. rewrite Ep in He. discriminate.
Qed.

(** ** A run, and then nothing for ever *)
Lemma firstn_next {A} (l : list A) : forall i x, nth_error l i = Some x -> firstn (S i) l = firstn i l ++ [x].
Proof. induction l as [|y l IH]; intros [|i] x; cbn [nth_error]; try discriminate; [intros [= ->]; reflexivity|]. intros H. cbn [firstn app]. f_equal. apply IH. exact H. Qed.
Definition then_nothing (log : bool) (ls : list label) : life := following log (nth_error ls).
Section Nothing.
Context (log : bool) (ls : list label) (s : state) (o : list obs) (Hrun : execute log init ls = Some (s, o)).
Lemma nothing_prefix i : i <= length ls -> execute log init (firstn i ls) = Some (at_time (then_nothing log ls) i, seen (then_nothing log ls) i).
Proof.
  induction i as [|i IH]; intros Hi; [reflexivity|]. specialize (IH ltac:(lia)).
  destruct (execute_firstn log init ls i s o Hrun) as (s1 & oa & E & N).
  destruct (nth_error ls i) as [l|] eqn:El; [|apply nth_error_None in El; lia].
  assert (Ef : firstn (S i) ls = firstn i ls ++ [l]).
  { apply firstn_next. exact El. }
  rewrite IH in E. injection E as E _. rewrite Ef, execute_app, IH. cbn [execute seen]. cbn [then_nothing at_time following follow SpecFair.sees] in *. rewrite El, E.
  destruct (step log s1 l) as [[s2 o2]|]; [|contradiction]. rewrite app_nil_r. reflexivity.
Qed.
Lemma nothing_after k : length ls <= k -> at_time (then_nothing log ls) k = s.
Proof.
  intros Hk. induction Hk as [|k Hk IH].
  - pose proof (nothing_prefix (length ls) (le_n _)) as E. rewrite firstn_all, Hrun in E. injection E. auto.
  - cbn [then_nothing at_time following follow] in *. rewrite (proj2 (nth_error_None ls k) Hk). exact IH.
Qed.
Lemma nothing_lives : lives log (then_nothing log ls).
Proof.
  apply following_lives. intros k. destruct (nth_error ls k) as [l|] eqn:E; [|exact I].
  assert (Hk : k < length ls) by (apply nth_error_Some; congruence).
  destruct (execute_firstn log init ls k s o Hrun) as (s1 & oa & E1 & E2). rewrite E in E2.
  pose proof (nothing_prefix k ltac:(lia)) as E3. rewrite E1 in E3. injection E3 as E3 _. cbn in E3. rewrite <- E3. exact E2.
Qed.
Lemma nothing_silent k : (forall i l, k <= i -> nth_error ls i = Some l -> ~ from_server l) -> silent_from (then_nothing log ls) k.
Proof. intros H j l Hj E. exact (H j l Hj E). Qed.
Lemma nothing_just : at_rest log s -> (forall rest, s_phase s = PSending rest -> rest <> []) -> just log (then_nothing log ls).
Proof.
  intros Hr Hne. assert (L : forall k, k <= k + length ls /\ length ls <= k + length ls) by (intros; lia).
  split; [|split; [|split]].
  - intros l Hl k. exists (k + length ls). split; [apply L|]. right. intros i Hi. rewrite (nothing_after i) by lia. exact (Hr l Hl).
  - intros k rest _. exists (k + length ls). split; [apply L|]. rewrite nothing_after by apply L. intros E.
    pose proof (Hr LWrite I) as X. cbn [step] in X. rewrite E in X. destruct rest; [exact (Hne _ E eq_refl)|discriminate].
  - intros k b c _. exists (k + length ls). split; [apply L|]. rewrite nothing_after by apply L. intros E.
    pose proof (Hr LCbReturn I) as X. cbn [step] in X. rewrite E in X. discriminate.
  - intros k _. exists (k + length ls). split; [apply L|]. rewrite nothing_after by apply L. intros E.
    pose proof (Hr (LCloseFrame true) I) as X. cbn [step] in X. rewrite E in X. discriminate.
Qed.
End Nothing.

Lemma own_not_server l : own_step l -> ~ from_server l.
Proof. destruct l; cbn; auto. Qed.
Lemma never_noticed log ls s o : client_run log ls s o -> task_ended s = false -> ~ In OChannelClosed o ->
  exists r, lives log r /\ just log r /\ at_time r (length ls) = s /\ seen r (length ls) = o /\ silent_from r (length ls) /\
    exists s', task_ended s' = false /\ at_rest log s' /\ exists k, forall j, k <= j -> at_time r j = s'.
Proof.
  intros Hrun He Hn. destruct (comes_to_rest log s o (run_trace' _ _ _ _ Hrun) He Hn) as (ls2 & s2 & o2 & F & E & R & He2).
  assert (H : execute log init (ls ++ ls2) = Some (s2, o ++ o2)) by (rewrite execute_app, Hrun, E; reflexivity).
  exists (then_nothing log (ls ++ ls2)). split; [exact (nothing_lives _ _ _ _ H)|].
  split; [apply (nothing_just _ _ _ _ H R); intros rest; eapply sending_nonempty; exists (ls ++ ls2); exact H|].
  assert (A : at_time (then_nothing log (ls ++ ls2)) (length ls) = s /\ seen (then_nothing log (ls ++ ls2)) (length ls) = o).
  { pose proof (nothing_prefix _ _ _ _ H (length ls)) as E1. rewrite app_length in E1. specialize (E1 ltac:(lia)).
    rewrite firstn_app, Nat.sub_diag, firstn_all, app_nil_r in E1. rewrite Hrun in E1. injection E1. auto. }
  split; [apply A|]. split; [apply A|].
  split.
  - intros j l Hj El. apply own_not_server. rewrite Forall_forall in F. apply F. cbn in El. rewrite nth_error_app2 in El by exact Hj. eapply nth_error_In; eauto.
  - exists s2. split; [exact He2|]. split; [exact R|]. exists (length (ls ++ ls2)). intros j Hj. exact (nothing_after _ _ _ _ H j Hj).
Qed.
Lemma C72_refuted_lemma : ~ C72_full.
Proof.
  intros H. destruct (execute false init opened_run) as [[s o]|] eqn:E; [|vm_compute in E; discriminate].
  assert (X : is_connected s = true /\ s_phase s = PLoop /\ s_chan s = [] /\ s_chan_closed s = false /\ s_signal s = false).
  { vm_compute in E. injection E as <- <-. repeat split. }
  destruct X as (X1 & X2 & X3 & X4 & X5).
  destruct (H false (then_nothing false opened_run) (length opened_run)) as (j & Hj & Ho).
  - exact (nothing_lives _ _ _ _ E).
  - apply (nothing_just _ _ _ _ E); [apply rest_by_phase; auto|]. rewrite X2. discriminate.
  - rewrite (nothing_after _ _ _ _ E _ (le_n _)). exact X1.
  - left. intros i l Hi El. cbn in El. rewrite (proj2 (nth_error_None opened_run i) Hi) in El. discriminate.
  - rewrite (nothing_after _ _ _ _ E _ Hj) in Ho. unfold over, task_ended in Ho. rewrite X2 in Ho. destruct Ho; discriminate.
Qed.

(** ** What the server says about leaving *)
Lemma nothing_done log s o m s' : trace log s o -> step log s (LRead m) = Some (s', [ORead m]) ->
  s_phase s' = s_phase s /\ s_chan s' = s_chan s /\ s_table s' = s_table s /\ s_acks s' = s_acks s.
Proof.
  intros Ht H. apply read_label in H as (b & _ & _ & H). pose proof (read_step_obs log b m s) as Ho. rewrite H in Ho. cbn [snd] in Ho.
  injection Ho as Ho. pose proof (process_table log (s_poisoned s) (s_receiver s) (s_table s) m) as T. cbv zeta in T.
  unfold read_step in H. destruct (process_websocket_packet _ _ _ _ _) as [r c op q out]. cbn [pr_receiver pr_callbacks pr_open pr_queue pr_outcome] in *.
  destruct op; [discriminate|]. destruct q; [destruct (_ || _); discriminate|]. destruct out as [[u|e|]|p k]; try discriminate.
  cbn in T. subst c. injection H as <-. auto.
Qed.
Lemma close_ignored log s o t s' o' : trace log s o -> live o -> step log s (LRead (WText ("1"%byte :: t))) = Some (s', o') ->
  o' = [ORead (WText ("1"%byte :: t))] /\ server_closed (o ++ o') /\ s_phase s' = s_phase s /\ s_chan s' = s_chan s /\ s_table s' = s_table s.
Proof.
  intros Ht Hl H. assert (A : engine_answer (reads o) (WText ("1"%byte :: t)) (Ok PktClose)) by (apply live_answer; auto).
  assert (E : o' = [ORead (WText ("1"%byte :: t))]).
  { destruct (reaction_exact _ _ _ _ _ _ Ht H) as (out & -> & R). f_equal. eapply reaction_unique; [exact R|]. apply re_close; auto. }
  split; [exact E|]. split.
  - unfold server_closed. rewrite E, reads_app. cbn [reads flat_map app]. apply state_closed. fold (decoder_of (reads o ++ [WText ("1"%byte :: t)])).
    rewrite decoder_of_snoc. cbn [is_data]. unfold decoder_of. rewrite (proj2 (state_active _) Hl). reflexivity.
  - rewrite E in H. destruct (nothing_done _ _ _ _ _ Ht H) as (? & ? & ? & _). auto.
Qed.
Lemma after_close log s o m s' o' : trace log s o -> server_closed o -> is_data m = true -> step log s (LRead m) = Some (s', o') ->
  o' = [ORead m; OEnd (EndErr (REngine EMessageAfterClose))].
Proof.
  intros Ht Hc Hd H. eapply rejected_ends; eauto. apply re_error; [exact Hd|]. apply engine_answer_decode.
  unfold decoder_of. apply state_closed in Hc. rewrite Hc. reflexivity.
Qed.
Lemma disconnect_ignored log s o m p ns s' o' : trace log s o -> completes o m p -> view p = Some (PView KDisconnect ns None [] []) ->
  (log = true -> show_packet p <> None) -> step log s (LRead m) = Some (s', o') ->
  o' = [ORead m] /\ s_phase s' = s_phase s /\ s_chan s' = s_chan s /\ s_table s' = s_table s.
Proof.
  intros Ht Hc Hv Hs H. assert (E : o' = [ORead m]).
  { destruct (reaction_exact _ _ _ _ _ _ Ht H) as (out & -> & R). f_equal. apply (completes_reaction _ _ _ _ _ Hc) in R.
    eapply packet_reaction_unique; [exact R|]. eapply pr_disconnect; eauto. }
  split; [exact E|]. rewrite E in H. destruct (nothing_done _ _ _ _ _ Ht H) as (? & ? & ? & _). auto.
Qed.

(** ** Examples *)
Definition farewell_run : list label := opened_run ++ [LEmit (Emission (bs "/") (bs "hello") [] []); LRead (WText (bs "1"))].
Example farewell : exists s o, client_run false farewell_run s o /\ task_ended s = false /\ ~ In OChannelClosed o /\ server_closed o.
Proof.
  destruct (execute false init farewell_run) as [[s o]|] eqn:E; [|vm_compute in E; discriminate]. exists s, o. split; [exact E|].
  vm_compute in E. injection E as <- <-. split; [reflexivity|]. split; [cbn; intuition discriminate|].
  exists 1. vm_compute. reflexivity.
Qed.
Example disconnected : exists s o p s' o', trace false s o /\ completes o (WText (bs "41")) p /\
  view p = Some (PView KDisconnect (bs "/") None [] []) /\ step false s (LRead (WText (bs "41"))) = Some (s', o').
Proof.
  destruct (execute false init opened_run) as [[s o]|] eqn:E; [|vm_compute in E; discriminate]. exists s, o.
  pose proof (run_trace _ _ _ _ E) as Ht. vm_compute in E. injection E as <- <-.
  eexists _, _, _. split; [exact Ht|]. split; [|split; [|vm_compute; reflexivity]].
  - split; [reflexivity|]. eexists _, [], []. split; [apply engine_answer_decode; vm_compute; reflexivity|]. split; [vm_compute; apply as_nothing|].
    vm_compute. apply assembled_one. left. split; [vm_compute; reflexivity|reflexivity].
  - vm_compute. reflexivity.
Qed.
