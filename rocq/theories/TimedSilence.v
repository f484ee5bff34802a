(** Time that passes while nothing comes from the server (C72). *)
From Verif Require Export TimedDemo.

Lemma however_long log d w given parsed t0 since c s t o t' : timed log d w given parsed t0 (TConn since c s) t o ->
  is_connected s = true -> s_handle s <> HClosing -> (t <= t')%N -> timed log d w given parsed t0 (TConn since c s) t' o.
Proof.
  intros T C H L. apply (tm_wait _ _ _ _ _ _ _ _ _ _ T L). unfold is_connected in C. cbn.
  destruct (s_conn s); try discriminate. split; [intros [X|X]; discriminate|]. split; [discriminate|]. intros X. contradiction.
Qed.
Lemma time_changes_nothing log since c s l t t' : is_connected s = true -> s_handle s <> HClosing -> l <> LCloseCall ->
  tstep log (TConn since c s) t (KStep l) = tstep log (TConn since c s) t' (KStep l).
Proof.
  intros C H L. unfold is_connected in C. cbn [tstep].
  assert (E : forall now, timer_allows since c now l = false -> step log s l = None).
  { intros now X. destruct l; try discriminate X; cbn [step];
    destruct (s_conn s); try discriminate; try reflexivity; destruct (s_handle s); try reflexivity; try congruence; destruct e as [[]|]; reflexivity. }
  assert (K : forall now, closing_since c now s l = c) by (intros now; unfold closing_since; destruct l; congruence).
  destruct (timer_allows since c t l) eqn:A, (timer_allows since c t' l) eqn:B; rewrite ?K; try reflexivity.
  - now rewrite (E _ B).
  - now rewrite (E _ A).
Qed.
(** The client of [good_run] before it is closed. *)
Lemma silent_case : exists since c s o, timed false 5 ByConnect site_text (Some site) 0 (TConn since c s) 75000 o /\
  is_connected s = true /\ s_handle s <> HClosing /\ task_ended s = false.
Proof.
  destruct (play_all ByConnect site_text (Some site) (firstn 4 good_run ++ [(75000%N, None)])) as [[[st t] o]|] eqn:E; [|vm_compute in E; discriminate].
  pose proof (play_all_timed _ _ _ _ _ _ _ E) as T. vm_compute in E. injection E as <- <- <-.
  eexists _, _, _, _. split; [exact T|]. split; [reflexivity|]. split; [discriminate|reflexivity].
Qed.
