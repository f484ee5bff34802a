(** Lives that meet the hypotheses of the theorems about fairness. *)
From Verif Require Export FairProofs PanicProofs.
From Coq Require Import Lia.

(** For ever: a user emits, the server pings, both are written. *)
Definition busy_cycle : list label :=
  [LEmit (Emission (bs "/") (bs "tick") [] []); LRead (WText (bs "2")); LTake; LWrite; LTake; LWrite].
Definition busy_life : life := following false (lasso_label opened_run busy_cycle).
Definition busy_state : state := match execute false init opened_run with Some (s, _) => s | None => init end.
Lemma busy_pre : exists o, execute false init opened_run = Some (busy_state, o).
Proof. eexists. vm_compute. reflexivity. Qed.
Lemma busy_cyc : exists o, execute false busy_state busy_cycle = Some (busy_state, o).
Proof. eexists. vm_compute. reflexivity. Qed.
Lemma busy_nonempty : busy_cycle <> [].
Proof. discriminate. Qed.
Lemma busy_lives : lives false busy_life.
Proof. destruct busy_pre as [o0 H0], busy_cyc as [o1 H1]. exact (lasso_lives _ _ _ _ _ _ H0 H1 busy_nonempty). Qed.
Lemma busy_writes : writes_end busy_life.
Proof. destruct busy_pre as [o0 H0], busy_cyc as [o1 H1]. intros k rest _. apply (lasso_leaves _ _ _ _ _ _ H0 H1 busy_nonempty). vm_compute. discriminate. Qed.
Lemma busy_calls : callbacks_end busy_life.
Proof. destruct busy_pre as [o0 H0], busy_cyc as [o1 H1]. intros k b c _. apply (lasso_leaves _ _ _ _ _ _ H0 H1 busy_nonempty). vm_compute. discriminate. Qed.
Lemma busy_fair : fair_to false busy_life LTake.
Proof. destruct busy_cyc as [o1 H1]. exact (lasso_fair_in _ _ _ _ _ H1 busy_nonempty LTake 2 eq_refl). Qed.
Lemma busy_loop k : length opened_run <= k -> in_main_loop (at_time busy_life k).
Proof.
  intros H. destruct busy_pre as [o0 H0], busy_cyc as [o1 H1]. destruct (lasso_where _ opened_run _ _ _ H1 busy_nonempty k) as [X|(q & i & Hi & ->)]; [lia|].
  destruct (lasso_in _ _ _ _ _ _ H0 H1 busy_nonempty q i Hi) as [oa E]. cbn [at_time busy_life following].
  revert E. generalize (follow false (lasso_label opened_run busy_cycle) (length opened_run + (q * length busy_cycle + i))). intros s E.
  do 6 (destruct i as [|i]; [vm_compute in E; injection E as <- _; exact I|]). cbn in Hi. lia.
Qed.

(** A connection is closed; afterwards [close()] is called again and again. *)
Definition closing_pre : list label := flow_run ++ [LCloseCall; LTake; LWrite; LClosed; LCloseFrame true; LReadEnd; LCloseReturn].
Definition closing_life : life := following false (lasso_label closing_pre [LCloseCall]).
Definition closed_state : state := match execute false init closing_pre with Some (s, _) => s | None => init end.
Lemma closing_lasso : (exists o, execute false init closing_pre = Some (closed_state, o)) /\ (exists o, execute false closed_state [LCloseCall] = Some (closed_state, o)).
Proof. split; eexists; vm_compute; reflexivity. Qed.
Lemma closing_nonempty : [LCloseCall] <> [].
Proof. discriminate. Qed.
Lemma closing_lives : lives false closing_life.
Proof. destruct closing_lasso as [[o0 H0] [o1 H1]]. exact (lasso_lives _ _ _ _ _ _ H0 H1 closing_nonempty). Qed.
Lemma closing_leaves p : (forall e, p <> PEnded e) -> forall k, exists j, k <= j /\ s_phase (at_time closing_life j) <> p.
Proof.
  intros Hp. destruct closing_lasso as [[o0 H0] [o1 H1]]. apply (lasso_leaves _ _ _ _ _ _ H0 H1 closing_nonempty).
  assert (E : s_phase closed_state = PEnded EndOk) by (vm_compute; reflexivity). rewrite E. intros <-. exact (Hp _ eq_refl).
Qed.
Lemma closing_fair l : step false closed_state l = None -> fair_to false closing_life l.
Proof.
  intros H. destruct closing_lasso as [[o0 H0] [o1 H1]]. apply (lasso_fair_never _ _ _ _ _ _ H0 H1 closing_nonempty).
  intros i s o Hi E. destruct i as [|i]; [|cbn in Hi; lia]. cbn [firstn execute] in E. apply (f_equal (fun x => match x with Some (a, _) => a | None => s end)) in E. cbv beta iota in E. rewrite <- E. exact H.
Qed.
Lemma closing_life_fair : lives false closing_life /\ writes_end closing_life /\ callbacks_end closing_life /\
  closing_ends closing_life /\ server_ends closing_life /\
  fair_to false closing_life LClosed /\ fair_to false closing_life LCloseReturn /\ fair_to false closing_life LCloseTimeout.
Proof.
  split; [exact closing_lives|]. split; [intros k rest _; apply closing_leaves; discriminate|].
  split; [intros k b c _; apply closing_leaves; discriminate|]. split; [intros k _; apply closing_leaves; discriminate|].
  split; [|split; [|split]; apply closing_fair; vm_compute; reflexivity].
  intros k _. destruct closing_lasso as [[o0 H0] [o1 H1]].
  destruct (lasso_later _ closing_pre _ _ _ H1 closing_nonempty k 0) as (q & Hq & _). eexists. split; [exact Hq|]. right. right. right.
  unfold closing_life, following, at_time. rewrite Nat.add_0_r.
  rewrite (lasso_return _ _ _ _ _ _ H0 H1 closing_nonempty q). vm_compute. reflexivity.
Qed.
Lemma closing_called : In OCloseCalled (seen closing_life (length flow_run + 1)).
Proof. vm_compute. tauto. Qed.
