(** Proofs about what ends a connection. *)
From Verif Require Export SpecEnding FairProofs PanicProofs.
From Coq Require Import Lia.

Lemma let_go_step log s o l s' o' : trace log s o -> step log s l = Some (s', o') ->
  (s_handle s = HGone -> s_handle s' = HGone) /\ (lets_go l -> s_handle s' = HGone) /\
  (s_handle s' = HGone -> s_handle s = HGone \/ lets_go l \/ task_ended s' = true).
Proof.
  intros Ht H. assert (Hl : (exists m, l = LRead m) \/ forall m, l <> LRead m) by (destruct l; eauto; right; discriminate).
  destruct Hl as [[m ->]|Hl].
  - destruct (step_read _ _ _ _ _ _ Ht H) as (_ & _ & _ & -> & _). split; [auto|]. split; [intros []|auto].
  - other_cases H Hl; cbn; (split; [|split]); auto; try discriminate; try contradiction; intros X; try contradiction X; try (rewrite X in *; discriminate); auto;
      try congruence; right; right; unfold task_ended in *; cbn; try assumption; match goal with E : s_phase _ = _ |- _ => rewrite E; reflexivity end.
Qed.
Lemma run_step log ls s o l s' o' : client_run log ls s o -> step log s l = Some (s', o') -> client_run log (ls ++ [l]) s' (o ++ o').
Proof. intros Hr H. unfold client_run in *. rewrite execute_app, Hr. cbn [execute]. rewrite H, app_nil_r. reflexivity. Qed.
Lemma let_go_handle log ls s o : client_run log ls s o ->
  ((exists l, In l ls /\ lets_go l) -> s_handle s = HGone) /\
  (s_handle s = HGone -> (exists l, In l ls /\ lets_go l) \/ task_ended s = true).
Proof.
  revert ls s o. apply run_ind; [split; [intros (l & [] & _)|discriminate]|].
  intros ls s o l s' o' Hr [I1 I2] H. pose proof (run_trace' _ _ _ _ Hr) as Ht. destruct (let_go_step _ _ _ _ _ _ Ht H) as (A & B & C). split.
  - intros (x & Hx & G). apply in_app_iff in Hx as [Hx|[->|[]]]; [apply A, I1; eauto|auto].
  - intros G. destruct (C G) as [X|[X|X]]; [|left; exists l; split; [apply in_app_iff; cbn; auto|exact X]|auto].
    destruct (I2 X) as [(x & Hx & Gx)|E]; [left; exists x; split; [apply in_app_iff; auto|exact Gx]|].
    right. exact (proj1 (step_after_end _ _ _ _ _ _ Ht E H)).
Qed.
Lemma cause_of_end log s o l s' o' e : trace log s o -> step log s l = Some (s', o') -> In (OEnd e) o' -> ended_by l e.
Proof.
  intros Ht H Hi.
  assert (P : e = EndPanic -> ended_by l e).
  { intros ->. apply (panics_exactly _ _ _ _ _ _ Ht H) in Hi as [(m & -> & _)|[(-> & _)| ->]]; constructor. }
  assert (Hl : (exists m, l = LRead m) \/ forall m, l <> LRead m) by (destruct l; eauto; right; discriminate).
  destruct Hl as [[m ->]|Hl].
  - destruct (reaction_exact _ _ _ _ _ _ Ht H) as (out & -> & R). destruct Hi as [Hi|Hi]; [discriminate|].
    assert (K : (exists x, e = EndErr x) \/ e = EndPanic); [|destruct K as [[x ->]|K]; [constructor|auto]].
    destruct R as [| | | | | | |x out' _ _ R]; cbn in Hi; try (destruct Hi as [Hi|[]]; first [discriminate|injection Hi as <-; eauto]); try contradiction.
    destruct R as [ps p out2 _ _ R| | | |]; cbn in Hi; try (destruct Hi as [Hi|[]]; first [discriminate|injection Hi as <-; eauto]); try contradiction.
    destruct R; cbn in Hi; try (destruct Hi as [Hi|[]]; first [discriminate|injection Hi as <-; eauto]); try contradiction.
  - clear Ht. other_cases H Hl; cbn in Hi; in_cases Hi; injection Hi as <-; first [constructor|exact (P eq_refl)].
Qed.
Lemma effect_of_end log s l s' o' : step log s l = Some (s', o') -> must_end l -> exists e, o' = [OEnd e] /\ ended_by l e.
Proof.
  intros H M. destruct l; try contradiction; cbn in H; destruct (s_phase s); try discriminate; try (destruct (s_handle s); try discriminate);
    injection H as _ <-; eexists; (split; [reflexivity|constructor]).
Qed.
Lemma ended_label log ls s o e : client_run log ls s o -> In (OEnd e) o -> exists l, In l ls /\ ended_by l e.
Proof.
  revert ls s o. apply (run_ind log (fun ls s o => In (OEnd e) o -> exists l, In l ls /\ ended_by l e)); [intros []|].
  intros ls s o l s' o' Hr IH H Hi. apply in_app_iff in Hi as [Hi|Hi].
  - destruct (IH Hi) as (x & Hx & E). exists x. split; [apply in_app_iff; auto|exact E].
  - exists l. split; [apply in_app_iff; cbn; auto|]. exact (cause_of_end _ _ _ _ _ _ _ (run_trace' _ _ _ _ Hr) H Hi).
Qed.
Lemma cancel_needs log s s' o' : step log s LCancel = Some (s', o') -> s_handle s = HGone /\ task_ended s = false.
Proof. cbn. unfold task_ended. destruct (s_handle s), (s_phase s); try discriminate; auto. Qed.
Lemma cancelled_let_go log ls s o : client_run log ls s o -> In (OEnd EndCancelled) o -> exists l, In l ls /\ lets_go l.
Proof.
  revert ls s o. apply (run_ind log (fun ls s o => In (OEnd EndCancelled) o -> exists l, In l ls /\ lets_go l)); [intros []|].
  intros ls s o l s' o' Hr IH H Hi. apply in_app_iff in Hi as [Hi|Hi].
  - destruct (IH Hi) as (x & Hx & E). exists x. split; [apply in_app_iff; auto|exact E].
  - pose proof (cause_of_end _ _ _ _ _ _ _ (run_trace' _ _ _ _ Hr) H Hi) as E. inversion E; subst.
    destruct (cancel_needs _ _ _ _ H) as [G T]. destruct (proj2 (let_go_handle _ _ _ _ Hr) G) as [(x & Hx & E')|X]; [|congruence].
    exists x. split; [apply in_app_iff; auto|exact E'].
Qed.
Lemma cancel_exactly log ls s o : client_run log ls s o ->
  (step log s LCancel <> None <-> (exists l, In l ls /\ lets_go l) /\ waiting s).
Proof.
  intros Hr. destruct (let_go_handle _ _ _ _ Hr) as [A B]. cbn. unfold waiting, task_ended in *. split.
  - intros H. destruct (s_handle s); try (destruct H; reflexivity). destruct (s_phase s); try (destruct H; reflexivity); (split; [|exact I]); destruct (B eq_refl) as [X|X]; auto; discriminate.
  - intros [G W]. rewrite (A G). destruct (s_phase s); try contradiction; discriminate.
Qed.
(** Results of close. *)
Lemma early_held log s o : trace log s o ->
  (s_conn s = CHandshake \/ s_conn s = COpening -> s_handle s = HHeld) /\
  (usable_client s = true -> s_handle s <> HHeld -> In OCloseCalled o).
Proof.
  revert s o. apply (trace_ind log (fun s o => (s_conn s = CHandshake \/ s_conn s = COpening -> s_handle s = HHeld) /\
    (usable_client s = true -> s_handle s <> HHeld -> In OCloseCalled o))); [split; [reflexivity|discriminate]|].
  intros s o l s' o' Ht [I1 I2] H. 
  assert (Hl : (exists m, l = LRead m) \/ forall m, l <> LRead m) by (destruct l; eauto; right; discriminate).
  destruct Hl as [[m ->]|Hl].
  - destruct (step_read _ _ _ _ _ _ Ht H) as (_ & _ & _ & E1 & _ & E2 & E3). unfold usable_client, is_connected in *. rewrite E1, E2, ?E3.
    split; [exact I1|]. intros U N. apply in_app_iff. left. auto.
  - rewrite in_app_iff. unfold usable_client, is_connected in *. clear Ht. 
    other_cases H Hl; cbn in *; unfold usable_client, is_connected in *; (split; [try exact I1|]); try (intros U N; try discriminate U; try (left; apply I2; assumption); fail); auto.
  all: try (intros [X|X]; discriminate X).
  all: try (intros X; pose proof (I1 X); congruence).
  all: try (intros [X|X]; rewrite X in *; discriminate).
  all: try (intros U N; left; apply I2; [exact U|congruence]).
    + intros _ N. destruct N. auto.
    + rewrite andb_false_r. discriminate.
Qed.
Lemma already_called log s o : trace log s o -> In (OClose CloseAlready) o -> In OCloseCalled o.
Proof.
  revert s o. apply (trace_ind log (fun s o => In (OClose CloseAlready) o -> In OCloseCalled o)); [intros []|].
  intros s o l s' o' Ht IH H Hi. apply in_app_iff. left. apply in_app_iff in Hi as [Hi|Hi]; [auto|].
  enough (K : usable_client s = true /\ s_handle s <> HHeld) by (apply (early_held _ _ _ Ht); tauto).
  assert (Hl : (exists m, l = LRead m) \/ forall m, l <> LRead m) by (destruct l; eauto; right; discriminate).
  destruct Hl as [[m ->]|Hl].
  - destruct (step_read _ _ _ _ _ _ Ht H) as (Hx & _). apply Hx in Hi as [[]|[=]].
  - clear Ht IH. other_cases H Hl; cbn in Hi; in_cases Hi; split; try assumption; congruence.
Qed.
Lemma cancelled_gone log s o : trace log s o -> In (OEnd EndCancelled) o -> s_handle s = HGone.
Proof.
  revert s o. apply (trace_ind log (fun s o => In (OEnd EndCancelled) o -> s_handle s = HGone)); [intros []|].
  intros s o l s' o' Ht IH H Hi. apply (proj1 (let_go_step _ _ _ _ _ _ Ht H)). apply in_app_iff in Hi as [Hi|Hi]; [auto|].
  pose proof (cause_of_end _ _ _ _ _ _ _ Ht H Hi) as E. inversion E; subst. exact (proj1 (cancel_needs _ _ _ _ H)).
Qed.
Lemma close_label log s o l s' o' r : trace log s o -> step log s l = Some (s', o') -> In (OClose r) o' ->
  match r with
  | CloseTimeout => l = LCloseTimeout
  | CloseAlready => l = LCloseCall
  | _ => l = LCloseReturn /\ s_handle s = HClosing
  end.
Proof.
  intros Ht H Hi. assert (Hl : (exists m, l = LRead m) \/ forall m, l <> LRead m) by (destruct l; eauto; right; discriminate).
  destruct Hl as [[m ->]|Hl].
  - destruct (step_read _ _ _ _ _ _ Ht H) as (Hx & _). apply Hx in Hi as [[]|[=]].
  - clear Ht. other_cases H Hl; cbn in Hi; in_cases Hi; injection Hi as <-; auto.
Qed.
Lemma close_result_cause log ls s o r : client_run log ls s o -> In (OClose r) o ->
  match r with
  | CloseOk => In LReadEnd ls
  | CloseErr e => (e = EndWs /\ (In LReadErr ls \/ In LWriteErr ls)) \/ exists x m, e = EndErr x /\ In (LRead m) ls
  | ClosePanic => In (OEnd EndPanic) o \/ In LAbort ls
  | CloseTimeout => In LCloseTimeout ls
  | CloseAlready => In OCloseCalled o
  end.
Proof.
  intros Hr Hi. pose proof (run_trace' _ _ _ _ Hr) as Ht. destruct (in_split _ _ Hi) as (o1 & o2 & Eo).
  assert (Ht' := Ht). rewrite Eo in Ht'. pose proof (close_reports _ _ _ _ _ Ht') as C.
  assert (In1 : forall e, In (OEnd e) o1 -> exists l, In l ls /\ ended_by l e).
  { intros e He. apply (ended_label _ _ _ _ _ Hr). rewrite Eo. apply in_app_iff. auto. }
  destruct r as [|e| | |].
  - destruct (In1 _ C) as (l & Hl & E). inversion E; subst. exact Hl.
  - destruct C as (C & N1 & N2 & N3). destruct (In1 _ C) as (l & Hl & E). inversion E; subst; try contradiction; eauto 6.
    exfalso. destruct (trace_split _ _ _ _ _ _ Ht' eq_refl) as (s0 & o0 & l & s1 & oa & ob & o3 & H1 & H2 & H3 & -> & _).
    assert (Hx : In (OClose (CloseErr EndCancelled)) (oa ++ OClose (CloseErr EndCancelled) :: ob)) by (apply in_app_iff; cbn; auto).
    destruct (close_label _ _ _ _ _ _ _ H1 H2 Hx) as [-> Hh].
    apply in_app_iff in C as [C|C]; [rewrite (cancelled_gone _ _ _ H1 C) in Hh; discriminate|].
    assert (X : In (OEnd EndCancelled) (oa ++ OClose (CloseErr EndCancelled) :: ob)) by (apply in_app_iff; auto).
    pose proof (cause_of_end _ _ _ _ _ _ _ H1 H2 X) as Y. inversion Y.
  - destruct C as [C|C]; [left; rewrite Eo; apply in_app_iff; auto|]. destruct (In1 _ C) as (l & Hl & E). inversion E; subst. auto.
  - clear C In1 Ht' Eo o1 o2 Ht. revert ls s o Hr Hi. apply (run_ind log (fun ls s o => In (OClose CloseTimeout) o -> In LCloseTimeout ls)); [intros []|].
    intros ls s o l s' o' Hr IH H Hi. apply in_app_iff. apply in_app_iff in Hi as [Hi|Hi]; [auto|]. right. left.
    exact (close_label _ _ _ _ _ _ _ (run_trace' _ _ _ _ Hr) H Hi).
  - exact (already_called _ _ _ Ht Hi).
Qed.

(** ** Letting go under fairness *)
Lemma let_go_ends log r : lives log r -> callbacks_end r -> fair_to log r LCancel -> forall k l, does r k = Some l -> lets_go l ->
  (exists j, k <= j /\ over (at_time r j)) \/ (forall j, s_phase (at_time r j) = PUnborn).
Proof.
  intros L C F k l D G.
  assert (Hk : s_handle (at_time r (S k)) = HGone).
  { destruct (life_moves log r L k) as [(_ & _ & E)|(l' & E & St & _)]; [congruence|]. rewrite D in E. injection E as <-.
    exact (proj1 (proj2 (let_go_step _ _ _ _ _ _ (life_trace log r L k) St)) G). }
  assert (Hm : forall j, S k <= j -> s_handle (at_time r j) = HGone).
  { intros j Hj. induction Hj as [|j Hj IH]; [exact Hk|]. destruct (life_moves log r L j) as [(-> & _)|(l' & E & St & _)]; [exact IH|].
    exact (proj1 (let_go_step _ _ _ _ _ _ (life_trace log r L j) St) IH). }
  destruct (F (S k)) as (j & Hj & [Dj|Dj]).
  - left. exists (S j). split; [lia|]. right. pose proof (proj2 L j) as St. rewrite Dj in St. cbn in St.
    destruct (s_handle (at_time r j)); try discriminate. destruct (s_phase (at_time r j)); try discriminate; injection St as <- _; reflexivity.
  - assert (N : forall i, j <= i -> ~ waiting (at_time r i)).
    { intros i Hi W. specialize (Dj i Hi). cbn in Dj. rewrite (Hm i ltac:(lia)) in Dj. unfold waiting in W. destruct (s_phase (at_time r i)); try contradiction; discriminate. }
    destruct (s_phase (at_time r j)) as [| | | | |b c| |e] eqn:Ej; try (destruct (N j (le_n _)); unfold waiting; rewrite Ej; exact I).
    + right. intros i. assert (K : forall i, j <= i -> s_phase (at_time r i) = PUnborn).
      { intros n Hn. induction Hn as [|n Hn IH]; [exact Ej|]. destruct (life_moves log r L n) as [(-> & _)|(l' & E & St & M)]; [exact IH|].
        destruct (s_phase (at_time r (S n))) as [| | | | | | |e] eqn:Es; try reflexivity.
        all: try (destruct (N (S n)); [lia|unfold waiting; rewrite Es; exact I]).
        all: rewrite IH in M; inversion M; subst; try (repeat match goal with b : bool |- _ => destruct b end; discriminate).
        exfalso. destruct (step_end _ _ _ _ _ _ (life_trace log r L n) St) as [[_ X]|(e' & oa & Eo & _ & X & T)].
        - apply X in Es. congruence.
        - assert (Hi : In (OEnd e') (sees r n)) by (rewrite Eo; apply in_app_iff; cbn; auto).
          pose proof (cause_of_end _ _ _ _ _ _ _ (life_trace log r L n) St Hi) as Y.
          clear - Y St IH. destruct Y; cbn in St; rewrite IH in St; try discriminate; [destruct (ws_valid m); discriminate|destruct (ws_valid m); discriminate|destruct (s_handle _); discriminate]. }
      destruct (le_lt_dec j i) as [Hi|Hi]; [auto|].
      assert (K' : forall d, s_phase (at_time r (j - d)) = PUnborn).
      { induction d as [|d IH]; [rewrite Nat.sub_0_r; exact Ej|]. destruct (le_lt_dec j d) as [X|X]; [replace (j - S d) with (j - d) by lia; exact IH|].
        assert (Es : j - d = S (j - S d)) by lia. rewrite Es in IH. destruct (life_moves log r L (j - S d)) as [(E & _)|(l' & _ & _ & M)]; [congruence|].
        exact (moves_unborn _ _ _ M IH). }
      specialize (K' (j - i)). replace (j - (j - i)) with i in K' by lia. exact K'.
    + left. destruct (C j b c Ej) as (i & Hi & Hn).
      destruct (until' log r L (PCalling b c) (fun p => match p with PEnded _ | PReading | PLoop | PStuck => True | _ => False end) j i) as (n & Hn' & Q); auto.
      { intros l' p' M. inversion M; subst; auto; try (destruct b0; discriminate). right. destruct b; exact I. }
      exists n. split; [lia|]. unfold over, task_ended. pose proof (N n ltac:(lia)) as W. unfold waiting in W. destruct (s_phase (at_time r n)); tauto.
    + left. exists j. split; [lia|]. left. exact Ej.
    + left. exists j. split; [lia|]. right. unfold task_ended. rewrite Ej. reflexivity.
Qed.
