(** Questions are answered, by their own answers (C64). *)
From Verif Require Export SpecQuestion DeliverProofs PanicProofs FairProofs.
From Coq Require Import Lia.

(** ** The id of a question is its own *)
(** Whatever mentions the id belongs to the question. *)
Record owned (ns : bytes) (id : N) (f : cb) (s : state) (o : list obs) : Prop := Owned {
  w_flight : forall x, In x (s_inflight s) -> f_id x = id -> f_ns x = ns /\ f_cb x = f;
  w_registered : forall ns' f', In (ORegister ns' id f') o -> ns' = ns /\ f' = f;
  w_old : In id (requested o)
}.
Lemma flight_origin log s o l s' o' : trace log s o -> step log s l = Some (s', o') ->
  (forall x, In x (s_inflight s') -> (exists y, In y (s_inflight s) /\ f_ns y = f_ns x /\ f_id y = f_id x /\ f_cb y = f_cb x) \/ In (f_id x) (requested o')) /\
  (forall ns id f, In (ORegister ns id f) o' -> exists y, In y (s_inflight s) /\ f_ns y = ns /\ f_id y = id /\ f_cb y = f).
Proof.
  intros Ht H. assert (Hl : (exists m, l = LRead m) \/ forall m, l <> LRead m) by (destruct l; eauto; right; discriminate).
  destruct Hl as [[m ->]|Hl].
  - destruct (step_read _ _ _ _ _ _ Ht H) as (Hx & _ & Hf & _). rewrite Hf. split; [intros x Hi; left; exists x; auto|].
    intros ns id f Hi. apply Hx in Hi as [[]|[=]].
  - assert (Hnew : forall e n b f id, emission_builder s e = (n, b) -> eb_callback b = Some (f, id) -> In id (requested (requests (s_next_id s) (em_calls e)))).
    { intros e n b f id He Hc. unfold emission_builder in He. rewrite (n_next _ _ (trace_numbered _ _ _ Ht)) in *.
      apply builder_calls_spec in He as (_ & Hr & _ & _ & [[H1 _]|(g & H1 & H2)]).
      - rewrite H1 in Hc. discriminate.
      - rewrite Hr. rewrite H2 in Hc. injection Hc as <- <-. apply in_map. apply in_seq. lia. }
    clear Ht. other_cases H Hl; cbn.
    all: split; [intros ? Hi|intros ? ? ? Hi].
    all: try (left; eexists; split; [exact Hi|auto]; fail).
    all: try (in_cases Hi; fail).
    all: try (left; apply in_delete in Hi; eexists; split; [exact Hi|auto]; fail).
    + apply in_app_iff in Hi as [Hi|[<-|[]]]; [left; eexists; split; [exact Hi|auto]|]. right. cbn. eapply Hnew; eassumption.
    + apply in_update in Hi as [->|Hi]; left; [|eexists; split; [exact Hi|auto]].
      eexists. split; [eapply nth_error_In; eassumption|auto].
    + in_cases Hi. injection Hi as <- <- <-. eexists. split; [eapply nth_error_In; eassumption|auto].
Qed.
Lemma owned_step log ns id f s o l s' o' : trace log s o -> step log s l = Some (s', o') -> NoDup (requested (o ++ o')) ->
  owned ns id f s o -> owned ns id f s' (o ++ o').
Proof.
  intros Ht H Hn [W1 W2 W3]. destruct (flight_origin _ _ _ _ _ _ Ht H) as [K1 K2]. constructor.
  - intros x Hx E. apply K1 in Hx as [(y & Hy & E1 & E2 & E3)|Hx].
    + rewrite <- E1, <- E3. apply W1; congruence.
    + exfalso. rewrite E in Hx. rewrite requested_app in Hn. apply in_split in W3 as (a & b & E3). rewrite E3, <- app_assoc in Hn.
      apply NoDup_remove_2 in Hn. apply Hn. rewrite !in_app_iff. auto.
  - intros ns' f' Hi. apply in_app_iff in Hi as [Hi|Hi]; [auto|]. apply K2 in Hi as (y & Hy & <- & E & <-). apply W1; auto.
  - rewrite requested_app. apply in_app_iff. auto.
Qed.
Lemma chosen_requested l : forall n id, chosen_id n l = Some id -> In id (requested (requests n l)).
Proof.
  induction l as [|[b|g] l IH]; intros n id H; [discriminate| |].
  - apply IH. exact H.
  - cbn [chosen_id] in H. cbn [requests requested flat_map app]. fold (requested (requests (next_u64 n) l)).
    change ((n + 1) mod 2 ^ 64)%N with (next_u64 n) in H.
    destruct (chosen_id (next_u64 n) l) as [k|] eqn:E; injection H as <-; [right; apply IH; exact E|left; reflexivity].
Qed.
Lemma asked_step log s o e s' o' ns id f : trace log s o -> step log s (LEmit e) = Some (s', o') -> question s e ns id f ->
  exists fs, o' = requests (s_next_id s) (em_calls e) /\ s_inflight s' = s_inflight s ++ [Inflight ns id f false fs] /\ In id (requested o').
Proof.
  intros Ht H (En & Ef & Ei). pose proof (emit_step log s o (LEmit e) e s' o' Ht (or_introl eq_refl) H) as K. rewrite Ef in K.
  destruct K as (id' & fs & E & _ & _ & K & _). rewrite Ei in E. injection E as <-. specialize (K eq_refl). rewrite En in K.
  exists fs. assert (o' = requests (s_next_id s) (em_calls e)) as ->.
  { clear Ht. cbn [step] in H. unfold push, emit_origin in H. step_cases H; injection H as <- <-; try reflexivity.
    - exfalso. revert K. cbn. intros K. apply (f_equal (@length _)) in K. rewrite app_length in K. cbn in K. lia.
    - exfalso. revert K. cbn. intros K. apply (f_equal (@length _)) in K. rewrite app_length in K. cbn in K. lia.
    - exfalso. revert K. cbn. intros K. apply (f_equal (@length _)) in K. rewrite app_length in K. cbn in K. lia. }
  split; [reflexivity|]. split; [exact K|]. apply chosen_requested. exact Ei.
Qed.
Lemma owned_start log s o e s' o' ns id f : trace log s o -> step log s (LEmit e) = Some (s', o') -> question s e ns id f ->
  NoDup (requested (o ++ o')) -> owned ns id f s' (o ++ o').
Proof.
  intros Ht H Hq Hn. destruct (asked_step _ _ _ _ _ _ _ _ _ Ht H Hq) as (fs & Eo & Ef & Hi).
  assert (Hno : ~ In id (requested o)).
  { intros X. rewrite requested_app in Hn. apply in_split in X as (a & b & E3). rewrite E3, <- app_assoc in Hn.
    apply NoDup_remove_2 in Hn. apply Hn. rewrite !in_app_iff. auto. }
  assert (Hn0 : NoDup (requested o)) by (rewrite requested_app in Hn; eapply NoDup_app_l; exact Hn).
  destruct (ids_distinct _ _ _ Ht Hn0) as [[D1 _] [D2 _]]. constructor.
  - intros x Hx E. rewrite Ef in Hx. apply in_app_iff in Hx as [Hx|[<-|[]]]; [|auto]. destruct Hno. apply D1. apply in_app_iff. right.
    unfold pending. rewrite <- E. apply in_map. exact Hx.
  - intros ns' f' Hr. apply in_app_iff in Hr as [Hr|Hr].
    + destruct Hno. apply D2. apply in_app_iff. left. unfold registered_ids. apply in_flat_map. exists (ORegister ns' id f'). split; [exact Hr|left; reflexivity].
    + rewrite Eo in Hr. apply requests_in in Hr as [? Hr]. discriminate.
  - rewrite requested_app. apply in_app_iff. auto.
Qed.
Lemma owned_run log ns id f ls : forall s o s' o', trace log s o -> execute log s ls = Some (s', o') -> NoDup (requested (o ++ o')) ->
  owned ns id f s o -> owned ns id f s' (o ++ o').
Proof.
  induction ls as [|l ls IH]; intros s o s' o' Ht H Hn W; cbn [execute] in H.
  - injection H as <- <-. rewrite app_nil_r. exact W.
  - destruct (step log s l) as [[s1 o1]|] eqn:E; [|discriminate]. destruct (execute log s1 ls) as [[s2 o2]|] eqn:E2; [|discriminate]. injection H as <- <-.
    rewrite app_assoc in *. apply (IH s1 (o ++ o1) s2 o2); [|exact E2|exact Hn|].
    + refine (trace_extend _ _ _ [l] _ _ Ht _). cbn [execute]. rewrite E, app_nil_r. reflexivity.
    + eapply owned_step; eauto. rewrite requested_app in Hn. eapply NoDup_app_l. exact Hn.
Qed.

(** ** The answer reaches the callback that asked *)
Lemma sent_awaiting log s o ns id f fs : trace log s o -> owned ns id f s o -> In (OQueued (ByEmit ns (Some id)) fs) o ->
  unanswered o ns id -> awaiting (table_history o) ns id f.
Proof.
  intros Ht W Hq Hu.
  assert (Ha : exists g, awaiting (table_history o) ns id g).
  { apply last_register; [eapply g_queued; [eapply trace_registered; eauto|exact Hq]|].
    intros y Hy [Hf|[(p & a & g & b & -> & Hn & Hd)|(p & a & -> & Hn & Hd)]]; [exact Hf|exfalso|exfalso].
    - apply in_split in Hy as (a1 & a2 & ->). destruct (by_read_follows _ _ _ _ _ Ht I) as (a0 & m' & -> & Hr); [discriminate|].
      destruct (call_completes _ _ _ _ Hr p) as [Hc _]; [left; eexists; left; reflexivity|].
      rewrite <- !app_assoc in Hu. apply (Hu a0 m' _ eq_refl). exists p, a. auto.
    - apply in_split in Hy as (a1 & a2 & ->). destruct (by_read_follows _ _ _ _ _ Ht I) as (a0 & m' & -> & Hr); [discriminate|].
      destruct (call_completes _ _ _ _ Hr p) as [Hc _]; [right; left; reflexivity|].
      rewrite <- !app_assoc in Hu. apply (Hu a0 m' _ eq_refl). exists p, a. auto. }
  destruct Ha as [g Ha]. assert (Hr : In (ORegister ns id g) o) by (apply awaiting_trace in Ha as (o1 & o2 & -> & _); apply in_app_iff; cbn; auto).
  apply (w_registered _ _ _ _ _ W) in Hr as [_ ->]. exact Ha.
Qed.
Lemma question_owned log s0 o0 e ns id f s1 o1 ls s o2 :
  trace log s0 o0 -> step log s0 (LEmit e) = Some (s1, o1) -> question s0 e ns id f -> execute log s1 ls = Some (s, o2) ->
  few_requests (o0 ++ o1 ++ o2) -> trace log s (o0 ++ o1 ++ o2) /\ owned ns id f s (o0 ++ o1 ++ o2).
Proof.
  intros Ht H Hq Hr Hf.
  assert (T1 : trace log s1 (o0 ++ o1)) by (refine (trace_extend _ _ _ [LEmit e] _ _ Ht _); cbn [execute]; rewrite H, app_nil_r; reflexivity).
  assert (T2 : trace log s (o0 ++ o1 ++ o2)) by (rewrite app_assoc; exact (trace_extend _ _ _ ls _ _ T1 Hr)).
  split; [exact T2|]. pose proof (requested_NoDup _ _ _ T2 Hf) as Hn. rewrite app_assoc in *. eapply owned_run; [exact T1|exact Hr|exact Hn|].
  eapply owned_start; [exact Ht|exact H|exact Hq|]. rewrite requested_app in Hn. eapply NoDup_app_l. exact Hn.
Qed.
Lemma answer_reaches_asker log s0 o0 e ns id f s1 o1 ls s o2 fs bin args afs :
  trace log s0 o0 -> step log s0 (LEmit e) = Some (s1, o1) -> question s0 e ns id f -> execute log s1 ls = Some (s, o2) ->
  few_requests (o0 ++ o1 ++ o2) -> In (OQueued (ByEmit ns (Some id)) fs) (o0 ++ o1 ++ o2) -> unanswered (o0 ++ o1 ++ o2) ns id ->
  reading s -> between_packets (o0 ++ o1 ++ o2) -> live (o0 ++ o1 ++ o2) ->
  deliverable (OfAck id) ns bin args -> build (OfAck id) ns bin args = Some afs ->
  exists s' p a, execute log s (map LRead afs) = Some (s', map ORead afs ++ [OCall p (AckCall f a)]) /\
    packet_data p = Some (DataAck id a) /\ carries p KAck ns (Some id) (pkt_values bin args).
Proof.
  intros Ht H Hq Hr Hf Hs Hu Hrd Hb Hl Hd Hbu. destruct (question_owned _ _ _ _ _ _ _ _ _ _ _ _ Ht H Hq Hr Hf) as [T W].
  eapply ack_delivered; eauto. eapply sent_awaiting; eauto.
Qed.
Lemma answer_only_to_asker log s0 o0 e ns id f s1 o1 ls s o2 p g a ns' :
  trace log s0 o0 -> step log s0 (LEmit e) = Some (s1, o1) -> question s0 e ns id f -> execute log s1 ls = Some (s, o2) ->
  few_requests (o0 ++ o1 ++ o2) -> In (OCall p (AckCall g a)) (o0 ++ o1 ++ o2) -> packet_namespace p = Some ns' -> packet_data p = Some (DataAck id a) ->
  g = f /\ ns' = ns.
Proof.
  intros Ht H Hq Hr Hf Hi Hn Hd. destruct (question_owned _ _ _ _ _ _ _ _ _ _ _ _ Ht H Hq Hr Hf) as [T W].
  apply In_nth_error in Hi as [j Hj]. destruct (fires_from _ _ _ _ _ _ _ T Hj) as (i & n & d & g' & p' & a' & E1 & E2 & E3 & E4 & _).
  rewrite Hj in E2. injection E2 as <- <- <-. rewrite Hn in E3. injection E3 as <-. rewrite Hd in E4. injection E4 as <-.
  apply nth_error_In in E1. apply (w_registered _ _ _ _ _ W) in E1. tauto.
Qed.

(** ** Questions are sent and answered in the end *)
Lemma flight_keeps log s o l s' o' ns id f b fs : trace log s o -> step log s l = Some (s', o') -> In (Inflight ns id f b fs) (s_inflight s) ->
  In (Inflight ns id f b fs) (s_inflight s') \/ (b = false /\ In (Inflight ns id f true fs) (s_inflight s')) \/
  (exists q, In q o' /\ (q = OQueued (ByEmit ns (Some id)) fs \/ q = OLost (ByEmit ns (Some id)) fs)) \/ In OUserPanic o'.
Proof.
  intros Ht H Hi. assert (Hl : (exists m, l = LRead m) \/ forall m, l <> LRead m) by (destruct l; eauto; right; discriminate).
  destruct Hl as [[m ->]|Hl].
  - destruct (step_read _ _ _ _ _ _ Ht H) as (Hx & _ & Hf & _). rewrite Hf. auto.
  - clear Ht. other_cases H Hl; cbn.
    all: try (left; exact Hi).
    all: try (left; apply in_app_iff; left; exact Hi).
    all: try (right; right; right; left; reflexivity).
    all: match goal with E : nth_error _ _ = Some ?x |- _ =>
      apply (Permutation_in _ (delete_perm _ _ _ E)) in Hi; destruct Hi as [Hi|Hi]; [injection Hi as -> -> -> -> ->|] end.
    all: try (left; exact Hi).
    all: try (right; right; left; eexists; split; [left; reflexivity|auto]; fail).
    all: match goal with E : nth_error _ _ = Some ?x |- _ => rewrite (fun y => Permutation_in y (Permutation_sym (update_perm _ _ _ _ E))) || idtac end.
    all: try (match goal with E : nth_error _ _ = Some ?x |- context [list_update _ ?y _] =>
      right; left; split; [reflexivity|]; exact (Permutation_in _ (Permutation_sym (update_perm _ _ _ y E)) (or_introl eq_refl)) end).
    all: try (match goal with E : nth_error _ _ = Some ?x |- context [list_update _ ?y _] =>
      left; exact (Permutation_in _ (Permutation_sym (update_perm _ _ _ y E)) (or_intror Hi)) end).
Qed.

Section Life.
Context (log : bool) (r : life) (L : lives log r).
Notation at_ k := (at_time r k).
Lemma ended_past k : task_ended (at_ k) = true -> past_loop (at_ k).
Proof. unfold task_ended, past_loop. destruct (s_phase (at_ k)); auto; discriminate. Qed.
Lemma seen_in x k j : k <= j -> In x (seen r k) -> In x (seen r j).
Proof. intros H Hi. destruct (seen_grows r k j H) as [o ->]. apply in_app_iff. auto. Qed.
Lemma owned_life ns id f k j : (forall i, few_requests (seen r i)) -> k <= j -> owned ns id f (at_ k) (seen r k) -> owned ns id f (at_ j) (seen r j).
Proof.
  intros Hf H W. induction H as [|j H IH]; [exact W|]. cbn [seen]. destruct (life_moves log r L j) as [(-> & -> & _)|(l & _ & Hs & _)].
  - rewrite app_nil_r. exact IH.
  - eapply owned_step; [exact (life_trace log r L j)|exact Hs| |exact IH].
    exact (requested_NoDup _ _ _ (life_trace log r L (S j)) (Hf (S j))).
Qed.
Definition handed (ns : bytes) (id : N) (fs : list wsmsg) (j : nat) : Prop :=
  In (OQueued (ByEmit ns (Some id)) fs) (seen r j) \/ In (OLost (ByEmit ns (Some id)) fs) (seen r j).
Lemma flight_leaves ns id f b fs : forall d k, In (Inflight ns id f b fs) (s_inflight (at_ k)) -> ~ In (Inflight ns id f b fs) (s_inflight (at_ (d + k))) ->
  exists j, k <= j /\ (past_loop (at_ j) \/ (b = false /\ In (Inflight ns id f true fs) (s_inflight (at_ j))) \/ handed ns id fs j).
Proof.
  induction d as [|d IH]; intros k Hk Hj; [contradiction|].
  assert (Stay : In (Inflight ns id f b fs) (s_inflight (at_ (S k))) ->
    exists j, k <= j /\ (past_loop (at_ j) \/ (b = false /\ In (Inflight ns id f true fs) (s_inflight (at_ j))) \/ handed ns id fs j)).
  { intros H. destruct (IH (S k) H) as (j & Hkj & X); [rewrite Nat.add_succ_r; exact Hj|]. exists j. split; [lia|exact X]. }
  destruct (life_moves log r L k) as [(E & _)|(l & _ & Hs & _)]; [apply Stay; rewrite E; exact Hk|].
  destruct (flight_keeps _ _ _ _ _ _ _ _ _ _ _ (life_trace log r L k) Hs Hk) as [X|[X|[(q & Hq & X)|X]]]; [exact (Stay X)| | |].
  - exists (S k). split; [lia|]. auto.
  - exists (S k). split; [lia|]. right. right. unfold handed. cbn [seen]. rewrite !in_app_iff. destruct X; subst q; auto.
  - exists (S k). split; [lia|]. left. apply ended_past. apply (ended_iff _ _ _ (life_trace log r L (S k))). exists EndPanic.
    apply (user_panics_trace _ _ _ (life_trace log r L (S k))). cbn [seen]. apply in_app_iff. auto.
Qed.
Context (G : threads_go_on r).
Lemma flight_handed ns id f b fs k : In (Inflight ns id f b fs) (s_inflight (at_ k)) ->
  exists j, k <= j /\ (past_loop (at_ j) \/ handed ns id fs j).
Proof.
  assert (One : forall b k, In (Inflight ns id f b fs) (s_inflight (at_ k)) ->
    exists j, k <= j /\ (past_loop (at_ j) \/ (b = false /\ In (Inflight ns id f true fs) (s_inflight (at_ j))) \/ handed ns id fs j)).
  { clear k b. intros b k Hk. destruct (G k _ Hk) as (j & Hkj & [P|Hj]); [exists j; auto|].
    apply (flight_leaves ns id f b fs (j - k) k Hk). replace (j - k + k) with j by lia. exact Hj. }
  intros Hk. destruct (One b k Hk) as (j & Hkj & [P|[[_ H]|H]]); [exists j; auto| |exists j; auto].
  destruct (One true j H) as (i & Hji & [P|[[[=] _]|H']]); exists i; (split; [lia|auto]).
Qed.
Context (W : writes_end r) (C : callbacks_end r) (F : fair_to log r LTake).
Lemma question_handed k e ns id f : does r k = Some (LEmit e) -> question (at_ k) e ns id f ->
  exists fs j, k <= j /\ (past_loop (at_ j) \/ In OChannelClosed (seen r j) \/ In (OQueued (ByEmit ns (Some id)) fs) (seen r j)).
Proof.
  intros Hd Hq. pose proof (proj2 L k) as Hs. rewrite Hd in Hs.
  destruct (asked_step _ _ _ _ _ _ _ _ _ (life_trace log r L k) Hs Hq) as (fs & _ & E & _). exists fs.
  destruct (flight_handed ns id f false fs (S k)) as (j & Hkj & [P|[H|H]]); [rewrite E; apply in_app_iff; cbn; auto| | |].
  - exists j. split; [lia|auto].
  - exists j. split; [lia|auto].
  - exists j. split; [lia|]. destruct (nothing_lost _ _ _ _ _ (life_trace log r L j) H) as [X|X]; [auto|left; apply ended_past; exact X].
Qed.
Lemma question_written k e ns id f : does r k = Some (LEmit e) -> question (at_ k) e ns id f ->
  exists fs i j rest, k <= j /\ (past_loop (at_ j) \/ In OChannelClosed (seen r j) \/
    (In (OQueued (ByEmit ns (Some id)) fs) (seen r i) /\ writes (seen r j) = concat (queued (seen r i)) ++ rest)).
Proof.
  intros Hd Hq. destruct (question_handed k e ns id f Hd Hq) as (fs & i & Hki & [P|[H|H]]).
  - exists fs, i, i, []. auto.
  - exists fs, i, i, []. auto.
  - destruct (queued_is_written log r L W C F i) as (j & Hij & [P|[rest E]]).
    + exists fs, i, j, []. split; [lia|auto].
    + exists fs, i, j, rest. split; [lia|auto].
Qed.
Lemma question_answered : (forall k, few_requests (seen r k)) -> (forall k, honest (seen r k)) -> server_answers log r ->
  forall k e ns id f, does r k = Some (LEmit e) -> question (at_ k) e ns id f ->
  exists j, k <= j /\ (past_loop (at_ j) \/ In OChannelClosed (seen r j) \/ answered_to (seen r j) ns id f).
Proof.
  intros Hf Hh Ha k e ns id f Hd Hq. pose proof (proj2 L k) as Hs. rewrite Hd in Hs.
  assert (Ow : owned ns id f (at_ (S k)) (seen r (S k))).
  { eapply owned_start; [exact (life_trace log r L k)|exact Hs|exact Hq|].
    exact (requested_NoDup _ _ _ (life_trace log r L (S k)) (Hf (S k))). }
  destruct (question_written k e ns id f Hd Hq) as (fs & i & j & rest & Hkj & [P|[H|[H E]]]); [exists j; auto|exists j; auto|].
  destruct (Ha i j ns id fs rest H E) as (t & [P|(m & p & a & Hm & Hc & Hn & Hp & Hl)]).
  - exists (max k t). split; [lia|]. left. exact (past_mono log r L t _ (Nat.le_max_r _ _) P).
  - pose proof (proj2 L t) as Ht. rewrite Hm in Ht.
    destruct (honest_delivered _ _ _ _ _ _ _ _ _ _ (life_trace log r L t) Ht Hc Hn Hp Hl (Hh (S t))) as (g & Hr & Eo).
    pose proof (owned_life ns id f (S k) (max (S k) (S t)) Hf (Nat.le_max_l _ _) Ow) as Ow'.
    assert (g = f) as -> by (apply (w_registered _ _ _ _ _ Ow' ns g); apply (seen_in _ t); [lia|exact Hr]).
    exists (max (S k) (S t)). split; [lia|]. right. right. exists p, a. split; [|auto].
    apply (seen_in _ (S t)); [lia|]. cbn [seen]. rewrite Eo. apply in_app_iff. cbn. auto.
Qed.
End Life.
