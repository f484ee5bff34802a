(** Which callbacks a client keeps (C67). *)
From Verif Require Export SpecHeld QuestionProofs.
From Coq Require Import Lia.

(** ** Nothing is stored twice *)
Section Keys.
  Context {K V : Type} (eqb : K -> K -> bool) (eqb_eq : forall a b, eqb a b = true <-> a = b).
  Lemma hremove_keys k (m : hmap K V) x : In x (hremove eqb k m) -> In x m /\ fst x <> k.
  Proof.
    induction m as [|[k' v] m IH]; cbn [hremove In]; [intros []|]. destruct (eqb k k') eqn:E.
    - intros H. destruct (IH H). auto.
    - intros [<-|H]; [|destruct (IH H); auto]. split; [auto|]. cbn. intros ->. rewrite (proj2 (eqb_eq k k) eq_refl) in E. discriminate.
  Qed.
  Lemma hremove_nodup k (m : hmap K V) : NoDup (map fst m) -> NoDup (map fst (hremove eqb k m)).
  Proof.
    induction m as [|[k' v] m IH]; cbn [hremove map fst]; [auto|]. intros H. inversion H as [|? ? H1 H2]; subst. destruct (eqb k k'); [auto|].
    cbn [map fst]. constructor; [|auto]. intros X. apply in_map_iff in X as (x & <- & X). apply hremove_keys in X as [X _]. apply H1. apply in_map. exact X.
  Qed.
  Lemma hinsert_nodup k v (m : hmap K V) : NoDup (map fst m) -> NoDup (map fst (hinsert eqb k v m)).
  Proof.
    intros H. cbn [hinsert map fst]. constructor; [|apply hremove_nodup; exact H]. intros X. apply in_map_iff in X as (x & E & X). apply hremove_keys in X as [_ X]. contradiction.
  Qed.
  Lemma hget_in k v (m : hmap K V) : NoDup (map fst m) -> (hget eqb k m = Some v <-> In (k, v) m).
  Proof.
    induction m as [|[k' v'] m IH]; cbn [hget map fst In]; intros H; [split; [discriminate|intros []]|]. inversion H as [|? ? H1 H2]; subst.
    destruct (eqb k k') eqn:E.
    - apply eqb_eq in E. subst k'. split; [intros X; injection X as ->; auto|]. intros [X|X]; [congruence|]. exfalso. apply H1. exact (in_map fst _ _ X).
    - rewrite (IH H2). split; [auto|]. intros [X|X]; [|exact X]. injection X as -> _. rewrite (proj2 (eqb_eq k k) eq_refl) in E. discriminate.
  Qed.
End Keys.
Definition clean_ns (n : namespace_t) : Prop := NoDup (map fst (n_events n)) /\ NoDup (map fst (n_acks n)).
Definition clean (t : callbacks) : Prop := NoDup (map fst t) /\ forall ns n, In (ns, n) t -> clean_ns n.
Lemma clean_get t ns : clean t -> clean_ns (get_or_create_namespace t ns).
Proof.
  intros [A B]. unfold get_or_create_namespace. destruct (hget bytes_eqb ns t) as [n|] eqn:E; [|split; constructor].
  apply (hget_in bytes_eqb bytes_eqb_eq) in E; eauto.
Qed.
Lemma clean_insert t ns n : clean t -> clean_ns n -> clean (hinsert bytes_eqb ns n t).
Proof.
  intros [A B] C. split; [apply hinsert_nodup; [exact bytes_eqb_eq|exact A]|]. intros ns' n' [X|X]; [congruence|].
  apply (hremove_keys bytes_eqb bytes_eqb_eq) in X as [X _]. eauto.
Qed.
Lemma clean_do t x : clean t -> clean (fst (do_op t x)).
Proof.
  intros C.
  assert (G : forall ns n, hget bytes_eqb ns t = Some n -> clean_ns n).
  { intros ns n E. pose proof (clean_get t ns C) as X. unfold get_or_create_namespace in X. rewrite E in X. exact X. }
  destruct x as [ns ev f|ns ev|ns f|ns|ns id f|ns id]; cbn [do_op fst]; unfold set_event, clear_event, set_fallback, clear_fallback, set_ack, get_and_clear_ack;
    try destruct (hget bytes_eqb ns t) as [n|] eqn:E; cbn [fst]; try exact C; apply clean_insert; try exact C;
    try destruct (G _ _ E) as [A1 B1]; destruct (clean_get t ns C) as [A B]; split; cbn [n_events n_acks]; try assumption;
    try (apply hinsert_nodup; [|assumption]); try (apply hremove_nodup; [|assumption]); try exact bytes_eqb_eq; exact N.eqb_eq.
Qed.
Lemma clean_after h : clean (table_after h).
Proof. induction h as [|x h IH] using rev_ind; [split; [constructor|intros ? ? []]|]. rewrite table_snoc. apply clean_do. exact IH. Qed.

Lemma held_in_use h f : held (table_after h) f <-> in_use h f.
Proof.
  pose proof (clean_after h) as C. split.
  - intros (ns & n & Hin & D). pose proof (proj2 C _ _ Hin) as [Ce Ca]. apply (hget_in bytes_eqb bytes_eqb_eq) in Hin; [|apply C].
    destruct D as [D|[[ev D]|[id D]]].
    + right. left. exists ns. apply fallback_exact. unfold fb_of, get_or_create_namespace. rewrite Hin. exact D.
    + left. exists ns, ev. apply event_exact. unfold ev_of, get_or_create_namespace. rewrite Hin. apply (hget_in bytes_eqb bytes_eqb_eq); assumption.
    + right. right. exists ns, id. apply ack_exact. unfold ack_of, get_or_create_namespace. rewrite Hin. apply (hget_in N.eqb N.eqb_eq); assumption.
  - assert (G : forall ns, hget bytes_eqb ns (table_after h) = None \/ exists n, hget bytes_eqb ns (table_after h) = Some n /\ In (ns, n) (table_after h) /\ clean_ns n).
    { intros ns. destruct (hget bytes_eqb ns (table_after h)) as [n|] eqn:E; [|auto]. right. exists n. split; [reflexivity|]. apply (hget_in bytes_eqb bytes_eqb_eq) in E; [|apply C]. split; [exact E|]. eapply C; eauto. }
    intros [(ns & ev & H)|[(ns & H)|(ns & id & H)]].
    + apply event_exact in H. unfold ev_of, get_or_create_namespace in H. destruct (G ns) as [E|(n & E & Hin & Ce & Ca)]; rewrite E in H; [discriminate|].
      exists ns, n. split; [exact Hin|]. right. left. exists ev. apply (hget_in bytes_eqb bytes_eqb_eq); assumption.
    + apply fallback_exact in H. unfold fb_of, get_or_create_namespace in H. destruct (G ns) as [E|(n & E & Hin & _)]; rewrite E in H; [discriminate|].
      exists ns, n. auto.
    + apply ack_exact in H. unfold ack_of, get_or_create_namespace in H. destruct (G ns) as [E|(n & E & Hin & Ce & Ca)]; rewrite E in H; [discriminate|].
      exists ns, n. split; [exact Hin|]. right. right. exists id. apply (hget_in N.eqb N.eqb_eq); assumption.
Qed.
Lemma held_exactly log s o f : trace log s o -> held (s_table s) f <-> in_use (table_history o) f.
Proof. intros H. rewrite (v_table _ _ (trace_invariant _ _ _ H)). apply held_in_use. Qed.

(** ** Callbacks that wait for answers *)
Lemma register_once log s o : trace log s o -> few_requests o ->
  forall a ns id f b ns' g, o = a ++ ORegister ns id f :: b -> ~ In (ORegister ns' id g) a /\ ~ In (ORegister ns' id g) b.
Proof.
  intros Ht Hf a ns id f b ns' g ->. destruct (ids_distinct _ _ _ Ht (requested_NoDup _ _ _ Ht Hf)) as [_ [_ D]].
  rewrite registered_app in D. assert (D' : NoDup (registered_ids a ++ id :: registered_ids b)).
  { eapply NoDup_app_l. exact D. }
  apply NoDup_remove_2 in D'. split; intros X; apply D', in_app_iff; [left|right]; unfold registered_ids; apply in_flat_map; eexists; (split; [exact X|left; reflexivity]).
Qed.
Lemma answered_registered log s o ns id f : trace log s o -> forall o1 p a o2, o = o1 ++ OCall p (AckCall f a) :: o2 ->
  packet_namespace p = Some ns -> packet_data p = Some (DataAck id a) -> In (ORegister ns id f) o1.
Proof.
  intros Ht o1 p a o2 -> En Ed.
  destruct (fires_from log s _ (length o1) p f a Ht) as (i & ns' & id' & f' & p' & a' & H1 & H2 & H3 & H4 & H5 & _); [rewrite nth_error_app2, Nat.sub_diag by lia; reflexivity|].
  rewrite nth_error_app2, Nat.sub_diag in H2 by lia. injection H2 as <- <- <-. rewrite En in H3. rewrite Ed in H4. injection H3 as <-. injection H4 as <-.
  rewrite nth_error_app1 in H1 by lia. eapply nth_error_In; eauto.
Qed.
Lemma waiting_exactly log s o ns id f : trace log s o -> few_requests o ->
  awaiting (table_history o) ns id f <-> In (ORegister ns id f) o /\ ~ answered_to o ns id f.
Proof.
  intros Ht Hf. split.
  - intros H. apply awaiting_trace in H as (o1 & o2 & -> & Ha). split; [apply in_app_iff; cbn; auto|]. intros (p & a & Hin & En & Ed).
    apply in_app_iff in Hin as [Hin|[Hin|Hin]]; [|discriminate|].
    + apply in_split in Hin as (b1 & b2 & ->). rewrite <- app_assoc in Ht. pose proof (answered_registered _ _ _ ns id f Ht b1 p a _ eq_refl En Ed) as X.
      rewrite app_assoc in Ht. destruct (register_once _ _ _ Ht Hf _ _ _ _ _ ns f eq_refl) as [Y _]. apply Y. apply in_app_iff. auto.
    + rewrite Forall_forall in Ha. apply (Ha _ Hin). right. left. exists p, a, f, a. auto.
  - intros [Hr Hn]. apply in_split in Hr as (o1 & o2 & E). apply awaiting_trace. exists o1, o2. split; [exact E|].
    destruct (register_once _ _ _ Ht Hf _ _ _ _ _ ns f E) as [_ Once].
    assert (K : forall b1 b2, o2 = b1 ++ b2 -> Forall (fun y => ~ about_ack ns id y) b1).
    2:{ apply (K o2 []). rewrite app_nil_r. reflexivity. }
    induction b1 as [|y b1 IH] using rev_ind; intros b2 E2; [constructor|]. rewrite <- app_assoc in E2. pose proof (IH _ E2) as K. apply Forall_app. split; [exact K|]. constructor; [|constructor].
    subst o2. assert (E' : o = (o1 ++ ORegister ns id f :: b1) ++ y :: b2) by (rewrite E, <- app_assoc; reflexivity). clear E. subst o.
    assert (Reg : forall ns' g, In (ORegister ns' id g) (o1 ++ ORegister ns id f :: b1) -> ns' = ns /\ g = f).
    { intros ns' g X. apply in_app_iff in X as [X|[X|X]]; [|injection X as <- <-; auto|];
        destruct (register_once _ _ ((o1 ++ ORegister ns id f :: b1) ++ y :: b2) Ht Hf o1 ns id f (b1 ++ y :: b2) ns' g) as [Y1 Y2]; try (rewrite <- app_assoc; reflexivity); [destruct (Y1 X)|].
      destruct Y2. apply in_app_iff. auto. }
    intros [(g & ->)|[(p & a & g & b & -> & En & Ed)|(p & a & -> & En & Ed)]].
    + destruct (register_once _ _ _ Ht Hf _ _ _ _ _ ns f eq_refl) as [Y _]. apply Y. apply in_app_iff. cbn. auto.
    + (* the callback would have been called *)
      destruct (by_read_follows _ _ _ _ _ Ht I) as (o0 & m & E0 & R); [discriminate|]. destruct (call_completes _ _ _ _ R p) as [_ P]; [left; eexists; left; reflexivity|].
      inversion P; subst; match goal with X : packet_data p = Some ?d |- _ => rewrite Ed in X; injection X as <- <- | _ => idtac end; try discriminate.
      assert (X : In (ORegister ns id g) (o1 ++ ORegister ns id f :: b1)) by (eapply answered_registered; [exact Ht|reflexivity|exact En|exact Ed]).
      apply Reg in X as [_ ->]. apply Hn. exists p, a. rewrite in_app_iff. cbn. auto.
    + (* or was not there *)
      destruct (by_read_follows _ _ _ _ _ Ht I) as (o0 & m & E0 & R); [discriminate|]. destruct (call_completes _ _ _ _ R p) as [_ P]; [right; left; reflexivity|].
      inversion P as [| | | | | | |ns' id' a' _ En' Ed' Ha]; subst. rewrite En in En'. rewrite Ed in Ed'. injection En' as <-. injection Ed' as <- <-.
      apply (Ha f). apply awaiting_trace. destruct b1 as [|z b1 _] using rev_ind.
      * apply app_inj_tail in E0 as [_ X]. discriminate.
      * change (o1 ++ ORegister ns id f :: b1 ++ [z]) with (o1 ++ (ORegister ns id f :: b1) ++ [z]) in E0. rewrite app_assoc in E0. apply app_inj_tail in E0 as [<- _].
        exists o1, b1. split; [reflexivity|]. apply Forall_app in K as [K _]. exact K.
Qed.
(** They wait for ever once the connection is over. *)
Lemma kept_for_ever log s o ns id f ls s' o' : trace log s o -> awaiting (table_history o) ns id f -> task_ended s = true ->
  execute log s ls = Some (s', o') -> few_requests (o ++ o') -> awaiting (table_history (o ++ o')) ns id f /\ ~ answered_to (o ++ o') ns id f.
Proof.
  intros Ht Ha He Hx Hf. assert (Ht' : trace log s' (o ++ o')) by (eapply trace_extend; eauto).
  assert (Hf0 : few_requests o) by (unfold few_requests in *; rewrite requested_app, app_length in Hf; lia).
  pose proof (proj1 (waiting_exactly _ _ _ _ _ _ Ht Hf0) Ha) as [Hr Hn].
  assert (K : ~ answered_to (o ++ o') ns id f).
  { intros (p & a & Hin & En & Ed). apply in_app_iff in Hin as [Hin|Hin]; [apply Hn; exists p, a; auto|].
    destruct (execute_after_end _ _ _ _ _ _ Ht He Hx) as [_ X]. rewrite Forall_forall in X. exact (X _ Hin). }
  split; [|exact K]. apply (waiting_exactly _ _ _ _ _ _ Ht' Hf). split; [apply in_app_iff; auto|exact K].
Qed.
(** Events that could not be sent have left their callback behind. *)
Lemma lost_registered log s o ns id fs : trace log s o -> In (OLost (ByEmit ns (Some id)) fs) o -> exists f, In (ORegister ns id f) o.
Proof.
  intros Ht. revert s o Ht. apply (trace_ind log (fun s o => In (OLost (ByEmit ns (Some id)) fs) o -> exists f, In (ORegister ns id f) o)); [intros []|].
  intros s o l s' o' Ht IH H Hin. apply in_app_iff in Hin as [Hin|Hin]; [destruct (IH Hin) as [f Hf]; exists f; apply in_app_iff; auto|].
  pose proof (trace_registered _ _ _ Ht) as G.
  assert (D : (exists m, l = LRead m) \/ forall m, l <> LRead m) by (destruct l; (left; eexists; reflexivity) || (right; discriminate)).
  destruct D as [[m ->]|Hl].
  - destruct (read_label _ _ _ _ _ H) as (b & Hp & _ & R). exfalso. clear -R Hin. unfold read_step, push in R.
    destruct (process_websocket_packet _ _ _ _ _) as [r c op q out]. cbn [pr_receiver pr_callbacks pr_open pr_queue pr_outcome] in R.
    destruct op, q, out as [[]|]; step_cases R; injection R as _ <-; cbn in Hin; repeat (destruct Hin as [Hin|Hin]; try discriminate); destruct Hin.
  - assert (Hq : exists f, In (ORegister ns id f) o); [|destruct Hq as [f Hq]; exists f; apply in_app_iff; auto].
    clear IH Ht. other_cases H Hl; cbn in Hin; rewrite ?in_app_iff in Hin; cbn in Hin; 
      repeat (destruct Hin as [Hin|Hin]; try discriminate Hin); try contradiction; try (apply requests_in in Hin as [? Hin]; discriminate).
    all: try (unfold emit_origin in Hin; match type of Hin with context [eb_callback ?b] => destruct (eb_callback b) as [[? ?]|] end; discriminate).
    all: try (injection Hin as -> -> ->; eexists; eapply (g_inflight _ _ G), nth_error_In; eassumption).
Qed.
(** An event with a callback that is emitted after the end of the connection is never sent, and its
    callback never called. *)
Lemma asked_too_late log s0 o0 e ns id f s1 o1 ls s o2 :
  trace log s0 o0 -> task_ended s0 = true -> step log s0 (LEmit e) = Some (s1, o1) -> question s0 e ns id f ->
  execute log s1 ls = Some (s, o2) -> few_requests (o0 ++ o1 ++ o2) ->
  (forall fs, ~ In (OQueued (ByEmit ns (Some id)) fs) (o0 ++ o1 ++ o2)) /\
  ~ answered_to (o0 ++ o1 ++ o2) ns id f /\
  (In (ORegister ns id f) (o0 ++ o1 ++ o2) -> awaiting (table_history (o0 ++ o1 ++ o2)) ns id f).
Proof.
  intros Ht He H Hq Hx Hf. destruct (question_owned _ _ _ _ _ _ _ _ _ _ _ _ Ht H Hq Hx Hf) as [T _].
  pose proof (requested_NoDup _ _ _ T Hf) as Hn.
  destruct (asked_step _ _ _ _ _ _ _ _ _ Ht H Hq) as (fs & _ & _ & Hi).
  assert (Hno : ~ In id (requested o0)).
  { intros X. rewrite requested_app in Hn. apply in_split in X as (a & b & E3). rewrite E3, <- app_assoc in Hn.
    apply NoDup_remove_2 in Hn. apply Hn. rewrite requested_app, !in_app_iff. auto. }
  assert (Hn0 : NoDup (requested o0)) by (rewrite requested_app in Hn; eapply NoDup_app_l; exact Hn).
  destruct (ids_distinct _ _ _ Ht Hn0) as [_ [D2 _]].
  assert (R0 : forall f', ~ In (ORegister ns id f') o0).
  { intros f' Hr. apply Hno, D2, in_app_iff. left. unfold registered_ids. apply in_flat_map. exists (ORegister ns id f'). split; [exact Hr|left; reflexivity]. }
  assert (A : Forall after_end (o1 ++ o2)).
  { assert (X : execute log s0 (LEmit e :: ls) = Some (s, o1 ++ o2)) by (cbn [execute]; rewrite H, Hx; reflexivity).
    apply (execute_after_end _ _ _ _ _ _ Ht He X). }
  rewrite Forall_forall in A.
  assert (Ha : ~ answered_to (o0 ++ o1 ++ o2) ns id f).
  { intros (p & a & Hin & En & Ed). apply in_app_iff in Hin as [Hin|Hin]; [|exact (A _ Hin)].
    apply in_split in Hin as (b1 & b2 & E). apply (R0 f). rewrite E. apply in_app_iff. left.
    rewrite E in Ht. exact (answered_registered _ _ _ _ _ _ Ht _ _ _ _ eq_refl En Ed). }
  split; [|split; [exact Ha|]].
  - intros fs' Hin. apply in_app_iff in Hin as [Hin|Hin]; [|exact (A _ Hin)].
    destruct (g_queued _ _ (trace_registered _ _ _ Ht) _ _ _ Hin) as [f' Hr]. exact (R0 _ Hr).
  - intros Hr. apply (waiting_exactly _ _ _ _ _ _ T Hf). auto.
Qed.

(** ** A run with callbacks that are kept after the end *)
Definition kept_run : list label := opened_run ++
  [LEmit (Emission (bs "/") (bs "ask") [SetCallback 9%N] []); LRegister 0; LPush 0; LTake; LWrite; LReadEnd].
Definition kept_more : list label := [LRegister 0; LPush 0].
Definition kept_late : emission := Emission (bs "/") (bs "late") [SetCallback 8%N] [].
Definition kept_end := Eval vm_compute in execute true init kept_run.
Definition kept_state : state := match kept_end with Some (s, _) => s | None => init end.
Definition kept_obs : list obs := match kept_end with Some (_, o) => o | None => [] end.
Lemma kept_ok : execute true init kept_run = Some (kept_state, kept_obs).
Proof. vm_compute. reflexivity. Qed.
Lemma kept_trace : trace true kept_state kept_obs.
Proof. exists kept_run. exact kept_ok. Qed.
Lemma kept_waits : awaiting (table_history kept_obs) (bs "/") 0 9%N.
Proof.
  apply (waiting_exactly _ _ _ _ _ _ kept_trace).
  - vm_compute. discriminate.
  - split; [vm_compute; intuition|]. intros (p & a & H & _). vm_compute in H. intuition; discriminate.
Qed.
Lemma C67_false : ~ C67_full.
Proof. intros H. apply (H _ _ _ _ _ _ kept_trace eq_refl kept_waits). Qed.
Lemma kept_case : exists s1 o1 s o2,
  trace true kept_state kept_obs /\ task_ended kept_state = true /\ awaiting (table_history kept_obs) (bs "/") 0 9%N /\
  step true kept_state (LEmit kept_late) = Some (s1, o1) /\ question kept_state kept_late (bs "/") 1 8%N /\
  execute true s1 kept_more = Some (s, o2) /\ few_requests (kept_obs ++ o1 ++ o2) /\
  In (ORegister (bs "/") 1 8%N) (kept_obs ++ o1 ++ o2) /\ In (OLost (ByEmit (bs "/") (Some 1%N)) [WText (bs "421[""late""]")]) (kept_obs ++ o1 ++ o2).
Proof.
  do 4 eexists. split; [exact kept_trace|]. split; [reflexivity|]. split; [exact kept_waits|].
  split; [vm_compute; reflexivity|]. split; [repeat split; vm_compute; reflexivity|]. split; [vm_compute; reflexivity|].
  split; [vm_compute; discriminate|]. split; vm_compute; intuition.
Qed.
Lemma replaced_case : exists s o,
  trace true s o /\ held (s_table s) 2%N /\ ~ held (s_table s) 1%N /\ In (OTable (SetEvent (bs "/") (bs "e") 1%N)) o.
Proof.
  do 2 eexists. split; [exists (opened_run ++ [LTable (SetEvent (bs "/") (bs "e") 1%N); LTable (SetEvent (bs "/") (bs "e") 2%N)]); vm_compute; reflexivity|].
  split; [|split].
  - vm_compute. do 2 eexists. split; [left; reflexivity|]. right. left. eexists. left. reflexivity.
  - vm_compute. intros (ns & n & [H|H] & D); [|contradiction]. injection H as <- <-. destruct D as [D|[[ev D]|[id D]]]; [discriminate| |contradiction].
    destruct D as [D|D]; [discriminate|contradiction].
  - vm_compute. intuition.
Qed.
