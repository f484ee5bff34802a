(** No deadlocks where everybody asks in order (SpecMesh.v). *)
From Verif Require Import SharedProofs MeshProofs SpecMesh.

Lemma mesh_world log n ls : forall m o, mesh_run log n ls m o -> exists wls, world_run log n wls (m_world m) o.
Proof.
  induction ls as [|l ls IH] using rev_ind; intros m o H; [injection H as <- <-; exists []; reflexivity|].
  unfold mesh_run in H. rewrite mexecute_app in H. destruct (mexecute log (mesh_init n) ls) as [[m0 o0]|] eqn:R; [|discriminate]. cbn [mexecute] in H.
  destruct (mstep log m0 l) as [[m1 o1]|] eqn:E; [|discriminate]. injection H as <- <-. rewrite app_nil_r.
  destruct (IH m0 o0 R) as (wls & W). destruct (world_part _ _ _ _ _ E (proj2 (run_reached _ _ _ _ _ R))) as [[-> ->]|(wl & S & _)].
  - exists wls. rewrite app_nil_r. exact W.
  - exists (wls ++ [wl]). unfold world_run in *. rewrite wexecute_app, W. cbn [wexecute]. rewrite S, app_nil_r. reflexivity.
Qed.
Lemma calling_called log n ls m o i s f : mesh_run log n ls m o -> client_at m i = Some s -> calling s = Some f -> In f (calls_of i o).
Proof.
  intros H E C. destruct (mesh_world _ _ _ _ _ H) as (wls & W). destruct (calls_in_order _ _ _ _ _ _ _ W E) as (rest & -> & _ & Hr & _).
  pose proof (world_locks _ _ _ _ _ W) as [L _]. apply in_or_app.
  assert (D : l_holder (w_locks (m_world m) f) = Some (RTask i) \/ l_holder (w_locks (m_world m) f) <> Some (RTask i)).
  { destruct (l_holder (w_locks (m_world m) f)) as [y|]; [|right; discriminate]. destruct (runner_dec y (RTask i)) as [->|N]; [auto|right; congruence]. }
  destruct D as [D|D].
  - left. apply L in D as (o1 & o2 & -> & _). unfold begun_by. rewrite flat_map_app. apply in_or_app. right. cbn. rewrite Nat.eqb_refl. left. reflexivity.
  - right. apply in_or_app. right. rewrite (proj2 (Hr f)); [left; reflexivity|]. split; [exact C|]. intros X. apply L in X. contradiction.
Qed.

Lemma asks_prefix rank log n ls ls' : asks_in_order rank log n (ls ++ ls') -> forall m o, mexecute log (mesh_init n) (ls ++ ls') = Some (m, o) -> asks_in_order rank log n ls.
Proof.
  intros [A B] m o H. split.
  - intros ls1 r x ls2 m1 o1 y -> R. apply (A ls1 r x (ls2 ++ ls') m1 o1 y); [rewrite <- app_assoc; reflexivity|exact R].
  - intros m1 o1 i f R I. rewrite mexecute_app in H. unfold mesh_run in R. rewrite R in H. destruct (mexecute log m1 ls') as [[m2 o2]|] eqn:E; [|discriminate].
    injection H as <- <-. apply (B m2 (o1 ++ o2)); [unfold mesh_run; rewrite mexecute_app, R, E; reflexivity|]. rewrite calls_of_app. apply in_or_app. auto.
Qed.
Lemma locked_acting_phase m j s : client_at m j = Some s -> acting (m_world m) (RTask j) = true -> locked s = true.
Proof. intros E A. cbn [acting] in A. unfold client_at in E. rewrite E in A. unfold locked. destruct (s_phase s); try discriminate; reflexivity. Qed.
(** Who waits gets nothing new. *)
Lemma has_only log m l m' o r y : mesh_ok m -> mstep log m l = Some (m', o) -> has m' r y -> acting (m_world m) r = true -> has m r y \/ actor l = Some r.
Proof.
  intros Ok H Hy A. destruct (actor_dec l r) as [D|D]; [auto|]. left. destruct y as [j|j|f]; cbn [has] in *.
  - destruct (owner_only _ _ _ _ _ _ _ H Hy) as [X|[_ X]]; [exact X|contradiction].
  - destruct Hy as [-> _]. split; [reflexivity|]. pose proof A as A'. cbn [acting] in A'. change (nth_error (w_clients (m_world m)) j) with (client_at m j) in A'.
    destruct (client_at m j) as [s|] eqn:E; [|discriminate]. exists s. split; [reflexivity|]. eapply locked_acting_phase; eauto.
  - destruct (holder_only _ _ _ _ _ _ _ Ok H Hy) as [X|[_ X]]; [exact X|contradiction].
Qed.
Lemma waits_in_order rank log n ls : forall m o, mesh_run log n ls m o -> asks_in_order rank log n ls ->
  forall r x y, wants m r = Some x -> has m r y -> rank (asks_for x) < rank y.
Proof.
  induction ls as [|l ls IH] using rev_ind; intros m o H Ord r x y W Hy; [injection H as <- _; discriminate|].
  pose proof (asks_prefix _ _ _ _ _ Ord _ _ H) as Ord0. destruct (run_snoc_inv _ _ _ _ _ _ H) as (m0 & o0 & o1 & R & S).
  pose proof (run_reached _ _ _ _ _ R) as [_ Ok]. destruct (wants_only _ _ _ _ _ _ _ S W) as [W0| ->].
  - destruct (has_only _ _ _ _ _ _ _ Ok S Hy (proj1 (mo_want _ Ok _ _ W0))) as [Y|A]; [eapply IH; eauto|].
    exfalso. pose proof S as S'. apply mstep_mcase in S'. unfold wants in W, W0.
    destruct S' as [wl w' o2 M S'|a z F Wa|a q Hw Hk|a q z w' o2 Hw S'|t f wl w' o2 Hw D S'|a q z w' o2 F Hk Hn S'|a q F Hk]; cbn [actor m_wants] in *;
      try (injection A as ->); try (apply free_iff in F as [_ F]; unfold wants in F; congruence);
      try (rewrite lookup_unwant, (proj2 (runner_eqb_eq _ _) eq_refl) in W; discriminate).
    destruct wl as [i z|i|i|t f|t f|t f p]; cbn [wactor may_step] in *; try discriminate.
    + destruct (of_body z); [|discriminate]. injection A as <-. apply Bool.andb_true_iff in M as [_ M]. cbn in M. apply is_none_iff in M. unfold wants in M. congruence.
    + injection A as <-. apply wstep_wcase in S'. inversion S'; subst. 
      match goal with E : nth_error _ i = Some ?s, C : calling ?s = Some ?f, K : w_locks _ ?f = _ |- _ => pose proof (acting_holds m0 (RTask i) (proj1 (mo_want _ Ok _ _ W0)) _ _ _ eq_refl E C) as X; rewrite K in X; discriminate X end.
    + injection A as <-. apply wstep_wcase in S'. inversion S'; subst.
      match goal with E : nth_error _ i = Some ?s, C : calling ?s = Some ?f, K : w_locks _ ?f = _ |- _ => pose proof (acting_holds m0 (RTask i) (proj1 (mo_want _ Ok _ _ W0)) _ _ _ eq_refl E C) as X; rewrite K in X; discriminate X end.
    + injection A as <-. apply is_none_iff in M. unfold wants in M. congruence.
    + injection A as <-. rewrite lookup_unwant, (proj2 (runner_eqb_eq _ _) eq_refl) in W. discriminate.
  - apply mstep_mcase in S. inversion S; subst. apply (proj1 Ord ls r x [] m0 o0 y eq_refl R). exact Hy.
Qed.

(** The rank of what somebody waits for. *)
Definition waited (m : mesh) (r : runner) (x : thing) : Prop :=
  (exists w, wants m r = Some w /\ x = asks_for w) \/
  (exists i s f, r = RTask i /\ client_at m i = Some s /\ calling s = Some f /\ l_holder (w_locks (m_world m) f) <> Some r /\ x = TheCallback f).
Lemma blocked_has m r r' : blocked_by m r r' -> exists x, waited m r x /\ has m r' x.
Proof.
  intros B. destruct B as [r j y Hw Ho|r j k s Hw Hc Hl|r f y Hw Hh|i s f y Hc Hf Hh Hne].
  - exists (TheClient j). split; [left; eexists; split; [exact Hw|reflexivity]|exact Ho].
  - exists (TheTable j). split; [left; eexists; split; [exact Hw|reflexivity]|]. split; [reflexivity|eauto].
  - exists (TheCallback f). split; [left; eexists; split; [exact Hw|reflexivity]|exact Hh].
  - exists (TheCallback f). split; [right; exists i, s, f; repeat split; auto; congruence|exact Hh].
Qed.
Lemma waited_less rank log n ls m o r x y : mesh_run log n ls m o -> asks_in_order rank log n ls -> waited m r x -> has m r y -> rank x < rank y.
Proof.
  intros H Ord W Hy. destruct W as [(w & W & ->)|(i & s & f & -> & E & C & N & ->)]; [eapply waits_in_order; eauto|].
  pose proof (run_reached _ _ _ _ _ H) as [_ Ok].
  assert (A : acting (m_world m) (RTask i) <> true) by (intros A; apply N; eapply acting_holds; eauto).
  destruct y as [j|j|g]; cbn [has] in Hy.
  - destruct (A (mo_owner _ Ok _ _ Hy)).
  - destruct Hy as [Hj _]. injection Hj as <-. apply (proj2 Ord m o i f H). eapply calling_called; eauto.
  - destruct (A (holder_acting _ _ _ Ok Hy)).
Qed.
Lemma no_deadlock_in_order rank log n ls m o r : mesh_run log n ls m o -> asks_in_order rank log n ls -> ~ hopeless m r.
Proof.
  intros H Ord (S & Hr & HS).
  assert (K : forall k x r, S r -> waited m r x -> rank x < k -> False).
  { induction k as [|k IH]; intros x q Hq W L; [lia|]. destruct (HS q Hq) as (y & Hy & B). destruct (HS y Hy) as (z & Hz & B2).
    destruct (blocked_has _ _ _ B) as (x1 & W1 & H1). destruct (blocked_has _ _ _ B2) as (x2 & W2 & H2).
    assert (E : x1 = x).
    { destruct W as [(w & W & ->)|(i & s & f & -> & E & C & N & ->)], W1 as [(w1 & W1 & ->)|(i1 & s1 & f1 & E0 & E1 & C1 & N1 & ->)]; try congruence.
      - exfalso. subst q. pose proof (run_reached _ _ _ _ _ H) as [_ Ok]. apply N1. eapply acting_holds; eauto. exact (proj1 (mo_want _ Ok _ _ W)).
      - exfalso. pose proof (run_reached _ _ _ _ _ H) as [_ Ok]. apply N. eapply acting_holds; eauto. exact (proj1 (mo_want _ Ok _ _ W1)). }
    subst x1. apply (IH x2 y Hy W2). pose proof (waited_less _ _ _ _ _ _ _ _ _ H Ord W2 H1). lia. }
  destruct (HS r Hr) as (y & Hy & B). destruct (blocked_has _ _ _ B) as (x & W & _). exact (K (Datatypes.S (rank x)) x r Hr W (Nat.lt_succ_diag_r _)).
Qed.

(** Clients in levels. *)
Definition level_rank (level : nat -> nat) (home : cb -> nat) (x : thing) : nat :=
  match x with
  | TheClient j => 3 * level j + 2
  | TheTable j => 3 * level j + 1
  | TheCallback f => 3 * level (home f)
  end.
Lemma owns_lower level log n ls : forall m o, mesh_run log n ls m o -> uses_lower_levels level ls -> forall i j, m_owner m j = Some (RTask i) -> level j < level i.
Proof.
  induction ls as [|l ls IH] using rev_ind; intros m o H U i j O; [injection H as <- _; discriminate|].
  destruct (run_snoc_inv _ _ _ _ _ _ H) as (m0 & o0 & o1 & R & S).
  assert (U0 : uses_lower_levels level ls) by (intros a b X; apply U, in_or_app; auto).
  destruct (owner_only _ _ _ _ _ _ _ S O) as [X|[X A]]; [eapply IH; eauto|].
  apply mstep_mcase in S. destruct S as [wl w' o2 M S|a z F Wa|a q Hw Hk|a q z w' o2 Hw S|t f wl w' o2 Hw D S|a q z w' o2 F Hk Hn S|a q F Hk]; cbn [actor m_owner] in *;
    try (apply settle_acting in O as [O _]); try congruence.
  - injection A as A. unfold set_owner in O. destruct (Nat.eqb j q) eqn:E; [|congruence]. apply Nat.eqb_eq in E. subst a q. apply U0. eapply wants_asked; eauto.
  - unfold set_owner in O. destruct (Nat.eqb j q); congruence.
Qed.
Lemma levels_in_order level home log n ls m o : mesh_run log n ls m o -> one_client_each log n ls -> no_direct_calls ls ->
  uses_lower_levels level ls -> not_shared o home -> asks_in_order (level_rank level home) log n ls.
Proof.
  intros H One Dir U Sh. split.
  - intros ls1 r x ls2 m1 o1 y E R Hy. pose proof (run_reached _ _ _ _ _ R) as [_ Ok].
    assert (P : exists m2 o2, mstep log m1 (MWant r x) = Some (m2, o2)).
    { unfold mesh_run in *. rewrite E, mexecute_app, R in H. cbn [mexecute] in H. destruct (mstep log m1 (MWant r x)) as [[m2 o2]|]; [eauto|discriminate]. }
    destruct P as (m2 & o2 & P). apply mstep_mcase in P. inversion P as [|? ? F W| | | | |]; subst. clear P.
    assert (T : tidy m1).
    { eapply run_tidy; [exact R| |].
      - intros a q j b m3 o3 k -> . apply (One a q j (b ++ MWant r x :: ls2)). rewrite <- app_assoc. reflexivity.
      - intros q f X. apply (Dir q f). apply in_or_app. auto. }
    assert (U1 : uses_lower_levels level ls1) by (intros a b X; apply U, in_or_app; auto).
    assert (Hf : forall f, l_holder (w_locks (m_world m1) f) = Some r -> exists i, r = RTask i /\ home f = i).
    { intros f X. destruct (ti_task _ T _ _ X) as [i ->]. exists i. split; [reflexivity|]. destruct (mo_holds _ Ok _ _ X) as (s & Es & C). apply (Sh i f).
      pose proof (calling_called _ _ _ _ _ _ _ _ R Es C) as I. unfold mesh_run in *. rewrite mexecute_app, R in H. destruct (mexecute log m1 _) as [[m3 o3]|]; [|discriminate]. injection H as _ <-.
      rewrite calls_of_app. apply in_or_app. auto. }
    destruct x as [j|j l|f]; cbn [asks_for level_rank].
    + assert (L : forall i, r = RTask i -> level j < level i) by (intros i ->; apply U, in_or_app; right; left; reflexivity).
      destruct y as [k|k|f]; cbn [has level_rank] in *.
      * destruct (One ls1 r j ls2 m1 o1 k eq_refl R Hy).
      * destruct Hy as [Hk _]. specialize (L k Hk). lia.
      * destruct (Hf f Hy) as (i & Hi & <-). specialize (L (home f) Hi). lia.
    + cbn [may_want] in W. apply Bool.andb_true_iff in W as [W _]. apply owns_iff in W.
      assert (L : forall i, r = RTask i -> level j < level i) by (intros i ->; eapply owns_lower; eauto).
      destruct y as [k|k|f]; cbn [has level_rank] in *.
      * rewrite (ti_one _ T _ _ _ W Hy). lia.
      * destruct Hy as [Hk _]. specialize (L k Hk). lia.
      * destruct (Hf f Hy) as (i & Hi & <-). specialize (L (home f) Hi). lia.
    + destruct (Dir r f). apply in_or_app. right. left. reflexivity.
  - intros m1 o1 i f R I. unfold mesh_run in *. rewrite R in H. injection H as -> ->. cbn [level_rank]. rewrite (Sh i f I). lia.
Qed.
Lemma no_deadlock_by_levels level home log n ls m o r : mesh_run log n ls m o -> one_client_each log n ls -> no_direct_calls ls ->
  uses_lower_levels level ls -> not_shared o home -> ~ hopeless m r.
Proof. intros H One Dir U Sh. eapply no_deadlock_in_order; [exact H|]. eapply levels_in_order; eauto. Qed.

(** A callback of client 1 sets a callback of client 0, while a thread with client 1 waits to clear one
    of client 1. *)
Definition stacked_run : list mlabel := mesh_start 0 ++ mesh_start 1 ++ mesh_set 1 1 7%N ++ mesh_event 1 ++
  [MWant (RUser 1) (WantClient 1); MGet (RUser 1); MWant (RTask 1) (WantClient 0); MGet (RTask 1); MWant (RUser 2) (WantClient 0);
   MWant (RUser 1) (WantTable 1 (LTable (ClearFallback (bs "/")))); MWant (RTask 1) (WantTable 0 (LTable (ClearFallback (bs "/"))))].
Lemma stacked_ok : mesh_run false 2 stacked_run (mesh_of 2 stacked_run) (mobs_of 2 stacked_run).
Proof. apply runs_ok. vm_compute. reflexivity. Qed.
Lemma stacked_rules : one_client_each false 2 stacked_run /\ no_direct_calls stacked_run /\ uses_lower_levels (fun i => i) stacked_run /\ not_shared (mobs_of 2 stacked_run) (fun _ => 1).
Proof.
  split; [apply checked_one; vm_compute; reflexivity|]. split; [intros r f H|split; [intros i j H|intros i f H]].
  - assert (X : want_ok (fun r x => negb (is_call x)) stacked_run = true) by (vm_compute; reflexivity). pose proof (want_ok_in _ _ _ _ X H) as Y. discriminate.
  - assert (X : want_ok (fun r x => match r, x with RTask i, WantClient j => Nat.ltb j i | _, _ => true end) stacked_run = true) by (vm_compute; reflexivity).
    pose proof (want_ok_in _ _ _ _ X H) as Y. apply Nat.ltb_lt. exact Y.
  - assert (X : forallb (fun x => match x with WObs i (OCall _ (EventCall _ _ _)) => Nat.eqb i 1 | _ => true end) (mobs_of 2 stacked_run) = true) by (vm_compute; reflexivity).
    revert H X. generalize (mobs_of 2 stacked_run). intros o H X. unfold calls_of, obs_of in H. apply in_flat_map in H as (x & H & F). apply in_flat_map in H as (z & H & G). rewrite forallb_forall in X. specialize (X z H).
    destruct z as [k y| | |]; try contradiction. destruct (Nat.eqb_spec k i) as [->|_]; [|contradiction]. destruct G as [->|[]]. destruct x; try contradiction. destruct c; try contradiction. symmetry. apply Nat.eqb_eq. exact X.
Qed.
Lemma stacked_waits : blocked_by (mesh_of 2 stacked_run) (RUser 1) (RTask 1) /\ blocked_by (mesh_of 2 stacked_run) (RUser 2) (RTask 1) /\
  wants (mesh_of 2 stacked_run) (RTask 1) = Some (WantTable 0 (LTable (ClearFallback (bs "/")))).
Proof.
  pose proof (proj2 (run_reached _ _ _ _ _ stacked_ok)) as Ok. split; [apply (blocker_iff _ _ _ Ok); vm_compute; reflexivity|]. split; [apply (blocker_iff _ _ _ Ok); vm_compute; reflexivity|].
  vm_compute. reflexivity.
Qed.
Lemma stacked_in_order : asks_in_order (level_rank (fun i => i) (fun _ => 1)) false 2 stacked_run.
Proof. destruct stacked_rules as (A & B & C & D). exact (levels_in_order _ _ _ _ _ _ _ stacked_ok A B C D). Qed.

(** Any callback whose body is executed, for an event or an ack, can ask for a client and get it. *)
Lemma callbacks_ask log n ls m o i s b c j : mesh_run log n ls m o -> client_at m i = Some s -> s_phase s = PCalling b c -> ~ waits m (RTask i) ->
  exists m', mstep log m (MWant (RTask i) (WantClient j)) = Some (m', []) /\ waits m' (RTask i) /\
    (m_owner m j = None -> exists m'', mstep log m' (MGet (RTask i)) = Some (m'', []) /\ m_owner m'' j = Some (RTask i) /\ ~ waits m'' (RTask i)).
Proof.
  intros H E P W. pose proof (run_reached _ _ _ _ _ H) as [_ Ok].
  assert (Hw : wants m (RTask i) = None). { destruct (wants m (RTask i)) eqn:X; [|reflexivity]. exfalso. apply W. left. congruence. }
  assert (A : acting (m_world m) (RTask i) = true).
  { cbn [acting]. unfold client_at in E. rewrite E, P. destruct c as [f p a|f p]; [|reflexivity].
    destruct (held_by (RTask i) (w_locks (m_world m) f)) eqn:X; [reflexivity|]. exfalso. apply W. right. exists i, s, f.
    split; [reflexivity|]. split; [exact E|]. split; [unfold calling; rewrite P; reflexivity|]. intros Y. unfold held_by in X. rewrite Y, (proj2 (runner_eqb_eq _ _) eq_refl) in X. discriminate. }
  set (m1 := Mesh (m_world m) (m_owner m) ((RTask i, WantClient j) :: m_wants m)).
  exists m1. split; [cbn [mstep may_want]; unfold free; rewrite A, Hw; reflexivity|].
  assert (W1 : wants m1 (RTask i) = Some (WantClient j)) by (unfold wants, m1; cbn [m_wants lookup]; rewrite (proj2 (runner_eqb_eq _ _) eq_refl); reflexivity).
  split; [left; congruence|]. intros O. eexists. cbn [mstep]. rewrite W1. cbn [m_owner m1]. rewrite O. split; [reflexivity|].
  cbn [m_owner]. unfold set_owner. rewrite Nat.eqb_refl. split; [reflexivity|]. intros [X|X].
  - apply X. unfold wants. cbn [m_wants]. rewrite lookup_unwant, (proj2 (runner_eqb_eq _ _) eq_refl). reflexivity.
  - apply W. right. exact X.
Qed.
Definition ack_run : list mlabel := mesh_start 0 ++
  [MWant (RUser 1) (WantClient 0); MGet (RUser 1); MUse (RUser 1) 0 (LEmit (Emission (bs "/") (bs "q") [SetCallback 5%N] []));
   MWant (RUser 1) (WantTable 0 (LRegister 0)); MGet (RUser 1); MUse (RUser 1) 0 (LPush 0); MRelease (RUser 1) 0;
   MWorld (WClient 0 (LRead (WText (bs "430[1]"))))].
Lemma ack_run_ok : mesh_run false 1 ack_run (mesh_of 1 ack_run) (mobs_of 1 ack_run).
Proof. apply runs_ok. vm_compute. reflexivity. Qed.
Lemma ack_run_waits : exists s p, client_at (mesh_of 1 ack_run) 0 = Some s /\ s_phase s = PCalling false (AckCall 5%N p) /\ ~ waits (mesh_of 1 ack_run) (RTask 0) /\ m_owner (mesh_of 1 ack_run) 0 = None.
Proof.
  assert (X : match client_at (mesh_of 1 ack_run) 0 with Some s => match s_phase s with PCalling false (AckCall 5%N _) => true | _ => false end | None => false end = true) by (vm_compute; reflexivity).
  assert (W : wants (mesh_of 1 ack_run) (RTask 0) = None) by (vm_compute; reflexivity).
  assert (O : m_owner (mesh_of 1 ack_run) 0 = None) by (vm_compute; reflexivity).
  revert X W O. generalize (mesh_of 1 ack_run). intros m X W O. destruct (client_at m 0) as [s|] eqn:E; [|discriminate].
  destruct (s_phase s) as [| | | | |b c| |] eqn:P; try discriminate. destruct b; try discriminate. destruct c as [|f p]; try discriminate.
  assert (Hf : f = 5%N) by (destruct f as [|q]; try discriminate; repeat (destruct q; try discriminate); reflexivity). subst f.
  exists s, p. split; [reflexivity|]. split; [exact P|]. split; [|exact O].
  intros [Y|(i & s' & f & Hi & E' & C & _)]; [contradiction|]. injection Hi as <-. rewrite E in E'. injection E' as <-. unfold calling in C. rewrite P in C. discriminate.
Qed.
