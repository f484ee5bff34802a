(** Deadlocks (C66). *)
From Verif Require Export SpecMesh SharedProofs PanicProofs.
From Coq Require Import Lia.

(** ** Single clients *)
Lemma locked_keeps log s l s' o' : (s_conn s = CHandshake -> s_phase s = PUnborn) -> step log s l = Some (s', o') ->
  locked s = true -> of_body l = false -> s_phase s' = s_phase s.
Proof.
  intros Hu H L B. assert (D : (exists m, l = LRead m) \/ forall m, l <> LRead m) by (destruct l; (left; eexists; reflexivity) || (right; discriminate)).
  destruct D as [[m ->]|Hl].
  - destruct (read_label _ _ _ _ _ H) as (b & Hp & _). unfold locked in L. rewrite Hp in L. destruct b; discriminate.
  - unfold locked in L. other_cases H Hl; cbn; try reflexivity; try discriminate B;
      repeat match goal with E : s_phase _ = _ |- _ => rewrite E in * end; try discriminate L; try discriminate;
      first [rewrite (Hu eq_refl) in *; discriminate|match goal with E : s_conn _ = CHandshake |- _ => rewrite (Hu E) in *; discriminate end].
Qed.
Lemma poisoned_unlocked log s o : trace log s o -> s_poisoned s = true -> exists e, s_phase s = PEnded e.
Proof.
  revert s o. apply (trace_ind log (fun s _ => s_poisoned s = true -> exists e, s_phase s = PEnded e)); [discriminate|].
  intros s o l s' o' Ht IH H P.
  assert (Hu : s_conn s = CHandshake -> s_phase s = PUnborn) by (intros; eapply unborn; eauto).
  destruct (SharedProofs.stuck_step log s l s' o' Hu H) as [_ K]. destruct (s_poisoned s) eqn:E; [destruct (IH eq_refl) as [e He]; eauto|]. clear IH K Hu Ht.
  assert (D : (exists m, l = LRead m) \/ forall m, l <> LRead m) by (destruct l; (left; eexists; reflexivity) || (right; discriminate)).
  destruct D as [[m ->]|Hl].
  - destruct (read_label _ _ _ _ _ H) as (b & _ & _ & R). destruct (read_step_fields _ _ _ _ _ _ R) as (_ & _ & Ep & _). congruence.
  - other_cases H Hl; cbn in *; try congruence; eauto.
Qed.
Lemma stuck_labels log s l s' o' : step log s l = Some (s', o') -> s_phase s <> PStuck ->
  (forall x, l <> LCbTable x) -> (forall x, l <> LCbEmit x) -> s_phase s' <> PStuck.
Proof.
  intros H P N1 N2. assert (D : (exists m, l = LRead m) \/ forall m, l <> LRead m) by (destruct l; (left; eexists; reflexivity) || (right; discriminate)).
  destruct D as [[m ->]|Hl].
  - destruct (read_label _ _ _ _ _ H) as (b & Hp & _ & R). unfold read_step, push in R.
    destruct (process_websocket_packet _ _ _ _ _) as [r c op q out]. cbn [pr_receiver pr_callbacks pr_open pr_queue pr_outcome] in R.
    destruct op, q, out as [[]|]; step_cases R; injection R as <- _; cbn in *; congruence.
  - other_cases H Hl; cbn in *; try congruence; try discriminate; try (destruct (N1 _ eq_refl)); try (destruct (N2 _ eq_refl)).
    all: try match goal with |- context [sending ?x] => destruct x end; try discriminate.
    all: try match goal with |- context [if ?x then _ else _] => destruct x end; try discriminate.
Qed.
Lemma quiet_client log s l s' o' : step log s l = Some (s', o') -> in_mesh l = true ->
  s_inflight s' = s_inflight s /\ (usable_client s = true -> usable_client s' = true).
Proof.
  intros H M. assert (D : (exists m, l = LRead m) \/ forall m, l <> LRead m) by (destruct l; (left; eexists; reflexivity) || (right; discriminate)).
  destruct D as [[m ->]|Hl].
  - destruct (read_label _ _ _ _ _ H) as (b & _ & _ & R). apply read_step_fields in R. unfold usable_client, is_connected. decompose [and] R.
    split; [assumption|]. repeat match goal with E : _ s' = _ s |- _ => rewrite E; clear E end. auto.
  - unfold usable_client, is_connected. other_cases H Hl; cbn in *; try discriminate; auto;
      repeat match goal with E : s_conn _ = _ |- _ => rewrite E end; cbn; auto.
Qed.

(** ** The world *)
Definition wactor (l : wlabel) : option runner :=
  match l with
  | WClient i x => if of_body x then Some (RTask i) else None
  | WEnter i | WRefuse i => Some (RTask i)
  | WUserEnter t _ | WUserRefuse t _ | WUserLeave t _ _ => Some (RUser t)
  end.
Definition unborn_ok (w : world) : Prop := forall i s, nth_error (w_clients w) i = Some s -> s_conn s = CHandshake -> s_phase s = PUnborn.
Lemma world_phase log w l w' o i s : unborn_ok w -> wstep log w l = Some (w', o) -> nth_error (w_clients w) i = Some s -> locked s = true ->
  wactor l <> Some (RTask i) -> exists s', nth_error (w_clients w') i = Some s' /\ s_phase s' = s_phase s.
Proof.
  intros U H E L A. apply wstep_wcase in H. destruct H as [j s1 x s' o1 E1 S1 _|j s1 x s' o1 f E1 S1 _ Hb _ _|j s1 f E1 _ _|j s1 f s' o1 E1 _ _ S1|t f _|t f _|t f p _];
    cbn [wactor w_clients] in *; try (eexists; split; [exact E|reflexivity]).
  - rewrite nth_update. destruct (Nat.eqb_spec j i) as [->|_]; [|eauto]. rewrite E1. rewrite E1 in E. injection E as ->.
    exists s'. split; [reflexivity|]. eapply locked_keeps; eauto. destruct (of_body x); congruence.
  - rewrite Hb in A. rewrite nth_update. destruct (Nat.eqb_spec j i) as [->|_]; [congruence|eauto].
  - rewrite nth_update. destruct (Nat.eqb_spec j i) as [->|_]; [congruence|eauto].
Qed.
Lemma world_holder log w l w' o f y : wstep log w l = Some (w', o) -> l_holder (w_locks w f) = Some y -> wactor l <> Some y -> l_holder (w_locks w' f) = Some y.
Proof.
  intros H E A. apply wstep_wcase in H.
  assert (K : forall g k, l_holder (w_locks w g) <> Some y -> l_holder (set_lock g k (w_locks w) f) = Some y).
  { intros g k N. rewrite set_lock_other; [exact E|]. intros ->. contradiction. }
  destruct H as [j s1 x s' o1 E1 S1 _|j s1 x s' o1 g E1 S1 _ Hb Hh _|j s1 g E1 _ Hh|j s1 g s' o1 E1 _ _ S1|t g Hh|t g Hh|t g p Hh];
    cbn [wactor w_locks] in *; try exact E; apply K; try (rewrite Hh; discriminate).
  - apply held_by_iff in Hh. rewrite Hb in A. congruence.
  - apply held_by_iff in Hh. congruence.
Qed.
Lemma phase_locked s c k : s_phase s = PCalling c k -> locked s = true.
Proof. unfold locked. intros ->. reflexivity. Qed.
Lemma world_acting log w l w' o r : unborn_ok w -> wstep log w l = Some (w', o) -> acting w r = true -> wactor l <> Some r -> acting w' r = true.
Proof.
  intros U H A N. destruct r as [i|t]; [|reflexivity]. cbn [acting] in *. destruct (nth_error (w_clients w) i) as [s|] eqn:E; [|discriminate].
  destruct (s_phase s) as [| | | | |c k| |] eqn:P; try discriminate.
  destruct (world_phase _ _ _ _ _ _ _ U H E (phase_locked _ _ _ P) N) as (s' & -> & ->). rewrite P. destruct k as [f a b|f a]; [|exact A].
  apply held_by_iff in A. apply held_by_iff. eapply world_holder; eauto.
Qed.

(** ** The invariant *)
Definition ready (m : mesh) (r : runner) (x : want) : Prop :=
  match x with
  | WantClient _ => True
  | WantTable j l => m_owner m j = Some r /\ exists s, client_at m j = Some s /\ usable_client s = true /\
      match l with
      | LTable _ => True
      | LRegister k => exists fl, nth_error (s_inflight s) k = Some fl /\ f_registered fl = false
      | _ => False
      end
  | WantCall _ => exists t, r = RUser t
  end.
Record mesh_ok (m : mesh) : Prop := {
  mo_unborn : unborn_ok (m_world m);
  mo_poison : forall i s, client_at m i = Some s -> s_poisoned s = true -> locked s = false;
  mo_stuck : forall i s, client_at m i = Some s -> s_phase s <> PStuck;
  mo_holds : forall f i, l_holder (w_locks (m_world m) f) = Some (RTask i) -> exists s, client_at m i = Some s /\ calling s = Some f;
  mo_owner : forall j r, m_owner m j = Some r -> acting (m_world m) r = true;
  mo_want : forall r x, wants m r = Some x -> acting (m_world m) r = true /\ ready m r x }.

Lemma lookup_unwant l r r' : lookup (unwant r l) r' = if runner_eqb r r' then None else lookup l r'.
Proof.
  induction l as [|[a x] l IH]; cbn [unwant filter fst lookup]; [destruct (runner_eqb r r'); reflexivity|]. fold (unwant r l).
  destruct (runner_eqb r a) eqn:E; cbn [negb lookup]; rewrite ?IH.
  - apply runner_eqb_eq in E. subst a. destruct (runner_eqb r r') eqn:E'; [reflexivity|].
    destruct (runner_eqb r' r) eqn:E2; [apply runner_eqb_eq in E2; subst; rewrite (proj2 (runner_eqb_eq _ _) eq_refl) in E'; discriminate|reflexivity].
  - destruct (runner_eqb r' a) eqn:E2; [apply runner_eqb_eq in E2; subst; rewrite E; reflexivity|]. reflexivity.
Qed.
Lemma owns_iff m r j : owns m r j = true <-> m_owner m j = Some r.
Proof. unfold owns. destruct (m_owner m j) as [r'|]; [|split; discriminate]. rewrite runner_eqb_eq. split; congruence. Qed.
Lemma free_iff m r : free m r = true <-> acting (m_world m) r = true /\ wants m r = None.
Proof. unfold free. rewrite Bool.andb_true_iff. destruct (wants m r); cbn; intuition discriminate. Qed.
Lemma is_none_iff {A} (o : option A) : is_none o = true <-> o = None.
Proof. destruct o; cbn; split; congruence. Qed.

(** The steps, as steps of the world and changes of access and waits. *)
Definition actor (l : mlabel) : option runner :=
  match l with MWorld l => wactor l | MWant r _ | MGet r | MUse r _ _ | MRelease r _ => Some r end.
Inductive mcase (log : bool) (m : mesh) : mlabel -> mesh -> list wobs -> Prop :=
| mc_world l w' o : may_step m l = true -> wstep log (m_world m) l = Some (w', o) ->
    mcase log m (MWorld l) (Mesh w' (settle w' (m_owner m)) (m_wants m)) o
| mc_want r x : free m r = true -> may_want m r x = true ->
    mcase log m (MWant r x) (Mesh (m_world m) (m_owner m) ((r, x) :: m_wants m)) []
| mc_client r j : wants m r = Some (WantClient j) -> m_owner m j = None ->
    mcase log m (MGet r) (Mesh (m_world m) (set_owner j (Some r) (m_owner m)) (unwant r (m_wants m))) []
| mc_table r j l w' o : wants m r = Some (WantTable j l) -> wstep log (m_world m) (WClient j l) = Some (w', o) ->
    mcase log m (MGet r) (Mesh w' (settle w' (m_owner m)) (unwant r (m_wants m))) o
| mc_call t f l w' o : wants m (RUser t) = Some (WantCall f) -> l = WUserRefuse t f \/ l = WUserEnter t f ->
    wstep log (m_world m) l = Some (w', o) ->
    mcase log m (MGet (RUser t)) (Mesh w' (settle w' (m_owner m)) (unwant (RUser t) (m_wants m))) o
| mc_use r j l w' o : free m r = true -> m_owner m j = Some r -> needs_client l = true -> wstep log (m_world m) (WClient j l) = Some (w', o) ->
    mcase log m (MUse r j l) (Mesh w' (settle w' (m_owner m)) (m_wants m)) o
| mc_release r j : free m r = true -> m_owner m j = Some r ->
    mcase log m (MRelease r j) (Mesh (m_world m) (set_owner j None (m_owner m)) (m_wants m)) [].
Lemma mstep_mcase log m l m' o : mstep log m l = Some (m', o) -> mcase log m l m' o.
Proof.
  intros H. destruct l as [l|r x|r|r j l|r j]; cbn [mstep] in H; unfold world_step in H.
  - destruct (may_step m l) eqn:E; [|discriminate]. destruct (wstep _ _ _) as [[w' o']|] eqn:S; [|discriminate]. injection H as <- <-. constructor; assumption.
  - destruct (free m r) eqn:E1; [|discriminate]. destruct (may_want m r x) eqn:E2; [|discriminate]. injection H as <- <-. constructor; assumption.
  - destruct (wants m r) as [[j|j l|f]|] eqn:E; try discriminate.
    + destruct (m_owner m j) eqn:E2; [discriminate|]. injection H as <- <-. constructor; assumption.
    + destruct (wstep _ _ _) as [[w' o']|] eqn:S; [|discriminate]. injection H as <- <-. econstructor; eassumption.
    + destruct r as [i|t]; [discriminate|]. destruct (wstep _ _ _) as [[w' o']|] eqn:S; [|discriminate]. injection H as <- <-.
      eapply mc_call; [eassumption| |exact S]. destruct (l_poisoned _); auto.
  - destruct (free m r) eqn:E1; [|discriminate]. destruct (owns m r j) eqn:E2; [|discriminate]. destruct (needs_client l) eqn:E3; [|discriminate]. cbn [andb] in H.
    destruct (wstep _ _ _) as [[w' o']|] eqn:S; [|discriminate]. injection H as <- <-. apply owns_iff in E2. econstructor; eassumption.
  - destruct (free m r) eqn:E1; [|discriminate]. destruct (owns m r j) eqn:E2; [|discriminate]. injection H as <- <-. apply owns_iff in E2. constructor; assumption.
Qed.

(** The world projected out. *)
Lemma use_body l : needs_client l = true -> of_body l = false.
Proof. destruct l; try discriminate; reflexivity. Qed.
Lemma world_part log m l m' o : mstep log m l = Some (m', o) -> mesh_ok m ->
  (m_world m' = m_world m /\ o = []) \/
  exists wl, wstep log (m_world m) wl = Some (m_world m', o) /\ (wactor wl = None \/ wactor wl = actor l).
Proof.
  intros H Ok. apply mstep_mcase in H. destruct H as [wl w' o M S|r x F W|r j Hw Ho|r j x w' o Hw S|t f wl w' o Hw D S|r j x w' o F Ho Hn S|r j F Ho]; cbn [m_world actor]; auto; right.
  - exists wl. auto.
  - exists (WClient j x). split; [exact S|]. left. destruct (proj2 (mo_want _ Ok _ _ Hw)) as (_ & s & _ & _ & X). destruct x; try contradiction; reflexivity.
  - exists wl. split; [exact S|]. right. destruct D as [-> | ->]; reflexivity.
  - exists (WClient j x). split; [exact S|]. left. cbn [wactor]. rewrite (use_body _ Hn). reflexivity.
Qed.

Lemma step_wants log m l m' o r : mstep log m l = Some (m', o) -> actor l <> Some r -> wants m' r = wants m r.
Proof.
  intros H A. apply mstep_mcase in H. unfold wants.
  assert (K : forall a, Some a <> Some r -> runner_eqb a r = false).
  { intros a N. destruct (runner_eqb a r) eqn:E; [apply runner_eqb_eq in E; congruence|reflexivity]. }
  destruct H as [wl w' o M S|a x F W|a j Hw Ho|a j x w' o Hw S|t f wl w' o Hw D S|a j x w' o F Ho Hn S|a j F Ho]; cbn [m_wants actor] in *; try reflexivity;
    try (rewrite lookup_unwant, (K _ A); reflexivity).
  cbn [lookup]. assert (runner_eqb r a = false) as ->; [|reflexivity]. destruct (runner_eqb r a) eqn:E; [apply runner_eqb_eq in E; congruence|reflexivity].
Qed.
Lemma step_acting log m l m' o r : mesh_ok m -> mstep log m l = Some (m', o) -> acting (m_world m) r = true -> actor l <> Some r -> acting (m_world m') r = true.
Proof.
  intros Ok H A N. destruct (world_part _ _ _ _ _ H Ok) as [[-> _]|(wl & S & D)]; [exact A|].
  eapply world_acting; [apply Ok|exact S|exact A|]. destruct D as [-> | ->]; [discriminate|exact N].
Qed.
Lemma step_owner log m l m' o j y : mesh_ok m -> mstep log m l = Some (m', o) -> m_owner m j = Some y -> actor l <> Some y -> m_owner m' j = Some y.
Proof.
  intros Ok H Ho N. pose proof (step_acting _ _ _ _ _ y Ok H (mo_owner _ Ok _ _ Ho) N) as A. apply mstep_mcase in H.
  destruct H as [wl w' o M S|a x F W|a k Hw Hk|a k x w' o Hw S|t f wl w' o Hw D S|a k x w' o F Hk Hn S|a k F Hk]; cbn [m_owner m_world actor] in *;
    try exact Ho; try (unfold settle; rewrite Ho, A; reflexivity); unfold set_owner; destruct (Nat.eqb_spec j k) as [->|_]; congruence.
Qed.
Lemma step_holder log m l m' o f y : mesh_ok m -> mstep log m l = Some (m', o) -> l_holder (w_locks (m_world m) f) = Some y -> actor l <> Some y ->
  l_holder (w_locks (m_world m') f) = Some y.
Proof.
  intros Ok H A N. destruct (world_part _ _ _ _ _ H Ok) as [[-> _]|(wl & S & D)]; [exact A|].
  eapply world_holder; [exact S|exact A|]. destruct D as [-> | ->]; [discriminate|exact N].
Qed.
Lemma step_phase log m l m' o i s : mesh_ok m -> mstep log m l = Some (m', o) -> client_at m i = Some s -> locked s = true -> actor l <> Some (RTask i) ->
  exists s', client_at m' i = Some s' /\ s_phase s' = s_phase s.
Proof.
  intros Ok H E L N. unfold client_at. destruct (world_part _ _ _ _ _ H Ok) as [[-> _]|(wl & S & D)]; [eauto|].
  eapply world_phase; [apply Ok|exact S|exact E|exact L|]. destruct D as [-> | ->]; [discriminate|exact N].
Qed.
Lemma calling_phase s s' : s_phase s' = s_phase s -> calling s' = calling s.
Proof. unfold calling. intros ->. reflexivity. Qed.
Lemma calling_locked s f : calling s = Some f -> locked s = true.
Proof. unfold calling, locked. destruct (s_phase s); try discriminate; reflexivity. Qed.

(** Waits between others are not affected. *)
Lemma step_blocked log m l m' o x y : mesh_ok m -> mstep log m l = Some (m', o) -> blocked_by m x y ->
  actor l <> Some x -> actor l <> Some y -> blocked_by m' x y.
Proof.
  intros Ok H B Nx Ny. pose proof (step_wants _ _ _ _ _ x H Nx) as Ew.
  destruct B as [r j y Hw Ho|r j k s Hw Hc Hl|r f y Hw Hh|i s f y Hc Hf Hh Hne].
  - eapply bb_client; [rewrite Ew; exact Hw|]. eapply step_owner; eauto.
  - destruct (step_phase _ _ _ _ _ _ _ Ok H Hc Hl Ny) as (s' & E1 & E2). eapply bb_table; [rewrite Ew; exact Hw|exact E1|]. unfold locked in *. rewrite E2. exact Hl.
  - eapply bb_call; [rewrite Ew; exact Hw|]. eapply step_holder; eauto.
  - destruct (step_phase _ _ _ _ _ _ _ Ok H Hc (calling_locked _ _ Hf) Nx) as (s' & E1 & E2). eapply bb_event; [exact E1| |eapply step_holder; eauto|exact Hne].
    rewrite (calling_phase _ _ E2). exact Hf.
Qed.

(** Who waits for somebody does nothing. *)
Lemma acting_holds m r : acting (m_world m) r = true -> forall i s f, r = RTask i -> client_at m i = Some s -> calling s = Some f ->
  l_holder (w_locks (m_world m) f) = Some (RTask i).
Proof.
  intros A i s f -> E C. cbn [acting] in A. unfold client_at in E. rewrite E in A. unfold calling in C. destruct (s_phase s) as [| | | | |c [g a b|g a]| |]; try discriminate.
  injection C as ->. apply held_by_iff. exact A.
Qed.
Lemma acting_blocked m r y : acting (m_world m) r = true -> wants m r = None -> ~ blocked_by m r y.
Proof. intros A W B. destruct B as [r j y Hw Ho|r j k s Hw Hc Hl|r f y Hw Hh|i s f y Hc Hf Hh Hne]; try congruence. rewrite (acting_holds _ _ A _ _ _ eq_refl Hc Hf) in Hh. congruence. Qed.
Lemma table_locked log s l s' o : step log s l = Some (s', o) -> needs_table l = true -> locked s = true -> s_poisoned s = true.
Proof.
  intros H N L. destruct l; try discriminate; cbn [step] in H; rewrite L in H; destruct (s_poisoned s); try reflexivity.
  - destruct (usable_client s); discriminate.
  - destruct (nth_error (s_inflight s) i) as [[? ? ? [] ?]|]; discriminate.
Qed.
Lemma wclient_step log w i l w' o : wstep log w (WClient i l) = Some (w', o) -> exists s s' o1, nth_error (w_clients w) i = Some s /\ step log s l = Some (s', o1) /\
  nth_error (w_clients w') i = Some s' /\ (forall j, j <> i -> nth_error (w_clients w') j = nth_error (w_clients w) j).
Proof.
  intros H. apply wstep_wcase in H. inversion H; subst; cbn [w_clients]; do 3 eexists; (split; [eassumption|]); (split; [eassumption|]);
    rewrite nth_update, Nat.eqb_refl; (split; [match goal with E : nth_error _ _ = Some _ |- _ => rewrite E; reflexivity end|]);
    intros j Hj; rewrite nth_update; destruct (Nat.eqb_spec i j); congruence.
Qed.
Lemma actor_unblocked log m l m' o a y : mesh_ok m -> mstep log m l = Some (m', o) -> actor l = Some a -> ~ blocked_by m a y.
Proof.
  intros Ok H A B. apply mstep_mcase in H. destruct H as [wl w' o M S|r x F W|r j Hw Ho|r j x w' o Hw S|t f wl w' o Hw D S|r j x w' o F Ho Hn S|r j F Ho]; cbn [actor] in A.
  - destruct wl as [i x|i|i|t f|t f|t f p]; cbn [may_step wactor] in *; try discriminate.
    + destruct (of_body x) eqn:Eb; [|discriminate]. injection A as <-. apply Bool.andb_true_iff in M as [_ M]. cbn in M. apply is_none_iff in M.
      inversion B as [? ? ? X|? ? ? ? X|? ? ? X|? s f ? Hc Hf Hh Hne]; subst; try congruence.
      cbn [wstep] in S. unfold client_at in Hc. rewrite Hc in S. destruct (step log s x) as [[s' o1]|]; [|discriminate]. rewrite Hf, Eb in S.
      destruct (held_by (RTask i) _) eqn:Eh; [|discriminate]. apply held_by_iff in Eh. congruence.
    + injection A as <-. apply wstep_wcase in S. inversion S as [| |? s f E C L| | | |]; subst.
      destruct (wants m (RTask i)) as [x|] eqn:Ew; [pose proof (acting_holds _ _ (proj1 (mo_want _ Ok _ _ Ew)) _ _ _ eq_refl E C) as X; rewrite L in X; discriminate|].
      inversion B as [? ? ? X|? ? ? ? X|? ? ? X|? ? ? ? Hc Hf Hh]; subst; try congruence. unfold client_at in Hc. rewrite E in Hc. injection Hc as <-. rewrite C in Hf. injection Hf as <-. rewrite L in Hh. discriminate.
    + injection A as <-. apply wstep_wcase in S. inversion S as [| | |? s f s' o1 E C L Hs| | |]; subst.
      destruct (wants m (RTask i)) as [x|] eqn:Ew; [pose proof (acting_holds _ _ (proj1 (mo_want _ Ok _ _ Ew)) _ _ _ eq_refl E C) as X; rewrite L in X; discriminate|].
      inversion B as [? ? ? X|? ? ? ? X|? ? ? X|? ? ? ? Hc Hf Hh]; subst; try congruence. unfold client_at in Hc. rewrite E in Hc. injection Hc as <-. rewrite C in Hf. injection Hf as <-. rewrite L in Hh. discriminate.
    + injection A as <-. apply is_none_iff in M. inversion B as [? ? ? X|? ? ? ? X|? ? ? X|]; congruence.
  - injection A as <-. apply free_iff in F as [F1 F2]. exact (acting_blocked _ _ _ F1 F2 B).
  - injection A as <-. destruct (mo_want _ Ok _ _ Hw) as [A1 _]. inversion B as [? ? ? X|? ? ? ? X|? ? ? X|i s f ? Hc Hf Hh Hne]; subst; try congruence.
    rewrite (acting_holds _ _ A1 _ _ _ eq_refl Hc Hf) in Hh. congruence.
  - injection A as <-. destruct (mo_want _ Ok _ _ Hw) as [A1 (_ & s0 & E0 & _ & X0)]. inversion B as [? ? ? X|? k l s X Hc Hl|? ? ? X|i s f ? Hc Hf Hh Hne]; subst; try congruence.
    + rewrite Hw in X. injection X as <- <-. destruct (wclient_step _ _ _ _ _ _ S) as (s1 & s1' & o1 & E1 & E2 & _). unfold client_at in Hc. rewrite Hc in E1. injection E1 as <-.
      assert (needs_table x = true) as Ht by (destruct x; try contradiction; reflexivity).
      pose proof (mo_poison _ Ok _ _ Hc (table_locked _ _ _ _ _ E2 Ht Hl)). congruence.
    + rewrite (acting_holds _ _ A1 _ _ _ eq_refl Hc Hf) in Hh. congruence.
  - injection A as <-. inversion B as [? ? ? X|? ? ? ? X|? g ? X Hh|]; subst; try congruence. rewrite Hw in X. injection X as <-.
    destruct D as [-> | ->]; apply wstep_wcase in S; inversion S; subst; match goal with L : w_locks _ _ = _ |- _ => rewrite L in Hh; discriminate end.
  - injection A as <-. apply free_iff in F as [F1 F2]. exact (acting_blocked _ _ _ F1 F2 B).
  - injection A as <-. apply free_iff in F as [F1 F2]. exact (acting_blocked _ _ _ F1 F2 B).
Qed.

(** ** The invariant holds *)
Definition reached (log : bool) (m : mesh) : Prop := (exists n ls o, world_run log n ls (m_world m) o) /\ mesh_ok m.

Lemma world_part_label log m l m' o : mesh_ok m -> mstep log m l = Some (m', o) ->
  m_world m' = m_world m \/
  exists wl, wstep log (m_world m) wl = Some (m_world m', o) /\ forall i x, wl = WClient i x -> (forall u, x <> LCbTable u) /\ (forall u, x <> LCbEmit u).
Proof.
  intros Ok H. apply mstep_mcase in H. destruct H as [wl w' o M S|r x F W|r j Hw Ho|r j x w' o Hw S|t f wl w' o Hw D S|r j x w' o F Ho Hn S|r j F Ho]; cbn [m_world]; auto; right.
  - exists wl. split; [exact S|]. intros i x ->. cbn [may_step] in M. apply Bool.andb_true_iff in M as [M _]. destruct x; cbn in M; try discriminate M; split; discriminate.
  - exists (WClient j x). split; [exact S|]. intros i y E. injection E as <- <-. destruct (proj2 (mo_want _ Ok _ _ Hw)) as (_ & s & _ & _ & X). destruct x; try contradiction; split; discriminate.
  - exists wl. split; [exact S|]. destruct D as [-> | ->]; discriminate.
  - exists (WClient j x). split; [exact S|]. intros i y E. injection E as <- <-. destruct x; try discriminate Hn; split; discriminate.
Qed.
Lemma world_stuck log w l w' o : wstep log w l = Some (w', o) -> (forall i x, l = WClient i x -> (forall u, x <> LCbTable u) /\ (forall u, x <> LCbEmit u)) ->
  (forall i s, nth_error (w_clients w) i = Some s -> s_phase s <> PStuck) -> forall i s, nth_error (w_clients w') i = Some s -> s_phase s <> PStuck.
Proof.
  intros H N A i s E. apply wstep_wcase in H.
  destruct H as [j s1 x s' o1 E1 S1 _|j s1 x s' o1 f E1 S1 _ Hb _ _|j s1 f E1 _ _|j s1 f s' o1 E1 _ _ S1|t f _|t f _|t f p _]; cbn [w_clients] in E; try (eapply A; exact E);
    rewrite nth_update in E; destruct (Nat.eqb j i); try (eapply A; exact E); rewrite E1 in E; injection E as <-.
  - destruct (N _ _ eq_refl). eapply stuck_labels; eauto.
  - destruct (N _ _ eq_refl). eapply stuck_labels; eauto.
  - eapply stuck_labels; eauto; discriminate.
Qed.
Lemma run_world_ok log n ls w o : world_run log n ls w o -> (forall i s, nth_error (w_clients w) i = Some s -> s_phase s <> PStuck) ->
  unborn_ok w /\ (forall i s, nth_error (w_clients w) i = Some s -> s_poisoned s = true -> locked s = false) /\
  (forall f i, l_holder (w_locks w f) = Some (RTask i) -> exists s, nth_error (w_clients w) i = Some s /\ calling s = Some f).
Proof.
  intros R N. split; [intros i s H; eapply world_unborn; eauto|]. split.
  - intros i s H P. destruct (poisoned_unlocked log s (obs_of i o)) as [e E]; [exists (labels_of i ls); eapply world_project; eauto|exact P|]. unfold locked. rewrite E. reflexivity.
  - intros f i H. destruct (t_holds _ _ (world_tasks _ _ _ _ _ R) _ _ H) as (s & E & [C|C]); [eauto|]. destruct (N _ _ E C).
Qed.

(** Clients whose access somebody else has are not used. *)
Lemma step_ready log m l m' o r x : mesh_ok m -> mstep log m l = Some (m', o) -> wants m r = Some x -> actor l <> Some r -> ready m' r x.
Proof.
  intros Ok H W N. destruct (mo_want _ Ok _ _ W) as [A R]. destruct x as [j|j x|f]; cbn [ready] in *; auto.
  destruct R as (Ho & s & E & U & X). split; [eapply step_owner; eauto|].
  assert (K : exists s', client_at m' j = Some s' /\ s_inflight s' = s_inflight s /\ (usable_client s = true -> usable_client s' = true)).
  2:{ destruct K as (s' & E' & I' & U'). exists s'. rewrite I'. auto. }
  assert (Same : forall w, nth_error (w_clients w) j = nth_error (w_clients (m_world m)) j -> exists s', nth_error (w_clients w) j = Some s' /\ s_inflight s' = s_inflight s /\ (usable_client s = true -> usable_client s' = true)).
  { intros w ->. unfold client_at in E. rewrite E. eauto. }
  assert (Cl : forall k y w o, wstep log (m_world m) (WClient k y) = Some (w, o) -> (k = j -> in_mesh y = true) ->
    exists s', nth_error (w_clients w) j = Some s' /\ s_inflight s' = s_inflight s /\ (usable_client s = true -> usable_client s' = true)).
  { intros k y w o0 S M. destruct (wclient_step _ _ _ _ _ _ S) as (s1 & s' & o1 & E1 & S1 & E2 & E3). destruct (Nat.eq_dec k j) as [->|Hk].
    - unfold client_at in E. rewrite E in E1. injection E1 as <-. exists s'. split; [exact E2|]. eapply quiet_client; eauto.
    - apply Same. apply E3. congruence. }
  apply mstep_mcase in H. unfold client_at. destruct H as [wl w' o M S|a y F Wa|a k Hw Hk|a k y w' o Hw S|t f wl w' o Hw D S|a k y w' o F Hk Hn S|a k F Hk]; cbn [m_world actor] in *; try (apply Same; reflexivity).
  - destruct wl as [k y|k|k|t f|t f|t f p].
    + eapply Cl; [exact S|]. intros _. cbn [may_step] in M. apply Bool.andb_true_iff in M as [M _]. exact M.
    + apply Same. apply wstep_wcase in S. inversion S; subst; reflexivity.
    + apply wstep_wcase in S. inversion S as [| | |? s1 f s' o1 E1 C L Hs| | |]; subst. cbn [w_clients]. unfold client_at in E. destruct (Nat.eq_dec k j) as [->|Hk].
      * rewrite nth_update, Nat.eqb_refl, E1. rewrite E in E1. injection E1 as <-. exists s'. split; [reflexivity|]. eapply quiet_client; [exact Hs|reflexivity].
      * rewrite nth_update. destruct (Nat.eqb_spec k j); [contradiction|]. rewrite E. eauto.
    + apply Same. apply wstep_wcase in S. inversion S; subst; reflexivity.
    + apply Same. apply wstep_wcase in S. inversion S; subst; reflexivity.
    + apply Same. apply wstep_wcase in S. inversion S; subst; reflexivity.
  - eapply Cl; [exact S|]. intros ->. destruct (proj2 (mo_want _ Ok _ _ Hw)) as [X1 _]. congruence.
  - apply Same. destruct D as [-> | ->]; apply wstep_wcase in S; inversion S; subst; reflexivity.
  - eapply Cl; [exact S|]. intros ->. congruence.
Qed.

Lemma settle_acting w ow j r : settle w ow j = Some r -> ow j = Some r /\ acting w r = true.
Proof. unfold settle. destruct (ow j) as [r'|]; [|discriminate]. destruct (acting w r') eqn:E; [|discriminate]. intros H. injection H as ->. auto. Qed.

Lemma step_reached log m l m' o : reached log m -> mstep log m l = Some (m', o) -> reached log m'.
Proof.
  intros [(n & ls & o0 & R) Ok] H. pose proof (world_part_label _ _ _ _ _ Ok H) as P.
  assert (R' : exists ls o, world_run log n ls (m_world m') o).
  { destruct P as [->|(wl & S & _)]; [eauto|]. exists (ls ++ [wl]), (o0 ++ o). unfold world_run in *. rewrite wexecute_app, R. cbn [wexecute]. rewrite S, app_nil_r. reflexivity. }
  destruct R' as (ls' & o' & R'). split; [eauto|].
  assert (St : forall i s, client_at m' i = Some s -> s_phase s <> PStuck).
  { unfold client_at. destruct P as [->|(wl & S & N)]; [apply Ok|]. eapply world_stuck; [exact S|exact N|apply Ok]. }
  destruct (run_world_ok _ _ _ _ _ R' St) as (W1 & W2 & W3). split; auto.
  - intros j r E. assert (D : actor l = Some r \/ actor l <> Some r) by (destruct (actor l) as [a|]; [destruct (runner_eqb a r) eqn:X; [apply runner_eqb_eq in X; subst; auto|right; intros Y; injection Y as ->; rewrite (proj2 (runner_eqb_eq _ _) eq_refl) in X; discriminate]|right; discriminate]).
    pose proof H as H0. apply mstep_mcase in H. destruct H as [wl w' o M S|a x F W|a k Hw Hk|a k x w' o Hw S|t f wl w' o Hw Dl S|a k x w' o F Hk Hn S|a k F Hk]; cbn [m_owner m_world actor] in *;
      try (apply settle_acting in E as [_ E]; exact E); try (eapply Ok; exact E); unfold set_owner in E; destruct (Nat.eqb j k); try (eapply Ok; exact E).
    + injection E as <-. exact (proj1 (mo_want _ Ok _ _ Hw)).
    + discriminate.
  - intros r x E. assert (D : actor l = Some r \/ actor l <> Some r) by (destruct (actor l) as [a|]; [destruct (runner_eqb a r) eqn:X; [apply runner_eqb_eq in X; subst; auto|right; intros Y; injection Y as ->; rewrite (proj2 (runner_eqb_eq _ _) eq_refl) in X; discriminate]|right; discriminate]).
    destruct D as [D|D].
    + apply mstep_mcase in H. destruct H as [wl w' o M S|a y F W|a k Hw Hk|a k y w' o Hw S|t f wl w' o Hw Dl S|a k y w' o F Hk Hn S|a k F Hk]; cbn [actor] in *; unfold wants in E; cbn [m_wants] in E; change (lookup (m_wants m) r) with (wants m r) in E.
      * exfalso. destruct wl as [i y|i|i|t f|t f|t f p]; cbn [may_step wactor] in *; try discriminate.
        -- destruct (of_body y); [|discriminate]. injection D as <-. apply Bool.andb_true_iff in M as [_ M]. apply is_none_iff in M. congruence.
        -- injection D as <-. apply wstep_wcase in S. inversion S as [| |? s f Ec C L| | | |]; subst. pose proof (acting_holds _ _ (proj1 (mo_want _ Ok _ _ E)) _ _ _ eq_refl Ec C) as X. rewrite L in X. discriminate.
        -- injection D as <-. apply wstep_wcase in S. inversion S as [| | |? s f s' o1 Ec C L Hs| | |]; subst. pose proof (acting_holds _ _ (proj1 (mo_want _ Ok _ _ E)) _ _ _ eq_refl Ec C) as X. rewrite L in X. discriminate.
        -- injection D as <-. apply is_none_iff in M. congruence.
      * injection D as ->. cbn [lookup] in E. rewrite (proj2 (runner_eqb_eq _ _) eq_refl) in E. injection E as <-. cbn [m_world]. apply free_iff in F as [F _]. split; [exact F|].
        destruct y as [j|j y|f]; cbn [ready may_want m_owner] in *; auto.
        -- apply Bool.andb_true_iff in W as [Wa W]. apply owns_iff in Wa. split; [exact Wa|]. unfold client_at in *. cbn [m_world]. destruct (nth_error _ j) as [s|]; [|discriminate]. exists s. split; [reflexivity|].
           apply Bool.andb_true_iff in W as [W1' W2']. split; [exact W1'|]. destruct y; try discriminate W2'; auto. destruct (nth_error (s_inflight s) i) as [fl|]; [|discriminate]. exists fl. split; [reflexivity|]. destruct (f_registered fl); [discriminate|reflexivity].
        -- destruct r; [discriminate|eauto].
      * injection D as ->. rewrite lookup_unwant, (proj2 (runner_eqb_eq _ _) eq_refl) in E. discriminate.
      * injection D as ->. rewrite lookup_unwant, (proj2 (runner_eqb_eq _ _) eq_refl) in E. discriminate.
      * injection D as <-. rewrite lookup_unwant, (proj2 (runner_eqb_eq _ _) eq_refl) in E. discriminate.
      * injection D as ->. apply free_iff in F as [_ F]. congruence.
      * injection D as ->. apply free_iff in F as [_ F]. congruence.
    + pose proof (step_wants _ _ _ _ _ _ H D) as Ew. rewrite Ew in E. split; [eapply step_acting; eauto; exact (proj1 (mo_want _ Ok _ _ E))|]. eapply step_ready; eauto.
Qed.

Lemma mexecute_app log ls : forall m ls', mexecute log m (ls ++ ls') =
  match mexecute log m ls with
  | Some (m1, o1) => match mexecute log m1 ls' with Some (m2, o2) => Some (m2, o1 ++ o2) | None => None end
  | None => None
  end.
Proof.
  induction ls as [|l ls IH]; intros m ls'; cbn [mexecute app]; [destruct (mexecute log m ls') as [[]|]; reflexivity|].
  destruct (mstep log m l) as [[m1 o1]|]; [|reflexivity]. rewrite IH. destruct (mexecute log m1 ls) as [[m2 o2]|]; [|reflexivity].
  destruct (mexecute log m2 ls') as [[m3 o3]|]; [|reflexivity]. rewrite app_assoc. reflexivity.
Qed.
Lemma later_refl log m : later log m m.
Proof. exists [], []. reflexivity. Qed.
Lemma later_step log m l m1 o m' : mstep log m l = Some (m1, o) -> later log m1 m' -> later log m m'.
Proof. intros S (ls & o' & H). exists (l :: ls), (o ++ o'). cbn [mexecute]. rewrite S, H. reflexivity. Qed.
Lemma later_trans log a b c : later log a b -> later log b c -> later log a c.
Proof. intros (l1 & o1 & H1) (l2 & o2 & H2). exists (l1 ++ l2), (o1 ++ o2). rewrite mexecute_app, H1, H2. reflexivity. Qed.
Lemma later_ind0 log (P : mesh -> Prop) : (forall m l m' o, P m -> mstep log m l = Some (m', o) -> P m') -> forall m m', later log m m' -> P m -> P m'.
Proof.
  intros Hs m m' (ls & o & H). revert m o H. induction ls as [|l ls IH]; intros m o H P0; cbn [mexecute] in H; [injection H as <- _; exact P0|].
  destruct (mstep log m l) as [[m1 o1]|] eqn:E; [|discriminate]. destruct (mexecute log m1 ls) as [[m2 o2]|] eqn:E2; [|discriminate]. injection H as -> _. eapply IH; eauto.
Qed.
Lemma reached_later log m m' : reached log m -> later log m m' -> reached log m'.
Proof. intros R L. revert R. apply (later_ind0 log (reached log)) with (1 := fun m l m' o R S => step_reached log m l m' o R S) (m := m) (m' := m'). exact L. Qed.
Lemma reached_init log n : reached log (mesh_init n).
Proof.
  split; [exists n, [], []; reflexivity|].
  assert (St : forall i s, nth_error (w_clients (world_init n)) i = Some s -> s_phase s <> PStuck) by (intros i s H; cbn in H; apply nth_error_In, repeat_spec in H; subst s; discriminate).
  destruct (run_world_ok log n [] (world_init n) [] eq_refl St) as (W1 & W2 & W3). split; auto; discriminate.
Qed.
Lemma run_reached log n ls m o : mesh_run log n ls m o -> reached log m.
Proof. intros H. eapply reached_later; [apply (reached_init log n)|]. exists ls, o. exact H. Qed.

(** ** A deadlock is for ever *)
Lemma hopeless_step log m l m' o (S : runner -> Prop) : reached log m -> mstep log m l = Some (m', o) ->
  (forall x, S x -> exists y, S y /\ blocked_by m x y) -> forall x, S x -> (exists y, S y /\ blocked_by m' x y) /\ wants m' x = wants m x.
Proof.
  intros [_ Ok] H HS x Hx. assert (N : forall z, S z -> actor l <> Some z).
  { intros z Hz A. destruct (HS z Hz) as (y & _ & B). exact (actor_unblocked _ _ _ _ _ _ _ Ok H A B). }
  destruct (HS x Hx) as (y & Hy & B). split; [|eapply step_wants; eauto]. exists y. split; [exact Hy|]. eapply step_blocked; eauto.
Qed.
Lemma hopeless_later log m m' (S : runner -> Prop) : reached log m -> later log m m' ->
  (forall x, S x -> exists y, S y /\ blocked_by m x y) -> forall x, S x -> (exists y, S y /\ blocked_by m' x y) /\ wants m' x = wants m x.
Proof.
  intros R L HS.
  assert (K : reached log m' /\ forall x, S x -> (exists y, S y /\ blocked_by m' x y) /\ wants m' x = wants m x).
  2: exact (proj2 K).
  apply (later_ind0 log (fun m' => reached log m' /\ forall x, S x -> (exists y, S y /\ blocked_by m' x y) /\ wants m' x = wants m x)) with (m := m); [|exact L|split; [exact R|auto]].
  intros m1 l m2 o [R1 K1] H. split; [eapply step_reached; eauto|]. intros x Hx.
  destruct (hopeless_step _ _ _ _ _ S R1 H (fun z Hz => proj1 (K1 z Hz)) x Hx) as [A B]. split; [exact A|]. rewrite B. apply K1. exact Hx.
Qed.

(** ** Without a deadlock, the wait can end *)
Definition blocker (m : mesh) (r : runner) : option runner :=
  match wants m r with
  | Some (WantClient j) => m_owner m j
  | Some (WantTable j _) => match client_at m j with Some s => if locked s then Some (RTask j) else None | None => None end
  | Some (WantCall f) => l_holder (w_locks (m_world m) f)
  | None =>
      match r with
      | RTask i =>
          match client_at m i with
          | Some s =>
              match calling s with
              | Some f => if held_by (RTask i) (w_locks (m_world m) f) then None else l_holder (w_locks (m_world m) f)
              | None => None
              end
          | None => None
          end
      | RUser _ => None
      end
  end.
Lemma blocker_iff m x y : mesh_ok m -> blocked_by m x y <-> blocker m x = Some y.
Proof.
  intros Ok. unfold blocker. split.
  - intros B. destruct B as [r j y Hw Ho|r j k s Hw Hc Hl|r f y Hw Hh|i s f y Hc Hf Hh Hne].
    + rewrite Hw. exact Ho.
    + rewrite Hw, Hc, Hl. reflexivity.
    + rewrite Hw. exact Hh.
    + destruct (wants m (RTask i)) as [z|] eqn:Ew; [rewrite (acting_holds _ _ (proj1 (mo_want _ Ok _ _ Ew)) _ _ _ eq_refl Hc Hf) in Hh; congruence|].
      rewrite Hc, Hf. destruct (held_by (RTask i) _) eqn:Eh; [apply held_by_iff in Eh; congruence|exact Hh].
  - destruct (wants m x) as [[j|j l|f]|] eqn:Ew.
    + intros H. eapply bb_client; eauto.
    + destruct (client_at m j) as [s|] eqn:Ec; [|discriminate]. destruct (locked s) eqn:El; [|discriminate]. intros H. injection H as <-. eapply bb_table; eauto.
    + intros H. eapply bb_call; eauto.
    + destruct x as [i|t]; [|discriminate]. destruct (client_at m i) as [s|] eqn:Ec; [|discriminate]. destruct (calling s) as [f|] eqn:Ef; [|discriminate].
      destruct (held_by (RTask i) _) eqn:Eh; [discriminate|]. intros H. eapply bb_event; eauto. intros ->. apply held_by_iff in H. congruence.
Qed.
Lemma blocked_dec m x : mesh_ok m -> blocker m x = None -> forall y, ~ blocked_by m x y.
Proof. intros Ok E y B. apply (blocker_iff _ _ _ Ok) in B. congruence. Qed.

Lemma actor_dec l r : actor l = Some r \/ actor l <> Some r.
Proof.
  destruct (actor l) as [a|]; [|right; discriminate]. destruct (runner_eqb a r) eqn:X; [apply runner_eqb_eq in X; subst; auto|].
  right. intros Y. injection Y as ->. rewrite (proj2 (runner_eqb_eq _ _) eq_refl) in X. discriminate.
Qed.
Lemma runner_dec (a b : runner) : a = b \/ a <> b.
Proof.
  destruct (runner_eqb a b) eqn:X; [apply runner_eqb_eq in X; auto|]. right. intros ->. rewrite (proj2 (runner_eqb_eq _ _) eq_refl) in X. discriminate.
Qed.

(** Whoever does something becomes the blocker of nobody new. *)
Lemma owner_only log m l m' o j y : mstep log m l = Some (m', o) -> m_owner m' j = Some y -> m_owner m j = Some y \/ (m_owner m j = None /\ actor l = Some y).
Proof.
  intros H E. apply mstep_mcase in H. destruct H as [wl w' o M S|a x F W|a k Hw Hk|a k x w' o Hw S|t f wl w' o Hw D S|a k x w' o F Hk Hn S|a k F Hk]; cbn [m_owner actor] in *;
    try (apply settle_acting in E as [E _]; auto); auto; unfold set_owner in E; destruct (Nat.eqb_spec j k) as [->|_]; auto.
  discriminate.
Qed.
Lemma world_holder_only log w l w' o f y : wstep log w l = Some (w', o) -> l_holder (w_locks w' f) = Some y ->
  l_holder (w_locks w f) = Some y \/ (l_holder (w_locks w f) = None /\ wactor l = Some y).
Proof.
  intros H E. apply wstep_wcase in H.
  destruct H as [j s1 x s' o1 E1 S1 _|j s1 x s' o1 g E1 S1 _ Hb Hh _|j s1 g E1 _ Hh|j s1 g s' o1 E1 _ _ S1|t g Hh|t g Hh|t g p Hh]; cbn [wactor w_locks] in *; auto;
    destruct (N.eq_dec f g) as [->|Hn]; rewrite ?set_lock_same, ?set_lock_other in E by assumption; auto; cbn in E; try discriminate; injection E as <-; rewrite Hh; auto.
Qed.
Lemma holder_only log m l m' o f y : mesh_ok m -> mstep log m l = Some (m', o) -> l_holder (w_locks (m_world m') f) = Some y ->
  l_holder (w_locks (m_world m) f) = Some y \/ (l_holder (w_locks (m_world m) f) = None /\ actor l = Some y).
Proof.
  intros Ok H E. destruct (world_part _ _ _ _ _ H Ok) as [[X _]|(wl & S & D)]; [rewrite X in E; auto|].
  destruct (world_holder_only _ _ _ _ _ _ _ S E) as [A|[A B]]; [auto|]. destruct D as [D|D]; [congruence|]. right. split; [exact A|]. congruence.
Qed.
Lemma holder_dec (o : option runner) : o = None \/ exists y, o = Some y.
Proof. destruct o; eauto. Qed.

Lemma step_blocker_actor log m l m' o e x : mesh_ok m -> mesh_ok m' -> mstep log m l = Some (m', o) -> actor l = Some e -> x <> e ->
  blocker m x = Some e -> blocker m' x = Some e \/ blocker m' x = None.
Proof.
  intros Ok Ok' H A N B. assert (Nx : actor l <> Some x) by congruence. pose proof (step_wants _ _ _ _ _ x H Nx) as Ew.
  assert (Hl : forall f, l_holder (w_locks (m_world m) f) = Some e -> l_holder (w_locks (m_world m') f) = Some e \/ l_holder (w_locks (m_world m') f) = None).
  { intros f E. destruct (holder_dec (l_holder (w_locks (m_world m') f))) as [|[y Ey]]; [auto|]. destruct (holder_only _ _ _ _ _ _ _ Ok H Ey) as [X|[X Y]]; left; congruence. }
  unfold blocker in B |- *. rewrite Ew. destruct (wants m x) as [[j|j k|f]|].
  - destruct (holder_dec (m_owner m' j)) as [|[y Ey]]; [auto|]. destruct (owner_only _ _ _ _ _ _ _ H Ey) as [X|[X Y]]; left; congruence.
  - destruct (client_at m j) as [s|]; [|discriminate]. destruct (locked s); [|discriminate]. injection B as <-. destruct (client_at m' j) as [s'|]; [|auto]. destruct (locked s'); auto.
  - auto.
  - destruct x as [i|t]; [|discriminate]. destruct (client_at m i) as [s|] eqn:Ec; [|discriminate]. destruct (calling s) as [f|] eqn:Ef; [|discriminate].
    destruct (held_by (RTask i) _) eqn:Eh; [discriminate|].
    destruct (step_phase _ _ _ _ _ _ _ Ok H Ec (calling_locked _ _ Ef) Nx) as (s' & Ec' & Ep'). rewrite Ec', (calling_phase _ _ Ep'), Ef.
    destruct (held_by (RTask i) (w_locks (m_world m') f)); [auto|]. auto.
Qed.

(** Who waits for nobody gets what it waits for. *)
Lemma lock_eta k : l_holder k = None -> k = Lock None (l_poisoned k).
Proof. destruct k; cbn. intros ->. reflexivity. Qed.
Lemma get_step log m e : reached log m -> waits m e -> blocker m e = None ->
  exists l m' o, mstep log m l = Some (m', o) /\ actor l = Some e /\ ~ waits m' e.
Proof.
  intros [Rw Ok] W B. pose proof B as B0. unfold blocker in B. destruct (wants m e) as [x|] eqn:Ew.
  - destruct (mo_want _ Ok _ _ Ew) as [A R].
    assert (K : exists m' o, mstep log m (MGet e) = Some (m', o)).
    { cbn [mstep]. rewrite Ew. destruct x as [j|j l|f].
      - rewrite B. eauto.
      - destruct R as (_ & s & Ec & U & X). rewrite Ec in B. destruct (locked s) eqn:El; [discriminate|]. unfold world_step. cbn [wstep]. unfold client_at in Ec. rewrite Ec.
        assert (S : exists s' o1, step log s l = Some (s', o1)).
        { destruct l; try contradiction; cbn [step].
          - rewrite U, El. destruct (s_poisoned s); eauto.
          - destruct X as (fl & -> & Y). destruct fl as [ns id g [] fs]; [discriminate|]. rewrite El. destruct (s_poisoned s); eauto. }
        destruct S as (s' & o1 & ->). assert (of_body l = false) as -> by (destruct l; try contradiction; reflexivity). destruct (calling s); eauto.
      - destruct R as (t & ->). unfold world_step. pose proof (lock_eta _ B) as L. destruct (l_poisoned (w_locks (m_world m) f)); cbn [wstep]; rewrite L; eauto. }
    destruct K as (m' & o & K). exists (MGet e), m', o. split; [exact K|]. split; [reflexivity|].
    assert (Ew' : wants m' e = None).
    { apply mstep_mcase in K. unfold wants. inversion K; subst; cbn [m_wants]; rewrite lookup_unwant, (proj2 (runner_eqb_eq _ _) eq_refl); reflexivity. }
    assert (Ok' : mesh_ok m') by (eapply step_reached; [split; eauto|exact K]).
    intros [X|(i & s & f & -> & Ec & Ef & Eh)]; [congruence|].
    (* a callback that runs goes on running *)
    assert (A' : acting (m_world m') (RTask i) = true).
    { destruct x as [j|j l|g].
      - apply mstep_mcase in K. inversion K; subst; cbn [m_world]; try exact A; congruence.
      - apply mstep_mcase in K. inversion K as [| | |? k y w' o' Hw S| | |]; subst; try congruence. cbn [m_world] in *. rewrite Hw in Ew. injection Ew as -> ->.
        eapply world_acting; [apply Ok|exact S|exact A|]. cbn [wactor]. destruct R as (_ & s1 & _ & _ & X). destruct l; try contradiction; discriminate.
      - destruct R as (t & X). discriminate. }
    rewrite (acting_holds _ _ A' _ _ _ eq_refl Ec Ef) in Eh. congruence.
  - destruct W as [W|(i & s & f & -> & Ec & Ef & Eh)]; [congruence|]. rewrite Ec, Ef in B.
    destruct (held_by (RTask i) (w_locks (m_world m) f)) eqn:Ehb; [apply held_by_iff in Ehb; contradiction|]. pose proof (lock_eta _ B) as L.
    destruct (l_poisoned (w_locks (m_world m) f)).
    + assert (S : exists s' o1, step log s LCbPanic = Some (s', o1) /\ calling s' = None).
      { unfold calling in Ef. cbn [step]. destruct (s_phase s); try discriminate. do 2 eexists. split; reflexivity. }
      destruct S as (s' & o1 & S & C). exists (MWorld (WRefuse i)). cbn [mstep may_step]. unfold world_step. cbn [wstep]. unfold client_at in Ec. rewrite Ec, Ef, L, S.
      do 2 eexists. split; [reflexivity|]. split; [reflexivity|]. intros [X|(i' & s2 & g & E & Ec' & Ef' & _)]; [cbn in X; unfold wants in X; cbn [m_wants] in X; change (lookup (m_wants m) (RTask i)) with (wants m (RTask i)) in X; congruence|].
      injection E as <-. unfold client_at in Ec'. cbn [m_world w_clients] in Ec'. rewrite nth_update, Nat.eqb_refl, Ec in Ec'. injection Ec' as <-. congruence.
    + exists (MWorld (WEnter i)). cbn [mstep may_step]. unfold world_step. cbn [wstep]. pose proof Ec as Ec0. unfold client_at in Ec0. rewrite Ec0, Ef, L.
      do 2 eexists. split; [reflexivity|]. split; [reflexivity|]. intros [X|(i' & s2 & g & E & Ec' & Ef' & Hh)]; [unfold wants in X; cbn [m_wants] in X; change (lookup (m_wants m) (RTask i)) with (wants m (RTask i)) in X; congruence|].
      injection E as <-. unfold client_at in Ec'. cbn [m_world w_clients] in Ec'. rewrite Ec0 in Ec'. injection Ec' as <-. rewrite Ef in Ef'. injection Ef' as <-. cbn [m_world w_locks] in Hh. rewrite set_lock_same in Hh. apply Hh. reflexivity.
Qed.

(** Who does not wait lets go of what another waits for. *)
Lemma return_step log m i s : mesh_ok m -> client_at m i = Some s -> locked s = true -> ~ waits m (RTask i) ->
  exists m' o s', mstep log m (MWorld (WClient i LCbReturn)) = Some (m', o) /\ client_at m' i = Some s' /\ locked s' = false /\
    (forall f, calling s = Some f -> l_holder (w_locks (m_world m') f) = None).
Proof.
  intros Ok Ec El W. assert (Ew : wants m (RTask i) = None) by (destruct (wants m (RTask i)) eqn:E; [exfalso; apply W; left; congruence|reflexivity]).
  unfold locked in El. destruct (s_phase s) as [| | | | |c k| |] eqn:P; try discriminate; [|destruct (mo_stuck _ Ok _ _ Ec P)].
  assert (S : step log s LCbReturn = Some (set_phase (if c then PReading else PLoop) s, [])) by (cbn [step]; rewrite P; reflexivity).
  cbn [mstep may_step in_mesh needs_client needs_table of_body negb andb orb]. rewrite Ew. cbn [is_none]. unfold world_step. cbn [wstep]. pose proof Ec as Ec0. unfold client_at in Ec0. rewrite Ec0, S.
  destruct (calling s) as [f|] eqn:Ef.
  - assert (Eh : held_by (RTask i) (w_locks (m_world m) f) = true).
    { destruct (held_by (RTask i) (w_locks (m_world m) f)) eqn:E; [reflexivity|]. exfalso. apply W. right. exists i, s, f. repeat split; auto. intros X. apply held_by_iff in X. congruence. }
    cbn [of_body]. rewrite Eh. assert (in_call (set_phase (if c then PReading else PLoop) s) = false) as -> by (destruct c; reflexivity).
    do 3 eexists. split; [reflexivity|]. split; [unfold client_at; cbn [m_world w_clients]; rewrite nth_update, Nat.eqb_refl, Ec0; reflexivity|]. split; [destruct c; reflexivity|].
    intros g G. injection G as <-. cbn [m_world w_locks]. rewrite set_lock_same. reflexivity.
  - do 3 eexists. split; [reflexivity|]. split; [unfold client_at; cbn [m_world w_clients]; rewrite nth_update, Nat.eqb_refl, Ec0; reflexivity|]. split; [destruct c; reflexivity|]. discriminate.
Qed.
Lemma release_step log m e p : reached log m -> ~ waits m e -> p <> e -> blocker m p = Some e ->
  exists l m' o, mstep log m l = Some (m', o) /\ actor l = Some e /\ blocker m' p = None.
Proof.
  intros [Rw Ok] W N B. assert (Ew : wants m e = None) by (destruct (wants m e) eqn:E; [exfalso; apply W; left; congruence|reflexivity]).
  assert (L : forall f, l_holder (w_locks (m_world m) f) = Some e -> exists l m' o, mstep log m l = Some (m', o) /\ actor l = Some e /\ l_holder (w_locks (m_world m') f) = None).
  { intros f Hh. destruct e as [i|t].
    - destruct (mo_holds _ Ok _ _ Hh) as (s & Ec & Ef). destruct (return_step log _ _ _ Ok Ec (calling_locked _ _ Ef) W) as (m' & o & s' & S & _ & _ & K).
      exists (MWorld (WClient i LCbReturn)), m', o. split; [exact S|]. split; [reflexivity|]. auto.
    - exists (MWorld (WUserLeave t f false)). cbn [mstep may_step]. rewrite Ew. cbn [is_none]. unfold world_step. cbn [wstep]. rewrite (proj2 (held_by_iff _ _) Hh).
      do 2 eexists. split; [reflexivity|]. split; [reflexivity|]. cbn [m_world w_locks]. rewrite set_lock_same. reflexivity. }
  pose proof B as B0. unfold blocker in B. destruct (wants m p) as [[j|j x|f]|] eqn:Ep.
  - exists (MRelease e j). cbn [mstep]. assert (F : free m e = true) by (apply free_iff; split; [exact (mo_owner _ Ok _ _ B)|exact Ew]).
    rewrite F, (proj2 (owns_iff _ _ _) B). cbn [andb]. do 2 eexists. split; [reflexivity|]. split; [reflexivity|]. unfold blocker, wants. cbn [m_wants m_owner].
    change (lookup (m_wants m) p) with (wants m p). rewrite Ep. unfold set_owner. rewrite Nat.eqb_refl. reflexivity.
  - destruct (client_at m j) as [s|] eqn:Ec; [|discriminate]. destruct (locked s) eqn:El; [|discriminate]. injection B as <-.
    destruct (return_step log _ _ _ Ok Ec El W) as (m' & o & s' & S & Ec' & El' & _). exists (MWorld (WClient j LCbReturn)), m', o. split; [exact S|]. split; [reflexivity|].
    assert (Nl : actor (MWorld (WClient j LCbReturn)) <> Some p) by (cbn; congruence). unfold blocker. rewrite (step_wants _ _ _ _ _ _ S Nl), Ep, Ec', El'. reflexivity.
  - destruct (L f B) as (l & m' & o & S & A & H). exists l, m', o. split; [exact S|]. split; [exact A|].
    assert (Nl : actor l <> Some p) by congruence. unfold blocker. rewrite (step_wants _ _ _ _ _ _ S Nl), Ep. exact H.
  - destruct p as [i|t]; [|discriminate]. destruct (client_at m i) as [s|] eqn:Ec; [|discriminate]. destruct (calling s) as [f|] eqn:Ef; [|discriminate].
    destruct (held_by (RTask i) _) eqn:Eh; [discriminate|].
    destruct (L f B) as (l & m' & o & S & A & H). exists l, m', o. split; [exact S|]. split; [exact A|].
    assert (Nl : actor l <> Some (RTask i)) by congruence. destruct (step_phase _ _ _ _ _ _ _ Ok S Ec (calling_locked _ _ Ef) Nl) as (s' & Ec' & Ep').
    unfold blocker. rewrite (step_wants _ _ _ _ _ _ S Nl), Ep, Ec', (calling_phase _ _ Ep'), Ef. rewrite H. destruct (held_by (RTask i) (w_locks (m_world m') f)); reflexivity.
Qed.
Lemma waits_dec m r : mesh_ok m -> waits m r \/ ~ waits m r.
Proof.
  intros Ok. destruct (wants m r) as [x|] eqn:Ew; [left; left; congruence|]. destruct r as [i|t].
  - destruct (client_at m i) as [s|] eqn:Ec; [|right; intros [X|(? & ? & ? & E & Y & _)]; [congruence|injection E as <-; congruence]].
    destruct (calling s) as [f|] eqn:Ef; [|right; intros [X|(? & ? & ? & E & Y & Z & _)]; [congruence|injection E as <-; congruence]].
    destruct (holder_dec (l_holder (w_locks (m_world m) f))) as [E|[y E]].
    + left. right. exists i, s, f. repeat split; auto. congruence.
    + destruct (runner_dec y (RTask i)) as [->|N]; [|left; right; exists i, s, f; repeat split; auto; congruence].
      right. intros [X|(? & ? & ? & X & Y & Z & T)]; [congruence|]. injection X as <-. rewrite Ec in Y. injection Y as <-. congruence.
  - right. intros [X|(? & ? & ? & E & _)]; [congruence|discriminate].
Qed.

(** A chain of waits whose last does not wait for anybody is resolved from its end.  Chains are kept
    in reverse. *)
Fixpoint rchain (m : mesh) (l : list runner) : Prop :=
  match l with
  | e :: ((p :: _) as l') => blocker m p = Some e /\ rchain m l'
  | _ => True
  end.
Lemma rchain_step log m l m' o e c : mesh_ok m -> mesh_ok m' -> mstep log m l = Some (m', o) -> actor l = Some e -> ~ In e c -> rchain m c -> rchain m' c.
Proof.
  intros Ok Ok' S A. induction c as [|x [|p c] IH]; intros N C; cbn [rchain] in *; auto. destruct C as [C1 C2]. split; [|apply IH; [|exact C2]; intros X; apply N; right; exact X].
  apply (blocker_iff _ _ _ Ok'). apply (blocker_iff _ _ _ Ok) in C1. apply (step_blocked log m l m' o _ _ Ok S C1); rewrite A; intros X; injection X as ->; apply N; cbn; auto.
Qed.
Lemma resolve log : forall c m r e, reached log m -> NoDup (e :: c) -> rchain m (e :: c) -> blocker m e = None -> last (e :: c) e = r ->
  exists m', later log m m' /\ ~ waits m' r.
Proof.
  induction c as [|p c IH]; intros m r e R Nd C B Lr; pose proof R as [_ Ok].
  - cbn in Lr. subst e. destruct (waits_dec m r Ok) as [W|W]; [|exists m; split; [apply later_refl|exact W]].
    destruct (get_step log m r R W B) as (l & m' & o & S & _ & N). exists m'. split; [eapply later_step; [exact S|apply later_refl]|exact N].
  - (* [e] gets what it waits for *)
    inversion Nd as [|? ? Ne Nd']; subst. destruct C as [C1 C2]. assert (Np : p <> e) by (intros ->; apply Ne; left; reflexivity).
    assert (Lr : forall d d', last (p :: c) d = last (p :: c) d') by (intros d d'; clear; revert p; induction c as [|x c IH]; intros p; [reflexivity|exact (IH x)]).
    assert (K : exists m1, later log m m1 /\ rchain m1 (p :: c) /\ (blocker m1 p = Some e \/ blocker m1 p = None) /\ ~ waits m1 e).
    { destruct (waits_dec m e Ok) as [W|W]; [|exists m; split; [apply later_refl|]; split; [exact C2|]; split; [left; exact C1|exact W]].
      destruct (get_step log m e R W B) as (l & m1 & o & S & A & N). pose proof (step_reached _ _ _ _ _ R S) as [_ Ok1]. exists m1.
      split; [eapply later_step; [exact S|apply later_refl]|]. split; [exact (rchain_step log m l m1 o e (p :: c) Ok Ok1 S A Ne C2)|]. split; [exact (step_blocker_actor log m l m1 o e p Ok Ok1 S A Np C1)|exact N]. }
    destruct K as (m1 & L1 & C1' & D & W1). pose proof (reached_later _ _ _ R L1) as R1. pose proof R1 as [_ Ok1].
    assert (K : exists m2, later log m1 m2 /\ rchain m2 (p :: c) /\ blocker m2 p = None).
    { destruct D as [D|D]; [|exists m1; split; [apply later_refl|]; split; [exact C1'|exact D]]. destruct (release_step log m1 e p R1 W1 Np D) as (l & m2 & o & S & A & N).
      pose proof (step_reached _ _ _ _ _ R1 S) as [_ Ok2]. exists m2. split; [eapply later_step; [exact S|apply later_refl]|]. split; [exact (rchain_step log m1 l m2 o e (p :: c) Ok1 Ok2 S A Ne C1')|exact N]. }
    destruct K as (m2 & L2 & C2' & B2). pose proof (reached_later _ _ _ R1 L2) as R2.
    destruct (IH m2 (last (e :: p :: c) e) p R2 Nd' C2' B2) as (m3 & L3 & W3); [cbn; apply (Lr p e)|].
    exists m3. split; [|exact W3]. eapply later_trans; [exact L1|]. eapply later_trans; eauto.
Qed.

(** Everybody who waits is in a finite list. *)
Definition waiters (m : mesh) : list runner := map RTask (seq 0 (length (w_clients (m_world m)))) ++ map fst (m_wants m).
Lemma lookup_in l r x : lookup l r = Some x -> In r (map fst l).
Proof.
  induction l as [|[a y] l IH]; cbn [lookup map fst In]; [discriminate|]. destruct (runner_eqb r a) eqn:E; [apply runner_eqb_eq in E; subst; auto|auto].
Qed.
Lemma blocker_waiters m r y : blocker m r = Some y -> In r (waiters m).
Proof.
  unfold blocker, waiters. rewrite in_app_iff. destruct (wants m r) as [x|] eqn:E; [intros _; right; eapply lookup_in; exact E|].
  destruct r as [i|t]; [|discriminate]. destruct (client_at m i) as [s|] eqn:Ec; [|discriminate]. intros _. left. apply in_map, in_seq.
  pose proof (proj1 (nth_error_Some (w_clients (m_world m)) i)) as X. unfold client_at in Ec. rewrite Ec in X. split; [lia|]. apply X. discriminate.
Qed.
Lemma in_runner_dec (x : runner) l : In x l \/ ~ In x l.
Proof. induction l as [|y l IH]; [right; intros []|]. destruct (runner_dec y x) as [->|N]; [left; left; reflexivity|]. destruct IH as [H|H]; [left; right; exact H|right; intros [X|X]; contradiction]. Qed.
Lemma rchain_blocked m c : forall e x, rchain m (e :: c) -> In x c -> exists y, In y (e :: c) /\ blocker m x = Some y.
Proof.
  induction c as [|p c IH]; intros e x C H; [contradiction|]. destruct C as [C1 C2]. destruct H as [<-|H]; [exists e; split; [left; reflexivity|exact C1]|].
  destruct (IH p x C2 H) as (y & Hy & E). exists y. split; [right; exact Hy|exact E].
Qed.
Lemma last_irrel {A} (c : list A) : forall x d d', last (x :: c) d = last (x :: c) d'.
Proof. induction c as [|y c IH]; intros x d d'; [reflexivity|exact (IH y d d')]. Qed.
Lemma last_in {A} (c : list A) : forall x, In (last (x :: c) x) (x :: c).
Proof.
  induction c as [|y c IH]; intros x; [left; reflexivity|]. right. change (last (x :: y :: c) x) with (last (y :: c) x). rewrite (last_irrel c y x y). apply IH.
Qed.
Lemma follow m r : mesh_ok m -> forall k e c, length (waiters m) < length c + k -> NoDup (e :: c) -> rchain m (e :: c) -> last (e :: c) e = r ->
  hopeless m r \/ exists e' c', NoDup (e' :: c') /\ rchain m (e' :: c') /\ blocker m e' = None /\ last (e' :: c') e' = r.
Proof.
  intros Ok. induction k as [|k IH]; intros e c Hk Nd C Lr.
  - exfalso. assert (length c <= length (waiters m)); [|lia]. inversion Nd; subst. apply NoDup_incl_length; [assumption|]. intros x Hx.
    destruct (rchain_blocked m c e x C Hx) as (y & _ & B). eapply blocker_waiters; eauto.
  - destruct (holder_dec (blocker m e)) as [B|[y B]]; [right; exists e, c; auto|]. destruct (in_runner_dec y (e :: c)) as [H|H].
    + left. exists (fun x => In x (e :: c)). split; [rewrite <- Lr; apply last_in|].
      intros x [<-|Hx]; [exists y; split; [exact H|apply (blocker_iff _ _ _ Ok); exact B]|]. destruct (rchain_blocked m c e x C Hx) as (z & Hz & Bz). exists z. split; [exact Hz|apply (blocker_iff _ _ _ Ok); exact Bz].
    + destruct (IH y (e :: c)) as [X|X]; auto; [cbn [length]; lia|constructor; assumption|split; assumption|].
      rewrite <- Lr. change (last (y :: e :: c) y) with (last (e :: c) y). apply last_irrel.
Qed.
Lemma deadlock_or_progress log n ls m o r : mesh_run log n ls m o -> hopeless m r \/ exists m', later log m m' /\ ~ waits m' r.
Proof.
  intros H. pose proof (run_reached _ _ _ _ _ H) as R. pose proof R as [_ Ok].
  destruct (follow m r Ok (S (length (waiters m))) r [] ltac:(cbn; lia) ltac:(constructor; [intros []|constructor]) I eq_refl) as [X|(e & c & Nd & C & B & L)]; [auto|].
  right. eapply resolve; eauto.
Qed.
Lemma hopeless_waits m r : hopeless m r -> waits m r.
Proof.
  intros (S & Hr & HS). destruct (HS r Hr) as (y & _ & B). destruct B as [r j y Hw Ho|r j k s Hw Hc Hl|r f y Hw Hh|i s f y Hc Hf Hh Hne]; try (left; congruence).
  right. exists i, s, f. repeat split; auto. congruence.
Qed.
Lemma deadlock_forever log n ls m o m' r : mesh_run log n ls m o -> hopeless m r -> later log m m' -> hopeless m' r /\ wants m' r = wants m r.
Proof.
  intros H (S & Hr & HS) L. pose proof (hopeless_later log m m' S (run_reached _ _ _ _ _ H) L HS) as K. split; [exists S; split; [exact Hr|intros x Hx; apply K; exact Hx]|]. apply K. exact Hr.
Qed.
Lemma deadlock_exactly log n ls m o r : mesh_run log n ls m o -> hopeless m r <-> forall m', later log m m' -> waits m' r.
Proof.
  intros H. split.
  - intros D m' L. apply hopeless_waits. eapply deadlock_forever; eauto.
  - intros A. destruct (deadlock_or_progress _ _ _ _ _ r H) as [D|(m' & L & N)]; [exact D|]. destruct (N (A m' L)).
Qed.

(** ** What a deadlock is made of *)
Record tidy (m : mesh) : Prop := {
  ti_want : forall r j k, wants m r = Some (WantClient j) -> m_owner m k <> Some r;
  ti_one : forall j k r, m_owner m j = Some r -> m_owner m k = Some r -> j = k;
  ti_call : forall r f, wants m r <> Some (WantCall f);
  ti_task : forall f y, l_holder (w_locks (m_world m) f) = Some y -> exists i, y = RTask i }.
Lemma wants_only log m l m' o r x : mstep log m l = Some (m', o) -> wants m' r = Some x -> wants m r = Some x \/ l = MWant r x.
Proof.
  intros H E. apply mstep_mcase in H. unfold wants in E. destruct H as [wl w' o M S|a y F W|a k Hw Hk|a k y w' o Hw S|t f wl w' o Hw D S|a k y w' o F Hk Hn S|a k F Hk]; cbn [m_wants] in E; auto;
    try (rewrite lookup_unwant in E; destruct (runner_eqb _ r); [discriminate|auto]).
  cbn [lookup] in E. destruct (runner_eqb r a) eqn:X; [apply runner_eqb_eq in X; subst a; injection E as ->; auto|auto].
Qed.
Lemma run_snoc_inv log n ls l m o : mesh_run log n (ls ++ [l]) m o -> exists m0 o0 o1, mesh_run log n ls m0 o0 /\ mstep log m0 l = Some (m, o1).
Proof.
  unfold mesh_run. rewrite mexecute_app. destruct (mexecute log (mesh_init n) ls) as [[m0 o0]|]; [|discriminate]. cbn [mexecute].
  destruct (mstep log m0 l) as [[m1 o1]|] eqn:E; [|discriminate]. intros H. injection H as -> _. eauto 6.
Qed.
Lemma run_tidy log n ls : forall m o, mesh_run log n ls m o -> one_client_each log n ls -> no_direct_calls ls -> tidy m.
Proof.
  induction ls as [|l ls IH] using rev_ind; intros m o H One Dir.
  - injection H as <- _. split; cbn; try discriminate.
  - destruct (run_snoc_inv _ _ _ _ _ _ H) as (m0 & o0 & o1 & R & S).
    assert (T : tidy m0).
    { eapply IH; [exact R| |].
      - intros ls1 r j ls2 m1 o2 k E. subst ls. apply (One ls1 r j (ls2 ++ [l])). rewrite <- app_assoc. reflexivity.
      - intros r f X. apply (Dir r f). apply in_or_app. auto. }
    pose proof (run_reached _ _ _ _ _ R) as [_ Ok]. clear IH. split.
    + intros r j k W O. destruct (wants_only _ _ _ _ _ _ _ S W) as [W0| ->].
      * destruct (owner_only _ _ _ _ _ _ _ S O) as [O0|[_ A]]; [exact (ti_want _ T _ _ _ W0 O0)|].
        apply mstep_mcase in S. destruct S as [wl w' o2 M S|a y F Wa|a q Hw Hk|a q y w' o2 Hw S|t f wl w' o2 Hw D S|a q y w' o2 F Hk Hn S|a q F Hk]; cbn [actor m_owner] in *; unfold wants in W; cbn [m_wants] in W; change (lookup (m_wants m0) r) with (wants m0 r) in W.
        -- apply settle_acting in O as [O _]. exact (ti_want _ T _ _ _ W0 O).
        -- exact (ti_want _ T _ _ _ W0 O).
        -- injection A as ->. rewrite lookup_unwant, (proj2 (runner_eqb_eq _ _) eq_refl) in W. discriminate.
        -- injection A as ->. rewrite lookup_unwant, (proj2 (runner_eqb_eq _ _) eq_refl) in W. discriminate.
        -- apply settle_acting in O as [O _]. exact (ti_want _ T _ _ _ W0 O).
        -- apply settle_acting in O as [O _]. exact (ti_want _ T _ _ _ W0 O).
        -- injection A as ->. apply free_iff in F as [_ F]. congruence.
      * apply (One ls r j [] m0 o0 k eq_refl R). apply mstep_mcase in S. inversion S; subst. exact O.
    + intros j k r O1 O2. destruct (owner_only _ _ _ _ _ _ _ S O1) as [A1|[A1 B1]], (owner_only _ _ _ _ _ _ _ S O2) as [A2|[A2 B2]]; [exact (ti_one _ T _ _ _ A1 A2)| | |];
        apply mstep_mcase in S; destruct S as [wl w' o2 M S|a y F Wa|a q Hw Hk|a q y w' o2 Hw S|t f wl w' o2 Hw D S|a q y w' o2 F Hk Hn S|a q F Hk]; cbn [actor m_owner] in *;
        try (apply settle_acting in O1 as [O1 _]; apply settle_acting in O2 as [O2 _]); try congruence;
        unfold set_owner in O1, O2; destruct (Nat.eqb_spec j q) as [->|Nj], (Nat.eqb_spec k q) as [->|Nk]; try congruence;
        first [injection B1 as ->|injection B2 as ->]; exfalso; eapply (ti_want _ T); eauto.
    + intros r f W. destruct (wants_only _ _ _ _ _ _ _ S W) as [W0| ->]; [exact (ti_call _ T _ _ W0)|]. apply (Dir r f). apply in_or_app. right. left. reflexivity.
    + intros f y Hh. destruct (holder_only _ _ _ _ _ _ _ Ok S Hh) as [X|[X A]]; [exact (ti_task _ T _ _ X)|].
      destruct y as [i|t]; [eauto|]. exfalso. apply mstep_mcase in S.
      destruct S as [wl w' o2 M S|a y F Wa|a q Hw Hk|a q y w' o2 Hw S|t' g wl w' o2 Hw D S|a q y w' o2 F Hk Hn S|a q F Hk]; cbn [actor m_world] in *; try congruence.
      * destruct wl as [i y|i|i|u g|u g|u g p]; cbn [wactor may_step] in *; try discriminate; [destruct (of_body y); discriminate|].
        apply wstep_wcase in S. inversion S as [| | | | | |? ? ? Hb]; subst. cbn [w_locks] in Hh. destruct (N.eq_dec f g) as [->|Hn]; [rewrite set_lock_same in Hh; discriminate|]. rewrite set_lock_other in Hh by assumption. congruence.
      * destruct (world_holder_only _ _ _ _ _ _ _ S Hh) as [Y|[_ Y]]; [congruence|]. cbn [wactor] in Y. destruct (of_body y); discriminate.
      * exact (ti_call _ T _ _ Hw).
      * destruct (world_holder_only _ _ _ _ _ _ _ S Hh) as [Y|[_ Y]]; [congruence|]. cbn [wactor] in Y. destruct (of_body y); discriminate.
Qed.

Lemma blocked_kind m x y : mesh_ok m -> tidy m -> blocked_by m x y ->
  (exists j, wants m x = Some (WantClient j) /\ m_owner m j = Some y) \/
  (exists j l, wants m x = Some (WantTable j l) /\ y = RTask j) \/
  (exists i k f, x = RTask i /\ y = RTask k /\ l_holder (w_locks (m_world m) f) = Some (RTask k) /\ wants m x = None).
Proof.
  intros Ok T B. destruct B as [r j y Hw Ho|r j k s Hw Hc Hl|r f y Hw Hh|i s f y Hc Hf Hh Hne].
  - left. eauto.
  - right. left. eauto.
  - destruct (ti_call _ T _ _ Hw).
  - right. right. destruct (ti_task _ T _ _ Hh) as [k ->]. exists i, k, f. repeat split; auto.
    destruct (wants m (RTask i)) as [z|] eqn:E; [|reflexivity]. rewrite (acting_holds _ _ (proj1 (mo_want _ Ok _ _ E)) _ _ _ eq_refl Hc Hf) in Hh. congruence.
Qed.
Lemma holder_acting m f i : mesh_ok m -> l_holder (w_locks (m_world m) f) = Some (RTask i) -> acting (m_world m) (RTask i) = true.
Proof.
  intros Ok H. destruct (mo_holds _ Ok _ _ H) as (s & E & C). cbn [acting]. unfold client_at in E. rewrite E. unfold calling in C. destruct (s_phase s) as [| | | | |c [g a b|g a]| |]; try discriminate.
  injection C as ->. apply held_by_iff. exact H.
Qed.
Lemma acting_wants m x y : acting (m_world m) x = true -> blocked_by m x y -> wants m x <> None.
Proof. intros A B E. exact (acting_blocked _ _ _ A E B). Qed.
Lemma deadlock_parts log n ls m o r : mesh_run log n ls m o -> one_client_each log n ls -> no_direct_calls ls -> hopeless m r ->
  (exists y j l, wants m y = Some (WantTable j l) /\ m_owner m j = Some y /\ hopeless m y /\ hopeless m (RTask j)) /\
  (exists i x, wants m (RTask i) = Some x /\ hopeless m (RTask i)).
Proof.
  intros H One Dir (S & Hr & HS). pose proof (run_tidy _ _ _ _ _ H One Dir) as T. pose proof (run_reached _ _ _ _ _ H) as [_ Ok].
  assert (Hp : forall z, S z -> hopeless m z) by (intros z Hz; exists S; auto).
  assert (A1 : forall x, S x -> acting (m_world m) x = true -> exists j, (wants m x = Some (WantClient j) \/ exists l, wants m x = Some (WantTable j l))).
  { intros x Hx A. destruct (HS x Hx) as (y & Hy & B). pose proof (acting_wants _ _ _ A B) as W. destruct (wants m x) as [[j|j l|f]|] eqn:E; [eauto|eauto| |congruence]. destruct (ti_call _ T _ _ E). }
  assert (A2 : forall x, S x -> wants m x <> None -> exists y j l, S y /\ wants m y = Some (WantTable j l)).
  { intros x Hx W. destruct (wants m x) as [[j|j l|f]|] eqn:E; [|exists x, j, l; auto|destruct (ti_call _ T _ _ E)|congruence].
    destruct (HS x Hx) as (y & Hy & B). destruct (blocked_kind _ _ _ Ok T B) as [(k & W1 & O)|[(k & l & W1 & _)|(i & k & f & -> & -> & Hh & W1)]]; try congruence.
    rewrite E in W1. injection W1 as <-. destruct (A1 y Hy (mo_owner _ Ok _ _ O)) as (q & [Wq|[l Wq]]); [destruct (ti_want _ T _ _ _ Wq O)|eauto 6]. }
  assert (A3 : forall x, S x -> wants m x <> None \/ exists i x', S (RTask i) /\ wants m (RTask i) = Some x').
  { intros x Hx. destruct (wants m x) eqn:E; [left; discriminate|]. right. destruct (HS x Hx) as (y & Hy & B).
    destruct (blocked_kind _ _ _ Ok T B) as [(k & W1 & O)|[(k & l & W1 & _)|(i & k & f & -> & -> & Hh & W1)]]; try congruence.
    destruct (A1 _ Hy (holder_acting _ _ _ Ok Hh)) as (q & [Wq|[l Wq]]); eauto. }
  assert (A4 : exists y j l, S y /\ wants m y = Some (WantTable j l)).
  { destruct (A3 r Hr) as [W|(i & x & Hi & W)]; [eapply A2; eauto|]. apply (A2 _ Hi). congruence. }
  destruct A4 as (y & j & l & Hy & W). destruct (HS y Hy) as (z & Hz & B).
  destruct (blocked_kind _ _ _ Ok T B) as [(k & W1 & O)|[(k & l' & W1 & ->)|(i & k & f & -> & -> & Hh & W1)]]; try congruence.
  rewrite W in W1. injection W1 as <- _. split.
  - exists y, j, l. split; [exact W|]. split; [exact (proj1 (proj2 (mo_want _ Ok _ _ W)))|auto].
  - destruct (wants m (RTask j)) as [x|] eqn:E; [eauto|]. destruct (A3 _ Hz) as [X|(i & x & Hi & X)]; [congruence|eauto].
Qed.
Lemma wants_asked log n ls : forall m o r x, mesh_run log n ls m o -> wants m r = Some x -> In (MWant r x) ls.
Proof.
  induction ls as [|l ls IH] using rev_ind; intros m o r x H W.
  - injection H as <- _. discriminate.
  - destruct (run_snoc_inv _ _ _ _ _ _ H) as (m0 & o0 & o1 & R & S). apply in_or_app. destruct (wants_only _ _ _ _ _ _ _ S W) as [W0| ->]; [left; eapply IH; eauto|right; left; reflexivity].
Qed.
Lemma no_deadlock log n ls m o r : mesh_run log n ls m o -> one_client_each log n ls -> no_direct_calls ls ->
  callbacks_use_no_client ls \/ no_table_methods ls -> ~ hopeless m r.
Proof.
  intros H One Dir D X. destruct (deadlock_parts _ _ _ _ _ _ H One Dir X) as [(y & j & l & W & _) (i & x & W' & _)]. destruct D as [D|D].
  - apply (D i x). eapply wants_asked; eauto.
  - apply (D y j l). eapply wants_asked; eauto.
Qed.

(** ** Witnesses *)
Definition named (ls : list mlabel) : list nat := flat_map (fun l => match l with MWant _ (WantClient j) => [j] | _ => [] end) ls.
Lemma owner_named log n ls : forall m o k r, mesh_run log n ls m o -> m_owner m k = Some r -> In k (named ls).
Proof.
  induction ls as [|l ls IH] using rev_ind; intros m o k r H O.
  - injection H as <- _. discriminate.
  - destruct (run_snoc_inv _ _ _ _ _ _ H) as (m0 & o0 & o1 & R & S). unfold named. rewrite flat_map_app. apply in_or_app. left. fold (named ls).
    destruct (owner_only _ _ _ _ _ _ _ S O) as [O0|[O0 A]]; [eapply IH; eauto|].
    apply mstep_mcase in S. destruct S as [wl w' o2 M S|a y F Wa|a q Hw Hk|a q y w' o2 Hw S|t f wl w' o2 Hw D S|a q y w' o2 F Hk Hn S|a q F Hk]; cbn [m_owner] in O;
      try (apply settle_acting in O as [O _]); try congruence.
    + unfold set_owner in O. destruct (Nat.eqb_spec k q) as [->|_]; [|congruence]. apply in_flat_map. exists (MWant a (WantClient q)). split; [eapply wants_asked; eauto|left; reflexivity].
    + unfold set_owner in O. destruct (Nat.eqb_spec k q); congruence.
Qed.
Fixpoint checked (log : bool) (m : mesh) (ks : list nat) (ls : list mlabel) : bool :=
  match ls with
  | [] => true
  | l :: ls' =>
      match l with MWant r (WantClient _) => forallb (fun k => negb (owns m r k)) ks | _ => true end &&
      match mstep log m l with Some (m1, _) => checked log m1 ks ls' | None => true end
  end.
Lemma checked_ok log ks : forall ls1 m r j ls2 m1 o1, checked log m ks (ls1 ++ MWant r (WantClient j) :: ls2) = true -> mexecute log m ls1 = Some (m1, o1) ->
  forall k, In k ks -> m_owner m1 k <> Some r.
Proof.
  induction ls1 as [|l ls1 IH]; intros m r j ls2 m1 o1 C H k Hk O; cbn [app checked mexecute] in *; apply Bool.andb_true_iff in C as [C1 C2].
  - injection H as <- _. rewrite forallb_forall in C1. specialize (C1 k Hk). apply owns_iff in O. rewrite O in C1. discriminate.
  - destruct (mstep log m l) as [[m0 o0]|]; [|discriminate]. destruct (mexecute log m0 ls1) as [[m2 o2]|] eqn:E; [|discriminate]. injection H as -> _. eapply IH; eauto.
Qed.
Lemma checked_one log n ls : checked log (mesh_init n) (named ls) ls = true -> one_client_each log n ls.
Proof.
  intros C ls1 r j ls2 m o k -> H O. eapply checked_ok; [exact C|exact H| |exact O]. pose proof (owner_named _ _ _ _ _ _ _ H O) as X.
  unfold named. rewrite flat_map_app. apply in_or_app. left. exact X.
Qed.

(** One client, one callback.  A thread sets the callback; an event calls it; before it emits an
    event, which needs the client, another thread with the client begins to clear callbacks. *)
Definition mesh_start (i : nat) : list mlabel := map (fun l => MWorld (WClient i l)) opened_run.
Definition mesh_set (t : N) (i : nat) (f : cb) : list mlabel :=
  [MWant (RUser t) (WantClient i); MGet (RUser t); MWant (RUser t) (WantTable i (LTable (SetEvent (bs "/") (bs "news") f))); MGet (RUser t); MRelease (RUser t) i].
Definition mesh_event (i : nat) : list mlabel := [MWorld (WClient i (LRead (WText (bs "42[""news"",1]")))); MWorld (WEnter i)].
Definition deadlock_run : list mlabel := mesh_start 0 ++ mesh_set 1 0 7%N ++ mesh_event 0 ++
  [MWant (RUser 1) (WantClient 0); MGet (RUser 1); MWant (RUser 1) (WantTable 0 (LTable (ClearFallback (bs "/")))); MWant (RTask 0) (WantClient 0)].
Definition mesh_of (n : nat) (ls : list mlabel) : mesh := match mexecute false (mesh_init n) ls with Some (m, _) => m | None => mesh_init 0 end.
Definition mobs_of (n : nat) (ls : list mlabel) : list wobs := match mexecute false (mesh_init n) ls with Some (_, o) => o | None => [] end.
Definition runs_b (n : nat) (ls : list mlabel) : bool := match mexecute false (mesh_init n) ls with Some _ => true | None => false end.
Lemma runs_ok n ls : runs_b n ls = true -> mesh_run false n ls (mesh_of n ls) (mobs_of n ls).
Proof. unfold runs_b, mesh_run, mesh_of, mobs_of. destruct (mexecute false (mesh_init n) ls) as [[m o]|]; [reflexivity|discriminate]. Qed.
Lemma hopeless_list m l r : mesh_ok m -> In r l -> forallb (fun x => match blocker m x with Some y => existsb (runner_eqb y) l | None => false end) l = true -> hopeless m r.
Proof.
  intros Ok Hr F. exists (fun x => In x l). split; [exact Hr|]. intros x Hx. rewrite forallb_forall in F. specialize (F x Hx).
  destruct (blocker m x) as [y|] eqn:B; [|discriminate]. apply existsb_exists in F as (z & Hz & E). apply runner_eqb_eq in E. subst z. exists y. split; [exact Hz|]. apply (blocker_iff _ _ _ Ok). exact B.
Qed.
Definition want_ok (ok : runner -> want -> bool) (ls : list mlabel) : bool := forallb (fun l => match l with MWant r x => ok r x | _ => true end) ls.
Lemma want_ok_in ok ls r x : want_ok ok ls = true -> In (MWant r x) ls -> ok r x = true.
Proof. unfold want_ok. rewrite forallb_forall. intros H I. exact (H _ I). Qed.
Lemma deadlock_run_ok : mesh_run false 1 deadlock_run (mesh_of 1 deadlock_run) (mobs_of 1 deadlock_run).
Proof. apply runs_ok. vm_compute. reflexivity. Qed.
Lemma deadlock_run_one : one_client_each false 1 deadlock_run.
Proof. apply checked_one. vm_compute. reflexivity. Qed.
Definition is_call (x : want) : bool := match x with WantCall _ => true | _ => false end.
Lemma deadlock_run_rules : not_its_own_table deadlock_run /\ no_direct_calls deadlock_run.
Proof.
  split; [intros j l|intros r f]; intros H.
  - assert (X : want_ok (fun r x => match r, x with RTask j, WantTable k _ => negb (Nat.eqb j k) | _, _ => true end) deadlock_run = true) by (vm_compute; reflexivity).
    pose proof (want_ok_in _ _ _ _ X H) as Y. cbn in Y. rewrite Nat.eqb_refl in Y. discriminate.
  - assert (X : want_ok (fun r x => negb (is_call x)) deadlock_run = true) by (vm_compute; reflexivity). pose proof (want_ok_in _ _ _ _ X H) as Y. discriminate.
Qed.
Lemma deadlock_run_hopeless r : r = RUser 1 \/ r = RTask 0 -> hopeless (mesh_of 1 deadlock_run) r.
Proof.
  intros D. apply (hopeless_list _ [RUser 1; RTask 0]); [exact (proj2 (run_reached _ _ _ _ _ deadlock_run_ok))|cbn; intuition congruence|vm_compute; reflexivity].
Qed.
Lemma C66_refuted_lemma : ~ C66_full.
Proof.
  intros H. destruct deadlock_run_rules as [A B]. apply (H _ _ _ _ _ (RUser 1) deadlock_run_ok deadlock_run_one A B). apply deadlock_run_hopeless. auto.
Qed.
(** Two clients; a callback of the first emits on the second while a thread has it, which then sets a
    callback of the second. *)
Definition busy_mesh : list mlabel := mesh_start 0 ++ mesh_start 1 ++ mesh_set 1 0 7%N ++ mesh_event 0 ++
  [MWant (RUser 1) (WantClient 1); MGet (RUser 1); MWant (RTask 0) (WantClient 1); MWant (RUser 1) (WantTable 1 (LTable (SetEvent (bs "/") (bs "news") 7%N))); MGet (RUser 1);
   MWorld (WClient 1 (LRead (WText (bs "42[""news"",1]"))))].
Lemma busy_mesh_ok : mesh_run false 2 busy_mesh (mesh_of 2 busy_mesh) (mobs_of 2 busy_mesh).
Proof. apply runs_ok. vm_compute. reflexivity. Qed.
Lemma busy_mesh_waits : blocked_by (mesh_of 2 busy_mesh) (RTask 1) (RTask 0) /\ blocked_by (mesh_of 2 busy_mesh) (RTask 0) (RUser 1) /\
  forall y, ~ blocked_by (mesh_of 2 busy_mesh) (RUser 1) y.
Proof.
  pose proof (proj2 (run_reached _ _ _ _ _ busy_mesh_ok)) as Ok. split; [|split].
  - apply (blocker_iff _ _ _ Ok). vm_compute. reflexivity.
  - apply (blocker_iff _ _ _ Ok). vm_compute. reflexivity.
  - apply (blocked_dec _ _ Ok). vm_compute. reflexivity.
Qed.
(** The same with only one client and one thread waiting for its table. *)
Definition quiet_mesh : list mlabel := mesh_start 0 ++ mesh_set 1 0 7%N ++ mesh_event 0 ++
  [MWant (RUser 1) (WantClient 0); MGet (RUser 1); MWant (RUser 1) (WantTable 0 (LTable (ClearFallback (bs "/"))))].
Lemma quiet_mesh_ok : mesh_run false 1 quiet_mesh (mesh_of 1 quiet_mesh) (mobs_of 1 quiet_mesh).
Proof. apply runs_ok. vm_compute. reflexivity. Qed.
Lemma quiet_mesh_rules : one_client_each false 1 quiet_mesh /\ no_direct_calls quiet_mesh /\ callbacks_use_no_client quiet_mesh.
Proof.
  split; [apply checked_one; vm_compute; reflexivity|]. split; [intros r f H|intros i x H].
  - assert (X : want_ok (fun r x => negb (is_call x)) quiet_mesh = true) by (vm_compute; reflexivity). pose proof (want_ok_in _ _ _ _ X H) as Y. discriminate.
  - assert (X : want_ok (fun r x => match r with RTask _ => false | _ => true end) quiet_mesh = true) by (vm_compute; reflexivity). pose proof (want_ok_in _ _ _ _ X H) as Y. discriminate.
Qed.
Lemma quiet_mesh_waits : blocked_by (mesh_of 1 quiet_mesh) (RUser 1) (RTask 0).
Proof. apply blocker_iff; [exact (proj2 (run_reached _ _ _ _ _ quiet_mesh_ok))|]. vm_compute. reflexivity. Qed.
(** Two callbacks that set callbacks of each other's clients. *)
Definition crossed_run : list mlabel := mesh_start 0 ++ mesh_start 1 ++ mesh_set 1 0 7%N ++ mesh_set 1 1 8%N ++ mesh_event 0 ++ mesh_event 1 ++
  [MWant (RTask 0) (WantClient 1); MGet (RTask 0); MWant (RTask 1) (WantClient 0); MGet (RTask 1);
   MWant (RTask 0) (WantTable 1 (LTable (ClearFallback (bs "/")))); MWant (RTask 1) (WantTable 0 (LTable (ClearFallback (bs "/"))))].
Lemma crossed_run_ok : mesh_run false 2 crossed_run (mesh_of 2 crossed_run) (mobs_of 2 crossed_run).
Proof. apply runs_ok. vm_compute. reflexivity. Qed.
Lemma crossed_run_rules : one_client_each false 2 crossed_run /\ not_its_own_table crossed_run /\ no_direct_calls crossed_run.
Proof.
  split; [apply checked_one; vm_compute; reflexivity|]. split; [intros j l|intros r f]; intros H.
  - assert (X : want_ok (fun r x => match r, x with RTask j, WantTable k _ => negb (Nat.eqb j k) | _, _ => true end) crossed_run = true) by (vm_compute; reflexivity).
    pose proof (want_ok_in _ _ _ _ X H) as Y. cbn in Y. rewrite Nat.eqb_refl in Y. discriminate.
  - assert (X : want_ok (fun r x => negb (is_call x)) crossed_run = true) by (vm_compute; reflexivity). pose proof (want_ok_in _ _ _ _ X H) as Y. discriminate.
Qed.
Lemma crossed_run_hopeless : hopeless (mesh_of 2 crossed_run) (RTask 0).
Proof.
  apply (hopeless_list _ [RTask 0; RTask 1]); [exact (proj2 (run_reached _ _ _ _ _ crossed_run_ok))|cbn; auto|vm_compute; reflexivity].
Qed.
