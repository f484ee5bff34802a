(** Several clients and threads that share event callbacks. *)
From Verif Require Export SpecShared PanicProofs.

(** ** Running *)
Lemma running_snoc o x f r : running (o ++ [x]) f r <-> x = WBegin r f \/ (running o f r /\ ~ ends_run f x).
Proof.
  split.
  - intros (o1 & o2 & E & H). destruct o2 as [|y o2 _] using rev_ind.
    + left. apply app_inj_tail in E as [_ ->]. reflexivity.
    + right. change (o1 ++ WBegin r f :: o2 ++ [y]) with (o1 ++ (WBegin r f :: o2) ++ [y]) in E. rewrite app_assoc in E.
      apply app_inj_tail in E as [-> ->]. split.
      * exists o1, o2. split; [reflexivity|]. intros z Hz. apply H. apply in_app_iff. auto.
      * apply H. apply in_app_iff. right. left. reflexivity.
  - intros [->|[(o1 & o2 & -> & H) Hx]].
    + exists o, []. split; [reflexivity|intros ? []].
    + exists o1, (o2 ++ [x]). split; [rewrite <- app_assoc; reflexivity|].
      intros z Hz. apply in_app_iff in Hz as [Hz|[<-|[]]]; auto.
Qed.
Lemma running_obs i l : forall o f r, running (o ++ map (WObs i) l) f r <-> running o f r.
Proof.
  induction l as [|x l IH]; intros o f r; cbn [map]; [rewrite app_nil_r; reflexivity|].
  change (WObs i x :: map (WObs i) l) with ([WObs i x] ++ map (WObs i) l). rewrite app_assoc, IH, running_snoc.
  split; [intros [X|[X _]]; [discriminate|exact X]|]. intros X. right. split; [exact X|]. intros (? & ? & Y). discriminate.
Qed.
Lemma panicked_app o o' f : has_panicked (o ++ o') f <-> has_panicked o f \/ has_panicked o' f.
Proof.
  unfold has_panicked. setoid_rewrite in_app_iff. split; [intros [r [H|H]]; eauto|intros [[r H]|[r H]]; eauto].
Qed.
Lemma panicked_obs i l f : ~ has_panicked (map (WObs i) l) f.
Proof. intros [r H]. apply in_map_iff in H as (x & X & _). discriminate. Qed.

(** ** Steps of a client *)
Definition event_calls (o : list obs) : list cb :=
  flat_map (fun x => match x with OCall _ (EventCall f _ _) => [f] | _ => [] end) o.
Lemma event_calls_app a b : event_calls (a ++ b) = event_calls a ++ event_calls b.
Proof. apply flat_map_app. Qed.
Lemma requests_calls n l : event_calls (requests n l) = [].
Proof. revert n. induction l as [|[b|f] l IH]; intros n; cbn; auto. Qed.

Lemma read_calls log b m s : calling s = None ->
  let (s', o') := read_step log b m s in
  (event_calls o' = [] /\ calling s' = None) \/ exists f, event_calls o' = [f] /\ calling s' = Some f.
Proof.
  intros H. unfold read_step, push. destruct (process_websocket_packet _ _ _ _ _) as [r c op q out]. cbn [pr_receiver pr_callbacks pr_open pr_queue pr_outcome].
  unfold calling in *.
  destruct op, q, out as [[]|? [f ? [] | f ?]]; cbn [s_chan_closed s_phase set_open set_table set_receiver task_ended];
    try (destruct (s_chan_closed s || _)%bool); cbn; first [left; split; [reflexivity|first [reflexivity|exact H]]|right; eexists; split; reflexivity].
Qed.

Lemma call_step log s l s' o' : (s_conn s = CHandshake -> s_phase s = PUnborn) -> step log s l = Some (s', o') ->
  match calling s with
  | Some f => event_calls o' = [] /\ (of_body l = false -> calling s' = Some f) /\
              (in_call s' = true -> calling s' = Some f \/ s_phase s' = PStuck) /\ (in_call s' = false -> calling s' = None)
  | None => (event_calls o' = [] /\ calling s' = None) \/ exists f, event_calls o' = [f] /\ calling s' = Some f
  end.
Proof.
  intros Hu H. assert (D : (exists m, l = LRead m) \/ forall m, l <> LRead m) by (destruct l; (left; eexists; reflexivity) || (right; discriminate)).
  destruct D as [[m ->]|Hl].
  - destruct (read_label _ _ _ _ _ H) as (b & Hp & _ & Hr).
    assert (calling s = None) as C by (unfold calling; rewrite Hp; destruct b; reflexivity).
    rewrite C. pose proof (read_calls log b m s C) as X. rewrite Hr in X. exact X.
  - unfold calling, in_call. other_cases H Hl; cbn;
    rewrite ?event_calls_app, ?requests_calls; cbn;
    repeat match goal with E : s_phase _ = _ |- _ => rewrite E end; cbn; auto;
    repeat match goal with |- context [match s_phase ?x with _ => _ end] => destruct (s_phase x) as [| | | | |? []| |] eqn:? end; cbn; auto; try discriminate.
  all: try (match goal with E : s_conn ?x = CHandshake, P : s_phase ?x = _ |- _ => rewrite (Hu E) in P; discriminate P end).
  all: try match goal with |- context [match ?c with EventCall _ _ _ => _ | AckCall _ _ => _ end] => destruct c end; cbn; auto.
  all: repeat split; intros; try discriminate; auto.
  all: first [match goal with E : ?x = ?x -> PCalling _ _ = PUnborn |- _ => discriminate (E eq_refl) end|left; split; [reflexivity|]; match goal with |- context [sending ?l] => destruct l end; reflexivity].
Qed.

Lemma stuck_step log s l s' o' : (s_conn s = CHandshake -> s_phase s = PUnborn) -> step log s l = Some (s', o') ->
  (s_phase s = PStuck -> s_phase s' = PStuck) /\ (forall e, s_phase s = PEnded e -> s_phase s' = PEnded e).
Proof.
  intros Hu H. assert (D : (exists m, l = LRead m) \/ forall m, l <> LRead m) by (destruct l; (left; eexists; reflexivity) || (right; discriminate)).
  destruct D as [[m ->]|Hl].
  - destruct (read_label _ _ _ _ _ H) as (b & Hp & _). rewrite Hp. destruct b; split; discriminate.
  - split; [intros P|intros e P]; other_cases H Hl; cbn; try congruence;
      first [specialize (Hu eq_refl); congruence|match goal with E : s_conn ?x = CHandshake |- _ => specialize (Hu E); congruence end].
Qed.

(** ** Runs *)
Lemma wexecute_app log ls : forall w ls', wexecute log w (ls ++ ls') =
  match wexecute log w ls with
  | Some (w1, o1) => match wexecute log w1 ls' with Some (w2, o2) => Some (w2, o1 ++ o2) | None => None end
  | None => None
  end.
Proof.
  induction ls as [|l ls IH]; intros w ls'; cbn [app wexecute].
  - destruct (wexecute log w ls') as [[? ?]|]; reflexivity.
  - destruct (wstep log w l) as [[w1 o1]|]; [|reflexivity]. rewrite IH.
    destruct (wexecute log w1 ls) as [[w2 o2]|]; [|reflexivity].
    destruct (wexecute log w2 ls') as [[w3 o3]|]; [rewrite app_assoc; reflexivity|reflexivity].
Qed.
Lemma wrun_ind log n (P : list wlabel -> world -> list wobs -> Prop) : P [] (world_init n) [] ->
  (forall ls w o l w' o', world_run log n ls w o -> P ls w o -> wstep log w l = Some (w', o') -> P (ls ++ [l]) w' (o ++ o')) ->
  forall ls w o, world_run log n ls w o -> P ls w o.
Proof.
  intros H0 Hs ls. induction ls as [|l ls IH] using rev_ind; intros w o H.
  - injection H as <- <-. exact H0.
  - unfold world_run in H. rewrite wexecute_app in H. destruct (wexecute log (world_init n) ls) as [[w1 o1]|] eqn:E; [|discriminate].
    cbn [wexecute] in H. destruct (wstep log w1 l) as [[w2 o2]|] eqn:E2; [|discriminate].
    injection H as <- <-. rewrite app_nil_r. exact (Hs ls w1 o1 l w2 o2 E (IH _ _ E) E2).
Qed.

Lemma labels_of_app i a b : labels_of i (a ++ b) = labels_of i a ++ labels_of i b.
Proof. apply flat_map_app. Qed.
Lemma obs_of_app i a b : obs_of i (a ++ b) = obs_of i a ++ obs_of i b.
Proof. apply flat_map_app. Qed.
Lemma obs_of_own i l : obs_of i (map (WObs i) l) = l.
Proof. unfold obs_of. induction l as [|x l IH]; cbn; [reflexivity|]. rewrite Nat.eqb_refl. cbn. f_equal. exact IH. Qed.
Lemma obs_of_other i j l : i <> j -> obs_of i (map (WObs j) l) = [].
Proof.
  intros H. unfold obs_of. induction l as [|x l IH]; cbn; [reflexivity|]. destruct (Nat.eqb_spec j i) as [->|_]; [contradiction|exact IH].
Qed.
Lemma nth_update {A} (l : list A) : forall i j x, nth_error (list_update i x l) j =
  if Nat.eqb i j then match nth_error l i with Some _ => Some x | None => None end else nth_error l j.
Proof. induction l as [|y l IH]; intros [|i] [|j] x; cbn; try reflexivity. destruct (Nat.eqb i j); reflexivity. apply IH. Qed.
Lemma run_snoc log ls s o l s' o' : client_run log ls s o -> step log s l = Some (s', o') -> client_run log (ls ++ [l]) s' (o ++ o').
Proof.
  unfold client_run. intros H Hs. rewrite execute_app, H. cbn [execute]. rewrite Hs, app_nil_r. reflexivity.
Qed.

(** Every step of the world is a step of the client concerned, if any. *)
Lemma wstep_client log w l w' o' : wstep log w l = Some (w', o') ->
  (exists i s x s' o1, nth_error (w_clients w) i = Some s /\ step log s x = Some (s', o1) /\
     w_clients w' = list_update i s' (w_clients w) /\ obs_of i o' = o1 /\ (forall j, j <> i -> obs_of j o' = []) /\
     labels_of i [l] = [x] /\ (forall j, j <> i -> labels_of j [l] = [])) \/
  (w_clients w' = w_clients w /\ (forall i, obs_of i o' = []) /\ (forall i, labels_of i [l] = [])).
Proof.
  intros H. destruct l as [i x|i|i|t f|t f|t f p]; cbn [wstep] in H.
  - left. destruct (nth_error (w_clients w) i) as [s|] eqn:En; [|discriminate]. destruct (step log s x) as [[s' o1]|] eqn:Es; [|discriminate].
    exists i, s, x, s', o1. split; [exact En|]. split; [exact Es|].
    assert (w_clients w' = list_update i s' (w_clients w) /\ exists k, o' = map (WObs i) o1 ++ k /\ forall j, obs_of j k = []) as (E1 & k & E2 & E3).
    { destruct (calling s) as [f|]; [destruct (of_body x); [destruct (held_by _ _); [destruct (in_call s')|discriminate]|]|]; injection H as <- <-;
        (split; [reflexivity|]); first [exists []; split; [rewrite app_nil_r; reflexivity|reflexivity]|eexists; split; [reflexivity|reflexivity]]. }
    split; [exact E1|]. subst o'. split; [rewrite obs_of_app, obs_of_own, E3, app_nil_r; reflexivity|].
    split; [intros j Hj; rewrite obs_of_app, obs_of_other, E3 by exact Hj; reflexivity|].
    cbn. rewrite Nat.eqb_refl. split; [reflexivity|]. intros j Hj. destruct (Nat.eqb_spec i j) as [->|_]; [contradiction|reflexivity].
  - right. destruct (nth_error (w_clients w) i) as [s|] eqn:En; [|discriminate]. destruct (calling s) as [f|]; [|discriminate].
    destruct (w_locks w f) as [[]  []]; try discriminate. injection H as <- <-. repeat split.
  - left. destruct (nth_error (w_clients w) i) as [s|] eqn:En; [|discriminate]. destruct (calling s) as [f|]; [|discriminate].
    destruct (w_locks w f) as [[]  []]; try discriminate. destruct (step log s LCbPanic) as [[s' o1]|] eqn:Es; [|discriminate].
    injection H as <- <-. exists i, s, LCbPanic, s', o1. split; [exact En|]. split; [exact Es|]. split; [reflexivity|].
    split; [exact (obs_of_own i o1)|]. split; [intros j Hj; exact (obs_of_other j i o1 Hj)|].
    cbn. rewrite Nat.eqb_refl. split; [reflexivity|]. intros j Hj. destruct (Nat.eqb_spec i j) as [->|_]; [contradiction|reflexivity].
  - right. destruct (w_locks w f) as [[]  []]; try discriminate. injection H as <- <-. repeat split.
  - right. destruct (w_locks w f) as [[]  []]; try discriminate. injection H as <- <-. repeat split.
  - right. destruct (held_by _ _); [|discriminate]. injection H as <- <-. repeat split.
Qed.

Lemma world_project log n ls w o : world_run log n ls w o ->
  forall i s, nth_error (w_clients w) i = Some s -> client_run log (labels_of i ls) s (obs_of i o).
Proof.
  revert ls w o. apply (wrun_ind log n (fun ls w o => forall i s, nth_error (w_clients w) i = Some s -> client_run log (labels_of i ls) s (obs_of i o))).
  - intros i s H. cbn in H. apply nth_error_In, repeat_spec in H. subst s. reflexivity.
  - intros ls w o l w' o' _ IH H i s' Hn.
    destruct (wstep_client _ _ _ _ _ H) as [(j & s & x & s1 & o1 & E1 & E2 & E3 & E4 & E5 & E6 & E7)|(E1 & E2 & E3)].
    + rewrite E3, nth_update in Hn. rewrite labels_of_app, obs_of_app. destruct (Nat.eqb_spec j i) as [<-|Hj].
      * rewrite E1 in Hn. injection Hn as <-. rewrite E4, E6. exact (run_snoc _ _ _ _ _ _ _ (IH _ _ E1) E2).
      * rewrite E5, E7, !app_nil_r by congruence. exact (IH _ _ Hn).
    + rewrite E1 in Hn. rewrite labels_of_app, obs_of_app, E2, E3, !app_nil_r. exact (IH _ _ Hn).
Qed.

(** ** The cases of a step *)
Inductive wcase (log : bool) (w : world) : wlabel -> world -> list wobs -> Prop :=
| case_quiet i s x s' o1 : nth_error (w_clients w) i = Some s -> step log s x = Some (s', o1) ->
    (calling s = None \/ exists f, calling s = Some f /\ (of_body x = false \/ (held_by (RTask i) (w_locks w f) = true /\ in_call s' = true))) ->
    wcase log w (WClient i x) (World (list_update i s' (w_clients w)) (w_locks w)) (map (WObs i) o1)
| case_leave i s x s' o1 f : nth_error (w_clients w) i = Some s -> step log s x = Some (s', o1) ->
    calling s = Some f -> of_body x = true -> held_by (RTask i) (w_locks w f) = true -> in_call s' = false ->
    wcase log w (WClient i x) (World (list_update i s' (w_clients w)) (set_lock f (Lock None (l_poisoned (w_locks w f) || task_ended s')) (w_locks w)))
      (map (WObs i) o1 ++ [WEnd (RTask i) f (task_ended s')])
| case_enter i s f : nth_error (w_clients w) i = Some s -> calling s = Some f -> w_locks w f = Lock None false ->
    wcase log w (WEnter i) (World (w_clients w) (set_lock f (Lock (Some (RTask i)) false) (w_locks w))) [WBegin (RTask i) f]
| case_refuse i s f s' o1 : nth_error (w_clients w) i = Some s -> calling s = Some f -> w_locks w f = Lock None true ->
    step log s LCbPanic = Some (s', o1) ->
    wcase log w (WRefuse i) (World (list_update i s' (w_clients w)) (w_locks w)) (WRefused (RTask i) f :: map (WObs i) o1)
| case_user_enter t f : w_locks w f = Lock None false ->
    wcase log w (WUserEnter t f) (World (w_clients w) (set_lock f (Lock (Some (RUser t)) false) (w_locks w))) [WBegin (RUser t) f]
| case_user_refuse t f : w_locks w f = Lock None true -> wcase log w (WUserRefuse t f) w [WRefused (RUser t) f]
| case_user_leave t f p : held_by (RUser t) (w_locks w f) = true ->
    wcase log w (WUserLeave t f p) (World (w_clients w) (set_lock f (Lock None (l_poisoned (w_locks w f) || p)) (w_locks w))) [WEnd (RUser t) f p].

Lemma wstep_wcase log w l w' o' : wstep log w l = Some (w', o') -> wcase log w l w' o'.
Proof.
  intros H. destruct l as [i x|i|i|t f|t f|t f p]; cbn [wstep] in H.
  - destruct (nth_error (w_clients w) i) as [s|] eqn:En; [|discriminate]. destruct (step log s x) as [[s' o1]|] eqn:Es; [|discriminate].
    destruct (calling s) as [f|] eqn:Ec; [destruct (of_body x) eqn:Eb; [destruct (held_by _ _) eqn:Eh; [destruct (in_call s') eqn:Ei|discriminate]|]|]; injection H as <- <-.
    + eapply case_quiet; eauto 8.
    + eapply case_leave; eauto.
    + eapply case_quiet; eauto.
    + eapply case_quiet; eauto.
  - destruct (nth_error (w_clients w) i) as [s|] eqn:En; [|discriminate]. destruct (calling s) as [f|] eqn:Ec; [|discriminate].
    destruct (w_locks w f) as [[] []] eqn:El; try discriminate. injection H as <- <-. eapply case_enter; eauto.
  - destruct (nth_error (w_clients w) i) as [s|] eqn:En; [|discriminate]. destruct (calling s) as [f|] eqn:Ec; [|discriminate].
    destruct (w_locks w f) as [[] []] eqn:El; try discriminate. destruct (step log s LCbPanic) as [[s' o1]|] eqn:Es; [|discriminate].
    injection H as <- <-. eapply case_refuse; eauto.
  - destruct (w_locks w f) as [[] []] eqn:El; try discriminate. injection H as <- <-. eapply case_user_enter; eauto.
  - destruct (w_locks w f) as [[] []] eqn:El; try discriminate. injection H as <- <-. eapply case_user_refuse; eauto.
  - destruct (held_by _ _) eqn:E; [|discriminate]. injection H as <- <-. eapply case_user_leave; eauto.
Qed.

Lemma runner_eqb_eq a b : runner_eqb a b = true <-> a = b.
Proof.
  destruct a, b; cbn; rewrite ?Nat.eqb_eq, ?N.eqb_eq; split; intros H; try discriminate; congruence.
Qed.
Lemma held_by_iff r k : held_by r k = true <-> l_holder k = Some r.
Proof.
  unfold held_by. destruct (l_holder k) as [r'|]; [rewrite runner_eqb_eq; split; congruence|split; discriminate].
Qed.
Lemma set_lock_same f k m : set_lock f k m f = k.
Proof. unfold set_lock. rewrite N.eqb_refl. reflexivity. Qed.
Lemma set_lock_other f g k m : g <> f -> set_lock f k m g = m g.
Proof. intros H. unfold set_lock. apply N.eqb_neq in H. rewrite H. reflexivity. Qed.

(** ** The mutexes are what the observations say *)
Definition locks_ok (w : world) (o : list wobs) : Prop :=
  (forall f r, l_holder (w_locks w f) = Some r <-> running o f r) /\
  (forall f, l_poisoned (w_locks w f) = true <-> has_panicked o f).
Lemma locks_begin w o f r cs : locks_ok w o -> w_locks w f = Lock None false ->
  locks_ok (World cs (set_lock f (Lock (Some r) false) (w_locks w))) (o ++ [WBegin r f]).
Proof.
  intros [A B] E. split; cbn [w_locks].
  - intros g r'. rewrite running_snoc. destruct (N.eq_dec g f) as [->|Hg].
    + rewrite set_lock_same. cbn. split; [intros X; left; congruence|]. intros [X|[X _]]; [congruence|].
      apply A in X. rewrite E in X. discriminate.
    + rewrite set_lock_other by exact Hg. rewrite A. split.
      * intros X. right. split; [exact X|]. intros (? & ? & Y). discriminate.
      * intros [X|[X _]]; [congruence|exact X].
  - intros g. rewrite panicked_app. destruct (N.eq_dec g f) as [->|Hg].
    + rewrite set_lock_same. cbn. split; [discriminate|]. intros [X|[r' [X|[]]]]; [|discriminate]. apply B in X. rewrite E in X. discriminate.
    + rewrite set_lock_other by exact Hg. rewrite B. split; [auto|]. intros [X|[r' [X|[]]]]; [exact X|discriminate].
Qed.
Lemma locks_end w o f r p cs : locks_ok w o -> l_holder (w_locks w f) = Some r ->
  locks_ok (World cs (set_lock f (Lock None (l_poisoned (w_locks w f) || p)) (w_locks w))) (o ++ [WEnd r f p]).
Proof.
  intros [A B] E. split; cbn [w_locks].
  - intros g r'. rewrite running_snoc. destruct (N.eq_dec g f) as [->|Hg].
    + rewrite set_lock_same. cbn. split; [discriminate|]. intros [X|[_ X]]; [discriminate|]. exfalso. apply X. exists r, p. reflexivity.
    + rewrite set_lock_other by exact Hg. rewrite A. split.
      * intros X. right. split; [exact X|]. intros (? & ? & Y). congruence.
      * intros [X|[X _]]; [discriminate|exact X].
  - intros g. rewrite panicked_app. destruct (N.eq_dec g f) as [->|Hg].
    + rewrite set_lock_same. cbn [l_poisoned]. rewrite Bool.orb_true_iff, B. split; (intros [X|X]; [auto|]).
      * right. exists r. left. congruence.
      * destruct X as [r' [X|[]]]. right. congruence.
    + rewrite set_lock_other by exact Hg. rewrite B. split; [auto|]. intros [X|[r' [X|[]]]]; [exact X|congruence].
Qed.
Lemma locks_refused w o f r cs : locks_ok w o -> locks_ok (World cs (w_locks w)) (o ++ [WRefused r f]).
Proof.
  intros [A B]. split; cbn [w_locks].
  - intros g r'. rewrite running_snoc, A. split; [|intros [X|[X _]]; [discriminate|exact X]].
    intros X. right. split; [exact X|]. intros (? & ? & Y). discriminate.
  - intros g. rewrite panicked_app, B. split; [auto|]. intros [X|[r' [X|[]]]]; [exact X|discriminate].
Qed.
Lemma locks_obs w o i l cs : locks_ok w o -> locks_ok (World cs (w_locks w)) (o ++ map (WObs i) l).
Proof.
  intros [A B]. split; cbn [w_locks].
  - intros g r'. rewrite running_obs. apply A.
  - intros g. rewrite panicked_app, B. split; [auto|]. intros [X|X]; [exact X|]. destruct (panicked_obs _ _ _ X).
Qed.

Lemma world_locks log n ls w o : world_run log n ls w o -> locks_ok w o.
Proof.
  revert ls w o. apply (wrun_ind log n (fun _ w o => locks_ok w o)).
  - split; cbn.
    + intros f r. split; [discriminate|]. intros (a & b & E & _). destruct a; discriminate.
    + intros f. split; [discriminate|]. intros [r []].
  - intros ls w o l w' o' _ IH H. destruct (wstep_wcase _ _ _ _ _ H) as [i s x s' o1 En Es _|i s x s' o1 f En Es Ec Eb Eh Ei|i s f En Ec El|i s f s' o1 En Ec El Es|t f El|t f El|t f p Eh].
    + apply locks_obs. exact IH.
    + rewrite app_assoc. apply held_by_iff in Eh. exact (locks_end (World (w_clients w) (w_locks w)) _ f (RTask i) _ _ (locks_obs _ _ i o1 (w_clients w) IH) Eh).
    + apply locks_begin; assumption.
    + change (WRefused (RTask i) f :: map (WObs i) o1) with ([WRefused (RTask i) f] ++ map (WObs i) o1). rewrite app_assoc.
      exact (locks_obs (World (w_clients w) (w_locks w)) _ i o1 _ (locks_refused _ _ f (RTask i) (w_clients w) IH)).
    + apply locks_begin; assumption.
    + destruct w as [cs m]. exact (locks_refused (World cs m) _ f _ cs IH).
    + apply held_by_iff in Eh. apply locks_end; assumption.
Qed.

(** ** What the tasks do *)
Lemma begun_by_app i a b : begun_by i (a ++ b) = begun_by i a ++ begun_by i b.
Proof. apply flat_map_app. Qed.
Lemma refused_to_app i a b : refused_to i (a ++ b) = refused_to i a ++ refused_to i b.
Proof. apply flat_map_app. Qed.
Lemma begun_by_obs i j l : begun_by i (map (WObs j) l) = [].
Proof. unfold begun_by. induction l; cbn; auto. Qed.
Lemma refused_to_obs i j l : refused_to i (map (WObs j) l) = [].
Proof. unfold refused_to. induction l; cbn; auto. Qed.
Lemma calls_of_app i a b : calls_of i (a ++ b) = calls_of i a ++ calls_of i b.
Proof. unfold calls_of. rewrite obs_of_app. apply flat_map_app. Qed.
Lemma calls_of_own i l : calls_of i (map (WObs i) l) = event_calls l.
Proof. unfold calls_of. rewrite obs_of_own. reflexivity. Qed.
Lemma calls_of_other i j l : i <> j -> calls_of i (map (WObs j) l) = [].
Proof. intros H. unfold calls_of. rewrite obs_of_other by exact H. reflexivity. Qed.

Definition waiting (w : world) (i : nat) (s : state) : list cb :=
  match calling s with
  | Some f => if held_by (RTask i) (w_locks w f) then [] else [f]
  | None => []
  end.
Record tasks_ok (w : world) (o : list wobs) : Prop := {
  t_holds : forall f i, l_holder (w_locks w f) = Some (RTask i) ->
    exists s, nth_error (w_clients w) i = Some s /\ (calling s = Some f \/ s_phase s = PStuck);
  t_calls : forall i s, nth_error (w_clients w) i = Some s -> calls_of i o = begun_by i o ++ refused_to i o ++ waiting w i s;
  t_refused : forall i s, nth_error (w_clients w) i = Some s ->
    refused_to i o = [] \/ (exists f, refused_to i o = [f]) /\ exists e, s_phase s = PEnded e;
  t_ended : forall i f, In (WEnd (RTask i) f true) o -> exists s e, nth_error (w_clients w) i = Some s /\ s_phase s = PEnded e }.

Lemma calling_in_call s : in_call s = false -> calling s = None.
Proof. unfold in_call, calling. destruct (s_phase s); congruence. Qed.
Lemma ended_calling s e : s_phase s = PEnded e -> calling s = None.
Proof. unfold calling. intros ->. reflexivity. Qed.
Lemma task_ended_iff s : task_ended s = true <-> exists e, s_phase s = PEnded e.
Proof. unfold task_ended. destruct (s_phase s); split; try discriminate; try (intros [? ?]; discriminate); eauto. Qed.

Lemma world_unborn log n ls w o i s : world_run log n ls w o -> nth_error (w_clients w) i = Some s ->
  s_conn s = CHandshake -> s_phase s = PUnborn.
Proof. intros R H. apply (unborn log s (obs_of i o)). exists (labels_of i ls). exact (world_project _ _ _ _ _ R _ _ H). Qed.

Lemma panic_step log s s' o1 : step log s LCbPanic = Some (s', o1) -> exists e, s_phase s' = PEnded e.
Proof. cbn [step]. destruct (s_phase s); try discriminate. intros H. injection H as <- _. cbn. eauto. Qed.

Lemma tasks_client w o cs' k i s s' o1 (m' : cb -> lock) :
  (* what a step of client [i] has to meet *)
  tasks_ok w o -> nth_error (w_clients w) i = Some s -> cs' = list_update i s' (w_clients w) ->
  (forall e, s_phase s = PEnded e -> s_phase s' = PEnded e) ->
  (forall f j, l_holder (m' f) = Some (RTask j) -> l_holder (w_locks w f) = Some (RTask j)) ->
  (forall f j, j <> i -> held_by (RTask j) (m' f) = held_by (RTask j) (w_locks w f)) ->
  (forall f, l_holder (m' f) = Some (RTask i) -> calling s' = Some f \/ s_phase s' = PStuck) ->
  calls_of i k = event_calls o1 -> (forall j, j <> i -> calls_of j k = []) ->
  (forall j, begun_by j k = []) -> (forall j, j <> i -> refused_to j k = []) ->
  refused_to i k = [] \/ ((exists f, refused_to i k = [f]) /\ refused_to i o = [] /\ exists e, s_phase s' = PEnded e) ->
  (refused_to i o <> [] -> event_calls o1 = []) ->
  waiting w i s ++ event_calls o1 = refused_to i k ++ waiting (World cs' m') i s' ->
  (forall j f, In (WEnd (RTask j) f true) k -> j = i /\ exists e, s_phase s' = PEnded e) ->
  tasks_ok (World cs' m') (o ++ k).
Proof.
  intros [T1 T2 T3 T4] En -> Hp Hm1 Hm2 Hm3 K1 K2 K3 K4 K5 K6 K7 K8. split; cbn [w_clients w_locks].
  - intros f j H. rewrite nth_update, En. destruct (Nat.eqb_spec i j) as [<-|Hj]; [exists s'; auto|]. exact (T1 _ _ (Hm1 _ _ H)).
  - intros j x H. rewrite nth_update, En in H. rewrite calls_of_app, begun_by_app, refused_to_app, K3, app_nil_r. destruct (Nat.eqb_spec i j) as [<-|Hj].
    + injection H as <-. rewrite (T2 _ _ En), K1, <- !app_assoc. f_equal. f_equal. exact K7.
    + rewrite K2, K4, !app_nil_r by congruence. rewrite (T2 _ _ H). unfold waiting. cbn [w_locks]. destruct (calling x); [|reflexivity].
      rewrite Hm2 by congruence. reflexivity.
  - intros j x H. rewrite nth_update, En in H. rewrite refused_to_app. destruct (Nat.eqb_spec i j) as [<-|Hj].
    + injection H as <-. destruct K5 as [->|(X & -> & Y)]; [|right; auto]. rewrite app_nil_r.
      destruct (T3 _ _ En) as [X|[X [e Y]]]; [auto|]. right. split; [exact X|]. exists e. auto.
    + rewrite K4, app_nil_r by congruence. exact (T3 _ _ H).
  - intros j f H. apply in_app_iff in H as [H|H].
    + destruct (T4 _ _ H) as (x & e & E1 & E2). rewrite nth_update, En. destruct (Nat.eqb_spec i j) as [<-|Hj]; [|eauto].
      rewrite En in E1. injection E1 as <-. eauto.
    + destruct (K8 _ _ H) as [-> [e E]]. exists s', e. rewrite nth_update, Nat.eqb_refl, En. auto.
Qed.

Lemma world_tasks log n ls w o : world_run log n ls w o -> tasks_ok w o.
Proof.
  revert ls w o. apply (wrun_ind log n (fun _ w o => tasks_ok w o)).
  - split; cbn; try discriminate; auto.
    + intros i s H. apply nth_error_In, repeat_spec in H. subst s. reflexivity.
    + intros ? ? [].
  - intros ls w o l w' o' R IH H. pose proof IH as [T1 T2 T3 T4].
    destruct (wstep_wcase _ _ _ _ _ H) as [i s x s' o1 En Es Hq|i s x s' o1 f En Es Ec Eb Eh Ei|i s f En Ec El|i s f s' o1 En Ec El Es|t f El|t f El|t f p Eh].
    + (* a step that does not touch the mutexes *)
      pose proof (world_unborn _ _ _ _ _ _ _ R En) as Hu. pose proof (call_step _ _ _ _ _ Hu Es) as Hc. pose proof (stuck_step _ _ _ _ _ Hu Es) as [Hk He].
      assert (Hh : forall f, l_holder (w_locks w f) = Some (RTask i) -> calling s' = Some f \/ s_phase s' = PStuck).
      { intros f X. destruct (T1 _ _ X) as (s0 & E0 & [E1|E1]); rewrite En in E0; injection E0 as <-; [|auto].
        rewrite E1 in Hc. destruct Hc as (_ & C1 & C2 & _). destruct Hq as [Hq|(g & Hg & [Hq|[_ Hq]])]; [congruence| |]; auto. }
      apply (tasks_client w o _ (map (WObs i) o1) i s s' o1 (w_locks w) IH En eq_refl He); auto.
      * apply calls_of_own.
      * intros j Hj. apply calls_of_other. exact Hj.
      * intros j. apply begun_by_obs.
      * intros j _. apply refused_to_obs.
      * left. apply refused_to_obs.
      * intros X. destruct (T3 _ _ En) as [Y|[_ [e Y]]]; [contradiction|]. rewrite (ended_calling _ _ Y) in Hc.
        destruct Hc as [[Hc _]|(g & _ & Hc)]; [exact Hc|]. rewrite (ended_calling _ e (He _ Y)) in Hc. discriminate.
      * rewrite refused_to_obs. cbn [app]. unfold waiting. cbn [w_locks]. destruct (calling s) as [f|] eqn:Ec.
        -- destruct Hc as (-> & C1 & C2 & C3). rewrite app_nil_r. destruct Hq as [Hq|(g & Hg & [Hq|[Hq1 Hq]])]; [discriminate| |].
           ++ rewrite (C1 Hq). reflexivity.
           ++ injection Hg as <-. rewrite Hq1. destruct (C2 Hq) as [->|X]; [rewrite Hq1; reflexivity|]. unfold calling. rewrite X. reflexivity.
        -- destruct Hc as [[-> ->]|(g & -> & C)]; [reflexivity|]. rewrite C. destruct (held_by (RTask i) (w_locks w g)) eqn:Hg; [|reflexivity].
           exfalso. apply held_by_iff in Hg. destruct (T1 _ _ Hg) as (s0 & E0 & [E1|E1]); rewrite En in E0; injection E0 as <-; [congruence|].
           apply Hk in E1. unfold calling in C. rewrite E1 in C. discriminate.
      * intros j f X. apply in_map_iff in X as (? & X & _). discriminate.
    + (* the body ends *)
      pose proof (world_unborn _ _ _ _ _ _ _ R En) as Hu. pose proof (call_step _ _ _ _ _ Hu Es) as Hc. pose proof (stuck_step _ _ _ _ _ Hu Es) as [Hk He].
      rewrite Ec in Hc. destruct Hc as (C0 & _ & _ & C3). specialize (C3 Ei).
      apply (tasks_client w o _ (map (WObs i) o1 ++ [WEnd (RTask i) f (task_ended s')]) i s s' o1 _ IH En eq_refl He).
      * intros g j. destruct (N.eq_dec g f) as [->|Hg]; [rewrite set_lock_same; discriminate|rewrite set_lock_other by exact Hg; auto].
      * intros g j Hj. destruct (N.eq_dec g f) as [->|Hg]; [|rewrite set_lock_other by exact Hg; reflexivity]. rewrite set_lock_same.
        apply held_by_iff in Eh. unfold held_by. rewrite Eh. cbn. symmetry. apply Nat.eqb_neq. exact Hj.
      * intros g. destruct (N.eq_dec g f) as [->|Hg]; [rewrite set_lock_same; discriminate|]. rewrite set_lock_other by exact Hg.
        intros X. destruct (T1 _ _ X) as (s0 & E0 & [E1|E1]); rewrite En in E0; injection E0 as <-; [congruence|]. auto.
      * rewrite calls_of_app, calls_of_own. apply app_nil_r.
      * intros j Hj. rewrite calls_of_app, calls_of_other by exact Hj. reflexivity.
      * intros j. rewrite begun_by_app, begun_by_obs. reflexivity.
      * intros j _. rewrite refused_to_app, refused_to_obs. reflexivity.
      * left. rewrite refused_to_app, refused_to_obs. reflexivity.
      * intros _. exact C0.
      * rewrite refused_to_app, refused_to_obs, C0. cbn [app refused_to flat_map]. unfold waiting. rewrite Ec, C3, Eh. reflexivity.
      * intros j g X. apply in_app_iff in X as [X|[X|[]]]; [apply in_map_iff in X as (? & X & _); discriminate|].
        injection X as -> _ X. split; [reflexivity|]. apply task_ended_iff. exact X.
    + (* the body begins *)
      split; cbn [w_clients w_locks].
      * intros g j. destruct (N.eq_dec g f) as [->|Hg]; [rewrite set_lock_same; intros X; injection X as <-; eauto|rewrite set_lock_other by exact Hg; apply T1].
      * intros j x Hx. rewrite calls_of_app, begun_by_app, refused_to_app. cbn [calls_of obs_of begun_by refused_to flat_map]. rewrite !app_nil_r.
        rewrite (T2 _ _ Hx). destruct (Nat.eqb_spec i j) as [<-|Hj].
        -- rewrite En in Hx. injection Hx as <-. destruct (T3 _ _ En) as [->|[_ [e X]]]; [|rewrite (ended_calling _ _ X) in Ec; discriminate].
           unfold waiting. cbn [w_locks]. rewrite Ec, set_lock_same, El. cbn. rewrite Nat.eqb_refl. cbn. rewrite <- app_assoc. reflexivity.
        -- rewrite app_nil_r. unfold waiting. cbn [w_locks]. destruct (calling x) as [g|]; [|reflexivity].
           destruct (N.eq_dec g f) as [->|Hg]; [|rewrite set_lock_other by exact Hg; reflexivity]. rewrite set_lock_same, El. cbn.
           destruct (Nat.eqb_spec j i); [congruence|reflexivity].
      * intros j x Hx. rewrite refused_to_app. cbn. rewrite app_nil_r. exact (T3 _ _ Hx).
      * intros j g X. apply in_app_iff in X as [X|[X|[]]]; [exact (T4 _ _ X)|discriminate].
    + (* refused *)
      pose proof (world_unborn _ _ _ _ _ _ _ R En) as Hu. pose proof (call_step _ _ _ _ _ Hu Es) as Hc. pose proof (stuck_step _ _ _ _ _ Hu Es) as [Hk He].
      destruct (panic_step _ _ _ _ Es) as [e Ee]. rewrite Ec in Hc. destruct Hc as (C0 & _).
      assert (Hr : refused_to i o = []) by (destruct (T3 _ _ En) as [X|[_ [e' X]]]; [exact X|rewrite (ended_calling _ _ X) in Ec; discriminate]).
      apply (tasks_client w o _ (WRefused (RTask i) f :: map (WObs i) o1) i s s' o1 _ IH En eq_refl He); auto.
      * intros g X. destruct (T1 _ _ X) as (s0 & E0 & [E1|E1]); rewrite En in E0; injection E0 as <-; [|auto].
        rewrite E1 in Ec. injection Ec as ->. rewrite El in X. discriminate.
      * exact (calls_of_own i o1).
      * intros j Hj. exact (calls_of_other j i o1 Hj).
      * intros j. exact (begun_by_obs j i o1).
      * intros j Hj. change (WRefused (RTask i) f :: map (WObs i) o1) with ([WRefused (RTask i) f] ++ map (WObs i) o1).
        rewrite refused_to_app, refused_to_obs. cbn. destruct (Nat.eqb_spec i j); [congruence|reflexivity].
      * right. change (WRefused (RTask i) f :: map (WObs i) o1) with ([WRefused (RTask i) f] ++ map (WObs i) o1).
        rewrite refused_to_app, refused_to_obs. cbn. rewrite Nat.eqb_refl. split; [exists f; reflexivity|]. split; [exact Hr|]. eauto.
      * change (WRefused (RTask i) f :: map (WObs i) o1) with ([WRefused (RTask i) f] ++ map (WObs i) o1).
        rewrite refused_to_app, refused_to_obs, C0. cbn. rewrite Nat.eqb_refl. unfold waiting. rewrite Ec, (ended_calling _ _ Ee), El. reflexivity.
      * intros j g X. destruct X as [X|X]; [discriminate|]. apply in_map_iff in X as (? & X & _). discriminate.
    + (* a user begins *)
      split; cbn [w_clients w_locks].
      * intros g j. destruct (N.eq_dec g f) as [->|Hg]; [rewrite set_lock_same; discriminate|rewrite set_lock_other by exact Hg; apply T1].
      * intros j x Hx. rewrite calls_of_app, begun_by_app, refused_to_app. cbn [calls_of obs_of begun_by refused_to flat_map]. rewrite !app_nil_r.
        rewrite (T2 _ _ Hx). unfold waiting. cbn [w_locks]. destruct (calling x) as [g|]; [|reflexivity].
        destruct (N.eq_dec g f) as [->|Hg]; [|rewrite set_lock_other by exact Hg; reflexivity]. rewrite set_lock_same, El. reflexivity.
      * intros j x Hx. rewrite refused_to_app. cbn. rewrite app_nil_r. exact (T3 _ _ Hx).
      * intros j g X. apply in_app_iff in X as [X|[X|[]]]; [exact (T4 _ _ X)|discriminate].
    + (* a user is refused *)
      split.
      * exact T1.
      * intros j x Hx. rewrite calls_of_app, begun_by_app, refused_to_app. cbn [calls_of obs_of begun_by refused_to flat_map]. rewrite !app_nil_r. exact (T2 _ _ Hx).
      * intros j x Hx. rewrite refused_to_app. cbn. rewrite app_nil_r. exact (T3 _ _ Hx).
      * intros j g X. apply in_app_iff in X as [X|[X|[]]]; [exact (T4 _ _ X)|discriminate].
    + (* a user ends *)
      apply held_by_iff in Eh. split; cbn [w_clients w_locks].
      * intros g j. destruct (N.eq_dec g f) as [->|Hg]; [rewrite set_lock_same; discriminate|rewrite set_lock_other by exact Hg; apply T1].
      * intros j x Hx. rewrite calls_of_app, begun_by_app, refused_to_app. cbn [calls_of obs_of begun_by refused_to flat_map]. rewrite !app_nil_r.
        rewrite (T2 _ _ Hx). unfold waiting. cbn [w_locks]. destruct (calling x) as [g|]; [|reflexivity].
        destruct (N.eq_dec g f) as [->|Hg]; [|rewrite set_lock_other by exact Hg; reflexivity]. rewrite set_lock_same. unfold held_by. rewrite Eh. reflexivity.
      * intros j x Hx. rewrite refused_to_app. cbn. rewrite app_nil_r. exact (T3 _ _ Hx).
      * intros j g X. apply in_app_iff in X as [X|[X|[]]]; [exact (T4 _ _ X)|discriminate].
Qed.

(** ** Where an observation comes from *)
Lemma app_split {A} (a : list A) : forall b c x d, a ++ b = c ++ x :: d ->
  (exists d', a = c ++ x :: d') \/ exists k, c = a ++ k /\ b = k ++ x :: d.
Proof.
  induction a as [|y a IH]; intros b c x d H; [right; exists c; auto|].
  destruct c as [|z c]; cbn in H; injection H as -> H; [left; exists a; reflexivity|].
  destruct (IH _ _ _ _ H) as [[d' ->]|(k & -> & ->)]; [left|right]; eexists; cbn; eauto.
Qed.
Lemma world_split log n ls w o : world_run log n ls w o -> forall o1 x o2, o = o1 ++ x :: o2 ->
  exists ls1 w1 p1 l w2 o' k k', world_run log n ls1 w1 p1 /\ wstep log w1 l = Some (w2, o') /\ o' = k ++ x :: k' /\ o1 = p1 ++ k.
Proof.
  revert ls w o. apply (wrun_ind log n (fun _ _ o => forall o1 x o2, o = o1 ++ x :: o2 -> exists ls1 w1 p1 l w2 o' k k',
    world_run log n ls1 w1 p1 /\ wstep log w1 l = Some (w2, o') /\ o' = k ++ x :: k' /\ o1 = p1 ++ k)).
  - intros [|? ?] x o2 E; discriminate.
  - intros ls w o l w' o' R IH H o1 x o2 E. destruct (app_split _ _ _ _ _ E) as [[d ->]|(k & -> & ->)]; [exact (IH _ _ _ eq_refl)|].
    exists ls, w, o, l, w', (k ++ x :: o2), k, o2. auto.
Qed.
Lemma obs_only i l k x k' : map (WObs i) l = k ++ x :: k' -> exists y, x = WObs i y.
Proof. intros H. assert (X : In x (map (WObs i) l)) by (rewrite H; apply in_elt). apply in_map_iff in X as (y & <- & _). eauto. Qed.

Lemma begins_alone log n ls w o o1 r f o2 : world_run log n ls w o -> o = o1 ++ WBegin r f :: o2 ->
  (forall r', ~ running o1 f r') /\ ~ has_panicked o1 f.
Proof.
  intros R E. destruct (world_split _ _ _ _ _ R _ _ _ E) as (ls1 & w1 & p1 & l & w2 & o' & k & k' & R1 & H & Eo & ->).
  destruct (world_locks _ _ _ _ _ R1) as [A B].
  assert (K : k = [] /\ w_locks w1 f = Lock None false).
  { destruct (wstep_wcase _ _ _ _ _ H) as [i s x s' q En Es _|i s x s' q g En Es Ec Eb Eh Ei|i s g En Ec El|i s g s' q En Ec El Es|t g El|t g El|t g p Eh].
    - destruct (obs_only _ _ _ _ _ Eo) as [? X]. discriminate.
    - destruct (app_split _ _ _ _ _ Eo) as [[d X]|(k2 & _ & X)]; [destruct (obs_only _ _ _ _ _ X) as [? Y]; discriminate|].
      destruct k2 as [|? [|]]; discriminate.
    - destruct k as [|? [|]]; try discriminate. injection Eo as _ ->. auto.
    - destruct k as [|? k]; [discriminate|]. injection Eo as _ Eo. destruct (obs_only _ _ _ _ _ Eo) as [? X]. discriminate.
    - destruct k as [|? [|]]; try discriminate. injection Eo as _ ->. auto.
    - destruct k as [|? [|]]; discriminate.
    - destruct k as [|? [|]]; discriminate. }
  destruct K as [-> K]. rewrite app_nil_r. split.
  - intros r' X. apply A in X. rewrite K in X. discriminate.
  - intros X. apply B in X. rewrite K in X. discriminate.
Qed.
Lemma ends_by_runner log n ls w o o1 r f p o2 : world_run log n ls w o -> o = o1 ++ WEnd r f p :: o2 -> running o1 f r.
Proof.
  intros R E. destruct (world_split _ _ _ _ _ R _ _ _ E) as (ls1 & w1 & p1 & l & w2 & o' & k & k' & R1 & H & Eo & ->).
  destruct (world_locks _ _ _ _ _ R1) as [A _].
  destruct (wstep_wcase _ _ _ _ _ H) as [i s x s' q En Es _|i s x s' q g En Es Ec Eb Eh Ei|i s g En Ec El|i s g s' q En Ec El Es|t g El|t g El|t g p' Eh].
  - destruct (obs_only _ _ _ _ _ Eo) as [? X]. discriminate.
  - destruct (app_split _ _ _ _ _ Eo) as [[d X]|(k2 & -> & X)]; [destruct (obs_only _ _ _ _ _ X) as [? Y]; discriminate|].
    destruct k2 as [|? [|]]; try discriminate. injection X as <- <- _ _. rewrite app_nil_r, running_obs. apply A, held_by_iff. exact Eh.
  - destruct k as [|? [|]]; discriminate.
  - destruct k as [|? k]; [discriminate|]. injection Eo as _ Eo. destruct (obs_only _ _ _ _ _ Eo) as [? X]. discriminate.
  - destruct k as [|? [|]]; discriminate.
  - destruct k as [|? [|]]; discriminate.
  - destruct k as [|? [|]]; try discriminate. injection Eo as <- <- _ _. rewrite app_nil_r. apply A, held_by_iff. exact Eh.
Qed.
Lemma single_runner log n ls w o f r r' : world_run log n ls w o -> running o f r -> running o f r' -> r = r'.
Proof. intros R H H'. destruct (world_locks _ _ _ _ _ R) as [A _]. apply A in H, H'. congruence. Qed.
Lemma acts_while_running log n ls w o i l w' o' s f : world_run log n ls w o -> wstep log w (WClient i l) = Some (w', o') ->
  nth_error (w_clients w) i = Some s -> calling s = Some f -> of_body l = true -> running o f (RTask i).
Proof.
  intros R H En Ec Eb. destruct (world_locks _ _ _ _ _ R) as [A _]. apply A, held_by_iff. cbn [wstep] in H. rewrite En in H.
  destruct (step log s l) as [[s' o1]|]; [|discriminate]. rewrite Ec, Eb in H. destruct (held_by _ _); [reflexivity|discriminate].
Qed.

Lemma calls_in_order log n ls w o i s : world_run log n ls w o -> nth_error (w_clients w) i = Some s ->
  exists rest, calls_of i o = begun_by i o ++ refused_to i o ++ rest /\
    (refused_to i o = [] \/ exists f e, refused_to i o = [f] /\ rest = [] /\ s_phase s = PEnded e) /\
    (forall f, rest = [f] <-> calling s = Some f /\ ~ running o f (RTask i)) /\ (rest = [] \/ exists f, rest = [f]).
Proof.
  intros R En. destruct (world_tasks _ _ _ _ _ R) as [_ T2 T3 _]. destruct (world_locks _ _ _ _ _ R) as [A _].
  exists (waiting w i s). split; [exact (T2 _ _ En)|]. split; [|split].
  - destruct (T3 _ _ En) as [X|[[f X] [e Y]]]; [auto|]. right. exists f, e. unfold waiting. rewrite (ended_calling _ _ Y). auto.
  - intros f. unfold waiting. destruct (calling s) as [g|]; [|split; [discriminate|intros [X _]; discriminate]].
    destruct (held_by (RTask i) (w_locks w g)) eqn:E.
    + split; [discriminate|]. intros [X Y]. injection X as ->. apply held_by_iff, A in E. contradiction.
    + split.
      * intros X. injection X as ->. split; [reflexivity|]. intros X. apply A, held_by_iff in X. congruence.
      * intros [X _]. congruence.
  - unfold waiting. destruct (calling s) as [g|]; [|auto]. destruct (held_by _ _); eauto.
Qed.

Lemma waits_for_runner log n ls w o i s f : world_run log n ls w o -> nth_error (w_clients w) i = Some s ->
  calling s = Some f ->
  ((exists w' o', wstep log w (WEnter i) = Some (w', o')) <-> (forall r, ~ running o f r) /\ ~ has_panicked o f) /\
  ((exists w' o', wstep log w (WRefuse i) = Some (w', o')) <-> (forall r, ~ running o f r) /\ has_panicked o f).
Proof.
  intros R En Ec. destruct (world_locks _ _ _ _ _ R) as [A B]. cbn [wstep]. rewrite En, Ec.
  specialize (A f). specialize (B f). destruct (w_locks w f) as [[r|] p]; cbn [l_holder l_poisoned] in A, B.
  - split; (split; [intros (? & ? & X); discriminate|]); intros [X _]; destruct (X r); apply A; reflexivity.
  - assert (N : forall r, ~ running o f r) by (intros r X; apply A in X; discriminate).
    assert (P : exists s' o1, step log s LCbPanic = Some (s', o1)).
    { unfold calling in Ec. cbn [step]. destruct (s_phase s); try discriminate. eauto. }
    destruct P as (s' & o1 & ->). destruct p.
    + split; split; intros H; eauto; try (destruct H as (? & ? & X); discriminate).
      * destruct H as [_ H]. destruct H. apply B. reflexivity.
      * split; [exact N|]. apply B. reflexivity.
    + split; split; intros H; eauto; try (destruct H as (? & ? & X); discriminate).
      * split; [exact N|]. intros X. apply B in X. discriminate.
      * destruct H as [_ H]. apply B in H. discriminate.
Qed.

(** ** Refusals *)
Lemma refused_because log n ls w o o1 r f o2 : world_run log n ls w o -> o = o1 ++ WRefused r f :: o2 ->
  (exists r', In (WEnd r' f true) o1 /\ forall i, r = RTask i -> r' <> RTask i) /\ forall r', ~ running o1 f r'.
Proof.
  intros R E. destruct (world_split _ _ _ _ _ R _ _ _ E) as (ls1 & w1 & p1 & l & w2 & o' & k & k' & R1 & H & Eo & ->).
  destruct (world_locks _ _ _ _ _ R1) as [A B]. destruct (world_tasks _ _ _ _ _ R1) as [_ _ _ T4].
  assert (K : k = [] /\ w_locks w1 f = Lock None true /\ forall i, r = RTask i -> exists s, nth_error (w_clients w1) i = Some s /\ calling s = Some f).
  { destruct (wstep_wcase _ _ _ _ _ H) as [i s x s' q En Es _|i s x s' q g En Es Ec Eb Eh Ei|i s g En Ec El|i s g s' q En Ec El Es|t g El|t g El|t g p Eh].
    - destruct (obs_only _ _ _ _ _ Eo) as [? X]. discriminate.
    - destruct (app_split _ _ _ _ _ Eo) as [[d X]|(k2 & _ & X)]; [destruct (obs_only _ _ _ _ _ X) as [? Y]; discriminate|].
      destruct k2 as [|? [|]]; discriminate.
    - destruct k as [|? [|]]; discriminate.
    - destruct k as [|? k].
      + injection Eo as <- <- _. split; [reflexivity|]. split; [exact El|]. intros j X. injection X as <-. eauto.
      + injection Eo as _ Eo. destruct (obs_only _ _ _ _ _ Eo) as [? X]. discriminate.
    - destruct k as [|? [|]]; discriminate.
    - destruct k as [|? [|]]; try discriminate. injection Eo as <- <-. split; [reflexivity|]. split; [exact El|]. discriminate.
    - destruct k as [|? [|]]; discriminate. }
  destruct K as (-> & K & Hs). rewrite app_nil_r. split.
  - assert (X : has_panicked p1 f) by (apply B; rewrite K; reflexivity). destruct X as [r' X]. exists r'. split; [exact X|].
    intros i Hi ->. destruct (T4 _ _ X) as (s & e & E1 & E2). destruct (Hs i Hi) as (s0 & E3 & E4). rewrite E1 in E3. injection E3 as <-.
    rewrite (ended_calling _ _ E2) in E4. discriminate.
  - intros r' X. apply A in X. rewrite K in X. discriminate.
Qed.
(** A client that shares its callbacks with nobody is refused none. *)
Lemma own_callbacks log n ls w o i f : world_run log n ls w o -> (forall r, In (WBegin r f) o -> r = RTask i) ->
  ~ In (WRefused (RTask i) f) o.
Proof.
  intros R H X. apply in_split in X as (o1 & o2 & E). destruct (refused_because _ _ _ _ _ _ _ _ _ R E) as ((r & X & Y) & _).
  apply (Y i eq_refl). apply H. apply in_split in X as (a & b & ->). rewrite <- app_assoc in E. cbn in E.
  destruct (ends_by_runner _ _ _ _ _ _ _ _ _ _ R E) as (c & d & -> & _). subst o. rewrite <- app_assoc. cbn. apply in_elt.
Qed.

Lemma world_panics log n ls w o l w' o' i s : world_run log n ls w o -> wstep log w l = Some (w', o') -> nth_error (w_clients w) i = Some s ->
  (In (WObs i (OEnd EndPanic)) o' <->
   (exists m, l = WClient i (LRead m) /\ (overflow_message (obs_of i o) m \/ unshowable_message log (obs_of i o) m)) \/
   (l = WClient i LTake /\ In OChannelClosed (obs_of i o) /\ s_chan s = []) \/
   l = WClient i LCbPanic \/ l = WRefuse i).
Proof.
  intros R H En. pose proof (world_project _ _ _ _ _ R _ _ En) as P. apply run_trace' in P.
  assert (I : forall j q, In (WObs i (OEnd EndPanic)) (map (WObs j) q) <-> j = i /\ In (OEnd EndPanic) q).
  { intros j q. rewrite in_map_iff. split; [intros (y & X & Y); injection X as -> ->; auto|intros [-> X]; eauto]. }
  destruct (wstep_wcase _ _ _ _ _ H) as [j s0 x s' q En' Es _|j s0 x s' q g En' Es Ec Eb Eh Ei|j s0 g En' Ec El|j s0 g s' q En' Ec El Es|t g El|t g El|t g p Eh].
  - rewrite I. split.
    + intros [-> X]. rewrite En in En'. injection En' as <-. apply (panics_exactly _ _ _ _ _ _ P Es) in X as [(m & -> & X)|[(-> & X)| ->]]; eauto 8.
    + intros X. assert (j = i) as -> by (destruct X as [(m & X & _)|[(X & _)|[X|X]]]; congruence). split; [reflexivity|].
      rewrite En in En'. injection En' as <-. apply (panics_exactly _ _ _ _ _ _ P Es).
      destruct X as [(m & X & Y)|[(X & Y)|[X|X]]]; try discriminate; injection X as ->; eauto 8.
  - rewrite in_app_iff, I. split.
    + intros [[-> X]|[X|[]]]; [|discriminate]. rewrite En in En'. injection En' as <-. apply (panics_exactly _ _ _ _ _ _ P Es) in X as [(m & -> & X)|[(-> & X)| ->]]; eauto 8.
    + intros X. left. assert (j = i) as -> by (destruct X as [(m & X & _)|[(X & _)|[X|X]]]; congruence). split; [reflexivity|].
      rewrite En in En'. injection En' as <-. apply (panics_exactly _ _ _ _ _ _ P Es).
      destruct X as [(m & X & Y)|[(X & Y)|[X|X]]]; try discriminate; injection X as ->; eauto 8.
  - split; [intros [X|[]]; discriminate|]. intros [(m & X & _)|[(X & _)|[X|X]]]; discriminate.
  - cbn [In]. rewrite I. split.
    + intros [X|[-> _]]; [discriminate|]. auto.
    + intros [(m & X & _)|[(X & _)|[X|X]]]; try discriminate. injection X as ->. right. split; [reflexivity|].
      cbn [step] in Es. destruct (s_phase s0); try discriminate. injection Es as _ <-. left. reflexivity.
  - split; [intros [X|[]]; discriminate|]. intros [(m & X & _)|[(X & _)|[X|X]]]; discriminate.
  - split; [intros [X|[]]; discriminate|]. intros [(m & X & _)|[(X & _)|[X|X]]]; discriminate.
  - split; [intros [X|[]]; discriminate|]. intros [(m & X & _)|[(X & _)|[X|X]]]; discriminate.
Qed.

(** ** Cases *)
(** Two clients with the same callback; both get an event.  The callback runs in the first, while the
    second waits; then it panics. *)
Definition shared_start (i : nat) : list wlabel :=
  map (WClient i) (opened_run ++ [LTable (SetEvent (bs "/") (bs "news") 7%N); LRead (WText (bs "42[""news"",1]"))]).
Definition shared_run : list wlabel := shared_start 0 ++ [WEnter 0] ++ shared_start 1 ++ [WClient 0 LCbReturn; WEnter 1; WClient 1 LCbReturn] ++
  [WClient 0 (LRead (WText (bs "42[""news"",2]"))); WEnter 0; WClient 1 (LRead (WText (bs "42[""news"",3]")))].
Definition shared_panic : list wlabel := shared_run ++ [WClient 0 LCbPanic; WRefuse 1].
Definition world_of (ls : list wlabel) : world := match wexecute false (world_init 2) ls with Some (w, _) => w | None => world_init 0 end.
Definition wobs_of (ls : list wlabel) : list wobs := match wexecute false (world_init 2) ls with Some (_, o) => o | None => [] end.
Lemma shared_run_ok : world_run false 2 shared_run (world_of shared_run) (wobs_of shared_run).
Proof. unfold world_run, world_of, wobs_of. destruct (wexecute false (world_init 2) shared_run) as [[w o]|] eqn:E; [reflexivity|vm_compute in E; discriminate]. Qed.
Lemma shared_panic_ok : world_run false 2 shared_panic (world_of shared_panic) (wobs_of shared_panic).
Proof. unfold world_run, world_of, wobs_of. destruct (wexecute false (world_init 2) shared_panic) as [[w o]|] eqn:E; [reflexivity|vm_compute in E; discriminate]. Qed.
Definition refusal (i : nat) (f : cb) (x : wobs) : bool := match x with WRefused (RTask j) g => Nat.eqb i j && (f =? g)%N | _ => false end.
Lemma refusal_ok i f x : refusal i f x = true -> x = WRefused (RTask i) f.
Proof.
  destruct x as [| | |[j|] g]; try discriminate. cbn. rewrite Bool.andb_true_iff, Nat.eqb_eq, N.eqb_eq. intros [-> ->]. reflexivity.
Qed.
Lemma shared_refused : In (WRefused (RTask 1) 7%N) (wobs_of shared_panic).
Proof.
  assert (X : existsb (refusal 1 7%N) (wobs_of shared_panic) = true) by (vm_compute; reflexivity).
  apply existsb_exists in X as (x & X & Y). apply refusal_ok in Y. subst x. exact X.
Qed.
Definition no_end (i : nat) (x : wobs) : bool := match x with WEnd (RTask j) _ true => negb (Nat.eqb i j) | _ => true end.
Lemma C54_refuted_lemma : ~ C54_full.
Proof.
  intros F. specialize (F _ _ _ _ _ 1 7%N shared_panic_ok shared_refused).
  assert (E : forallb (no_end 1) (wobs_of shared_panic) = true) by (vm_compute; reflexivity).
  rewrite forallb_forall in E. specialize (E _ F). exact (Bool.diff_false_true E).
Qed.
