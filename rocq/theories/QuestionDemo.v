(** A life in which two questions are asked, and answered in the other order (C64). *)
From Verif Require Export QuestionProofs ClientDemo.
From Coq Require Import Lia.

(** ** Lives that follow a list of labels and then do nothing *)
Section Finite.
Context (log : bool) (ls : list label) (s : state) (o : list obs) (E : execute log init ls = Some (s, o)).
Notation r := (following log (nth_error ls)).
Lemma finite_at k : execute log init (firstn k ls) = Some (at_time r k, seen r k).
Proof.
  induction k as [|k IH]; [reflexivity|]. cbn [at_time following follow seen sees] in *. destruct (nth_error ls k) as [l|] eqn:N.
  - assert (F : firstn (S k) ls = firstn k ls ++ [l]).
    { clear -N. revert k N. induction ls as [|x l' IH]; intros [|k] N; try discriminate; cbn in *; [congruence|]. rewrite <- (IH k N). reflexivity. }
    assert (X : execute log init ls <> None) by congruence. rewrite <- (firstn_skipn (S k) ls), F in X.
    rewrite F, execute_app, IH. rewrite !execute_app, IH in X. cbn [execute] in *.
    destruct (step log (follow log (nth_error ls) k) l) as [[s1 o1]|]; [|contradiction X; reflexivity]. rewrite app_nil_r. reflexivity.
  - apply nth_error_None in N. rewrite firstn_all2 in IH by lia. rewrite firstn_all2, app_nil_r by lia. exact IH.
Qed.
Lemma finite_end k : length ls <= k -> at_time r k = s /\ seen r k = o.
Proof. intros H. pose proof (finite_at k) as F. rewrite firstn_all2, E in F by exact H. split; congruence. Qed.
Lemma finite_prefix k : exists o', o = seen r k ++ o'.
Proof.
  destruct (finite_end (max k (length ls)) (Nat.le_max_r _ _)) as [_ <-]. apply seen_grows. lia.
Qed.
Lemma finite_lives : lives log r.
Proof.
  apply following_lives. intros k. pose proof (finite_at (S k)) as F. destruct (nth_error ls k) as [l|] eqn:N; [|exact I].
  assert (G : firstn (S k) ls = firstn k ls ++ [l]).
  { clear -N. revert k N. induction ls as [|x l' IH]; intros [|k] N; try discriminate; cbn in *; [congruence|]. rewrite <- (IH k N). reflexivity. }
  rewrite G, execute_app, finite_at in F. cbn [execute] in F. intros X. cbn [at_time following] in F. rewrite X in F. discriminate.
Qed.
Lemma finite_answer i m p f a : does r i = Some (LRead m) -> sees r i = [ORead m; OCall p (AckCall f a)] -> completes (seen r i) m p.
Proof.
  intros Hd Hs. pose proof (proj2 finite_lives i) as H. rewrite Hd, Hs in H.
  destruct (reaction_exact _ _ _ _ _ _ (life_trace _ _ finite_lives i) H) as (out & Eo & Hr). injection Eo as <-.
  destruct (call_completes _ _ _ _ Hr p) as [Hc _]; [left; eexists; left; reflexivity|exact Hc].
Qed.
End Finite.

Definition ask_run : list label := opened_run ++
  [LEmit (Emission (bs "/") (bs "ask") [SetCallback 9%N] [SInt 1]);
   LEmit (Emission (bs "/a") (bs "and") [SetCallback 8%N] []);
   LRegister 1; LRegister 0; LPush 1; LTake; LPush 0; LWrite; LTake; LWrite;
   LRead (WText (bs "430[true]")); LCbReturn; LRead (WText (bs "43/a,1[2]")); LCbReturn].
Definition ask_life : life := following false (nth_error ask_run).
Definition ask_end : option (state * list obs) := Eval vm_compute in execute false init ask_run.
Definition ask_state : state := match ask_end with Some (s, _) => s | None => init end.
Definition ask_obs : list obs := match ask_end with Some (_, o) => o | None => [] end.
Lemma ask_ok : execute false init ask_run = Some (ask_state, ask_obs).
Proof. vm_compute. reflexivity. Qed.
Lemma ask_lives : lives false ask_life.
Proof. exact (finite_lives _ _ _ _ ask_ok). Qed.
Lemma ask_later k : exists j, k <= j /\ at_time ask_life j = ask_state.
Proof. exists (max k (length ask_run)). split; [lia|]. apply (finite_end _ _ _ _ ask_ok). lia. Qed.
Lemma ask_writes : writes_end ask_life.
Proof. intros k rest _. destruct (ask_later k) as (j & H & E). exists j. split; [exact H|]. rewrite E. vm_compute. discriminate. Qed.
Lemma ask_calls : callbacks_end ask_life.
Proof. intros k b c _. destruct (ask_later k) as (j & H & E). exists j. split; [exact H|]. rewrite E. vm_compute. discriminate. Qed.
Lemma ask_fair : fair_to false ask_life LTake.
Proof.
  intros k. exists (max k (length ask_run)). split; [lia|]. right. intros i Hi.
  destruct (finite_end _ _ _ _ ask_ok i ltac:(lia)) as [E _]. unfold ask_life. rewrite E. vm_compute. reflexivity.
Qed.
Lemma ask_goes : threads_go_on ask_life.
Proof. intros k x _. destruct (ask_later k) as (j & H & E). exists j. split; [exact H|]. right. rewrite E. vm_compute. tauto. Qed.
Lemma ask_few k : few_requests (seen ask_life k).
Proof.
  destruct (finite_prefix _ _ _ _ ask_ok k) as [o' E]. unfold few_requests, ask_life.
  assert (X : length (requested ask_obs) = 2) by (vm_compute; reflexivity). rewrite E, requested_app, app_length in X.
  assert (2 <= 2 ^ 64)%N by (vm_compute; discriminate). lia.
Qed.
Lemma ask_honest k : honest (seen ask_life k).
Proof.
  destruct (finite_prefix _ _ _ _ ask_ok k) as [o' E]. apply (honest_prefix _ o'). unfold ask_life. rewrite <- E.
  apply (honest_run_ok ask_state); [eapply run_trace; exact ask_ok|vm_compute; reflexivity].
Qed.
Lemma ask_answers : server_answers false ask_life.
Proof.
  intros k j ns id fs rest Hi _.
  assert (Hi' : In (OQueued (ByEmit ns (Some id)) fs) ask_obs) by (destruct (finite_prefix _ _ _ _ ask_ok k) as [o' ->]; apply in_app_iff; auto).
  assert (K : (ns = bs "/" /\ id = 0%N) \/ (ns = bs "/a" /\ id = 1%N)).
  { vm_compute in Hi'. repeat (destruct Hi' as [Hi'|Hi']; [try discriminate Hi'; injection Hi' as <- <- _; auto|]). destruct Hi'. }
  clear Hi Hi'. destruct K as [[-> ->]|[-> ->]].
  - exists 13. right. eexists _, _, _. split; [reflexivity|]. split; [eapply (finite_answer _ _ _ _ ask_ok); [reflexivity|vm_compute; reflexivity]|].
    split; [vm_compute; reflexivity|]. split; [vm_compute; reflexivity|discriminate].
  - exists 15. right. eexists _, _, _. split; [reflexivity|]. split; [eapply (finite_answer _ _ _ _ ask_ok); [reflexivity|vm_compute; reflexivity]|].
    split; [vm_compute; reflexivity|]. split; [vm_compute; reflexivity|discriminate].
Qed.

(** Two questions are under way; the answer to the first comes, with a binary value. *)
Definition ask_first : emission := Emission (bs "/") (bs "ask") [SetCallback 9%N] [SInt 1].
Definition ask_then : list label :=
  [LEmit (Emission (bs "/") (bs "and") [SetCallback 8%N] []); LRegister 1; LRegister 0; LPush 1; LPush 0; LTake; LWrite; LTake; LWrite].
Definition ask_sent : list wsmsg := [WText (bs "420[""ask"",1]")].
Definition ask_back : list wsmsg := [WText (bs "461-0[{""_placeholder"":true,""num"":0}]"); WBinary (x04 :: bs "ok")].
Lemma ask_case : exists s0 o0 s1 o1 s o2,
  trace true s0 o0 /\ step true s0 (LEmit ask_first) = Some (s1, o1) /\ question s0 ask_first (bs "/") 0 9%N /\
  execute true s1 ask_then = Some (s, o2) /\ few_requests (o0 ++ o1 ++ o2) /\
  In (OQueued (ByEmit (bs "/") (Some 0%N)) ask_sent) (o0 ++ o1 ++ o2) /\ unanswered (o0 ++ o1 ++ o2) (bs "/") 0 /\
  reading s /\ between_packets (o0 ++ o1 ++ o2) /\ live (o0 ++ o1 ++ o2) /\
  deliverable (OfAck 0) (bs "/") true [SBytes (bs "ok")] /\ build (OfAck 0) (bs "/") true [SBytes (bs "ok")] = Some ask_back.
Proof.
  destruct (execute true init opened_run) as [[s0 o0]|] eqn:E0; [|vm_compute in E0; discriminate].
  pose proof (run_trace _ _ _ _ E0) as T0. vm_compute in E0. injection E0 as <- <-.
  eexists _, _, _, _, _, _. split; [exact T0|]. split; [vm_compute; reflexivity|]. split; [repeat split|]. split; [vm_compute; reflexivity|].
  assert (N1 : ns_ok (bs "/")) by (apply ns_ok_check; reflexivity).
  split; [vm_compute; discriminate|]. split; [vm_compute; tauto|]. split.
  - intros a m b E (p & x & (_ & y & ps & rest & He & _) & _).
    assert (X : reads a = [] /\ m = sample_open).
    { destruct a as [|z a]; [injection E as <- _; split; reflexivity|]. cbn [app] in E. injection E as _ E.
      exfalso. apply (f_equal reads) in E. rewrite reads_app in E.
      assert (Z : [] = reads a ++ m :: reads b) by exact E. exact (app_cons_not_nil _ _ _ Z). }
    destruct X as [X ->]. rewrite X in He. vm_compute in He. inversion He.
  - split; [left; reflexivity|]. split; [exists []; apply as_nothing|]. split; [apply live_active; reflexivity|]. split; [|vm_compute; reflexivity].
    split; [exact N1|]. split; [reflexivity|]. split; [cbn; unfold u64_max; lia|]. split; [reflexivity|].
    split; [repeat constructor|]. split; [repeat constructor; cbn; lia|]. split; [|left; reflexivity].
    intros _. split; [repeat constructor|vm_compute; discriminate].
Qed.
Lemma ask_stays : (forall k, 3 <= k -> ~ past_loop (at_time ask_life k)) /\ (forall k, ~ In OChannelClosed (seen ask_life k)).
Proof.
  split.
  - intros k _ P. apply (past_mono _ _ ask_lives k (max k (length ask_run)) (Nat.le_max_l _ _)) in P.
    destruct (finite_end _ _ _ _ ask_ok _ (Nat.le_max_r k _)) as [E _]. unfold ask_life in P. rewrite E in P. vm_compute in P. exact P.
  - intros k Hi. assert (X : In OChannelClosed ask_obs) by (destruct (finite_prefix _ _ _ _ ask_ok k) as [o' ->]; apply in_app_iff; auto).
    vm_compute in X. repeat (destruct X as [X|X]; [discriminate X|]). exact X.
Qed.
