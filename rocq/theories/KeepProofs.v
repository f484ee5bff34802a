(** Proofs about runs with a clock where both the queue and what arrives are attended to. *)
From Verif Require Export SpecKeep InboxDemo SentProofs.
From Coq Require Import Lia.

Lemma goes_trans log d k x y z : goes log d k x y -> goes log d k y z -> goes log d k x z.
Proof. intros H1 H2. induction H2; [exact H1|]. eapply go_on; eassumption. Qed.
Lemma joint_both log d k x y : joint log d k x y -> (fst y = fst x \/ ticks log d k (fst x) (fst y)) /\ turns log d k (snd x) (snd y).
Proof.
  intros H. destruct H; cbn [fst snd].
  - split; [right; constructor; assumption|constructor; assumption].
  - split; [left; reflexivity|constructor; assumption].
  - split; [right; constructor; assumption|apply tn_step; assumption].
Qed.
Lemma goes_both log d k x y : goes log d k x y -> later log d k (fst x) (fst y) /\ onward log d k (snd x) (snd y).
Proof.
  intros H. induction H as [|y z _ [L O] J]; [split; constructor|]. destruct (joint_both _ _ _ _ _ J) as [[->|T] U].
  - split; [exact L|eapply on_turn; eassumption].
  - split; [eapply lt_tick; eassumption|eapply on_turn; eassumption].
Qed.
(** The two are of the same run; and not both the queue and what arrives have just been passed over. *)
Definition agree (x : clock * desk) : Prop :=
  k_state (fst x) = e_state (snd x) /\ k_now (fst x) = e_now (snd x) /\ k_seen (fst x) = e_seen (snd x) /\ (k_passed (fst x) = 0 \/ e_passed (snd x) = 0).
Lemma agree_joint log d k x y : agree x -> joint log d k x y -> agree y.
Proof.
  intros (A & B & C & D) H. destruct H as [| |s t a n w o b r i h l s' o' i' E R]; unfold agree; cbn [fst snd k_state k_now k_seen k_passed e_state e_now e_seen e_passed] in *; auto.
  repeat (split; [reflexivity|]). destruct l; cbn [passes passes_reading]; auto.
Qed.
Lemma tended_both log d k x : tended log d k x -> paced log d k (fst x) /\ attended log d k (snd x) /\ agree x.
Proof.
  intros [t H]. destruct (goes_both _ _ _ _ _ H) as [L O]. split; [exists t; exact L|]. split; [exists t; exact O|].
  assert (A : agree (Clock init t t 0 0 [], Desk init t t 0 [] [] [])) by (unfold agree; cbn; auto).
  clear L O. induction H; [exact A|]. eapply agree_joint; eassumption.
Qed.
Lemma tended_goes log d k x y : tended log d k x -> goes log d k x y -> tended log d k y.
Proof. intros [t H] G. exists t. exact (goes_trans _ _ _ _ _ _ H G). Qed.

Lemma ping_count_prefix a b : ping_count a <= ping_count (a ++ b).
Proof.
  induction b as [|m b IH] using rev_ind; [rewrite app_nil_r; lia|]. rewrite app_assoc, ping_count_snoc. lia.
Qed.
Lemma over_past s : over s -> past_loop s.
Proof. rewrite over_is. unfold past_loop. intros [->|[e ->]]; exact I. Qed.
Theorem pings_answered_in_time log d k f x y z : tended log d k x -> goes log d k x y -> goes log d k y z ->
  Forall (fun fs => length fs <= f) (queued (noticed (snd y))) ->
  e_now (snd x) + d * steps_to_read k f (snd x) < e_now (snd y) ->
  e_now (snd y) + d * steps_needed k (fst y) < e_now (snd z) ->
  past_loop (e_state (snd z)) \/ In OChannelClosed (noticed (snd z)) \/
  ping_count (e_came (snd x)) <= pongs_written (noticed_until (e_now (snd y) + d * steps_needed k (fst y)) (snd z)).
Proof.
  intros K Gx Gy F N1 N2. pose proof (tended_goes _ _ _ _ _ K Gx) as Ky. pose proof (tended_goes _ _ _ _ _ Ky Gy) as Kz.
  destruct (tended_both _ _ _ _ K) as (_ & Ax & _). destruct (tended_both _ _ _ _ Ky) as (Py & Ay & Sy & Ty & Oy & _). destruct (tended_both _ _ _ _ Kz) as (_ & _ & Sz & Tz & Oz & _).
  destruct (goes_both _ _ _ _ _ Gx) as [_ Lx]. destruct (goes_both _ _ _ _ _ Gy) as [Ly _].
  assert (E1 : observed (fst y) = noticed (snd y)) by (unfold observed, noticed; rewrite Oy; reflexivity).
  assert (E2 : observed (fst z) = noticed (snd z)) by (unfold observed, noticed; rewrite Oz; reflexivity).
  assert (E3 : forall t, seen_until t (fst z) = noticed_until t (snd z)) by (intros t; unfold seen_until, noticed_until; rewrite Oz; reflexivity).
  rewrite <- Sz, <- E2. rewrite <- Ty in N2 |- *. rewrite <- Tz in N2. rewrite <- E3.
  destruct (pongs_in_time _ _ _ _ _ Py Ly N2) as [X|[X|X]]; auto.
  destruct (arrived_read_in_time _ _ _ _ _ _ Ax Lx F N1) as [O|[rest R]].
  - left. rewrite <- Sy in O. pose proof (over_past _ O) as Pa. clear - Ly Pa Py.
    induction Ly as [|c1 c2 L IH T]; [exact Pa|]. pose proof (paced_clocked _ _ _ _ (paced_later _ _ _ _ _ Py L)) as C.
    destruct T as [|s t a n w o l s' o' H]; [exact IH|]. cbn [k_state] in *. exact (past_stays _ _ _ (moving _ _ _ _ _ _ (q_trace _ _ _ _ C) H) IH).
  - right. right. eapply Nat.le_trans; [|exact X]. rewrite E1.
    assert (Q : exists rest', reads (noticed (snd y)) = e_came (snd x) ++ rest').
    { assert (E4 : forall t, seen_until t (fst y) = noticed_until t (snd y)) by (intros t; unfold seen_until, noticed_until; rewrite Oy; reflexivity).
      destruct (until_prefix _ _ _ _ (e_now (snd x) + d * steps_to_read k f (snd x)) Py) as [o Ho]. rewrite E1, E4 in Ho.
      exists (rest ++ reads o). rewrite Ho, reads_app, R, <- app_assoc. reflexivity. }
    destruct Q as [rest' ->]. apply ping_count_prefix.
Qed.

(** ** Time goes on *)
Lemma next_joint log d k c e : 1 <= k -> tended log d k (c, e) -> busy (k_state c) = true \/ occupied (e_state e) (e_inbox e) = true ->
  exists s t n w o r i h, joint log d k (c, e) (Clock s t t n w o, Desk s t t r i h o) /\ t = e_now e /\
  forall x, In (OEnd x) (map snd o) -> In (OEnd x) (noticed e) \/ ends_reading x.
Proof.
  intros K T B. destruct (tended_both _ _ _ _ T) as (P & A & S & N & O & Z). pose proof (paced_clocked _ _ _ _ P) as C.
  assert (V : Forall (fun m => ws_valid m = true) (e_inbox e)) by (destruct A as [t0 A]; apply (inbox_valid _ _ _ _ _ A); constructor).
  destruct c as [s t a n w o], e as [s2 t2 b r i h o2]. cbn [fst snd k_state k_now k_seen k_passed e_state e_now e_seen e_passed e_inbox] in *. subst s2 t2 o2.
  assert (X : exists l s' o' i', step log s l = Some (s', o') /\ reads_from i l i' /\ by_task l = true /\
    (passes s l = true -> n < k) /\ (passes_close s l = true -> w < k) /\ (passes_reading i l = true -> r < k) /\
    forall x, In (OEnd x) o' -> ends_reading x).
  { unfold busy, occupied in B. destruct (s_phase s) as [| |rest| | |b0 c| |] eqn:E; try (destruct B; discriminate).
    - destruct (s_signal s) eqn:Es.
      { exists LClosed, (set_phase PClosing s), [], i. cbn. rewrite E, Es. repeat split; auto; try discriminate; intros x X; cbn in X; intuition discriminate. }
      destruct i as [|m i].
      + destruct B as [B|B]; [|discriminate]. destruct (s_chan s) as [|fs ch] eqn:Ec; [discriminate|]. exists LTake, (set_chan ch (set_phase (sending fs) s)), [], [].
        cbn. rewrite E, Ec, Es. repeat split; auto; try discriminate; intros x X; cbn in X; intuition discriminate.
      + destruct (lt_dec n k) as [Hn|Hn].
        * inversion V as [|? ? Vm _]; subst. destruct (read_step log false m s) as [s' o'] eqn:Er. exists (LRead m), s', o', i. cbn. rewrite Vm, E, Er, Es. pose proof (fun e => read_ends _ _ _ _ _ _ e Er). repeat split; auto; discriminate.
        * destruct (s_chan s) as [|fs ch] eqn:Ec.
          -- inversion V as [|? ? Vm _]; subst. destruct (read_step log false m s) as [s' o'] eqn:Er. exists (LRead m), s', o', i. cbn. rewrite Vm, E, Er, Es, Ec. pose proof (fun e => read_ends _ _ _ _ _ _ e Er). repeat split; auto; discriminate.
          -- exists LTake, (set_chan ch (set_phase (sending fs) s)), [], (m :: i). cbn. rewrite E, Ec, Es. repeat split; auto; try discriminate; [intros _; lia|intros x X; cbn in X; intuition discriminate].
    - destruct rest as [|m rest]; [exfalso; exact (sending_nonempty _ _ _ _ (q_trace _ _ _ _ C) E eq_refl)|].
      exists LWrite, (set_phase (sending rest) s), [OWrite m], i. cbn. rewrite E. repeat split; auto; try discriminate; intros x X; cbn in X; intuition discriminate.
    - exists (LCloseFrame true), (set_phase PReading s), [OCloseFrame], i. cbn. rewrite E. repeat split; auto; try discriminate; intros x X; cbn in X; intuition discriminate.
    - destruct i as [|m i]; [destruct B; discriminate|]. inversion V as [|? ? Vm _]; subst. destruct (read_step log true m s) as [s' o'] eqn:Er. exists (LRead m), s', o', i. cbn. rewrite Vm, E, Er. pose proof (fun e => read_ends _ _ _ _ _ _ e Er). repeat split; auto; discriminate.
    - exists LCbReturn, (set_phase (if b0 then PReading else PLoop) s), [], i. cbn. rewrite E. repeat split; auto; try discriminate; intros x X; cbn in X; intuition discriminate. }
  destruct X as (l & s' & o' & i' & H & R & Bt & H1 & H2 & H3 & En). pose proof (jn_step log d k s t a n w o b r i h l s' o' i' H R H1 H2 H3) as J. rewrite Bt in J. cbn [orb] in J.
  do 8 eexists. split; [exact J|]. split; [reflexivity|]. intros x X. unfold noticed. cbn [e_seen].
  rewrite map_app, map_snd_pair in X. apply in_app_iff in X as [X|X]; [left; exact X|right; exact (En x X)].
Qed.
Theorem joint_goes_on log d k x t : 0 < d -> 1 <= k -> tended log d k x -> exists y, goes log d k x y /\ t <= e_now (snd y) /\
  forall e, In (OEnd e) (noticed (snd y)) -> In (OEnd e) (noticed (snd x)) \/ ends_reading e.
Proof.
  intros D K T. induction t as [|t (y & G & H & En)]; [exists x; split; [apply go_here|split; [lia|auto]]|].
  pose proof (tended_goes _ _ _ _ _ T G) as Ty. destruct y as [c e].
  assert (X : exists z, goes log d k (c, e) z /\ e_now e < e_now (snd z) /\ forall x, In (OEnd x) (noticed (snd z)) -> In (OEnd x) (noticed e) \/ ends_reading x).
  { destruct (busy (k_state c)) eqn:B1; [|destruct (occupied (e_state e) (e_inbox e)) eqn:B2].
    1, 2: (destruct (next_joint _ _ _ _ _ K Ty ltac:(auto)) as (s & u & n & w & o & r & i & h & J & -> & En2);
      exists (Clock s (S (e_now e)) (e_now e) n w o, Desk s (S (e_now e)) (e_now e) r i h o); split; [|split; [cbn; lia|exact En2]];
      eapply go_on; [eapply go_on; [apply go_here|exact J]|]; apply jn_wait; lia).
    destruct (tended_both _ _ _ _ Ty) as (_ & _ & S & N & O & _). destruct c as [s u a n w o], e as [s2 u2 b r i h o2]. cbn [fst snd k_state k_now k_seen e_state e_now e_seen e_inbox] in *. subst s2 u2 o2.
    exists (Clock s (S u) a n w o, Desk s (S u) b r i h o). split; [|split; [cbn; lia|auto]]. eapply go_on; [apply go_here|]. apply jn_wait; [lia| |]; congruence. }
  destruct X as (z & G2 & H2 & En2). exists z. split; [exact (goes_trans _ _ _ _ _ _ G G2)|]. cbn [snd] in *. split; [lia|].
  intros x0 X0. destruct (En2 _ X0); auto.
Qed.

(** ** A run: a ping arrives at time 0, is read at time 2, and the pong is written at time 7. *)
Fixpoint joint_passes (log : bool) (s : state) (ls : list label) : bool :=
  match ls with
  | [] => true
  | l :: ls => negb (passes s l) && negb (passes_close s l) && match step log s l with Some (s', _) => joint_passes log s' ls | None => true end
  end.
Lemma joint_at_once log d k t ls : forall s h o s' o', execute log s ls = Some (s', o') -> joint_passes log s ls = true ->
  goes log d k (Clock s t t 0 0 o, Desk s t t 0 [] h o) (Clock s' t t 0 0 (o ++ map (pair t) o'), Desk s' t t 0 [] (h ++ reads o') (o ++ map (pair t) o')).
Proof.
  induction ls as [|l ls IH]; intros s h o s' o' H N; cbn [execute] in H.
  - injection H as <- <-. cbn. rewrite !app_nil_r. apply go_here.
  - cbn [joint_passes] in N. apply andb_true_iff in N as [Np N]. apply andb_true_iff in Np as [Np Nc]. apply negb_true_iff in Np, Nc.
    destruct (step log s l) as [[s1 o1]|] eqn:E1; [|discriminate]. destruct (execute log s1 ls) as [[s2 o2]|] eqn:E2; [|discriminate].
    injection H as <- <-. rewrite map_app, app_assoc, reads_app, app_assoc. eapply goes_trans; [|exact (IH _ _ _ _ _ E2 N)].
    rewrite (step_reads _ _ _ _ _ E1). assert (Hl : (exists m, l = LRead m) \/ forall m, l <> LRead m) by (destruct l; eauto; right; discriminate).
    assert (I : forall b x, (if b || x then t else t) = t) by (intros [] []; reflexivity).
    destruct Hl as [[m ->]|Hl].
    + destruct (read_label _ _ _ _ _ E1) as (b & Hb & Hv & _). eapply go_on; [eapply go_on; [apply go_here|apply (jn_arrive log d k _ s t t 0 [] h o m); [rewrite Hb; destruct b; discriminate|exact Hv]]|].
      replace (if occupied s [] then t else t) with t by (destruct (occupied s []); reflexivity).
      pose proof (jn_step log d k s t t 0 0 o t 0 [m] (h ++ [m]) (LRead m) s1 o1 [] E1 eq_refl ltac:(rewrite Np; discriminate) ltac:(rewrite Nc; discriminate) ltac:(discriminate)) as J.
      rewrite Np, Nc, !I in J. exact J.
    + replace (match l with LRead m => [m] | _ => [] end) with (@nil wsmsg) by (destruct l; try reflexivity; exfalso; eapply Hl; reflexivity). rewrite app_nil_r.
      assert (R : reads_from [] l []) by (destruct l; try reflexivity; exfalso; eapply Hl; reflexivity).
      pose proof (jn_step log d k s t t 0 0 o t 0 [] h l s1 o1 [] E1 R ltac:(rewrite Np; discriminate) ltac:(rewrite Nc; discriminate) ltac:(destruct l; discriminate)) as J.
      rewrite Np, Nc, !I in J. eapply go_on; [apply go_here|]. destruct l; exact J.
Qed.
Definition keep_ping : wsmsg := WText (bs "2").
Definition keep_came : list wsmsg := ([] ++ reads (snd opened_state)) ++ [keep_ping].
Definition keep_seen0 : list (nat * obs) := [] ++ map (pair 0) (snd opened_state).
Definition keep_arrived : clock * desk := (Clock (fst opened_state) 0 0 0 0 keep_seen0, Desk (fst opened_state) 0 0 0 [keep_ping] keep_came keep_seen0).
Definition keep_read : state * list obs := match step false (fst opened_state) (LRead keep_ping) with Some r => r | None => (init, []) end.
Definition keep_taken : state := match step false (fst keep_read) LTake with Some (s, _) => s | None => init end.
Definition keep_sent : state := match step false keep_taken LWrite with Some (s, _) => s | None => init end.
Definition keep_seen : list (nat * obs) := ((keep_seen0 ++ map (pair 2) (snd keep_read)) ++ map (pair 4) []) ++ map (pair 7) [OWrite (WText (bs "3"))].
Definition keep_later (t : nat) : clock * desk := (Clock keep_sent t 7 0 0 keep_seen, Desk keep_sent t 7 0 [] keep_came keep_seen).
Lemma keep_tended : tended false 3 1 keep_arrived.
Proof.
  exists 0. eapply go_on; [apply (joint_at_once false 3 1 0 opened_run init [] [] (fst opened_state) (snd opened_state)); vm_compute; reflexivity|].
  exact (jn_arrive false 3 1 _ (fst opened_state) 0 0 0 [] _ _ keep_ping ltac:(vm_compute; discriminate) eq_refl).
Qed.
Lemma keep_goes : goes false 3 1 keep_arrived (keep_later 16).
Proof.
  eapply go_on; [eapply go_on; [eapply go_on; [eapply go_on; [eapply go_on; [eapply go_on; [eapply go_on; [apply go_here|]|]|]|]|]|]|].
  - apply (jn_wait false 3 1 (fst opened_state) 0 2 0 0 0 keep_seen0 0 0 [keep_ping] keep_came); [lia|intros _; lia|intros _; lia].
  - refine (jn_step false 3 1 (fst opened_state) 2 0 0 0 keep_seen0 0 0 [keep_ping] keep_came (LRead keep_ping) (fst keep_read) (snd keep_read) [] _ eq_refl _ _ _); [vm_compute; reflexivity|vm_compute; discriminate..].
  - apply (jn_wait false 3 1 (fst keep_read) 2 4 2 0 0 _ 2 0 [] keep_came); [lia|intros _; lia|intros _; lia].
  - refine (jn_step false 3 1 (fst keep_read) 4 2 0 0 _ 2 0 [] keep_came LTake keep_taken [] [] _ eq_refl _ _ _); [vm_compute; reflexivity|vm_compute; discriminate..].
  - apply (jn_wait false 3 1 keep_taken 4 7 4 0 0 _ 4 0 [] keep_came); [lia|intros _; lia|intros _; lia].
  - refine (jn_step false 3 1 keep_taken 7 4 0 0 _ 4 0 [] keep_came LWrite keep_sent [OWrite (WText (bs "3"))] [] _ eq_refl _ _ _); [vm_compute; reflexivity|vm_compute; discriminate..].
  - apply (jn_wait false 3 1 keep_sent 7 16 7 0 0 keep_seen 7 0 [] keep_came); [lia|vm_compute; discriminate..].
Qed.
Lemma keep_goes_on : goes false 3 1 (keep_later 16) (keep_later 20).
Proof. eapply go_on; [apply go_here|]. apply (jn_wait false 3 1 keep_sent 16 20 7 0 0 keep_seen 7 0 [] keep_came); [lia|vm_compute; discriminate..]. Qed.
Lemma tended_is_trace log d k x : tended log d k x -> trace log (e_state (snd x)) (noticed (snd x)) /\ e_came (snd x) = reads (noticed (snd x)) ++ e_inbox (snd x).
Proof. intros T. destruct (tended_both _ _ _ _ T) as (_ & A & _). exact (attended_is_trace _ _ _ _ A). Qed.
(** Every run of the client is such a run, for a [k] large enough. *)
Lemma joint_run log d k t ls : forall s h o n w s' o', execute log s ls = Some (s', o') -> n + length ls <= k -> w + length ls <= k ->
  exists n' w', goes log d k (Clock s t t n w o, Desk s t t 0 [] h o) (Clock s' t t n' w' (o ++ map (pair t) o'), Desk s' t t 0 [] (h ++ reads o') (o ++ map (pair t) o')).
Proof.
  induction ls as [|l ls IH]; intros s h o n w s' o' H Ln Lw; cbn [execute] in H.
  - injection H as <- <-. exists n, w. cbn. rewrite !app_nil_r. apply go_here.
  - cbn [length] in Ln, Lw. destruct (step log s l) as [[s1 o1]|] eqn:E1; [|discriminate]. destruct (execute log s1 ls) as [[s2 o2]|] eqn:E2; [|discriminate].
    injection H as <- <-. rewrite map_app, app_assoc, reads_app, app_assoc.
    set (n1 := if passes s l then S n else match l with LTake => 0 | _ => n end). set (w1 := if passes_close s l then S w else w).
    destruct (IH s1 (h ++ reads o1) (o ++ map (pair t) o1) n1 w1 s2 o2 E2) as (n' & w' & G).
    { unfold n1. destruct (passes s l); [lia|]. destruct l; lia. } { unfold w1. destruct (passes_close s l); lia. }
    exists n', w'. eapply goes_trans; [|exact G]. rewrite (step_reads _ _ _ _ _ E1).
    assert (Hl : (exists m, l = LRead m) \/ forall m, l <> LRead m) by (destruct l; eauto; right; discriminate).
    assert (I : forall b x, (if b || x then t else t) = t) by (intros [] []; reflexivity).
    destruct Hl as [[m ->]|Hl].
    + destruct (read_label _ _ _ _ _ E1) as (b & Hb & Hv & _). eapply go_on; [eapply go_on; [apply go_here|apply (jn_arrive log d k _ s t t 0 [] h o m); [rewrite Hb; destruct b; discriminate|exact Hv]]|].
      replace (if occupied s [] then t else t) with t by (destruct (occupied s []); reflexivity).
      pose proof (jn_step log d k s t t n w o t 0 [m] (h ++ [m]) (LRead m) s1 o1 [] E1 eq_refl ltac:(lia) ltac:(lia) ltac:(discriminate)) as J.
      rewrite !I in J. exact J.
    + replace (match l with LRead m => [m] | _ => [] end) with (@nil wsmsg) by (destruct l; try reflexivity; exfalso; eapply Hl; reflexivity). rewrite app_nil_r.
      assert (R : reads_from [] l []) by (destruct l; try reflexivity; exfalso; eapply Hl; reflexivity).
      pose proof (jn_step log d k s t t n w o t 0 [] h l s1 o1 [] E1 R ltac:(lia) ltac:(lia) ltac:(destruct l; discriminate)) as J.
      rewrite !I in J. eapply go_on; [apply go_here|]. fold n1 w1 in J. replace (if passes_reading [] l then 1 else match l with LRead _ => 0 | _ => 0 end) with 0 in J by (destruct l; reflexivity). exact J.
Qed.
Lemma trace_is_tended log d s o : trace log s o -> exists k x, tended log d k x /\ e_state (snd x) = s /\ noticed (snd x) = o.
Proof.
  intros [ls H]. destruct (joint_run log d (length ls) 0 ls init [] [] 0 0 s o H ltac:(lia) ltac:(lia)) as (n & w & G).
  exists (length ls). eexists. split; [exists 0; exact G|]. split; [reflexivity|]. unfold noticed. cbn [snd e_seen app]. apply map_snd_pair.
Qed.
Lemma tended_same log d k x : tended log d k x -> paced log d k (fst x) /\ attended log d k (snd x) /\
  k_state (fst x) = e_state (snd x) /\ k_now (fst x) = e_now (snd x) /\ observed (fst x) = noticed (snd x).
Proof.
  intros T. destruct (tended_both _ _ _ _ T) as (P & A & S & N & O & _). split; [exact P|]. split; [exact A|]. split; [exact S|]. split; [exact N|].
  unfold observed, noticed. rewrite O. reflexivity.
Qed.
