(** Runs with a clock: time goes on, the bound is reached, and examples. *)
From Verif Require Export PaceProofs PanicProofs.
From Coq Require Import Lia.

(** ** Time goes on *)
Lemma next_step log d k c : paced log d k c -> busy (k_state c) = true -> exists c', ticks log d k c c' /\ k_now c' = k_now c /\ k_since c' = k_now c /\ task_ended (k_state c') = task_ended (k_state c).
Proof.
  intros P B. pose proof (paced_clocked _ _ _ _ P) as C. destruct c as [s t a n w o]. cbn [k_state k_now k_since] in *.
  assert (X : exists l s' o', step log s l = Some (s', o') /\ by_task l = true /\ passes s l = false /\ passes_close s l = false /\ task_ended s' = task_ended s).
  { unfold busy in B. destruct (s_phase s) as [| |rest| | |b c| |] eqn:E; try discriminate.
    - destruct (s_signal s) eqn:Es.
      + exists LClosed, (set_phase PClosing s), []. cbn. rewrite E, Es. unfold task_ended. cbn [s_phase set_phase]. rewrite E. auto 6.
      + destruct (s_chan s) as [|fs ch] eqn:Ec; [discriminate|]. exists LTake, (set_chan ch (set_phase (sending fs) s)), []. cbn. rewrite E, Ec. unfold task_ended. cbn [s_phase set_phase set_chan]. rewrite E. destruct fs; auto 6.
    - destruct rest as [|m rest]; [exfalso; exact (sending_nonempty _ _ _ _ (q_trace _ _ _ _ C) E eq_refl)|].
      exists LWrite, (set_phase (sending rest) s), [OWrite m]. cbn. rewrite E. unfold task_ended. cbn [s_phase set_phase]. rewrite E. destruct rest; auto 6.
    - exists (LCloseFrame true), (set_phase PReading s), [OCloseFrame]. cbn. rewrite E. unfold task_ended. cbn [s_phase set_phase]. rewrite E. auto 6.
    - exists LCbReturn, (set_phase (if b then PReading else PLoop) s), []. cbn. rewrite E. unfold task_ended. cbn [s_phase set_phase]. rewrite E. destruct b; auto 6. }
  destruct X as (l & s' & o' & H & Bt & Pa & Pc & Te). eexists. split; [apply (tk_step log d k s t a n w o l s' o' H); [rewrite Pa|rewrite Pc]; discriminate|].
  rewrite Bt. split; [reflexivity|]. split; [reflexivity|exact Te].
Qed.
Lemma paced_later log d k c c' : paced log d k c -> later log d k c c' -> paced log d k c'.
Proof. intros [t H] L. exists t. exact (later_trans _ _ _ _ _ _ H L). Qed.
Lemma one_more log d k c : 0 < d -> paced log d k c -> exists c', later log d k c c' /\ k_now c < k_now c' /\ task_ended (k_state c') = task_ended (k_state c).
Proof.
  intros D P. destruct (busy (k_state c)) eqn:B.
  - destruct (next_step _ _ _ _ P B) as (c1 & T & N & S & Te). destruct c1 as [s t a n w o]. cbn [k_now k_since] in *. subst t a.
    exists (Clock s (S (k_now c)) (k_now c) n w o). split; [|split; [cbn; lia|exact Te]].
    eapply lt_tick; [eapply lt_tick; [apply lt_here|exact T]|]. apply tk_wait; lia.
  - destruct c as [s t a n w o]. cbn [k_state k_now] in *. exists (Clock s (S t) a n w o). split; [|split; [cbn; lia|reflexivity]].
    eapply lt_tick; [apply lt_here|]. apply tk_wait; [lia|]. rewrite B. discriminate.
Qed.
Lemma time_goes_on log d k c t : 0 < d -> paced log d k c -> exists c', later log d k c c' /\ t <= k_now c' /\ task_ended (k_state c') = task_ended (k_state c).
Proof.
  intros D P. induction t as [|t (c1 & L & H & E)]; [exists c; split; [apply lt_here|split; [lia|reflexivity]]|].
  destruct (one_more _ _ _ _ D (paced_later _ _ _ _ _ P L)) as (c2 & L2 & H2 & E2). exists c2. split; [exact (later_trans _ _ _ _ _ _ L L2)|split; [lia|congruence]].
Qed.

(** ** At one instant *)
Fixpoint never_passes (log : bool) (s : state) (ls : list label) : bool :=
  match ls with
  | [] => true
  | l :: ls => negb (passes s l) && negb (passes_close s l) && match step log s l with Some (s', _) => never_passes log s' ls | None => true end
  end.
Lemma at_once log d k t ls : forall s o s' o', execute log s ls = Some (s', o') -> never_passes log s ls = true ->
  later log d k (Clock s t t 0 0 o) (Clock s' t t 0 0 (o ++ map (pair t) o')).
Proof.
  induction ls as [|l ls IH]; intros s o s' o' H N; cbn [execute] in H.
  - injection H as <- <-. cbn. rewrite app_nil_r. apply lt_here.
  - cbn [never_passes] in N. apply andb_true_iff in N as [Np N]. apply andb_true_iff in Np as [Np Nc]. apply negb_true_iff in Np, Nc.
    destruct (step log s l) as [[s1 o1]|] eqn:E1; [|discriminate]. destruct (execute log s1 ls) as [[s2 o2]|] eqn:E2; [|discriminate].
    injection H as <- <-. rewrite map_app, app_assoc. eapply later_trans; [|exact (IH _ _ _ _ E2 N)].
    eapply lt_tick; [apply lt_here|]. pose proof (tk_step log d k s t t 0 0 o l s1 o1 E1) as T. rewrite Np, Nc in T.
    specialize (T ltac:(discriminate) ltac:(discriminate)). replace (if by_task l || negb (busy s) then t else t) with t in T by (destruct (_ || _); reflexivity).
    destruct l; exact T.
Qed.

(** ** The bound is reached *)
(** A callback runs for events that come one after another; meanwhile a packet is queued. *)
Definition slow_event : wsmsg := WText (bs "42[""x"",2]").
Definition slow_pre : list label :=
  opened_run ++ [LTable (SetFallback (bs "/") 9%N); LRead slow_event; LRaw [WText (bs "42[""tick""]")]].
Definition slow_run : state * list obs := match execute false init slow_pre with Some r => r | None => (init, []) end.
Definition slow_calling : state := fst slow_run.
Definition slow_loop : state := set_phase PLoop slow_calling.
Definition slow_sees : list obs := match step false slow_loop (LRead slow_event) with Some (_, o) => o | None => [] end.
Lemma slow_pre_runs : execute false init slow_pre = Some (slow_calling, snd slow_run).
Proof. vm_compute. reflexivity. Qed.
Lemma slow_read : step false slow_loop (LRead slow_event) = Some (slow_calling, slow_sees).
Proof. vm_compute. reflexivity. Qed.
Lemma slow_return : step false slow_calling LCbReturn = Some (slow_loop, []).
Proof. vm_compute. reflexivity. Qed.
Definition slow_writing : state := set_chan [] (set_phase (PSending [WText (bs "42[""tick""]")]) slow_loop).
Lemma slow_take : step false slow_loop LTake = Some (slow_writing, []).
Proof. vm_compute. reflexivity. Qed.

Definition slow_start (d k : nat) : clock := Clock slow_calling 0 0 0 0 (map (pair 0) (snd slow_run)).
Lemma slow_paced d k : paced false d k (slow_start d k).
Proof.
  exists 0. apply (at_once false d k 0 slow_pre init [] _ _ slow_pre_runs). vm_compute. reflexivity.
Qed.
Lemma quiet_writes t (seen : list (nat * obs)) o : writes o = [] -> writes (map snd (seen ++ map (pair t) o)) = writes (map snd seen).
Proof. intros H. rewrite map_app, map_snd_pair, writes_app, H, app_nil_r. reflexivity. Qed.
Lemma slow_rounds d k n : n <= k -> exists o, later false d k (slow_start d k) (Clock slow_loop (d + 2 * n * d) (d + 2 * n * d) n 0 o) /\ writes (map snd o) = [].
Proof.
  induction n as [|n IH]; intros Hn.
  - set (o0 := map (pair 0) (snd slow_run)). exists (o0 ++ map (pair d) []). split.
    + eapply lt_tick; [eapply lt_tick; [apply lt_here|]|].
      * apply (tk_wait false d k slow_calling 0 d 0 0 0 o0); lia.
      * replace (d + 2 * 0 * d) with d by lia. exact (tk_step false d k slow_calling d 0 0 0 o0 LCbReturn slow_loop [] slow_return ltac:(discriminate) ltac:(discriminate)).
    + vm_compute. reflexivity.
  - destruct (IH ltac:(lia)) as (o & L & W). clear IH. set (t := d + 2 * n * d) in *.
    exists ((o ++ map (pair (t + d)) slow_sees) ++ map (pair (t + d + d)) []). split.
    + replace (d + 2 * S n * d) with (t + d + d) by (unfold t; lia).
      eapply lt_tick; [eapply lt_tick; [eapply lt_tick; [eapply lt_tick; [exact L|]|]|]|].
      * apply (tk_wait false d k slow_loop t (t + d) t n 0 o); lia.
      * exact (tk_step false d k slow_loop (t + d) t n 0 o (LRead slow_event) slow_calling slow_sees slow_read ltac:(intros _; exact Hn) ltac:(vm_compute; discriminate)).
      * apply (tk_wait false d k slow_calling (t + d) (t + d + d) (t + d) (S n) 0 _); lia.
      * exact (tk_step false d k slow_calling (t + d + d) (t + d) (S n) 0 _ LCbReturn slow_loop [] slow_return ltac:(discriminate) ltac:(discriminate)).
    + rewrite quiet_writes by reflexivity. rewrite quiet_writes by (vm_compute; reflexivity). exact W.
Qed.
Lemma slow_needs d k : steps_needed k (slow_start d k) = 3 + 2 * k.
Proof.
  unfold steps_needed, unwritten. replace (length (concat (queued (observed (slow_start d k))))) with 1 by (vm_compute; reflexivity).
  replace (length (writes (observed (slow_start d k)))) with 0 by (vm_compute; reflexivity).
  replace (length (s_chan (k_state (slow_start d k)))) with 1 by (vm_compute; reflexivity). lia.
Qed.
Lemma bound_reached d k : exists c c', paced false d k c /\ later false d k c c' /\
  k_now c' = k_now c + d * steps_needed k c /\ in_main_loop (k_state c') /\
  concat (queued (observed c)) = [WText (bs "42[""tick""]")] /\ writes (observed c') = [].
Proof.
  destruct (slow_rounds d k k (le_n k)) as (o & L & W). set (t := d + 2 * k * d) in *.
  exists (slow_start d k), (Clock slow_writing (t + d + d) (t + d) 0 0 (o ++ map (pair (t + d)) [])).
  split; [apply slow_paced|]. split; [|split; [|split; [exact I|split]]].
  - eapply lt_tick; [eapply lt_tick; [eapply lt_tick; [exact L|]|]|].
    + apply (tk_wait false d k slow_loop t (t + d) t k 0 o); lia.
    + exact (tk_step false d k slow_loop (t + d) t k 0 o LTake slow_writing [] slow_take ltac:(discriminate) ltac:(vm_compute; discriminate)).
    + apply (tk_wait false d k slow_writing (t + d) (t + d + d) (t + d) 0 0 _); lia.
  - rewrite slow_needs. cbn [k_now slow_start]. unfold t. lia.
  - vm_compute. reflexivity.
  - unfold observed. cbn [k_seen]. rewrite quiet_writes by reflexivity. exact W.
Qed.

(** Without a bound on how often the channel is passed over there is none on the time. *)
Lemma no_bound_at_all d : 0 < d -> forall B, exists k c c', paced false d k c /\ later false d k c c' /\
  k_now c + B < k_now c' /\ in_main_loop (k_state c') /\ unwritten c = 1 /\ length (s_chan (k_state c)) = 1 /\
  concat (queued (observed c)) = [WText (bs "42[""tick""]")] /\ writes (observed c') = [].
Proof.
  intros D B. exists B. destruct (slow_rounds d B B (le_n B)) as (o & L & W).
  exists (slow_start d B), (Clock slow_loop (d + 2 * B * d) (d + 2 * B * d) B 0 o).
  split; [apply slow_paced|]. split; [exact L|]. split; [cbn [k_now slow_start]; nia|]. split; [exact I|].
  split; [vm_compute; reflexivity|]. split; [vm_compute; reflexivity|]. split; [vm_compute; reflexivity|exact W].
Qed.

(** ** A run in which everything is written in time *)
(** A ping is read at time 0, the pong is taken at 2 and written at 5. *)
Definition ping_state : state * list obs := match execute false init (opened_run ++ [LRead (WText (bs "2"))]) with Some r => r | None => (init, []) end.
Definition ping_read : clock := Clock (fst ping_state) 0 0 0 0 (map (pair 0) (snd ping_state)).
Definition pong_taken : state := match step false (fst ping_state) LTake with Some (s, _) => s | None => init end.
Definition pong_sent : state := match step false pong_taken LWrite with Some (s, _) => s | None => init end.
Definition pong_written : clock := Clock pong_sent 20 5 0 0 ((map (pair 0) (snd ping_state) ++ map (pair 2) []) ++ map (pair 5) [OWrite (WText (bs "3"))]).
Lemma ping_paced : paced false 3 1 ping_read.
Proof.
  exists 0. apply (at_once false 3 1 0 (opened_run ++ [LRead (WText (bs "2"))]) init []); vm_compute; reflexivity.
Qed.
Lemma pong_later : later false 3 1 ping_read pong_written.
Proof.
  eapply lt_tick; [eapply lt_tick; [eapply lt_tick; [eapply lt_tick; [eapply lt_tick; [apply lt_here|]|]|]|]|].
  - apply (tk_wait false 3 1 (fst ping_state) 0 2 0 0 0 (map (pair 0) (snd ping_state))); lia.
  - apply (tk_step false 3 1 (fst ping_state) 2 0 0 0 (map (pair 0) (snd ping_state)) LTake pong_taken []); [vm_compute; reflexivity|discriminate|vm_compute; discriminate].
  - apply (tk_wait false 3 1 pong_taken 2 5 2 0 0); lia.
  - apply (tk_step false 3 1 pong_taken 5 2 0 0 _ LWrite pong_sent [OWrite (WText (bs "3"))]); [vm_compute; reflexivity|discriminate|discriminate].
  - apply (tk_wait false 3 1 pong_sent 5 20 5 0 0); [lia|]. replace (busy pong_sent) with false by (vm_compute; reflexivity). discriminate.
Qed.
