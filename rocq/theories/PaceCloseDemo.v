(** Runs with a clock that show that the bounds for closing are reached. *)
From Verif Require Export PaceClose.
From Coq Require Import Lia.

Definition tick_frame : wsmsg := WText (bs "42[""tick""]").
Definition opened_state : state * list obs := match execute false init opened_run with Some r => r | None => (init, []) end.
(** The client is connected and [ch] is in the channel; and the same when [close()] has been called. *)
Definition with_queue (ch : list (list wsmsg)) : state := set_chan ch (fst opened_state).
Definition told_state : state := match execute false init (opened_run ++ [LCloseCall]) with Some (s, _) => s | None => init end.
Definition told_loop (ch : list (list wsmsg)) : state := set_chan ch told_state.
Definition told_sending (ch : list (list wsmsg)) : state := set_chan ch (set_phase (PSending [tick_frame]) told_state).

Definition queue_many (n : nat) : list (nat * obs) := map (pair 0) (snd opened_state) ++ map (pair 0) (repeat (OQueued ByUser [tick_frame]) n).
Lemma queue_step ch : step false (with_queue ch) (LRaw [tick_frame]) = Some (with_queue (ch ++ [[tick_frame]]), [OQueued ByUser [tick_frame]]).
Proof. reflexivity. Qed.
Lemma many_queued d k n : later false d k (Clock init 0 0 0 0 []) (Clock (with_queue (repeat [tick_frame] n)) 0 0 0 0 (queue_many n)).
Proof.
  induction n as [|n IH].
  - unfold queue_many. cbn [repeat map]. rewrite app_nil_r. apply (at_once false d k 0 opened_run init [] _ _); vm_compute; reflexivity.
  - eapply lt_tick; [exact IH|].
    pose proof (tk_step false d k _ 0 0 0 0 (queue_many n) _ _ _ (queue_step (repeat [tick_frame] n)) ltac:(discriminate) ltac:(discriminate)) as T.
    cbn [passes passes_close] in T. replace (if by_task (LRaw [tick_frame]) || negb (busy (with_queue (repeat [tick_frame] n))) then 0 else 0) with 0 in T by (destruct (_ || _); reflexivity).
    change (repeat [tick_frame] (S n)) with ([tick_frame] :: repeat [tick_frame] n). rewrite repeat_cons.
    replace (queue_many (S n)) with (queue_many n ++ map (pair 0) [OQueued ByUser [tick_frame]]); [exact T|].
    unfold queue_many. cbn [repeat]. rewrite repeat_cons, map_app, app_assoc. reflexivity.
Qed.
Definition close_start (k : nat) : clock :=
  Clock (told_sending (repeat [tick_frame] k)) 0 0 0 0 ((queue_many (S k) ++ map (pair 0) []) ++ map (pair 0) [OCloseCalled]).
Lemma close_start_paced d k : paced false d k (close_start k).
Proof.
  exists 0. eapply lt_tick; [eapply lt_tick; [exact (many_queued d k (S k))|]|].
  - exact (tk_step false d k (with_queue (repeat [tick_frame] (S k))) 0 0 0 0 (queue_many (S k)) LTake
      (set_chan (repeat [tick_frame] k) (set_phase (PSending [tick_frame]) (fst opened_state))) [] eq_refl ltac:(discriminate) ltac:(vm_compute; discriminate)).
  - exact (tk_step false d k (set_chan (repeat [tick_frame] k) (set_phase (PSending [tick_frame]) (fst opened_state))) 0 0 0 0 _ LCloseCall
      (told_sending (repeat [tick_frame] k)) [OCloseCalled] eq_refl ltac:(discriminate) ltac:(discriminate)).
Qed.
Lemma repeat_snoc_writes (n : nat) : repeat tick_frame (S n) = repeat tick_frame n ++ [tick_frame].
Proof. cbn. apply repeat_cons. Qed.
Definition queued_many (o : list (nat * obs)) (k : nat) : Prop := queued (map snd o) = repeat [tick_frame] (S k).
Lemma start_seen k : queued (observed (close_start k)) = repeat [tick_frame] (S k) /\ writes (observed (close_start k)) = [] /\ In OCloseCalled (observed (close_start k)).
Proof.
  unfold observed, close_start, queue_many. cbn [k_seen]. rewrite !map_app, !map_snd_pair, !queued_app, !writes_app.
  assert (Q : forall n, queued (repeat (OQueued ByUser [tick_frame]) n) = repeat [tick_frame] n /\ writes (repeat (OQueued ByUser [tick_frame]) n) = []).
  { induction n as [|n [IH1 IH2]]; [split; reflexivity|]. cbn [repeat]. split; [change (queued (?x :: ?y)) with (queued ([x] ++ y)) | change (writes (?x :: ?y)) with (writes ([x] ++ y))]; rewrite ?queued_app, ?writes_app, ?IH1, ?IH2; reflexivity. }
  destruct (Q (S k)) as [Q1 Q2]. rewrite Q1, Q2.
  replace (queued (snd opened_state)) with (@nil (list wsmsg)) by (vm_compute; reflexivity).
  replace (writes (snd opened_state)) with (@nil wsmsg) by (vm_compute; reflexivity).
  split; [cbn [queued map app]; rewrite ?app_nil_r; reflexivity|]. split; [reflexivity|]. apply in_or_app. right. left. reflexivity.
Qed.
Lemma close_rounds d k n : n <= k -> exists o, later false d k (close_start k) (Clock (told_sending (repeat [tick_frame] (k - n))) (2 * n * d) (2 * n * d) 0 n o) /\
  writes (map snd o) = repeat tick_frame n /\ queued_many o k.
Proof.
  induction n as [|n IH]; intros Hn.
  - exists (k_seen (close_start k)). rewrite Nat.sub_0_r. split; [apply lt_here|]. destruct (start_seen k) as (A & B & _). split; [exact B|exact A].
  - destruct (IH ltac:(lia)) as (o & L & W & Q). clear IH. set (t := 2 * n * d) in *.
    replace (k - n) with (S (k - S n)) in L by lia. set (ch := repeat [tick_frame] (k - S n)) in *. cbn [repeat] in L. fold ch in L.
    exists ((o ++ map (pair (t + d)) [OWrite tick_frame]) ++ map (pair (t + d + d)) []). split; [|split].
    + replace (2 * S n * d) with (t + d + d) by (unfold t; lia).
      eapply lt_tick; [eapply lt_tick; [eapply lt_tick; [eapply lt_tick; [exact L|]|]|]|].
      * apply (tk_wait false d k (told_sending ([tick_frame] :: ch)) t (t + d) t 0 n o); lia.
      * exact (tk_step false d k (told_sending ([tick_frame] :: ch)) (t + d) t 0 n o LWrite (told_loop ([tick_frame] :: ch)) [OWrite tick_frame] eq_refl ltac:(discriminate) ltac:(discriminate)).
      * apply (tk_wait false d k (told_loop ([tick_frame] :: ch)) (t + d) (t + d + d) (t + d) 0 n _); lia.
      * exact (tk_step false d k (told_loop ([tick_frame] :: ch)) (t + d + d) (t + d) 0 n _ LTake (told_sending ch) [] eq_refl ltac:(discriminate) ltac:(intros _; exact Hn)).
    + rewrite !map_app, !map_snd_pair, !writes_app, W, repeat_snoc_writes, app_nil_r. reflexivity.
    + unfold queued_many in *. rewrite !map_app, !map_snd_pair, !queued_app, Q, !app_nil_r. reflexivity.
Qed.
Lemma close_bound_reached d k : exists c c', paced false d k c /\ later false d k c c' /\ In OCloseCalled (observed c) /\
  Forall (fun fs => length fs <= 1) (queued (observed c')) /\ k_now c' = k_now c + d * steps_to_close k 1 c /\ s_phase (k_state c') = PClosing /\
  writes (observed c) = [] /\ writes (observed c') = repeat tick_frame (k + 1).
Proof.
  destruct (close_rounds d k k (le_n k)) as (o & L & W & Q). rewrite Nat.sub_diag in L. cbn [repeat] in L. set (t := 2 * k * d) in *.
  exists (close_start k), (Clock (set_phase PClosing (told_loop [])) (t + d + d + d) (t + d + d) 0 k ((o ++ map (pair (t + d)) [OWrite tick_frame]) ++ map (pair (t + d + d)) [])).
  destruct (start_seen k) as (A & B & C).
  split; [apply close_start_paced|]. split; [|split; [exact C|split; [|split; [|split; [reflexivity|split; [exact B|]]]]]].
  - eapply lt_tick; [eapply lt_tick; [eapply lt_tick; [eapply lt_tick; [eapply lt_tick; [exact L|]|]|]|]|].
    + apply (tk_wait false d k (told_sending []) t (t + d) t 0 k o); lia.
    + exact (tk_step false d k (told_sending []) (t + d) t 0 k o LWrite (told_loop []) [OWrite tick_frame] eq_refl ltac:(discriminate) ltac:(discriminate)).
    + apply (tk_wait false d k (told_loop []) (t + d) (t + d + d) (t + d) 0 k _); lia.
    + exact (tk_step false d k (told_loop []) (t + d + d) (t + d) 0 k _ LClosed (set_phase PClosing (told_loop [])) [] eq_refl ltac:(discriminate) ltac:(discriminate)).
    + apply (tk_wait false d k (set_phase PClosing (told_loop [])) (t + d + d) (t + d + d + d) (t + d + d) 0 k _); lia.
  - unfold observed. cbn [k_seen]. unfold queued_many in Q. rewrite !map_app, !map_snd_pair, !queued_app, Q. cbn [queued flat_map app]. rewrite !app_nil_r.
    apply Forall_forall. intros x Hx. apply repeat_spec in Hx. subst x. cbn. lia.
  - unfold steps_to_close, in_hand. cbn [k_now k_state close_start told_sending s_phase set_chan set_phase length]. unfold t. lia.
  - unfold observed. cbn [k_seen]. rewrite !map_app, !map_snd_pair, !writes_app, W, app_nil_r. rewrite Nat.add_1_r, repeat_snoc_writes. reflexivity.
Qed.
Lemma close_goes_out d k : exists c c', paced false d k c /\ later false d k c c' /\ In OCloseCalled (observed c) /\
  Forall (fun fs => length fs <= 1) (queued (observed c')) /\ k_now c + d * steps_to_close k 1 c < k_now c' /\ In OCloseFrame (observed c') /\
  writes (observed c) = [] /\ writes (observed c') = repeat tick_frame (k + 1).
Proof.
  destruct (close_bound_reached d k) as (c & c' & P & L & Cl & F & N & Ph & W & W').
  destruct c' as [s t a n w o]. cbn [k_now k_state] in *.
  assert (E : step false s (LCloseFrame true) = Some (set_phase PReading s, [OCloseFrame])) by (cbn; rewrite Ph; reflexivity).
  exists c, (Clock (set_phase PReading s) (S t) t n w (o ++ map (pair t) [OCloseFrame])). split; [exact P|]. split; [|split; [exact Cl|split; [|split; [|split; [|split; [exact W|]]]]]].
  - eapply lt_tick; [eapply lt_tick; [exact L|]|].
    + exact (tk_step false d k s t a n w o (LCloseFrame true) _ _ E ltac:(discriminate) ltac:(discriminate)).
    + apply (tk_wait false d k (set_phase PReading s) t (S t) t n w _); [lia|discriminate].
  - unfold observed in *. cbn [k_seen] in *. rewrite map_app, queued_app, map_snd_pair, app_nil_r. exact F.
  - cbn [k_now]. lia.
  - unfold observed. cbn [k_seen]. rewrite map_app, map_snd_pair. apply in_or_app. right. left. reflexivity.
  - unfold observed in *. cbn [k_seen] in *. rewrite map_app, writes_app, map_snd_pair, app_nil_r. exact W'.
Qed.
