(** The bound on reading is reached for messages of any number of frames. *)
From Verif Require Export InboxDemo.
From Coq Require Import Lia.

Definition frames (f : nat) : list wsmsg := repeat tick_frame f.
(** [close()] has been called, [r] frames are still to be sent, and [ch] is in the channel. *)
Definition told_many (r : nat) (ch : list (list wsmsg)) : state := set_chan ch (set_phase (sending (frames r)) told_state).
Lemma wide_write r ch : step false (told_many (S r) ch) LWrite = Some (told_many r ch, [OWrite tick_frame]).
Proof. unfold told_many. generalize told_state. reflexivity. Qed.
Lemma wide_take f ch : step false (told_many 0 (frames f :: ch)) LTake = Some (told_many f ch, []).
Proof. unfold told_many. generalize told_state. reflexivity. Qed.
Lemma wide_queue f ch : step false (with_queue ch) (LRaw (frames f)) = Some (with_queue (ch ++ [frames f]), [OQueued ByUser (frames f)]).
Proof. unfold frames. generalize (repeat tick_frame f). intros fs. reflexivity. Qed.
Lemma wide_raws f n : forall ch, execute false (with_queue ch) (repeat (LRaw (frames f)) n) =
  Some (with_queue (ch ++ repeat (frames f) n), repeat (OQueued ByUser (frames f)) n).
Proof. induction n as [|n IH]; intros ch; [cbn; rewrite app_nil_r; reflexivity|]. cbn [repeat execute]. rewrite wide_queue, IH, <- app_assoc. reflexivity. Qed.
Definition wide_labels (f k : nat) : list label := opened_run ++ repeat (LRaw (frames f)) (S k) ++ [LTake; LCloseCall].
Definition wide_obs (f k : nat) : list obs := snd opened_state ++ repeat (OQueued ByUser (frames f)) (S k) ++ [OCloseCalled].
Lemma wide_runs f k : execute false init (wide_labels f k) = Some (told_many f (repeat (frames f) k), wide_obs f k).
Proof.
  unfold wide_labels, wide_obs. rewrite execute_app. replace (execute false init opened_run) with (Some (with_queue [], snd opened_state)) by (vm_compute; reflexivity).
  rewrite execute_app, wide_raws. unfold told_many. generalize (frames f). intros fs. cbn [app repeat]. reflexivity.
Qed.
Definition wide_start (f k : nat) : desk :=
  Desk (told_many f (repeat (frames f) k)) 0 0 0 [late_message] (([] ++ reads (wide_obs f k)) ++ [late_message]) ([] ++ map (pair 0) (wide_obs f k)).
Lemma told_born r ch : s_phase (told_many r ch) <> PUnborn.
Proof. unfold told_many. cbn [s_phase set_chan set_phase]. destruct (frames r); discriminate. Qed.
Lemma wide_attended d f k : attended false d k (wide_start f k).
Proof.
  exists 0. eapply on_turn; [exact (read_at_once false d k 0 _ init [] [] _ _ (wide_runs f k))|].
  pose proof (tn_arrive false d k (told_many f (repeat (frames f) k)) 0 0 0 [] ([] ++ reads (wide_obs f k)) ([] ++ map (pair 0) (wide_obs f k)) late_message (told_born _ _) eq_refl) as T.
  replace (if occupied (told_many f (repeat (frames f) k)) [] then 0 else 0) with 0 in T by (destruct (occupied _ _); reflexivity). exact T.
Qed.
Definition wide_seen (o : list (nat * obs)) (f k : nat) : Prop := reads (map snd o) = [sample_open] /\ queued (map snd o) = repeat (frames f) (S k).
Lemma wide_start_seen f k : wide_seen (e_seen (wide_start f k)) f k.
Proof.
  unfold wide_seen, wide_start, wide_obs. cbn [e_seen app]. rewrite map_snd_pair, !queued_app, !reads_app.
  assert (Q : forall n, queued (repeat (OQueued ByUser (frames f)) n) = repeat (frames f) n /\ reads (repeat (OQueued ByUser (frames f)) n) = []).
  { induction n as [|n [IH1 IH2]]; [split; reflexivity|]. cbn [repeat]. split; [change (queued (?x :: ?y)) with (queued ([x] ++ y)) | change (reads (?x :: ?y)) with (reads ([x] ++ y))]; rewrite ?queued_app, ?reads_app, ?IH1, ?IH2; reflexivity. }
  destruct (Q (S k)) as [Q1 Q2]. rewrite Q1, Q2.
  replace (queued (snd opened_state)) with (@nil (list wsmsg)) by (vm_compute; reflexivity).
  replace (reads (snd opened_state)) with [sample_open] by (vm_compute; reflexivity).
  split; [reflexivity|cbn [queued flat_map app]; rewrite ?app_nil_r; reflexivity].
Qed.
Lemma quiet_seen o t o' f k : wide_seen o f k -> reads o' = [] -> queued o' = [] -> wide_seen (o ++ map (pair t) o') f k.
Proof. unfold wide_seen. intros [A B] C D. rewrite map_app, map_snd_pair, reads_app, queued_app, A, B, C, D, !app_nil_r. auto. Qed.
Lemma wide_burst d f k n h ch r : forall t o, wide_seen o f k -> exists o', onward false d k (Desk (told_many r ch) t t n [late_message] h o)
  (Desk (told_many 0 ch) (t + r * d) (t + r * d) n [late_message] h o') /\ wide_seen o' f k.
Proof.
  induction r as [|r IH]; intros t o W; [exists o; rewrite Nat.add_0_r; split; [apply on_here|exact W]|].
  destruct (IH (t + d) (o ++ map (pair (t + d)) [OWrite tick_frame]) (quiet_seen o (t + d) [OWrite tick_frame] f k W eq_refl eq_refl)) as (o' & L & W').
  exists o'. split; [|exact W']. replace (t + S r * d) with (t + d + r * d) by lia. eapply onward_trans; [|exact L].
  eapply on_turn; [eapply on_turn; [apply on_here|]|].
  - apply (tn_wait false d k (told_many (S r) ch) t (t + d) t n [late_message] h o); lia.
  - exact (tn_step false d k (told_many (S r) ch) (t + d) t n [late_message] h o LWrite _ _ [late_message] (wide_write r ch) eq_refl ltac:(discriminate)).
Qed.
Lemma wide_rounds d f k n : n <= k -> exists o, onward false d k (wide_start f k)
    (Desk (told_many 0 (repeat (frames f) (k - n))) (f * d + n * (f + 1) * d) (f * d + n * (f + 1) * d) n [late_message] (e_came (wide_start f k)) o) /\ wide_seen o f k.
Proof.
  induction n as [|n IH]; intros Hn.
  - rewrite Nat.sub_0_r. cbn [Nat.mul]. rewrite Nat.add_0_r.
    exact (wide_burst d f k 0 (e_came (wide_start f k)) (repeat (frames f) k) f 0 (e_seen (wide_start f k)) (wide_start_seen f k)).
  - destruct (IH ltac:(lia)) as (o & L & W). clear IH. set (t := f * d + n * (f + 1) * d) in *.
    replace (k - n) with (S (k - S n)) in L by lia. set (ch := repeat (frames f) (k - S n)) in *. cbn [repeat] in L. fold ch in L.
    destruct (wide_burst d f k (S n) (e_came (wide_start f k)) ch f (t + d) (o ++ map (pair (t + d)) []) (quiet_seen o (t + d) [] f k W eq_refl eq_refl)) as (o' & L' & W').
    exists o'. split; [|exact W']. replace (f * d + S n * (f + 1) * d) with (t + d + f * d) by (unfold t; lia). eapply onward_trans; [|exact L'].
    eapply on_turn; [eapply on_turn; [exact L|]|].
    + apply (tn_wait false d k (told_many 0 (frames f :: ch)) t (t + d) t n [late_message] _ o); lia.
    + exact (tn_step false d k (told_many 0 (frames f :: ch)) (t + d) t n [late_message] _ o LTake _ _ [late_message] (wide_take f ch) eq_refl ltac:(intros _; exact Hn)).
Qed.
Lemma wide_end d f k : exists o, onward false d k (wide_start f k)
    (Desk (set_phase PReading (told_many 0 [])) (d * (f + k * (f + 1) + 3)) (d * (f + k * (f + 1) + 2)) k [late_message] (e_came (wide_start f k)) o) /\ wide_seen o f k.
Proof.
  destruct (wide_rounds d f k k (le_n k)) as (o & L & W). rewrite Nat.sub_diag in L. cbn [repeat] in L. set (t := f * d + k * (f + 1) * d) in *.
  replace (d * (f + k * (f + 1) + 3)) with (t + d + d + d) by (unfold t; lia). replace (d * (f + k * (f + 1) + 2)) with (t + d + d) by (unfold t; lia).
  exists ((o ++ map (pair (t + d)) []) ++ map (pair (t + d + d)) [OCloseFrame]). split; [|apply quiet_seen; [apply quiet_seen; auto|reflexivity|reflexivity]].
  eapply on_turn; [eapply on_turn; [eapply on_turn; [eapply on_turn; [eapply on_turn; [exact L|]|]|]|]|].
  - apply (tn_wait false d k (told_many 0 []) t (t + d) t k [late_message] _ o); lia.
  - exact (tn_step false d k (told_many 0 []) (t + d) t k [late_message] _ o LClosed (set_phase PClosing (told_many 0 [])) [] [late_message] eq_refl eq_refl ltac:(discriminate)).
  - apply (tn_wait false d k (set_phase PClosing (told_many 0 [])) (t + d) (t + d + d) (t + d) k [late_message] _ _); lia.
  - exact (tn_step false d k (set_phase PClosing (told_many 0 [])) (t + d + d) (t + d) k [late_message] _ _ (LCloseFrame true) (set_phase PReading (told_many 0 [])) [OCloseFrame] [late_message] eq_refl eq_refl ltac:(discriminate)).
  - apply (tn_wait false d k (set_phase PReading (told_many 0 [])) (t + d + d) (t + d + d + d) (t + d + d) k [late_message] _ _); lia.
Qed.
Lemma wide_bound_reached d k f : exists c c', attended false d k c /\ onward false d k c c' /\
  Forall (fun fs => length fs <= f) (queued (noticed c')) /\ e_now c' = e_now c + d * steps_to_read k f c /\ ~ over (e_state c') /\
  e_came c = [sample_open; late_message] /\ reads (noticed c') = [sample_open].
Proof.
  destruct (wide_end d f k) as (o & L & W). exists (wide_start f k). eexists. split; [apply wide_attended|]. split; [exact L|].
  split; [|split; [|split; [|split]]].
  - unfold noticed. cbn [e_seen]. rewrite (proj2 W). apply Forall_forall. intros x Hx. apply repeat_spec in Hx. subst x. unfold frames. rewrite repeat_length. lia.
  - unfold steps_to_read, in_hand. cbn [e_now e_state e_inbox wide_start told_many s_phase set_chan set_phase length].
    replace (match sending (frames f) with PSending rest => length rest | PCalling _ _ => 1 | _ => 0 end) with f; [lia|].
    destruct f as [|f]; [reflexivity|]. unfold frames. cbn [repeat sending length]. rewrite repeat_length. reflexivity.
  - cbn. intros [X|X]; discriminate.
  - rewrite (u_came _ _ _ _ (attended_manned _ _ _ _ (wide_attended d f k))). unfold noticed. rewrite (proj1 (wide_start_seen f k)). reflexivity.
  - exact (proj1 W).
Qed.
