(** Ways out for a client that cannot go on writing (SpecPipe.v). *)
From Verif Require Export FrameProofs.
From Verif Require Import EndProofs CloseProofs EndingProofs PipeProofs SpecPipe PipeDemo PipeBytes.

Lemma writing_phase s size : outgoing s = Some size -> (exists m rest, s_phase s = PSending (m :: rest)) \/ s_phase s = PClosing.
Proof. unfold outgoing. destruct (s_phase s) as [| |[|m rest]| | | | |]; try discriminate; eauto. Qed.
Lemma way_out_fails cfg log n : client_writes n ->
  (exists n', nstep cfg log n (NClient LWriteErr) = Some (n', [OEnd EndWs]) /\ s_phase (n_client n') = PEnded EndWs) \/
  (exists n', nstep cfg log n (NClient (LCloseFrame false)) = Some (n', []) /\ s_phase (n_client n') = PReading).
Proof.
  destruct n as [c part up srv down got frames]. intros [(m & rest & P)|P]; cbn in P; [left|right]; cbn [nstep client_may step]; rewrite P; eexists; split; reflexivity.
Qed.
Lemma way_out_closes cfg log n : client_writes n -> usable_client (n_client n) = true -> s_handle (n_client n) = HHeld ->
  exists n', nexecute cfg log n [NClient LCloseCall; NClient LCloseTimeout; NClient LCancel] = Some (n', [OCloseCalled; OClose CloseTimeout; OEnd EndCancelled]) /\
    s_phase (n_client n') = PEnded EndCancelled.
Proof.
  destruct n as [c part up srv down got frames]. cbn [n_client]. intros W U H. cbn [nexecute nstep client_may step]. rewrite U, H. cbn.
  destruct W as [(m & rest & P)|P]; cbn in P; rewrite P; eexists; split; reflexivity.
Qed.
Lemma ways_out cfg log ls n o : net_run cfg log ls n o -> neither_fits cfg n ->
  ((exists n', nstep cfg log n (NClient LWriteErr) = Some (n', [OEnd EndWs]) /\ s_phase (n_client n') = PEnded EndWs) \/
   (exists n', nstep cfg log n (NClient (LCloseFrame false)) = Some (n', []) /\ s_phase (n_client n') = PReading)) /\
  (usable_client (n_client n) = true -> s_handle (n_client n) = HHeld ->
   exists n', nexecute cfg log n [NClient LCloseCall; NClient LCloseTimeout; NClient LCancel] = Some (n', [OCloseCalled; OClose CloseTimeout; OEnd EndCancelled]) /\
     s_phase (n_client n') = PEnded EndCancelled).
Proof.
  intros _ (_ & (size & Os & _) & _). assert (W : client_writes n) by (apply (writing_phase _ _ Os)). split; [apply way_out_fails; exact W|apply way_out_closes; exact W].
Qed.
(** What close() can report once the client is blocked. *)
Lemma blocked_close cfg log ls n o ls' n' o' r : net_run cfg log ls n o -> neither_fits cfg n ->
  ~ In (NClient (LCloseFrame false)) ls' -> nexecute cfg log n ls' = Some (n', o') -> In (OClose r) o' ->
  (r = CloseTimeout \/ r = CloseAlready) \/
  (r = CloseErr EndWs /\ s_phase (n_client n') = PEnded EndWs) \/ (r = ClosePanic /\ s_phase (n_client n') = PEnded EndAborted).
Proof.
  intros R F C H I. destruct (blocked_run_stays _ _ _ _ _ _ _ _ R F C H) as [B _].
  assert (R' : net_run cfg log (ls ++ ls') n' (o ++ o')) by (exact (nexecute_app _ _ _ _ _ _ _ _ _ R H)).
  destruct (nexecute_client _ _ _ _ _ _ R') as [cl Rc]. pose proof (net_trace _ _ _ _ _ R') as T. pose proof (trace_ended _ _ _ T) as E.
  assert (Hi : In (OClose r) (o ++ o')) by (apply in_or_app; auto).
  destruct (in_split _ _ Hi) as (o1 & o2 & Eo). assert (T' := T). rewrite Eo in T'. pose proof (close_reports _ _ _ _ _ T') as K.
  assert (E1 : forall e, In (OEnd e) o1 -> s_phase (n_client n') = PEnded e) by (intros e He; apply E; rewrite Eo; apply in_or_app; auto).
  assert (E2 : forall e, s_phase (n_client n') = PEnded e -> e = EndWs \/ e = EndCancelled \/ e = EndAborted).
  { intros e P. destruct B as [[(_ & (z & Hz & _) & _) _]|(e' & P' & Q)].
    - unfold outgoing in Hz. rewrite P in Hz. discriminate.
    - rewrite P in P'. injection P' as <-. exact Q. }
  destruct r as [|e| | |]; auto.
  - destruct (E2 _ (E1 _ K)) as [X|[X|X]]; discriminate.
  - destruct K as (K & _ & _ & N). pose proof (E1 _ K) as P. pose proof (close_result_cause _ _ _ _ _ Rc Hi) as Z. cbn in Z.
    destruct (E2 _ P) as [ -> |[ -> | -> ]]; [auto| |contradiction]. destruct Z as [[Z _]|(x & m & Z & _)]; discriminate.
  - destruct K as [K|K]; pose proof (E1 _ K) as P; [destruct (E2 _ P) as [X|[X|X]]; discriminate|auto].
Qed.
Lemma way_out_case : exists ls n o, net_run (Pipes 8 8 false) false ls n o /\ neither_fits (Pipes 8 8 false) n /\
  usable_client (n_client n) = true /\ s_handle (n_client n) = HHeld.
Proof.
  assert (Ho : open_pipes (Pipes 8 8 false)) by (split; reflexivity).
  destruct (blocking _ false Ho) as (ls & o & R & _). exists ls, (blocked_net (Pipes 8 8 false)), o. split; [exact R|].
  split; [exact (blocked_fits (Pipes 8 8 false) eq_refl)|]. split; reflexivity.
Qed.
Lemma written_in_bytes cfg log ls n o ts rs : net_run cfg log ls n o ->
  Forall2 (fun m t => ws_frame m true t) (writes o ++ close_frames o) ts -> Forall2 (fun m t => ws_frame m false t) (reads o) rs ->
  (N.of_nat (length (concat ts)) <= bytes_put ls)%N /\ (N.of_nat (length (concat rs)) <= bytes_fetched ls)%N.
Proof.
  intros R F G. destruct (bytes_accounted _ _ _ _ _ R) as (_ & _ & A & B & _).
  rewrite (stream_size _ _ _ F), (stream_size _ _ _ G). split; [exact A|exact B].
Qed.
