(** Connections that hold few bytes, or any number of them: runs and lives. *)
From Verif Require Export PipeProofs FairDemo.
From Coq Require Import Lia.

(** ** A run, and then nothing *)
Fixpoint nafter (cfg : pipes) (log : bool) (n : net) (ls : list nlabel) (k : nat) : net :=
  match k, ls with
  | S k', l :: ls' => match nstep cfg log n l with Some (n', _) => nafter cfg log n' ls' k' | None => n end
  | _, _ => n
  end.
Definition rest_life (cfg : pipes) (log : bool) (ls : list nlabel) : net_life :=
  NetLife (nafter cfg log net_init ls) (nth_error ls)
    (fun k => match nth_error ls k with
              | Some l => match nstep cfg log (nafter cfg log net_init ls k) l with Some (_, o) => o | None => [] end
              | None => []
              end).
Lemma nafter_step cfg log ls : forall n nf o k, nexecute cfg log n ls = Some (nf, o) ->
  match nth_error ls k with
  | Some l => exists o', nstep cfg log (nafter cfg log n ls k) l = Some (nafter cfg log n ls (S k), o')
  | None => nafter cfg log n ls k = nf /\ nafter cfg log n ls (S k) = nf
  end.
Proof.
  induction ls as [|l ls IH]; intros n nf o k H; cbn [nexecute] in H.
  - injection H as <- <-. destruct k; split; reflexivity.
  - destruct (nstep cfg log n l) as [[n1 o1]|] eqn:E1; [|discriminate]. destruct (nexecute cfg log n1 ls) as [[n2 o2]|] eqn:E2; [|discriminate]. injection H as <- <-.
    destruct k as [|k]; cbn [nth_error nafter].
    + exists o1. rewrite E1. destruct ls; reflexivity.
    + rewrite E1. exact (IH _ _ _ k E2).
Qed.
Lemma rest_lives cfg log ls nf o : net_run cfg log ls nf o -> net_lives cfg log (rest_life cfg log ls).
Proof.
  intros H. split; [destruct ls; reflexivity|]. intros k. cbn [n_does n_at n_sees rest_life].
  pose proof (nafter_step _ _ _ _ _ _ k H) as X. destruct (nth_error ls k) as [l|].
  - destruct X as [o' X]. rewrite X. reflexivity.
  - destruct X as [-> ->]. split; reflexivity.
Qed.
Lemma rest_later cfg log ls nf o k : net_run cfg log ls nf o -> length ls <= k ->
  n_at (rest_life cfg log ls) k = nf /\ n_does (rest_life cfg log ls) k = None.
Proof.
  intros H Hk. pose proof (nafter_step _ _ _ _ _ _ k H) as X. cbn [n_at n_does rest_life]. apply nth_error_None in Hk. rewrite Hk in *. destruct X as [X _]. split; [exact X|reflexivity].
Qed.
(** What holds from some moment on. *)
Lemma eventually (P : nat -> Prop) n : (forall k, n <= k -> P k) -> forall k, exists j, k <= j /\ P j.
Proof. intros H k. exists (n + k). split; [lia|apply H; lia]. Qed.
Lemma rest_fair cfg log ls nf o : net_run cfg log ls nf o ->
  let r := rest_life cfg log ls in
  ((forall size, outgoing (n_client nf) = Some size -> n_part nf = size \/ (cap_up cfg <= n_up nf)%N) -> pipe_takes cfg r) /\
  (n_up nf = 0%N -> server_reads r) /\
  (n_up nf = 0%N \/ n_server nf <> None -> server_reads_when_idle r) /\
  ((forall m d, n_server nf = Some (m, d) -> d <> frame_bytes false m /\ (cap_down cfg <= n_down nf)%N) -> server_goes_on cfg r) /\
  (complete nf = false -> writes_reported cfg log r) /\
  ((forall b c, s_phase (n_client nf) <> PCalling b c) -> callbacks_end (client_life r)) /\
  (forall l, step log (n_client nf) l = None -> fair_to log (client_life r) l).
Proof.
  intros H r. pose proof (fun k => rest_later cfg log ls nf o k H) as R.
  split; [|split; [|split; [|split; [|split; [|split]]]]].
  - intros C. unfold pipe_takes. apply (eventually _ (length ls)). intros k Hk. destruct (R k Hk) as [A _]. right. unfold r. rewrite A. exact C.
  - intros C. unfold server_reads. apply (eventually _ (length ls)). intros k Hk. destruct (R k Hk) as [A _]. right. unfold r. rewrite A. exact C.
  - intros C. unfold server_reads_when_idle. apply (eventually _ (length ls)). intros k Hk. destruct (R k Hk) as [A _]. right. unfold r. rewrite A. exact C.
  - intros C. unfold server_goes_on. apply (eventually _ (length ls)). intros k Hk. destruct (R k Hk) as [A _]. right. right. unfold r. rewrite A. exact C.
  - intros C k l Hl. exists (length ls + k). split; [lia|]. destruct (R (length ls + k) ltac:(lia)) as [A _]. right. unfold r. rewrite A.
    destruct nf as [c part up srv down got frames]. cbn [nstep]. destruct Hl as [->| ->]; cbn [client_may]; rewrite C; reflexivity.
  - intros C k b c _. exists (length ls + k). split; [lia|]. destruct (R (length ls + k) ltac:(lia)) as [A _]. cbn [at_time client_life]. unfold r. rewrite A. apply C.
  - intros l C k. exists (length ls + k). split; [lia|]. right. intros i Hi. destruct (R i ltac:(lia)) as [A _]. cbn [at_time client_life]. unfold r. rewrite A. exact C.
Qed.

(** ** A frame from the server to a client that listens *)
Lemma deliver_part cfg log c m : (0 < cap_down cfg)%N -> listening c = true -> forall k, N.of_nat k = N.of_nat k -> (N.of_nat k <= frame_bytes false m)%N ->
  exists ls, nexecute cfg log (Net c 0 0 None 0 0 []) ls = Some (Net c 0 0 (Some (m, N.of_nat k)) 0 (N.of_nat k) [m], []).
Proof.
  intros Hc Hl. induction k as [|k IH]; intros _ Hk.
  - exists [NBegin m]. reflexivity.
  - destruct (IH eq_refl ltac:(lia)) as [ls H]. exists (ls ++ [NServe 1; NFetch 1]).
    apply (nexecute_app _ _ _ _ _ _ _ _ [] H). cbn [nexecute].
    rewrite (nserve cfg log c 0 0 m (N.of_nat k) 0 (N.of_nat k) [m] 1 ltac:(lia) ltac:(lia) ltac:(lia)).
    cbn [nstep]. replace ((0 <? 1) && (1 <=? 0 + 1))%N%bool with true by reflexivity. rewrite Hl. cbn [andb app].
    replace (N.of_nat (S k)) with (N.of_nat k + 1)%N by lia. replace (0 + 1 - 1)%N with 0%N by lia. reflexivity.
Qed.
Lemma deliver cfg log c m c' o : (0 < cap_down cfg)%N -> listening c = true -> step log c (LRead m) = Some (c', o) ->
  exists ls, nexecute cfg log (Net c 0 0 None 0 0 []) ls = Some (Net c' 0 0 None 0 0 [], o).
Proof.
  intros Hc Hl Hs. destruct (deliver_part cfg log c m Hc Hl (N.to_nat (frame_bytes false m)) eq_refl ltac:(lia)) as [ls H].
  rewrite N2Nat.id in H. exists (ls ++ [NDone; NRead]). apply (nexecute_app _ _ _ _ _ _ _ _ o H). cbn [nexecute nstep].
  rewrite N.eqb_refl. cbn [nexecute nstep]. rewrite N.leb_refl, Hs, N.sub_diag, app_nil_r. reflexivity.
Qed.

(** ** A long event *)
Definition long (n : nat) : bytes := repeat "a"%byte n.
Definition shout (n : nat) : emission := Emission (bs "/") (bs "shout") [] [SStr (long n)].
Lemma escape_long n : escape (long n) = long n.
Proof. induction n as [|n IH]; [reflexivity|]. change (long (S n)) with ("a"%byte :: long n). rewrite <- IH at 2. reflexivity. Qed.
Definition shouted (n : nat) : wsmsg := WText (bs "42[""shout"",""" ++ long n ++ bs """]").
Lemma shout_packets n : event_packets (event_builder_new (bs "shout") (bs "/")) [SStr (long n)] = Some [shouted n].
Proof.
  rewrite event_packets_build. unfold build. cbn -[long]. rewrite escape_long. unfold shouted. cbn [app bs list_byte_of_string].
  do 2 f_equal. cbn -[long]. rewrite <- app_assoc. reflexivity.
Qed.
Lemma long_length n : length (long n) = n.
Proof. apply repeat_length. Qed.
Lemma shouted_size n : (N.of_nat n < frame_bytes true (shouted n))%N.
Proof.
  unfold frame_bytes, shouted. cbn [payload]. rewrite !app_length, long_length.
  destruct (_ <? 126)%N; [|destruct (_ <? 65536)%N]; lia.
Qed.
Lemma long_size n : (N.of_nat n < frame_bytes false (WText (long n)))%N.
Proof.
  unfold frame_bytes. cbn [payload]. rewrite long_length.
  destruct (_ <? 126)%N; [|destruct (_ <? 65536)%N]; lia.
Qed.

(** ** Both sides write *)
Definition started : state := set_conn COpening (set_phase PLoop init).
Definition sending_shout (n : nat) : state := set_phase (PSending [shouted n]) busy_state.
Definition shout_obs (n : nat) : list obs := [OQueued (ByEmit (bs "/") None) [shouted n]].
Lemma shout_step log n : step log busy_state (LEmit (shout n)) = Some (set_chan [[shouted n]] busy_state, shout_obs n).
Proof.
  cbn [step]. replace (usable_client busy_state) with true by reflexivity.
  change (emission_builder busy_state (shout n)) with (0%N, event_builder_new (bs "shout") (bs "/")). cbv iota beta.
  change (em_args (shout n)) with [SStr (long n)]. rewrite shout_packets. reflexivity.
Qed.
Lemma opening cfg log : (0 < cap_down cfg)%N -> exists ls o, nexecute cfg log net_init ls = Some (Net busy_state 0 0 None 0 0 [], o) /\ writes o = [] /\ queued o = [].
Proof.
  intros Hc.
  assert (E : exists c o1 o2, step log started (LRead sample_open) = Some (c, o1) /\ step log c LOpenSeen = Some (busy_state, o2) /\
    writes (o1 ++ o2) = [] /\ queued (o1 ++ o2) = []).
  { destruct log; eexists; eexists; eexists; (split; [vm_compute; reflexivity|]); (split; [vm_compute; reflexivity|]); split; reflexivity. }
  destruct E as (c & o1 & o2 & E1 & E2 & W & Q).
  destruct (deliver cfg log started sample_open c o1 Hc eq_refl E1) as [ls H].
  exists (NClient (LHandshake None) :: ls ++ [NClient LOpenSeen]), (o1 ++ o2). split; [|auto].
  cbn [nexecute]. change (nstep cfg log net_init (NClient (LHandshake None))) with (Some (Net started 0 0 None 0 0 [], @nil obs)). cbv iota beta.
  rewrite (nexecute_app _ _ _ _ _ _ [NClient LOpenSeen] (Net busy_state 0 0 None 0 0 []) o2 H); [reflexivity|].
  apply nexecute_one. cbn [nstep client_may]. rewrite E2. reflexivity.
Qed.
Definition blocked_net (cfg : pipes) : net :=
  Net (sending_shout (N.to_nat (cap_up cfg))) (cap_up cfg) (cap_up cfg)
      (Some (WText (long (N.to_nat (cap_down cfg))), cap_down cfg)) (cap_down cfg) 0 [WText (long (N.to_nat (cap_down cfg)))].
Lemma blocking cfg log : open_pipes cfg -> exists ls o, net_run cfg log ls (blocked_net cfg) o /\ writes o = [] /\
  queued o = [[shouted (N.to_nat (cap_up cfg))]].
Proof.
  intros [Hu Hd]. destruct (opening cfg log Hd) as (ls & o & H & W & Q).
  exists (ls ++ [NClient (LEmit (shout (N.to_nat (cap_up cfg)))); NClient LTake; NBegin (WText (long (N.to_nat (cap_down cfg)))); NPut (cap_up cfg); NServe (cap_down cfg)]),
    (o ++ shout_obs (N.to_nat (cap_up cfg))).
  split; [|split; [unfold writes; rewrite flat_map_app; fold (writes o); rewrite W; reflexivity|unfold queued; rewrite flat_map_app; fold (queued o); rewrite Q; reflexivity]].
  apply (nexecute_app _ _ _ _ _ _ _ _ _ H). cbn [nexecute]. cbn [nstep client_may]. rewrite shout_step. cbn [nexecute nstep client_may].
  pose proof (shouted_size (N.to_nat (cap_up cfg))) as S1. pose proof (long_size (N.to_nat (cap_down cfg))) as S2. rewrite N2Nat.id in S1, S2.
  change (step log (set_chan [[shouted (N.to_nat (cap_up cfg))]] busy_state) LTake) with (Some (sending_shout (N.to_nat (cap_up cfg)), @nil obs)).
  cbn [part_after nexecute app].
  change (nstep cfg log (Net (sending_shout (N.to_nat (cap_up cfg))) 0 0 None 0 0 []) (NBegin (WText (long (N.to_nat (cap_down cfg)))))) with
    (Some (Net (sending_shout (N.to_nat (cap_up cfg))) 0 0 (Some (WText (long (N.to_nat (cap_down cfg))), 0%N)) 0 0 [WText (long (N.to_nat (cap_down cfg)))], @nil obs)).
  cbv iota beta.
  rewrite (nput cfg log (sending_shout (N.to_nat (cap_up cfg))) 0 0 _ _ _ _ (frame_bytes true (shouted (N.to_nat (cap_up cfg)))) (cap_up cfg) eq_refl ltac:(lia) ltac:(lia) ltac:(lia)).
  rewrite (nserve cfg log _ _ _ (WText (long (N.to_nat (cap_down cfg)))) 0 0 _ _ (cap_down cfg) ltac:(lia) ltac:(lia) ltac:(lia)). rewrite !N.add_0_l. reflexivity.
Qed.
Lemma blocked_fits cfg : reads_while_writing cfg = false -> neither_fits cfg (blocked_net cfg).
Proof.
  intros Hr. pose proof (shouted_size (N.to_nat (cap_up cfg))) as S1. pose proof (long_size (N.to_nat (cap_down cfg))) as S2. rewrite N2Nat.id in S1, S2.
  split; [exact Hr|]. split; [exists (frame_bytes true (shouted (N.to_nat (cap_up cfg)))); split; [reflexivity|]|eexists; eexists; split; [reflexivity|]].
  - cbn [n_up n_part blocked_net]. lia.
  - cbn [n_down blocked_net]. lia.
Qed.
Lemma C94_refuted_lemma : ~ C94_full.
Proof.
  intros H. set (cfg := Pipes 8 8 false). assert (Ho : open_pipes cfg) by (split; reflexivity).
  destruct (blocking cfg false Ho) as (ls & o & R & _).
  assert (W : client_writes (blocked_net cfg)) by (left; eexists; eexists; reflexivity).
  exact (proj1 (written_exactly _ _ _ _ _ Ho R W) (H _ _ _ _ _ Ho R W) (blocked_fits cfg eq_refl)).
Qed.

Lemma seen_rest cfg log ls nf o : net_run cfg log ls nf o -> forall k, k <= length ls ->
  nexecute cfg log net_init (firstn k ls) = Some (nafter cfg log net_init ls k, seen (client_life (rest_life cfg log ls)) k).
Proof.
  intros H. induction k as [|k IH]; intros Hk.
  - destruct ls; reflexivity.
  - specialize (IH ltac:(lia)). destruct (nth_error ls k) as [l|] eqn:En; [|apply nth_error_None in En; lia].
    pose proof (nafter_step _ _ _ _ _ _ k H) as X. rewrite En in X. destruct X as [o' X].
    assert (F : firstn (S k) ls = firstn k ls ++ [l]).
    { clear -En. revert ls En. induction k as [|k IH]; intros [|x ls] En; try discriminate; [injection En as ->; reflexivity|]. cbn in En. cbn [firstn app]. f_equal. exact (IH _ En). }
    rewrite F. cbn [seen]. apply (nexecute_app _ _ _ _ _ _ _ _ _ IH). cbn [sees client_life n_sees rest_life]. rewrite En, X. exact (nexecute_one _ _ _ _ _ _ X).
Qed.
Lemma seen_all cfg log ls nf o : net_run cfg log ls nf o -> seen (client_life (rest_life cfg log ls)) (length ls) = o.
Proof.
  intros H. pose proof (seen_rest _ _ _ _ _ H (length ls) (le_n _)) as X. rewrite firstn_all in X. unfold net_run in H. rewrite H in X. injection X as _ X. symmetry. exact X.
Qed.
Lemma blocked_for_ever cfg log : open_pipes cfg -> reads_while_writing cfg = false ->
  exists r k f, net_lives cfg log r /\ pipe_takes cfg r /\ server_reads_when_idle r /\ server_goes_on cfg r /\ writes_reported cfg log r /\
    callbacks_end (client_life r) /\ (forall l, l = LTake \/ l = LClosed -> fair_to log (client_life r) l) /\
    queued (seen (client_life r) k) = [[f]] /\
    forall j, k <= j -> is_connected (n_client (n_at r j)) = true /\ s_phase (n_client (n_at r j)) = PSending [f] /\
      neither_fits cfg (n_at r j) /\ writes (seen (client_life r) j) = [].
Proof.
  intros Ho Hr. destruct (blocking cfg log Ho) as (ls & o & R & W & Q). pose proof (blocked_fits cfg Hr) as B.
  pose proof (shouted_size (N.to_nat (cap_up cfg))) as S1. pose proof (long_size (N.to_nat (cap_down cfg))) as S2. rewrite N2Nat.id in S1, S2.
  destruct (rest_fair _ _ _ _ _ R) as (F1 & _ & F3 & F4 & F5 & F6 & F7).
  exists (rest_life cfg log ls), (length ls), (shouted (N.to_nat (cap_up cfg))).
  split; [exact (rest_lives _ _ _ _ _ R)|]. split; [apply F1; intros size _; right; cbn; lia|]. split; [apply F3; right; discriminate|].
  split; [apply F4; cbn [n_server blocked_net n_down]; intros m d X; injection X as <- <-; split; [lia|lia]|].
  split; [apply F5; unfold complete; cbn [n_client blocked_net outgoing sending_shout s_phase set_phase n_part]; apply N.eqb_neq; lia|].
  split; [apply F6; discriminate|]. split; [intros l [->| ->]; apply F7; reflexivity|].
  split; [rewrite (seen_all _ _ _ _ _ R); exact Q|].
  intros j Hj. destruct (rest_later _ _ _ _ _ j R Hj) as [-> _]. split; [reflexivity|]. split; [reflexivity|]. split; [exact B|].
  replace j with (length ls + (j - length ls)) by lia. induction (j - length ls) as [|d IH].
  - rewrite Nat.add_0_r, (seen_all _ _ _ _ _ R). exact W.
  - rewrite Nat.add_succ_r. cbn [seen sees client_life n_sees rest_life]. replace (nth_error ls (length ls + d)) with (@None nlabel) by (symmetry; apply nth_error_None; lia).
    rewrite app_nil_r. exact IH.
Qed.

(** ** A server that reads *)
Definition small : pipes := Pipes 8 8 true.
Fixpoint drip (k : nat) : list nlabel := match k with O => [] | S k' => NPut 1 :: NTake 1 :: drip k' end.
Lemma reading : exists ls n o, net_run small false ls n o /\ outgoing (n_client n) = None /\ n_up n = 0%N /\ s_phase (n_client n) = PLoop /\
  s_chan (n_client n) = [] /\ s_chan_closed (n_client n) = false /\ queued o = [[shouted 20]] /\ writes o = [shouted 20].
Proof.
  destruct (opening small false eq_refl) as (ls & o & H & W & Q).
  set (tail := [NClient (LEmit (shout 20)); NBegin (WText (long 300)); NServe 8; NClient LTake] ++ drip (N.to_nat (frame_bytes true (shouted 20))) ++ [NClient LWrite]).
  destruct (nexecute small false (Net busy_state 0 0 None 0 0 []) tail) as [[n o2]|] eqn:E; [|vm_compute in E; discriminate].
  exists (ls ++ tail), n, (o ++ o2). split; [exact (nexecute_app _ _ _ _ _ _ _ _ _ H E)|]. vm_compute in E. injection E as <- <-.
  repeat (split; [try reflexivity|]); [unfold queued; rewrite flat_map_app; fold (queued o); rewrite Q; reflexivity|unfold writes; rewrite flat_map_app; fold (writes o); rewrite W; reflexivity].
Qed.
Lemma reading_life : exists r k, net_lives small false r /\ pipe_takes small r /\ server_reads r /\ writes_reported small false r /\
  callbacks_end (client_life r) /\ fair_to false (client_life r) LTake /\ queued (seen (client_life r) k) = [[shouted 20]] /\
  writes (seen (client_life r) k) = [shouted 20].
Proof.
  destruct reading as (ls & n & o & R & A & B & C & D & E & Q & W). destruct (rest_fair _ _ _ _ _ R) as (F1 & F2 & _ & _ & F5 & F6 & F7).
  exists (rest_life small false ls), (length ls). split; [exact (rest_lives _ _ _ _ _ R)|]. split; [apply F1; rewrite A; discriminate|].
  split; [exact (F2 B)|]. split; [apply F5; unfold complete; rewrite A; reflexivity|]. split; [apply F6; rewrite C; discriminate|].
  split; [apply F7; cbn [step]; rewrite C, D, E; reflexivity|]. rewrite (seen_all _ _ _ _ _ R). split; assumption.
Qed.
Lemma blocked_case : open_pipes (Pipes 8 8 false) /\ exists ls n o,
  net_run (Pipes 8 8 false) false ls n o /\ client_writes n /\ neither_fits (Pipes 8 8 false) n.
Proof.
  assert (Ho : open_pipes (Pipes 8 8 false)) by (split; reflexivity). split; [exact Ho|].
  destruct (blocking _ false Ho) as (ls & o & R & _). exists ls, (blocked_net (Pipes 8 8 false)), o. split; [exact R|].
  split; [left; eexists; eexists; reflexivity|exact (blocked_fits (Pipes 8 8 false) eq_refl)].
Qed.
