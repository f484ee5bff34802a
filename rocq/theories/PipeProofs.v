(** Proofs about connections that hold a limited number of bytes. *)
From Verif Require Export SpecPipe FairProofs.
From Coq Require Import Lia.

(** ** Steps of the client *)
Ltac open_step H :=
  repeat match type of H with
         | context [match ?x with _ => _ end] => destruct x eqn:?; try discriminate H
         end.
Lemma push_phase o fs s : s_phase (fst (push o fs s)) = s_phase s.
Proof. unfold push. destruct (_ || _)%bool; reflexivity. Qed.
Lemma push_quiet o fs s x : In x (snd (push o fs s)) -> ~ lively x.
Proof. unfold push. destruct (_ || _)%bool; cbn; intros [<-|[]]; exact (fun z => z). Qed.
Lemma requests_quiet n l x : In x (requests n l) -> ~ lively x.
Proof. revert n. induction l as [|[b|f] l IH]; cbn; intros n H; [contradiction|exact (IH _ H)|]. destruct H as [<-|H]; [exact (fun z => z)|exact (IH _ H)]. Qed.

(** Steps that users take, or the future of connecting or of [close()]. *)
Definition aside (l : label) : bool :=
  match l with
  | LOpenSeen | LOpenTimeout | LConnectDrop | LTable _ | LBuild _ | LEmit _ | LRegister _ | LPush _ | LAck _ _ _ | LRaw _
  | LCloseChannel | LCloseCall | LCloseReturn | LCloseTimeout | LCloseDrop | LDropClient => true
  | _ => false
  end.
Lemma aside_step log s l s' o : aside l = true -> step log s l = Some (s', o) ->
  s_phase s' = s_phase s /\ forall x, In x o -> ~ lively x.
Proof.
  assert (Q : forall o1 oo fs s1 x, (forall y, In y o1 -> ~ lively y) -> In x (o1 ++ snd (push oo fs s1)) -> ~ lively x).
  { intros o1 oo fs s1 x H1 H. apply in_app_or in H. destruct H as [H|H]; [exact (H1 _ H)|exact (push_quiet _ _ _ _ H)]. }
  assert (N1 : forall x y, ~ lively y -> In x [y] -> ~ lively x) by (intros x y Hy [<-|[]]; exact Hy).
  destruct l; try discriminate; intros _ H; unfold step in H.
  - open_step H; injection H as <- <-; (split; [cbn; congruence|intros x; apply N1; exact (fun z => z)]).
  - open_step H; injection H as <- <-; (split; [cbn; congruence|intros x; apply N1; exact (fun z => z)]).
  - open_step H; injection H as <- <-; (split; [cbn; congruence|intros x; apply N1; exact (fun z => z)]).
  - open_step H; injection H as <- <-; (split; [cbn; congruence|intros x; apply N1; exact (fun z => z)]).
  - open_step H; injection H as <- <-; (split; [reflexivity|intros x; apply requests_quiet]).
  - destruct (usable_client s); [|discriminate]. destruct (emission_builder s e) as [n b]. destruct (event_packets b (em_args e)) as [fs|].
    + destruct (eb_callback b) as [[f id]|].
      * injection H as <- <-. split; [reflexivity|intros x; apply requests_quiet].
      * destruct (push (emit_origin b) fs (set_next_id n s)) as [s2 o2] eqn:E. injection H as <- <-. split.
        -- pose proof (push_phase (emit_origin b) fs (set_next_id n s)) as P. rewrite E in P. exact P.
        -- intros x Hx. apply (Q (requests (s_next_id s) (em_calls e)) (emit_origin b) fs (set_next_id n s) x); [intros y; apply requests_quiet|rewrite E; exact Hx].
    + injection H as <- <-. split; [reflexivity|]. intros x Hx. apply in_app_or in Hx. destruct Hx as [Hx|[<-|[]]]; [exact (requests_quiet _ _ _ Hx)|exact (fun z => z)].
  - open_step H; injection H as <- <-; (split; [cbn; congruence|intros x; apply N1; exact (fun z => z)]).
  - open_step H; subst. injection H as H. match type of H with push ?a ?b ?c = _ => pose proof (push_phase a b c) as P; pose proof (push_quiet a b c) as P2; rewrite H in P, P2; split; [exact P|exact P2] end.
  - open_step H; subst; [|injection H as <- <-; split; [reflexivity|intros x; apply N1; exact (fun z => z)]].
    injection H as H. match type of H with push ?a ?b ?c = _ => pose proof (push_phase a b c) as P; pose proof (push_quiet a b c) as P2; rewrite H in P, P2; split; [exact P|exact P2] end.
  - open_step H; subst. injection H as H. match type of H with push ?a ?b ?c = _ => pose proof (push_phase a b c) as P; pose proof (push_quiet a b c) as P2; rewrite H in P, P2; split; [exact P|exact P2] end.
  - open_step H; injection H as <- <-; (split; [cbn; congruence|intros x; apply N1; exact (fun z => z)]).
  - open_step H; injection H as <- <-; (split; [cbn; congruence|intros x; apply N1; exact (fun z => z)]).
  - open_step H; injection H as <- <-; (split; [cbn; congruence|intros x; apply N1; exact (fun z => z)]).
  - open_step H; injection H as <- <-; (split; [cbn; congruence|intros x; apply N1; exact (fun z => z)]).
  - open_step H; injection H as <- <-; (split; [reflexivity|intros x []]).
  - open_step H; injection H as <- <-; (split; [reflexivity|intros x []]).
Qed.
Lemma outgoing_phase s s' : s_phase s' = s_phase s -> outgoing s' = outgoing s.
Proof. unfold outgoing. intros ->. reflexivity. Qed.
Lemma outgoing_cases s size : outgoing s = Some size ->
  (exists m rest, s_phase s = PSending (m :: rest) /\ size = frame_bytes true m) \/
  (s_phase s = PClosing /\ size = frame_bytes true (WClose None)).
Proof.
  unfold outgoing. destruct (s_phase s) as [| |[|m rest]| | | | |]; try discriminate; intros H; injection H as <-; eauto.
Qed.
(** While a frame is written the task does nothing else. *)
Lemma client_quiet log s l s' o size : outgoing s = Some size -> step log s l = Some (s', o) ->
  l <> LWrite -> (forall b, l <> LCloseFrame b) ->
  s_conn s <> CHandshake -> (s_phase s' = s_phase s \/ put_down s') /\ forall x, In x o -> ~ lively x.
Proof.
  intros Ho H Hw Hc Hs. destruct (aside l) eqn:Ha.
  - destruct (aside_step _ _ _ _ _ Ha H) as [A B]. split; [left; exact A|exact B].
  - assert (E : (forall e, s_phase s <> PEnded e) /\ s_phase s <> PLoop /\ s_phase s <> PReading /\ (forall b c, s_phase s <> PCalling b c) /\ s_phase s <> PStuck).
    { destruct (outgoing_cases _ _ Ho) as [(m & rest & -> & _)|[-> _]]; repeat split; intros; discriminate. }
    destruct E as (E1 & E2 & E3 & E4 & E5).
    assert (PD : forall e s1, e = EndWs \/ e = EndCancelled \/ e = EndAborted -> put_down (end_task e s1)).
    { intros e s1 He. exists e. split; [reflexivity|exact He]. }
    destruct l; try discriminate Ha; try (exfalso; apply Hw; reflexivity); try (exfalso; eapply Hc; reflexivity); unfold step in H.
    + open_step H; congruence.
    + open_step H; congruence.
    + open_step H; congruence.
    + open_step H; congruence.
    + open_step H; congruence.
    + open_step H; injection H as <- <-. split; [right; apply PD; auto|intros x [<-|[]]; exact (fun z => z)].
    + open_step H; congruence.
    + open_step H; injection H as <- <-; (split; [right; apply PD; auto|intros x [<-|[]]; exact (fun z => z)]).
    + open_step H; injection H as <- <-; (split; [right; apply PD; auto|intros x [<-|[]]; exact (fun z => z)]).
    + open_step H; congruence.
    + destruct (s_phase s) eqn:Ep; try discriminate. exfalso. eapply E4. reflexivity.
    + destruct (s_phase s) eqn:Ep; try discriminate. exfalso. eapply E4. reflexivity.
    + open_step H; congruence.
    + open_step H; congruence.
Qed.
Lemma ended_quiet log s l s' o : put_down s -> step log s l = Some (s', o) -> s_conn s <> CHandshake ->
  put_down s' /\ forall x, In x o -> ~ lively x.
Proof.
  intros (e & He & Hk) H Hs. destruct (aside l) eqn:Ha.
  - destruct (aside_step _ _ _ _ _ Ha H) as [A B]. split; [exists e; rewrite A; auto|exact B].
  - destruct l; try discriminate Ha; unfold step in H; rewrite ?He in H; open_step H; congruence.
Qed.

(** ** Runs *)
Lemma nstep_client cfg log n l n' o : nstep cfg log n l = Some (n', o) ->
  (exists x, client_label n l = Some x /\ step log (n_client n) x = Some (n_client n', o)) \/
  (client_label n l = None /\ n_client n' = n_client n /\ o = []).
Proof.
  destruct n as [c part up srv down got frames]. destruct l; cbn [nstep client_label n_client n_frames]; intros H.
  - destruct (client_may _ l); [|discriminate]. destruct (step log c l) as [[c' o']|] eqn:E; [|discriminate]. injection H as <- <-. left. exists l. split; [reflexivity|exact E].
  - destruct frames as [|m frames]; [discriminate|]. destruct (_ <=? _)%N; [|discriminate].
    destruct (step log c (LRead m)) as [[c' o']|] eqn:E; [|discriminate]. injection H as <- <-. left. exists (LRead m). split; [reflexivity|exact E].
  - destruct (outgoing c); [|discriminate]. destruct (_ && _)%bool; [|discriminate]. injection H as <- <-. right. auto.
  - destruct (_ && _)%bool; [|discriminate]. injection H as <- <-. right. auto.
  - destruct (_ && _)%bool; [|discriminate]. injection H as <- <-. right. auto.
  - destruct srv; [discriminate|]. injection H as <- <-. right. auto.
  - destruct srv as [[m d]|]; [|discriminate]. destruct (_ && _)%bool; [|discriminate]. injection H as <- <-. right. auto.
  - destruct srv as [[m d]|]; [|discriminate]. destruct (_ =? _)%N; [|discriminate]. injection H as <- <-. right. auto.
Qed.
Lemma nexecute_client cfg log ls : forall n n' o, nexecute cfg log n ls = Some (n', o) ->
  exists ls', execute log (n_client n) ls' = Some (n_client n', o).
Proof.
  induction ls as [|l ls IH]; cbn [nexecute]; intros n n' o H.
  - injection H as <- <-. exists []. reflexivity.
  - destruct (nstep cfg log n l) as [[n1 o1]|] eqn:E1; [|discriminate].
    destruct (nexecute cfg log n1 ls) as [[n2 o2]|] eqn:E2; [|discriminate]. injection H as <- <-.
    destruct (IH _ _ _ E2) as [ls' H2]. destruct (nstep_client _ _ _ _ _ _ E1) as [(x & _ & Hx)|(_ & Hc & ->)].
    + exists (x :: ls'). cbn [execute]. rewrite Hx, H2. reflexivity.
    + exists ls'. rewrite <- Hc. exact H2.
Qed.
Lemma net_trace cfg log ls n o : net_run cfg log ls n o -> trace log (n_client n) o.
Proof. intros H. destruct (nexecute_client _ _ _ _ _ _ H) as [ls' H']. exists ls'. exact H'. Qed.
Lemma nexecute_app cfg log ls : forall n n1 o1 ls2 n2 o2, nexecute cfg log n ls = Some (n1, o1) ->
  nexecute cfg log n1 ls2 = Some (n2, o2) -> nexecute cfg log n (ls ++ ls2) = Some (n2, o1 ++ o2).
Proof.
  induction ls as [|l ls IH]; cbn [nexecute app]; intros n n1 o1 ls2 n2 o2 H1 H2.
  - injection H1 as <- <-. exact H2.
  - destruct (nstep cfg log n l) as [[a oa]|]; [|discriminate]. destruct (nexecute cfg log a ls) as [[b ob]|] eqn:E; [|discriminate].
    injection H1 as <- <-. rewrite (IH _ _ _ _ _ _ E H2), app_assoc. reflexivity.
Qed.

(** Nothing overflows. *)
Record sound (cfg : pipes) (n : net) : Prop := {
  so_up : (n_up n <= cap_up cfg)%N;
  so_down : (n_down n <= cap_down cfg)%N;
  so_part : forall size, outgoing (n_client n) = Some size -> (n_part n <= size)%N;
  so_idle : outgoing (n_client n) = None -> task_ended (n_client n) = false -> n_part n = 0%N;
  so_server : forall m d, n_server n = Some (m, d) -> (d <= frame_bytes false m)%N }.
Lemma sound_init cfg : sound cfg net_init.
Proof. split; cbn; try lia; try discriminate; reflexivity. Qed.
Lemma outgoing_live s size : outgoing s = Some size -> task_ended s = false.
Proof. unfold outgoing, task_ended. destruct (s_phase s); try discriminate; reflexivity. Qed.
Lemma lower_ended log s l s' o : step log s l = Some (s', o) -> task_ended s = true -> s_conn s <> CHandshake -> task_ended s' = true.
Proof.
  intros H He Hs. destruct (aside l) eqn:Ha.
  - destruct (aside_step _ _ _ _ _ Ha H) as [A _]. unfold task_ended in *. rewrite A. exact He.
  - unfold task_ended in *. destruct (s_phase s) eqn:Ep; try discriminate He. clear He.
    destruct l; try discriminate Ha; unfold step in H; rewrite ?Ep in H; open_step H; congruence.
Qed.
Lemma sound_client cfg log c part up srv down got got' frames frames' l c' o : sound cfg (Net c part up srv down got frames) ->
  (s_conn c = CHandshake -> s_phase c = PUnborn) -> step log c l = Some (c', o) ->
  sound cfg (Net c' (part_after l part) up srv down got' frames').
Proof.
  intros [A B C D E] Hu H. cbn in *. split; cbn; [exact A|exact B| | |exact E].
  - intros size Hs. destruct (outgoing c) as [sz|] eqn:Ho.
    + specialize (C sz eq_refl).
      assert (Hc : s_conn c <> CHandshake) by (intros X; specialize (Hu X); unfold outgoing in Ho; rewrite Hu in Ho; discriminate).
      destruct l; cbn [part_after]; try lia;
        try (match type of H with step _ _ ?l = _ => destruct (client_quiet log c l c' o sz Ho H ltac:(discriminate) ltac:(discriminate) Hc) as [[P|(eend & P & _)] _]; [rewrite (outgoing_phase _ _ P), Ho in Hs; injection Hs as <-; exact C|unfold outgoing in Hs; rewrite P in Hs; discriminate] end).
    + destruct (task_ended c) eqn:Et; [|specialize (D eq_refl eq_refl); subst part; destruct l; cbn; lia].
      exfalso. assert (Hc : s_conn c <> CHandshake) by (intros X; specialize (Hu X); unfold task_ended in Et; rewrite Hu in Et; discriminate).
      pose proof (lower_ended _ _ _ _ _ H Et Hc) as X. rewrite (outgoing_live _ _ Hs) in X. discriminate.
  - intros Hs Ht. destruct (task_ended c) eqn:Et.
    + assert (Hc : s_conn c <> CHandshake) by (intros X; specialize (Hu X); unfold task_ended in Et; rewrite Hu in Et; discriminate).
      rewrite (lower_ended _ _ _ _ _ H Et Hc) in Ht. discriminate.
    + destruct (outgoing c) as [sz|] eqn:Ho.
      * assert (Hc : s_conn c <> CHandshake) by (intros X; specialize (Hu X); unfold outgoing in Ho; rewrite Hu in Ho; discriminate).
        destruct l; cbn [part_after]; try reflexivity;
        (match type of H with step _ _ ?l = _ => destruct (client_quiet log c l c' o sz Ho H ltac:(discriminate) ltac:(discriminate) Hc) as [[P|(eend & P & _)] _]; [rewrite (outgoing_phase _ _ P), Ho in Hs; discriminate|unfold task_ended in Ht; rewrite P in Ht; discriminate] end).
      * rewrite (D eq_refl eq_refl). destruct l; reflexivity.
Qed.
Lemma sound_step cfg log n l n' o : sound cfg n -> (s_conn (n_client n) = CHandshake -> s_phase (n_client n) = PUnborn) ->
  nstep cfg log n l = Some (n', o) -> sound cfg n'.
Proof.
  destruct n as [c part up srv down got frames]. intros S Hu. cbn in Hu. destruct l; cbn [nstep]; intros H.
  - destruct (client_may _ l); [|discriminate]. destruct (step log c l) as [[c' o']|] eqn:E; [|discriminate]. injection H as <- <-.
    eapply sound_client; eassumption.
  - destruct frames as [|m frames]; [discriminate|]. destruct (_ <=? _)%N; [|discriminate].
    destruct (step log c (LRead m)) as [[c' o']|] eqn:E; [|discriminate]. injection H as <- <-.
    exact (sound_client _ _ _ _ _ _ _ _ _ _ _ (LRead m) _ _ S Hu E).
  - destruct S as [A B C D E]. cbn in *. destruct (outgoing c) as [sz|] eqn:Ho; [|discriminate].
    destruct ((0 <? k) && _ && _)%N%bool eqn:Eb; [|discriminate]. injection H as <- <-.
    apply andb_prop in Eb. destruct Eb as [Eb E3]. apply andb_prop in Eb. destruct Eb as [E1 E2].
    apply N.ltb_lt in E1. apply N.leb_le in E2, E3. split; cbn; rewrite ?Ho; try assumption; try discriminate. intros ? X. injection X as <-. assumption.
  - destruct S as [A B C D E]. cbn in *. destruct (_ && _)%bool; [|discriminate]. injection H as <- <-. split; cbn; try assumption. lia.
  - destruct S as [A B C D E]. cbn in *. destruct (_ && _)%bool; [|discriminate]. injection H as <- <-. split; cbn; try assumption. lia.
  - destruct S as [A B C D E]. cbn in *. destruct srv; [discriminate|]. injection H as <- <-. split; cbn; try assumption. intros m0 d X. injection X as <- <-. lia.
  - destruct S as [A B C D E]. cbn in *. destruct srv as [[m d]|]; [|discriminate].
    destruct ((0 <? k) && _ && _)%N%bool eqn:Eb; [|discriminate]. injection H as <- <-.
    apply andb_prop in Eb. destruct Eb as [Eb E3]. apply andb_prop in Eb. destruct Eb as [E1 E2].
    apply N.ltb_lt in E1. apply N.leb_le in E2, E3. split; cbn; try assumption. intros m0 d0 X. injection X as <- <-. assumption.
  - destruct S as [A B C D E]. cbn in *. destruct srv as [[m d]|]; [|discriminate]. destruct (_ =? _)%N; [|discriminate]. injection H as <- <-. split; cbn; try assumption. discriminate.
Qed.
Lemma execute_snoc log ls : forall s s1 o1 l s2 o2, execute log s ls = Some (s1, o1) -> step log s1 l = Some (s2, o2) ->
  execute log s (ls ++ [l]) = Some (s2, o1 ++ o2).
Proof.
  induction ls as [|x ls IH]; cbn [execute app]; intros s s1 o1 l s2 o2 H1 H2.
  - injection H1 as <- <-. rewrite H2. rewrite app_nil_r. reflexivity.
  - destruct (step log s x) as [[a oa]|]; [|discriminate]. destruct (execute log a ls) as [[b ob]|] eqn:E; [|discriminate]. injection H1 as <- <-.
    rewrite (IH _ _ _ _ _ _ E H2), app_assoc. reflexivity.
Qed.
Lemma sound_run cfg log ls : forall n n' o o0, sound cfg n -> trace log (n_client n) o0 -> nexecute cfg log n ls = Some (n', o) -> sound cfg n'.
Proof.
  induction ls as [|l ls IH]; cbn [nexecute]; intros n n' o o0 S T H.
  - injection H as <- <-. exact S.
  - destruct (nstep cfg log n l) as [[n1 o1]|] eqn:E1; [|discriminate].
    destruct (nexecute cfg log n1 ls) as [[n2 o2]|] eqn:E2; [|discriminate]. injection H as <- <-.
    apply (IH n1 n2 o2 (o0 ++ o1)); [exact (sound_step _ _ _ _ _ _ S (unborn _ _ _ T) E1)| |exact E2].
    destruct (nstep_client _ _ _ _ _ _ E1) as [(x & _ & Hx)|(_ & Hc & ->)].
    + destruct T as [ls0 T]. exists (ls0 ++ [x]). exact (execute_snoc _ _ _ _ _ _ _ _ T Hx).
    + rewrite Hc, app_nil_r. exact T.
Qed.
Lemma net_sound cfg log ls n o : net_run cfg log ls n o -> sound cfg n.
Proof. intros H. apply (sound_run cfg log ls net_init n o []); [apply sound_init|exists []; reflexivity|exact H]. Qed.

(** ** When a frame can be written *)
Lemma frame_can cfg log n size : outgoing (n_client n) = Some size -> n_part n = size ->
  exists n2 o2, nstep cfg log n (NClient LWrite) = Some (n2, o2) \/ nstep cfg log n (NClient (LCloseFrame true)) = Some (n2, o2).
Proof.
  destruct n as [c part up srv down got frames]. cbn [n_client n_part]. intros Ho Hp.
  assert (Hc : complete (Net c part up srv down got frames) = true) by (unfold complete; cbn; rewrite Ho; apply N.eqb_eq; exact Hp).
  destruct (outgoing_cases _ _ Ho) as [(m & rest & P & _)|[P _]]; cbn [nstep client_may]; rewrite Hc; cbn [step]; rewrite P; eexists; eexists; [left|right]; reflexivity.
Qed.
(** A server that can read. *)
Definition hears (cfg : pipes) (n : net) : Prop := reads_while_writing cfg = true \/ n_server n = None.
Lemma nput cfg log c part up srv down got frames size k : outgoing c = Some size -> (0 < k)%N -> (part + k <= size)%N -> (up + k <= cap_up cfg)%N ->
  nstep cfg log (Net c part up srv down got frames) (NPut k) = Some (Net c (part + k) (up + k) srv down got frames, []).
Proof.
  intros Ho H1 H2 H3. cbn [nstep]. rewrite Ho. apply N.ltb_lt in H1. apply N.leb_le in H2, H3. rewrite H1, H2, H3. reflexivity.
Qed.
Lemma ntake cfg log c part up srv down got frames k : reads_while_writing cfg = true \/ srv = None -> (0 < k)%N -> (k <= up)%N ->
  nstep cfg log (Net c part up srv down got frames) (NTake k) = Some (Net c part (up - k) srv down got frames, []).
Proof.
  intros Ho H1 H2. cbn [nstep]. apply N.ltb_lt in H1. apply N.leb_le in H2. rewrite H1, H2.
  destruct Ho as [->| ->]; [reflexivity|]. destruct (reads_while_writing cfg); reflexivity.
Qed.
Lemma nserve cfg log c part up m d down got frames k : (0 < k)%N -> (d + k <= frame_bytes false m)%N -> (down + k <= cap_down cfg)%N ->
  nstep cfg log (Net c part up (Some (m, d)) down got frames) (NServe k) = Some (Net c part up (Some (m, d + k)%N) (down + k) got frames, []).
Proof.
  intros H1 H2 H3. cbn [nstep]. apply N.ltb_lt in H1. apply N.leb_le in H2, H3. rewrite H1, H2, H3. reflexivity.
Qed.
Lemma nexecute_one cfg log n l n' o : nstep cfg log n l = Some (n', o) -> nexecute cfg log n [l] = Some (n', o).
Proof. intros H. cbn [nexecute]. rewrite H, app_nil_r. reflexivity. Qed.

Lemma can_here cfg log n size : outgoing (n_client n) = Some size -> n_part n = size -> can_be_written cfg log n.
Proof.
  intros Ho Hp. destruct (frame_can cfg log n size Ho Hp) as (n2 & o2 & H). exists [], n, [], n2, o2. split; [intros l []|]. split; [reflexivity|exact H].
Qed.
Lemma can_after cfg log n l n1 : moves_bytes l -> nstep cfg log n l = Some (n1, []) -> can_be_written cfg log n1 -> can_be_written cfg log n.
Proof.
  intros Hm Hs (ls & n2 & o2 & n3 & o3 & A & B & C). exists (l :: ls), n2, o2, n3, o3. split; [intros x [<-|Hx]; [exact Hm|exact (A x Hx)]|].
  split; [cbn [nexecute]; rewrite Hs, B; reflexivity|exact C].
Qed.
Lemma can_heard cfg log : (0 < cap_up cfg)%N -> forall k c part up srv down got frames size,
  outgoing c = Some size -> (part <= size)%N -> (up <= cap_up cfg)%N -> N.to_nat (size - part) <= k ->
  reads_while_writing cfg = true \/ srv = None -> can_be_written cfg log (Net c part up srv down got frames).
Proof.
  intros Hcap. induction k as [|k IH]; intros c part up srv down got frames size Ho Hp Hu Hk Hh.
  - apply (can_here _ _ _ size); [exact Ho|cbn; lia].
  - assert (Hput : forall up', (up' < cap_up cfg)%N -> can_be_written cfg log (Net c part up' srv down got frames)).
    { intros up' Hu'. destruct (N.eq_dec part size) as [E|E]; [apply (can_here _ _ _ size); [exact Ho|exact E]|].
      apply (can_after _ _ _ (NPut 1) (Net c (part + 1) (up' + 1) srv down got frames)); [exact I|apply (nput _ _ _ _ _ _ _ _ _ size); [exact Ho|lia..]|].
      apply (IH _ _ _ _ _ _ _ size); [exact Ho|lia|lia|lia|exact Hh]. }
    destruct (N.eq_dec up (cap_up cfg)) as [E|E]; [|apply Hput; lia].
    apply (can_after _ _ _ (NTake 1) (Net c part (up - 1) srv down got frames)); [exact I|apply ntake; [exact Hh|lia|lia]|]. apply Hput. lia.
Qed.
Lemma writing_outgoing n : client_writes n -> exists size, outgoing (n_client n) = Some size.
Proof. unfold outgoing. intros [(m & rest & ->)| ->]; eauto. Qed.
Lemma can_or_not cfg log n : (0 < cap_up cfg)%N -> sound cfg n -> client_writes n -> can_be_written cfg log n \/ neither_fits cfg n.
Proof.
  intros Hcap S Hw. destruct (writing_outgoing _ Hw) as [size Ho]. destruct S as [Su Sd Sp _ Ss]. specialize (Sp size Ho).
  destruct n as [c part up srv down got frames]. cbn in *.
  destruct (reads_while_writing cfg) eqn:Er; [left; apply (can_heard cfg log Hcap (N.to_nat (size - part)) _ _ _ _ _ _ _ size); auto|].
  destruct srv as [[m d]|] eqn:Es; [|left; apply (can_heard cfg log Hcap (N.to_nat (size - part)) _ _ _ _ _ _ _ size); auto].
  specialize (Ss m d eq_refl).
  destruct (N.le_gt_cases (size - part) (cap_up cfg - up)) as [F|F].
  - left. destruct (N.eq_dec part size) as [E|E]; [apply (can_here _ _ _ size); assumption|].
    apply (can_after _ _ _ (NPut (size - part)) (Net c (part + (size - part)) (up + (size - part)) (Some (m, d)) down got frames)); [exact I|apply (nput _ _ _ _ _ _ _ _ _ size); [exact Ho|lia..]|].
    apply (can_here _ _ _ size); [exact Ho|cbn; lia].
  - destruct (N.le_gt_cases (frame_bytes false m - d) (cap_down cfg - down)) as [G|G].
    + left. assert (K : forall down', can_be_written cfg log (Net c part up (Some (m, frame_bytes false m)) down' got frames)).
      { intros down'. apply (can_after _ _ _ NDone (Net c part up None down' got frames)); [exact I|cbn [nstep]; rewrite N.eqb_refl; reflexivity|].
        apply (can_heard cfg log Hcap (N.to_nat (size - part)) _ _ _ _ _ _ _ size); auto. }
      destruct (N.eq_dec d (frame_bytes false m)) as [->|E]; [apply K|].
      apply (can_after _ _ _ (NServe (frame_bytes false m - d)) (Net c part up (Some (m, d + (frame_bytes false m - d))%N) (down + (frame_bytes false m - d)) got frames)); [exact I|apply nserve; lia|].
      replace (d + (frame_bytes false m - d))%N with (frame_bytes false m) by lia. apply K.
    + right. split; [exact Er|]. split; [exists size; cbn; split; [exact Ho|lia]|exists m, d; cbn; split; [reflexivity|lia]].
Qed.

(** ** When it cannot *)
Definition no_failed_close (ls : list nlabel) : Prop := ~ In (NClient (LCloseFrame false)) ls.
Lemma fits_step cfg log n l n' o : neither_fits cfg n -> s_conn (n_client n) <> CHandshake -> l <> NClient (LCloseFrame false) ->
  nstep cfg log n l = Some (n', o) ->
  ((neither_fits cfg n' /\ s_phase (n_client n') = s_phase (n_client n)) \/ put_down (n_client n')) /\ forall x, In x o -> ~ lively x.
Proof.
  destruct n as [c part up srv down got frames]. intros (Hr & (size & Ho & Hs) & (m & d & Hd & Hm)) Hc Hl. cbn in Ho, Hs, Hd, Hm, Hc. subst srv.
  destruct l as [l| |k|k|k|m0|k|]; cbn [nstep]; intros H.
  - destruct (client_may _ l) eqn:Em; [|discriminate]. destruct (step log c l) as [[c' o']|] eqn:E; [|discriminate]. injection H as <- <-.
    assert (Hw : l <> LWrite).
    { intros ->. cbn [client_may complete outgoing n_client n_part] in Em. unfold complete in Em. cbn in Em. rewrite Ho in Em. apply N.eqb_eq in Em. lia. }
    assert (Hf : forall b, l <> LCloseFrame b).
    { intros [|] ->; [|exact (Hl eq_refl)]. cbn [client_may] in Em. unfold complete in Em. cbn in Em. rewrite Ho in Em. apply N.eqb_eq in Em. lia. }
    destruct (client_quiet _ _ _ _ _ _ Ho E Hw Hf Hc) as [[P|P] Q]; (split; [|exact Q]); [left|right; exact P].
    split; [|exact P]. split; [exact Hr|]. cbn. split; [exists size; split; [rewrite (outgoing_phase _ _ P); exact Ho|]|exists m, d; split; [reflexivity|exact Hm]].
    destruct l; cbn; try exact Hs; [exfalso; exact (Hw eq_refl)|exfalso; exact (Hf _ eq_refl)].
  - exfalso. destruct frames as [|m0 frames]; [discriminate|]. destruct (_ <=? _)%N; [|discriminate]. cbn [step] in H.
    destruct (negb (ws_valid m0)); [discriminate|]. destruct (outgoing_cases _ _ Ho) as [(m1 & rest & P & _)|[P _]]; rewrite P in H; discriminate.
  - rewrite Ho in H. destruct ((0 <? k) && _ && _)%N%bool eqn:Eb; [|discriminate]. injection H as <- <-.
    apply andb_prop in Eb. destruct Eb as [Eb E3]. apply andb_prop in Eb. destruct Eb as [E1 E2]. apply N.ltb_lt in E1. apply N.leb_le in E2, E3.
    split; [left; split; [|reflexivity]|intros x []]. split; [exact Hr|]. cbn. split; [exists size; split; [exact Ho|lia]|exists m, d; split; [reflexivity|exact Hm]].
  - exfalso. destruct (_ && _)%bool eqn:Eb; [|discriminate]. apply andb_prop in Eb. destruct Eb as [_ Eb]. unfold listening in Eb.
    destruct (outgoing_cases _ _ Ho) as [(m1 & rest & P & _)|[P _]]; rewrite P in Eb; discriminate.
  - exfalso. rewrite Hr in H. destruct (_ && _)%bool eqn:Eb; [|discriminate]. apply andb_prop in Eb. destruct Eb as [_ Eb]. discriminate Eb.
  - discriminate H.
  - destruct ((0 <? k) && _ && _)%N%bool eqn:Eb; [|discriminate]. injection H as <- <-.
    apply andb_prop in Eb. destruct Eb as [Eb E3]. apply andb_prop in Eb. destruct Eb as [E1 E2]. apply N.ltb_lt in E1. apply N.leb_le in E2, E3.
    split; [left; split; [|reflexivity]|intros x []]. split; [exact Hr|]. cbn. split; [exists size; split; [exact Ho|exact Hs]|]. eexists. eexists. split; [reflexivity|]. lia.
  - exfalso. destruct (d =? frame_bytes false m)%N eqn:Eb; [|discriminate]. apply N.eqb_eq in Eb. lia.
Qed.
Lemma down_step cfg log n l n' o : put_down (n_client n) -> s_conn (n_client n) <> CHandshake ->
  nstep cfg log n l = Some (n', o) -> put_down (n_client n') /\ forall x, In x o -> ~ lively x.
Proof.
  intros Hp Hc H. destruct (nstep_client _ _ _ _ _ _ H) as [(x & _ & Hx)|(_ & E & ->)].
  - exact (ended_quiet _ _ _ _ _ Hp Hx Hc).
  - rewrite E. split; [exact Hp|intros x []].
Qed.
Lemma trace_nstep cfg log n o0 l n' o : trace log (n_client n) o0 -> nstep cfg log n l = Some (n', o) -> trace log (n_client n') (o0 ++ o).
Proof.
  intros [ls0 T] H. destruct (nstep_client _ _ _ _ _ _ H) as [(x & _ & Hx)|(_ & Hc & ->)].
  - exists (ls0 ++ [x]). exact (execute_snoc _ _ _ _ _ _ _ _ T Hx).
  - rewrite Hc, app_nil_r. exists ls0. exact T.
Qed.
Lemma born log s o : trace log s o -> (exists e, s_phase s = PEnded e) \/ (exists size, outgoing s = Some size) -> s_conn s <> CHandshake.
Proof.
  intros T H E. pose proof (unborn _ _ _ T E) as P. unfold outgoing in H. rewrite P in H. destruct H as [[e H]|[z H]]; discriminate.
Qed.
Lemma stays_blocked cfg log ls : forall n o0 n' o, trace log (n_client n) o0 ->
  neither_fits cfg n \/ put_down (n_client n) -> no_failed_close ls -> nexecute cfg log n ls = Some (n', o) ->
  ((neither_fits cfg n' /\ s_phase (n_client n') = s_phase (n_client n)) \/ put_down (n_client n')) /\ forall x, In x o -> ~ lively x.
Proof.
  induction ls as [|l ls IH]; cbn [nexecute]; intros n o0 n' o T Hn Hf H.
  - injection H as <- <-. split; [destruct Hn as [Hn|Hn]; auto|intros x []].
  - destruct (nstep cfg log n l) as [[n1 o1]|] eqn:E1; [|discriminate].
    destruct (nexecute cfg log n1 ls) as [[n2 o2]|] eqn:E2; [|discriminate]. injection H as <- <-.
    assert (Hf' : no_failed_close ls) by (intros X; apply Hf; right; exact X).
    assert (Hl : l <> NClient (LCloseFrame false)) by (intros ->; apply Hf; left; reflexivity).
    pose proof (trace_nstep _ _ _ _ _ _ _ T E1) as T1.
    destruct Hn as [Hn|Hn].
    + assert (Hc : s_conn (n_client n) <> CHandshake) by (apply (born _ _ _ T); right; destruct Hn as (_ & (z & Hz & _) & _); eauto).
      destruct (fits_step _ _ _ _ _ _ Hn Hc Hl E1) as [X Q].
      assert (X' : neither_fits cfg n1 \/ put_down (n_client n1)) by (destruct X as [[X _]|X]; auto).
      destruct (IH n1 _ _ _ T1 X' Hf' E2) as [Y Q2]. split.
      * destruct X as [[X Xp]|X]; destruct Y as [[Y Yp]|Y]; auto; [left; split; [exact Y|congruence]|].
        destruct X as (e & Xp & _). exfalso. destruct Y as (_ & (z & Hz & _) & _). unfold outgoing in Hz. rewrite Yp, Xp in Hz. discriminate.
      * intros x Hx. apply in_app_or in Hx. destruct Hx as [Hx|Hx]; auto.
    + assert (Hc : s_conn (n_client n) <> CHandshake) by (apply (born _ _ _ T); left; destruct Hn as (e & He & _); eauto).
      destruct (down_step _ _ _ _ _ _ Hn Hc E1) as [X Q]. destruct (IH n1 _ _ _ T1 (or_intror X) Hf' E2) as [Y Q2]. split.
      * destruct Y as [[Y Yp]|Y]; auto. destruct X as (e & Xp & _). exfalso. destruct Y as (_ & (z & Hz & _) & _). unfold outgoing in Hz. rewrite Yp, Xp in Hz. discriminate.
      * intros x Hx. apply in_app_or in Hx. destruct Hx as [Hx|Hx]; auto.
Qed.
Lemma bytes_close ls : (forall l, In l ls -> moves_bytes l) -> no_failed_close ls.
Proof. intros H X. exact (H _ X). Qed.
Lemma written_exactly cfg log ls n o : open_pipes cfg -> net_run cfg log ls n o -> client_writes n ->
  (can_be_written cfg log n <-> ~ neither_fits cfg n).
Proof.
  intros [Hu _] H Hw. split.
  - intros (ls1 & n1 & o1 & n2 & o2 & Hm & He & Hs) Hn. pose proof (net_trace _ _ _ _ _ H) as T.
    destruct (stays_blocked cfg log ls1 n o n1 o1 T (or_introl Hn) (bytes_close _ Hm) He) as [X _].
    pose proof (nexecute_app _ _ _ _ _ _ _ _ _ H He) as H1. pose proof (net_trace _ _ _ _ _ H1) as T1.
    assert (Y : neither_fits cfg n1).
    { destruct X as [[X _]|(e & X & _)]; [exact X|]. exfalso. destruct n1 as [c part up srv down got frames]. cbn [n_client] in X.
      destruct Hs as [Hs|Hs]; cbn [nstep client_may] in Hs; (destruct (complete _); [|discriminate]); cbn [step] in Hs; rewrite X in Hs; discriminate. }
    destruct n1 as [c part up srv down got frames]. destruct Y as (_ & (size & Ho & Hsz) & _). cbn in Ho, Hsz.
    destruct Hs as [Hs|Hs]; cbn [nstep client_may] in Hs; unfold complete in Hs; cbn [n_client n_part] in Hs; rewrite Ho in Hs;
      (destruct (part =? size)%N eqn:Eq; [apply N.eqb_eq in Eq; lia|discriminate]).
  - intros Hn. destruct (can_or_not cfg log n Hu (net_sound _ _ _ _ _ H) Hw) as [X|X]; [exact X|contradiction].
Qed.

(** ** Lives *)
Section Lives.
Variables (cfg : pipes) (log : bool) (r : net_life).
Hypothesis L : net_lives cfg log r.
Hypothesis Hcap : (0 < cap_up cfg)%N.
Notation at_ := (n_at r).
Notation ph k := (s_phase (n_client (n_at r k))).

Lemma client_lives : lives log (client_life r).
Proof.
  destruct L as [L0 LS]. split; [cbn; rewrite L0; reflexivity|]. intros k. specialize (LS k). cbn [does at_time sees client_life].
  destruct (n_does r k) as [l|]; [|destruct LS as [-> ->]; split; reflexivity].
  destruct (nstep_client _ _ _ _ _ _ LS) as [(x & -> & Hx)|(-> & Hc & Ho)]; [exact Hx|split; assumption].
Qed.
Lemma life_sound k : sound cfg (at_ k) /\ exists o, trace log (n_client (at_ k)) o.
Proof.
  destruct L as [L0 LS]. induction k as [|k [IH [o IT]]].
  - rewrite L0. split; [apply sound_init|]. exists []. exists []. reflexivity.
  - specialize (LS k). destruct (n_does r k) as [l|].
    + split; [exact (sound_step _ _ _ _ _ _ IH (unborn _ _ _ IT) LS)|]. eexists. exact (trace_nstep _ _ _ _ _ _ _ IT LS).
    + destruct LS as [-> _]. split; [exact IH|]. exists o. exact IT.
Qed.
(** One moment of writing. *)
Lemma one_moment k size : outgoing (n_client (at_ k)) = Some size ->
  ph (S k) <> ph k \/
  (ph (S k) = ph k /\ ((n_part (at_ k) < n_part (at_ (S k)))%N \/ (n_part (at_ (S k)) = n_part (at_ k) /\ (n_up (at_ (S k)) <= n_up (at_ k))%N))).
Proof.
  intros Ho. destruct L as [_ LS]. specialize (LS k). destruct (life_sound k) as [S [o T]].
  destruct (n_does r k) as [l|]; [|destruct LS as [-> _]; right; split; [reflexivity|right; split; [reflexivity|lia]]].
  assert (Hc : s_conn (n_client (at_ k)) <> CHandshake) by (apply (born _ _ _ T); right; eauto).
  destruct (at_ k) as [c part up srv down got frames] eqn:Ek. cbn [n_client n_part n_up] in *.
  destruct l as [l| |b|b|b|m0|b|]; cbn [nstep] in LS.
  - destruct (client_may _ l) eqn:Em; [|discriminate]. destruct (step log c l) as [[c' o']|] eqn:E; [|discriminate]. injection LS as <- _. cbn [n_client n_part n_up].
    assert (Hex : (l <> LWrite /\ (forall b, l <> LCloseFrame b)) \/ (l = LWrite \/ exists b, l = LCloseFrame b)) by (destruct l; eauto; left; split; discriminate).
    destruct Hex as [[H1 H2]|H].
    + destruct (client_quiet _ _ _ _ _ _ Ho E H1 H2 Hc) as [[P|(e & P & _)] _].
      * right. split; [exact P|]. right. split; [|lia]. destruct l; try reflexivity; [exfalso; exact (H1 eq_refl)|exfalso; exact (H2 _ eq_refl)].
      * left. rewrite P. intros X. pose proof (outgoing_live _ _ Ho) as Y. unfold task_ended in Y. rewrite <- X in Y. discriminate.
    + left. destruct (outgoing_cases _ _ Ho) as [(m & rest & P & _)|[P _]]; rewrite P; destruct H as [->|[b ->]]; cbn [step] in E; rewrite P in E; try discriminate E; injection E as <- _; cbn [s_phase set_phase].
      * unfold sending. destruct rest; [discriminate|]. intros X. assert (Z := f_equal (fun p => match p with PSending z => length z | _ => 0 end) X). cbn in Z. lia.
      * discriminate.
  - exfalso. destruct frames as [|m frames]; [discriminate|]. destruct (_ <=? _)%N; [|discriminate]. cbn [step] in LS.
    destruct (negb (ws_valid m)); [discriminate|]. destruct (outgoing_cases _ _ Ho) as [(m1 & rest & P & _)|[P _]]; rewrite P in LS; discriminate.
  - rewrite Ho in LS. destruct ((0 <? b) && _ && _)%N%bool eqn:Eb; [|discriminate]. injection LS as <- _.
    apply andb_prop in Eb. destruct Eb as [Eb E3]. apply andb_prop in Eb. destruct Eb as [E1 E2]. apply N.ltb_lt in E1. right. split; [reflexivity|]. left. cbn. lia.
  - destruct (_ && _)%bool; [|discriminate]. injection LS as <- _. right. split; [reflexivity|]. right. cbn. split; [reflexivity|lia].
  - destruct (_ && _)%bool; [|discriminate]. injection LS as <- _. right. split; [reflexivity|]. right. cbn. split; [reflexivity|lia].
  - destruct srv; [discriminate|]. injection LS as <- _. right. split; [reflexivity|]. right. cbn. split; [reflexivity|lia].
  - destruct srv as [[m d]|]; [|discriminate]. destruct (_ && _)%bool; [|discriminate]. injection LS as <- _. right. split; [reflexivity|]. right. cbn. split; [reflexivity|lia].
  - destruct srv as [[m d]|]; [|discriminate]. destruct (_ =? _)%N; [|discriminate]. injection LS as <- _. right. split; [reflexivity|]. right. cbn. split; [reflexivity|lia].
Qed.
(** Until the moment [j] the phase has changed, or more was put into the pipe, or neither and there is
    not less room. *)
Lemma until k size : outgoing (n_client (at_ k)) = Some size -> forall d,
  (exists j, k <= j /\ ph j <> ph k) \/
  (ph (k + d) = ph k /\ ((n_part (at_ k) < n_part (at_ (k + d)))%N \/ (n_part (at_ (k + d)) = n_part (at_ k) /\ (n_up (at_ (k + d)) <= n_up (at_ k))%N))).
Proof.
  intros Ho. induction d as [|d IH]; [right; rewrite Nat.add_0_r; split; [reflexivity|right; split; [reflexivity|lia]]|].
  destruct IH as [IH|[P IH]]; [left; exact IH|].
  assert (Ho' : outgoing (n_client (at_ (k + d))) = Some size) by (rewrite (outgoing_phase _ _ P); exact Ho).
  destruct (one_moment _ _ Ho') as [X|[X Y]].
  - left. exists (S (k + d)). split; [lia|]. rewrite <- P. exact X.
  - right. rewrite Nat.add_succ_r. split; [rewrite X; exact P|]. lia.
Qed.
Lemma until' k j size : outgoing (n_client (at_ k)) = Some size -> k <= j ->
  (exists i, k <= i /\ ph i <> ph k) \/
  (ph j = ph k /\ ((n_part (at_ k) < n_part (at_ j))%N \/ (n_part (at_ j) = n_part (at_ k) /\ (n_up (at_ j) <= n_up (at_ k))%N))).
Proof. intros Ho Hj. replace j with (k + (j - k)) by lia. exact (until k size Ho (j - k)). Qed.

Hypothesis Hp : pipe_takes cfg r.
Hypothesis Hs : server_reads r.
Hypothesis Hw : writes_reported cfg log r.

Definition left_or_more (k : nat) : Prop :=
  (exists j, k <= j /\ ph j <> ph k) \/ exists j, k <= j /\ ph j = ph k /\ (n_part (at_ k) < n_part (at_ j))%N.
Lemma put_adds j b : n_does r j = Some (NPut b) -> ph (S j) = ph j /\ (n_part (at_ j) < n_part (at_ (S j)))%N.
Proof.
  intros E. destruct L as [_ LS]. specialize (LS j). rewrite E in LS. destruct (at_ j) as [c part up srv down got frames]. cbn [nstep] in LS.
  destruct (outgoing c); [|discriminate]. destruct ((0 <? b) && _ && _)%N%bool eqn:Eb; [|discriminate]. injection LS as <- _.
  apply andb_prop in Eb. destruct Eb as [Eb _]. apply andb_prop in Eb. destruct Eb as [E1 _]. apply N.ltb_lt in E1. cbn. split; [reflexivity|lia].
Qed.
Lemma take_frees j b : n_does r j = Some (NTake b) -> ph (S j) = ph j /\ n_part (at_ (S j)) = n_part (at_ j) /\ (n_up (at_ (S j)) < n_up (at_ j))%N.
Proof.
  intros E. destruct L as [_ LS]. specialize (LS j). rewrite E in LS. destruct (at_ j) as [c part up srv down got frames]. cbn [nstep] in LS.
  destruct ((0 <? b) && (b <=? up))%N%bool eqn:Eb; [|discriminate]. cbn in LS. destruct (_ || _)%bool; [|discriminate]. injection LS as <- _.
  apply andb_prop in Eb. destruct Eb as [E1 E2]. apply N.ltb_lt in E1. apply N.leb_le in E2. cbn. repeat split; lia.
Qed.
Lemma with_room k size : outgoing (n_client (at_ k)) = Some size -> (n_part (at_ k) < size)%N -> (n_up (at_ k) < cap_up cfg)%N -> left_or_more k.
Proof.
  intros Ho Hlt Hr. destruct (Hp k) as (j & Hkj & Hj). destruct (until' k j size Ho Hkj) as [X|[P X]]; [left; exact X|].
  destruct X as [X|[X1 X2]]; [right; exists j; auto|].
  destruct Hj as [[b Hb]|Hj].
  - destruct (put_adds _ _ Hb) as [Y1 Y2]. right. exists (S j). split; [lia|]. split; [rewrite Y1; exact P|lia].
  - specialize (Hj size). rewrite (outgoing_phase _ _ P) in Hj. specialize (Hj Ho). lia.
Qed.
Lemma grows k size : outgoing (n_client (at_ k)) = Some size -> (n_part (at_ k) < size)%N -> left_or_more k.
Proof.
  intros Ho Hlt. destruct (N.lt_ge_cases (n_up (at_ k)) (cap_up cfg)) as [Hr|Hr]; [exact (with_room k size Ho Hlt Hr)|].
  destruct (Hs k) as (j & Hkj & Hj). destruct (until' k j size Ho Hkj) as [X|[P X]]; [left; exact X|].
  destruct X as [X|[X1 X2]]; [right; exists j; auto|].
  assert (Q : exists i, j <= i /\ ph i = ph k /\ n_part (at_ i) = n_part (at_ k) /\ (n_up (at_ i) < cap_up cfg)%N).
  { destruct Hj as [[b Hb]|Hj].
    - destruct (take_frees _ _ Hb) as (Y1 & Y2 & Y3). pose proof (so_up _ _ (proj1 (life_sound j))) as Z. exists (S j). repeat split; try lia. rewrite Y1. exact P.
    - exists j. repeat split; try lia. exact P. }
  destruct Q as (i & Hji & Q1 & Q2 & Q3).
  assert (Ho' : outgoing (n_client (at_ i)) = Some size) by (rewrite (outgoing_phase _ _ Q1); exact Ho).
  destruct (with_room i size Ho' ltac:(lia) Q3) as [(j2 & A & B)|(j2 & A & B & C)].
  - left. exists j2. split; [lia|]. rewrite <- Q1. exact B.
  - right. exists j2. split; [lia|]. split; [rewrite B; exact Q1|lia].
Qed.
Lemma written_some_time n : forall k size, outgoing (n_client (at_ k)) = Some size -> N.to_nat (size - n_part (at_ k)) <= n ->
  exists j, k <= j /\ ph j <> ph k.
Proof.
  induction n as [|n IH]; intros k size Ho Hn; pose proof (so_part _ _ (proj1 (life_sound k)) size Ho) as Hle.
  - assert (E : n_part (at_ k) = size) by lia.
    assert (Hl : exists l, (l = LWrite \/ l = LCloseFrame true) /\
      (forall n0, s_phase (n_client n0) = ph k -> n_part n0 = size -> nstep cfg log n0 (NClient l) <> None) /\
      (forall n0 n1 o, s_phase (n_client n0) = ph k -> nstep cfg log n0 (NClient l) = Some (n1, o) -> s_phase (n_client n1) <> ph k)).
    { destruct (outgoing_cases _ _ Ho) as [(m & rest & P & Es)|[P Es]]; rewrite P.
      - exists LWrite. split; [auto|]. split.
        + intros n0 Q Q2. destruct n0 as [c part up srv down got frames]. cbn in Q, Q2. cbn [nstep client_may]. unfold complete, outgoing. cbn [n_client n_part]. rewrite Q.
          rewrite Q2, Es, N.eqb_refl. cbn [step]. rewrite Q. discriminate.
        + intros n0 n1 o Q H. destruct n0 as [c part up srv down got frames]. cbn [n_client] in Q. cbn [nstep] in H. destruct (client_may _ _); [|discriminate].
          cbn [step] in H. rewrite Q in H. injection H as <- _. cbn. unfold sending. destruct rest; [discriminate|]. intros X. assert (Z := f_equal (fun p => match p with PSending z => length z | _ => 0 end) X). cbn in Z. lia.
      - exists (LCloseFrame true). split; [auto|]. split.
        + intros n0 Q Q2. destruct n0 as [c part up srv down got frames]. cbn in Q, Q2. cbn [nstep client_may]. unfold complete, outgoing. cbn [n_client n_part]. rewrite Q.
          rewrite Q2, Es, N.eqb_refl. cbn [step]. rewrite Q. discriminate.
        + intros n0 n1 o Q H. destruct n0 as [c part up srv down got frames]. cbn [n_client] in Q. cbn [nstep] in H. destruct (client_may _ _); [|discriminate].
          cbn [step] in H. rewrite Q in H. injection H as <- _. cbn. discriminate. }
    destruct Hl as (l & Hl & Hcan & Hleaves). destruct (Hw k l Hl) as (j & Hkj & Hj).
    destruct (until' k j size Ho Hkj) as [X|[P X]]; [exact X|].
    assert (Ho' : outgoing (n_client (at_ j)) = Some size) by (rewrite (outgoing_phase _ _ P); exact Ho).
    pose proof (so_part _ _ (proj1 (life_sound j)) size Ho') as Hlej.
    destruct Hj as [Hj|Hj].
    + destruct L as [_ LS]. specialize (LS j). rewrite Hj in LS. exists (S j). split; [lia|]. exact (Hleaves _ _ _ P LS).
    + exfalso. apply (Hcan (at_ j) P); [lia|exact Hj].
  - destruct (N.eq_dec (n_part (at_ k)) size) as [E|E]; [apply (IH k size Ho); lia|].
    destruct (grows k size Ho ltac:(lia)) as [X|(j & Hkj & P & X)]; [exact X|].
    assert (Ho' : outgoing (n_client (at_ j)) = Some size) by (rewrite (outgoing_phase _ _ P); exact Ho).
    destruct (IH j size Ho' ltac:(lia)) as (i & Hji & Hi). exists i. split; [lia|]. rewrite <- P. exact Hi.
Qed.
Lemma net_writes_end : writes_end (client_life r).
Proof.
  intros k rest Hk. cbn [at_time client_life] in *. destruct (life_sound k) as [_ [o T]]. pose proof (sending_nonempty _ _ _ _ T Hk) as Hne.
  destruct rest as [|m rest]; [contradiction|].
  assert (Ho : outgoing (n_client (at_ k)) = Some (frame_bytes true m)) by (unfold outgoing; rewrite Hk; reflexivity).
  destruct (written_some_time _ k _ Ho (le_n _)) as (j & Hj & X). exists j. split; [exact Hj|]. rewrite <- Hk. exact X.
Qed.
Lemma net_closing_ends : closing_ends (client_life r).
Proof.
  intros k Hk. cbn [at_time client_life] in *.
  assert (Ho : outgoing (n_client (at_ k)) = Some (frame_bytes true (WClose None))) by (unfold outgoing; rewrite Hk; reflexivity).
  destruct (written_some_time _ k _ Ho (le_n _)) as (j & Hj & X). exists j. split; [exact Hj|]. rewrite <- Hk. exact X.
Qed.
End Lives.
Lemma net_queued_is_written cfg log r : net_lives cfg log r -> (0 < cap_up cfg)%N -> pipe_takes cfg r -> server_reads r ->
  writes_reported cfg log r -> callbacks_end (client_life r) -> fair_to log (client_life r) LTake ->
  forall k, exists j, k <= j /\
    (past_loop (n_client (n_at r j)) \/ exists rest, writes (seen (client_life r) j) = concat (queued (seen (client_life r) k)) ++ rest).
Proof.
  intros L Hc Hp Hs Hw Cb Fa k.
  exact (queued_is_written log (client_life r) (client_lives _ _ _ L) (net_writes_end _ _ _ L Hc Hp Hs Hw) Cb Fa k).
Qed.
Lemma blocked_run_stays cfg log ls n o ls' n' o' : net_run cfg log ls n o -> neither_fits cfg n ->
  ~ In (NClient (LCloseFrame false)) ls' -> nexecute cfg log n ls' = Some (n', o') ->
  ((neither_fits cfg n' /\ s_phase (n_client n') = s_phase (n_client n)) \/ put_down (n_client n')) /\
  forall x, In x o' -> ~ lively x.
Proof. intros R F C H. exact (stays_blocked cfg log ls' n o n' o' (net_trace _ _ _ _ _ R) (or_introl F) C H). Qed.
Lemma net_writes cfg log r : net_lives cfg log r -> (0 < cap_up cfg)%N ->
  pipe_takes cfg r -> server_reads r -> writes_reported cfg log r ->
  lives log (client_life r) /\ writes_end (client_life r) /\ closing_ends (client_life r).
Proof.
  intros L C P S W. split; [exact (client_lives _ _ _ L)|]. split; [exact (net_writes_end _ _ _ L C P S W)|exact (net_closing_ends _ _ _ L C P S W)].
Qed.
