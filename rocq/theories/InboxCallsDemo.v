(** A run where an event and an ack arrive together and both callbacks are called. *)
From Verif Require Export InboxCalls ClientDemo.
From Coq Require Import Lia.

Definition call_pre : list label := opened_run ++ [LTable (SetEvent (bs "/") (bs "news") 7%N);
  LEmit (Emission (bs "/") (bs "ask") [SetCallback 9%N] [SInt 1]); LRegister 0; LPush 0; LTake; LWrite].
Definition call_news : wsmsg := WText (bs "42[""news"",5]").
Definition call_answer : wsmsg := WText (bs "430[true]").
Definition after (s : state) (l : label) : state * list obs := match step false s l with Some r => r | None => (init, []) end.
Definition call_0 : state * list obs := match execute false init call_pre with Some r => r | None => (init, []) end.
Definition call_1 : state * list obs := after (fst call_0) (LRead call_news).
Definition call_2 : state := fst (after (fst call_1) LCbReturn).
Definition call_3 : state * list obs := after call_2 (LRead call_answer).
Definition call_4 : state := fst (after (fst call_3) LCbReturn).
Definition call_came : list wsmsg := (([] ++ reads (snd call_0)) ++ [call_news]) ++ [call_answer].
Definition call_seen : list (nat * obs) := [] ++ map (pair 0) (snd call_0).
(** Both arrive at time 0; they are read at times 2 and 6. *)
Definition call_arrived : desk := Desk (fst call_0) 0 0 0 [call_news; call_answer] call_came call_seen.
Definition call_seen_all : list (nat * obs) := (((call_seen ++ map (pair 2) (snd call_1)) ++ map (pair 4) []) ++ map (pair 6) (snd call_3)) ++ map (pair 8) [].
Definition call_done : desk := Desk call_4 30 8 0 [] call_came call_seen_all.
Lemma call_attended : attended false 3 1 call_arrived.
Proof.
  exists 0. eapply on_turn; [eapply on_turn; [apply (read_at_once false 3 1 0 call_pre init [] [] (fst call_0) (snd call_0)); vm_compute; reflexivity|]|].
  - exact (tn_arrive false 3 1 (fst call_0) 0 0 0 [] _ _ call_news ltac:(vm_compute; discriminate) eq_refl).
  - exact (tn_arrive false 3 1 (fst call_0) 0 0 0 [call_news] _ _ call_answer ltac:(vm_compute; discriminate) eq_refl).
Qed.
Lemma call_onward : onward false 3 1 call_arrived call_done.
Proof.
  eapply on_turn; [eapply on_turn; [eapply on_turn; [eapply on_turn; [eapply on_turn; [eapply on_turn; [eapply on_turn; [eapply on_turn; [eapply on_turn; [apply on_here|]|]|]|]|]|]|]|]|].
  - apply (tn_wait false 3 1 (fst call_0) 0 2 0 0 [call_news; call_answer] call_came call_seen); lia.
  - refine (tn_step false 3 1 (fst call_0) 2 0 0 [call_news; call_answer] call_came call_seen (LRead call_news) (fst call_1) (snd call_1) [call_answer] _ eq_refl _); [vm_compute; reflexivity|discriminate].
  - apply (tn_wait false 3 1 (fst call_1) 2 4 2 0 [call_answer] call_came); lia.
  - refine (tn_step false 3 1 (fst call_1) 4 2 0 [call_answer] call_came _ LCbReturn call_2 [] [call_answer] _ eq_refl _); [vm_compute; reflexivity|discriminate].
  - apply (tn_wait false 3 1 call_2 4 6 4 0 [call_answer] call_came); lia.
  - refine (tn_step false 3 1 call_2 6 4 0 [call_answer] call_came _ (LRead call_answer) (fst call_3) (snd call_3) [] _ eq_refl _); [vm_compute; reflexivity|discriminate].
  - apply (tn_wait false 3 1 (fst call_3) 6 8 6 0 [] call_came); lia.
  - refine (tn_step false 3 1 (fst call_3) 8 6 0 [] call_came _ LCbReturn call_4 [] [] _ eq_refl _); [vm_compute; reflexivity|discriminate].
  - apply (tn_wait false 3 1 call_4 8 30 8 0 [] call_came); [lia|vm_compute; discriminate].
Qed.
Definition event_call (o : list obs) : bool := match o with [ORead _; OCall _ (EventCall g _ _)] => (g =? 7)%N | _ => false end.
Definition ack_call (o : list obs) : bool := match o with [ORead _; OCall _ (AckCall g _)] => (g =? 9)%N | _ => false end.
Lemma event_call_is o : event_call o = true -> exists m p a b, o = [ORead m; OCall p (EventCall 7%N a b)].
Proof.
  destruct o as [|[] o]; try discriminate. destruct o as [|[|? []| | | | | | | | | | | | | | |] o]; try discriminate. destruct o; try discriminate.
  cbn. intros E. apply N.eqb_eq in E. subst. eauto 6.
Qed.
Lemma ack_call_is o : ack_call o = true -> exists m p a, o = [ORead m; OCall p (AckCall 9%N a)].
Proof.
  destruct o as [|[] o]; try discriminate. destruct o as [|[|? []| | | | | | | | | | | | | | |] o]; try discriminate. destruct o; try discriminate.
  cbn. intros E. apply N.eqb_eq in E. subst. eauto 6.
Qed.
Lemma call_0_trace : trace false (fst call_0) (snd call_0).
Proof. exists call_pre. vm_compute. reflexivity. Qed.
Lemma call_1_step : step false (fst call_0) (LRead call_news) = Some call_1.
Proof. vm_compute. reflexivity. Qed.
Lemma call_2_step : step false (fst call_1) LCbReturn = Some (call_2, []).
Proof. vm_compute. reflexivity. Qed.
Lemma call_3_step : step false call_2 (LRead call_answer) = Some call_3.
Proof. vm_compute. reflexivity. Qed.
Lemma call_0_reads : reads (snd call_0) = [sample_open].
Proof. vm_compute. reflexivity. Qed.
Lemma news_meets : exists p ns id a name, brings [sample_open] call_news p /\ packet_namespace p = Some ns /\ packet_data p = Some (DataEvent id a) /\
  event_name p (Ok name) /\ routed (table_history (snd call_0)) ns name 7%N.
Proof.
  pose proof call_1_step as S. destruct call_1 as [s1 o1] eqn:E1.
  destruct (event_call_is o1) as (m & p & a & b & Eo); [change o1 with (snd (s1, o1)); rewrite <- E1; vm_compute; reflexivity|]. subst o1.
  assert (m = call_news) as -> by (pose proof (step_reads _ _ _ _ _ S) as R; cbn in R; congruence).
  pose proof (trace_step _ _ _ _ _ _ call_0_trace S) as Ht. change [ORead call_news; OCall p (EventCall 7%N a b)] with ([ORead call_news] ++ OCall p (EventCall 7%N a b) :: []) in Ht.
  rewrite app_assoc in Ht. destruct (event_calls_routed _ _ _ _ _ _ _ _ Ht) as (o0 & m & ns & id & name & Eo & Co & Hn & Hd & He & Hr & _).
  apply app_inj_tail in Eo as [<- Em]. injection Em as <-. exists p, ns, id, a, name.
  split; [|auto]. unfold completes in Co. rewrite call_0_reads in Co. exact Co.
Qed.
Lemma call_2_trace : trace false call_2 (snd call_0 ++ snd call_1).
Proof.
  assert (E : step false (fst call_0) (LRead call_news) = Some (fst call_1, snd call_1)) by (rewrite call_1_step; destruct call_1; reflexivity).
  pose proof (trace_step _ _ _ _ _ _ call_0_trace E) as Ht.
  pose proof (trace_step _ _ _ _ _ _ Ht call_2_step) as H2. rewrite app_nil_r in H2. exact H2.
Qed.
Lemma answer_meets : exists p ns id a, brings [sample_open; call_news] call_answer p /\ packet_namespace p = Some ns /\ packet_data p = Some (DataAck id a).
Proof.
  pose proof call_3_step as S. destruct call_3 as [s3 o3] eqn:E3.
  destruct (ack_call_is o3) as (m & p & a & Eo); [change o3 with (snd (s3, o3)); rewrite <- E3; vm_compute; reflexivity|]. subst o3.
  assert (m = call_answer) as -> by (pose proof (step_reads _ _ _ _ _ S) as R; cbn in R; congruence).
  pose proof (trace_step _ _ _ _ _ _ call_2_trace S) as Ht. change [ORead call_answer; OCall p (AckCall 9%N a)] with ([ORead call_answer] ++ OCall p (AckCall 9%N a) :: []) in Ht.
  rewrite app_assoc in Ht. destruct (ack_calls_registered _ _ _ _ _ _ _ Ht) as (o0 & m & ns & id & b1 & b2 & Eo & Co & Hn & Hd & _).
  apply app_inj_tail in Eo as [<- Em]. injection Em as <-. exists p, ns, id, a.
  split; [|auto]. unfold completes in Co. replace (reads (snd call_0 ++ snd call_1)) with [sample_open; call_news] in Co by (vm_compute; reflexivity). exact Co.
Qed.
Lemma call_honest : honest (noticed call_done).
Proof. apply (honest_run_ok (e_state call_done)); [exact (proj1 (attended_is_trace _ _ _ _ (attended_onward _ _ _ _ _ call_attended call_onward)))|vm_compute; reflexivity]. Qed.
Lemma call_shapes : map shape_of (skipn 8 (noticed call_done)) = [Sread (bs "42[""news"",5]"); Scall 7%N; Sread (bs "430[true]"); Scall 9%N].
Proof. vm_compute. reflexivity. Qed.
