(** Properties of whole runs of a client, each with its theorem(s), the assumptions of each, and a
    case that meets its hypotheses. *)
From Verif Require Import PanicProofs ClientDemo.

(** ** C46 *)
(** One emission: what is given to the channel is the packet built from its own parts. *)
Theorem C46_one_emission :
  forall log s o l e s' o', trace log s o -> l = LEmit e \/ l = LCbEmit e -> step log s l = Some (s', o') ->
    match chosen_callback (em_calls e) with
    | None => exists fs, build (OfEvent (em_event e) None) (em_ns e) (binary_or_not (em_calls e)) (em_args e) = Some fs /\
        (o' = [OQueued (ByEmit (em_ns e) None) fs] /\ ~ lost_reason o \/ o' = [OLost (ByEmit (em_ns e) None) fs] /\ lost_reason o)
    | Some f => exists id fs, chosen_id (s_next_id s) (em_calls e) = Some id /\
        build (OfEvent (em_event e) (Some id)) (em_ns e) (binary_or_not (em_calls e)) (em_args e) = Some fs /\
        In (ORequest id) o' /\
        (l = LEmit e -> s_inflight s' = s_inflight s ++ [Inflight (em_ns e) id f false fs]) /\
        (l = LCbEmit e -> In OBlocked o')
    end.
Proof. exact emit_step. Qed.
Print Assumptions C46_one_emission.
(** All emissions of a run: what was sent is what was asked for, each once; what is missing is under
    way, unless a callback blocked or a user thread panicked. *)
Theorem C46_sent_as_asked :
  forall log ls s o, client_run log ls s o ->
    exists missing, Permutation (map packet_of (asked 0 ls)) (emitted o ++ missing) /\
      (~ disturbed o -> missing = map flight_packet (s_inflight s)).
Proof. exact emissions_sent. Qed.
Print Assumptions C46_sent_as_asked.
(** Likewise for the callbacks registered. *)
Theorem C46_registered_as_asked :
  forall log ls s o, client_run log ls s o ->
    exists missing, Permutation (flat_map callback_of (asked 0 ls)) (registrations o ++ missing) /\
      (~ disturbed o -> s_inflight s = [] -> missing = []).
Proof. exact callbacks_registered. Qed.
Print Assumptions C46_registered_as_asked.
(** Emissions without ack request are sent in the order of the calls. *)
Theorem C46_in_order :
  forall log ls s o, client_run log ls s o ->
    filter no_ack (map packet_of (asked 0 ls)) = filter no_ack (emitted o).
Proof. exact emitted_in_order. Qed.
Print Assumptions C46_in_order.
Example C46_nonvacuous : exists s o, client_run false flow_run s o /\ ~ disturbed o /\ s_inflight s = [] /\
  asked 0 flow_run =
    [(bs "/", None, [WText (bs "42[""a"",1]")]);
     (bs "/c", Some (1%N, 4%N), [WText (bs "451-/c,1[""c"",{""_placeholder"":true,""num"":0}]"); WBinary (x04 :: bs "z")]);
     (bs "/", None, [WText (bs "42[""d""]")])] /\
  emitted o =
    [(bs "/", None, [WText (bs "42[""a"",1]")]);
     (bs "/", None, [WText (bs "42[""d""]")]);
     (bs "/c", Some 1%N, [WText (bs "451-/c,1[""c"",{""_placeholder"":true,""num"":0}]"); WBinary (x04 :: bs "z")])] /\
  registrations o = [(bs "/c", 1%N, 4%N)].
Proof.
  destruct (execute false init flow_run) as [[s o]|] eqn:E; [|vm_compute in E; discriminate].
  exists s, o. split; [exact E|]. vm_compute in E. injection E as <- <-.
  split; [|vm_compute; repeat split].
  intros [H|H]; cbn [In] in H; repeat (destruct H as [H|H]; [discriminate|]); exact H.
Qed.

(** ** C47 *)
(** As long as the task is in its main loop it can, by its own steps alone, write everything that has
    been queued, in order and completely, and be in its main loop again. *)
Theorem C47_queued_can_be_written :
  forall log s o, trace log s o -> in_main_loop s ->
    exists ls s' o', Forall writing ls /\ execute log s ls = Some (s', o') /\ writes (o ++ o') = concat (queued o) /\
      queued o' = [] /\ in_main_loop s'.
Proof. exact progress. Qed.
Print Assumptions C47_queued_can_be_written.
Example C47_nonvacuous : exists s o, trace false s o /\ in_main_loop s /\ writes o = [] /\ length (concat (queued o)) = 4.
Proof.
  destruct (execute false init flow_run) as [[s o]|] eqn:E; [|vm_compute in E; discriminate].
  exists s, o. split; [exists flow_run; exact E|]. vm_compute in E. injection E as <- <-. vm_compute. auto.
Qed.

(** ** C48 *)
(** False of the code: a server can make the task panic. *)
Theorem C48_server_cannot_panic_task_refuted : ~ C48_full.
Proof. exact C48_refuted_lemma. Qed.
Print Assumptions C48_server_cannot_panic_task_refuted.
(** It panics on exactly two kinds of messages: *)
Theorem C48_server_cannot_panic_task_partial :
  forall log s o m s' o', trace log s o -> step log s (LRead m) = Some (s', o') ->
    (In (OEnd EndPanic) o' <-> overflow_message o m \/ unshowable_message log o m).
Proof. exact read_panics_exactly. Qed.
Print Assumptions C48_server_cannot_panic_task_partial.
(** Everything that can make the task panic. *)
Theorem C48_all_panics_of_task :
  forall log s o l s' o', trace log s o -> step log s l = Some (s', o') ->
    (In (OEnd EndPanic) o' <->
     (exists m, l = LRead m /\ (overflow_message o m \/ unshowable_message log o m)) \/
     (l = LTake /\ In OChannelClosed o /\ s_chan s = []) \/ l = LCbPanic).
Proof. exact panics_exactly. Qed.
Print Assumptions C48_all_panics_of_task.
Example C48_nonvacuous : exists s o s' o', trace false s o /\ step false s (LRead (WText (bs "42[""x""]"))) = Some (s', o') /\
  ~ In (OEnd EndPanic) o'.
Proof.
  destruct (execute false init opened_run) as [[s o]|] eqn:E; [|vm_compute in E; discriminate].
  pose proof (run_trace _ _ _ _ E) as H. exists s, o. vm_compute in E. injection E as <- <-.
  eexists _, _. split; [exact H|]. split; [vm_compute; reflexivity|].
  intros X. cbn [In] in X. repeat (destruct X as [X|X]; [discriminate|]). exact X.
Qed.

(** ** C49 *)
(** False of the code: the mutex of the callback table is poisoned. *)
Theorem C49_callback_panic_contained_refuted : ~ C49_full.
Proof. exact C49_refuted_lemma. Qed.
Print Assumptions C49_callback_panic_contained_refuted.
(** A user call panics exactly if a callback has panicked before and the call needs the table. *)
Theorem C49_callback_panic_contained_partial :
  forall log ls s o l s' o', client_run log ls s o -> step log s l = Some (s', o') ->
    (In OUserPanic o' <-> In LCbPanic ls /\ ((exists op, l = LTable op) \/ (exists i, l = LRegister i))).
Proof. exact user_panics_exactly. Qed.
Print Assumptions C49_callback_panic_contained_partial.
(** In particular, none does while the task has not panicked. *)
Theorem C49_no_panic_before_task_panics :
  forall log s o, trace log s o -> In OUserPanic o -> In (OEnd EndPanic) o.
Proof. exact user_panics_trace. Qed.
Print Assumptions C49_no_panic_before_task_panics.
Example C49_nonvacuous : exists s o s' o', client_run false poison_run s o /\
  step false s (LEmit (Emission (bs "/") (bs "d") [] [])) = Some (s', o') /\ ~ In OUserPanic o'.
Proof.
  destruct (execute false init poison_run) as [[s o]|] eqn:E; [|vm_compute in E; discriminate].
  exists s, o. assert (H := E). vm_compute in E. injection E as <- <-.
  eexists _, _. split; [exact H|]. split; [vm_compute; reflexivity|].
  intros X. cbn [In] in X. repeat (destruct X as [X|X]; [discriminate|]). exact X.
Qed.
