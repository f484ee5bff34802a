(** Properties of clients and threads that share event callbacks, each with its theorem(s), the
    assumptions of each, and a case that meets its hypotheses. *)
From Verif Require Import SharedProofs.

(** ** C53 *)
(** Each client among others is a client as in the properties C27-C40 and C46-C51: what it does and
    what is observed of it is a run of one client, so that all of them hold of it. *)
Theorem C53_a_client_like_any :
  forall log n ls w o, world_run log n ls w o ->
    forall i s, nth_error (w_clients w) i = Some s -> client_run log (labels_of i ls) s (obs_of i o).
Proof. exact world_project. Qed.
Print Assumptions C53_a_client_like_any.
(** A run of a callback begins only while nobody runs it and nobody has panicked in it. *)
Theorem C53_begins_alone :
  forall log n ls w o o1 r f o2, world_run log n ls w o -> o = o1 ++ WBegin r f :: o2 ->
    (forall r', ~ running o1 f r') /\ ~ has_panicked o1 f.
Proof. exact begins_alone. Qed.
Print Assumptions C53_begins_alone.
(** It ends by the one who runs it. *)
Theorem C53_ends_by_its_runner :
  forall log n ls w o o1 r f p o2, world_run log n ls w o -> o = o1 ++ WEnd r f p :: o2 -> running o1 f r.
Proof. exact ends_by_runner. Qed.
Print Assumptions C53_ends_by_its_runner.
Theorem C53_one_at_a_time :
  forall log n ls w o f r r', world_run log n ls w o -> running o f r -> running o f r' -> r = r'.
Proof. exact single_runner. Qed.
Print Assumptions C53_one_at_a_time.
(** What the body does, it does while it runs. *)
Theorem C53_acts_while_running :
  forall log n ls w o i l w' o' s f, world_run log n ls w o -> wstep log w (WClient i l) = Some (w', o') ->
    nth_error (w_clients w) i = Some s -> calling s = Some f -> of_body l = true -> running o f (RTask i).
Proof. exact acts_while_running. Qed.
Print Assumptions C53_acts_while_running.
(** The calls that a client makes are run each once, in order, up to one that is refused or waits. *)
Theorem C53_calls_in_order :
  forall log n ls w o i s, world_run log n ls w o -> nth_error (w_clients w) i = Some s ->
    exists rest, calls_of i o = begun_by i o ++ refused_to i o ++ rest /\
      (refused_to i o = [] \/ exists f e, refused_to i o = [f] /\ rest = [] /\ s_phase s = PEnded e) /\
      (forall f, rest = [f] <-> calling s = Some f /\ ~ running o f (RTask i)) /\ (rest = [] \/ exists f, rest = [f]).
Proof. exact calls_in_order. Qed.
Print Assumptions C53_calls_in_order.
(** A call waits only while the callback runs elsewhere. *)
Theorem C53_waits_for_runner :
  forall log n ls w o i s f, world_run log n ls w o -> nth_error (w_clients w) i = Some s -> calling s = Some f ->
    ((exists w' o', wstep log w (WEnter i) = Some (w', o')) <-> (forall r, ~ running o f r) /\ ~ has_panicked o f) /\
    ((exists w' o', wstep log w (WRefuse i) = Some (w', o')) <-> (forall r, ~ running o f r) /\ has_panicked o f).
Proof. exact waits_for_runner. Qed.
Print Assumptions C53_waits_for_runner.
(** Two clients share callback 7: it runs in the first, then in the second, then again in the first
    while the second waits. *)
Example C53_nonvacuous :
  world_run false 2 shared_run (world_of shared_run) (wobs_of shared_run) /\
  map (fun x => match x with WBegin r _ => Some (r, true) | WEnd r _ _ => Some (r, false) | _ => None end)
    (filter (fun x => match x with WObs _ _ => false | _ => true end) (wobs_of shared_run)) =
  [Some (RTask 0, true); Some (RTask 0, false); Some (RTask 1, true); Some (RTask 1, false); Some (RTask 0, true)] /\
  calls_of 1 (wobs_of shared_run) = [7%N; 7%N] /\ begun_by 1 (wobs_of shared_run) = [7%N] /\
  wexecute false (world_of shared_run) [WEnter 1] = None.
Proof. split; [exact shared_run_ok|]. repeat split; vm_compute; reflexivity. Qed.

(** ** C54 *)
(** False: the panic of a callback in one client ends another client that uses the same callback. *)
Theorem C54_panic_stays_in_its_client_refuted : ~ C54_full.
Proof. exact C54_refuted_lemma. Qed.
Print Assumptions C54_panic_stays_in_its_client_refuted.
(** A call is refused exactly then: somebody else has panicked in the callback before, and nobody runs it. *)
Theorem C54_refused_because_of_another :
  forall log n ls w o o1 r f o2, world_run log n ls w o -> o = o1 ++ WRefused r f :: o2 ->
    (exists r', In (WEnd r' f true) o1 /\ forall i, r = RTask i -> r' <> RTask i) /\ forall r', ~ running o1 f r'.
Proof. exact refused_because. Qed.
Print Assumptions C54_refused_because_of_another.
(** What remains true: a callback that no one else runs is never refused. *)
Theorem C54_own_callbacks_partial :
  forall log n ls w o i f, world_run log n ls w o -> (forall r, In (WBegin r f) o -> r = RTask i) ->
    ~ In (WRefused (RTask i) f) o.
Proof. exact own_callbacks. Qed.
Print Assumptions C54_own_callbacks_partial.
(** The causes of a panic of a task among other clients: as for a client alone, or a refusal. *)
Theorem C54_panics_exactly :
  forall log n ls w o l w' o' i s, world_run log n ls w o -> wstep log w l = Some (w', o') -> nth_error (w_clients w) i = Some s ->
    (In (WObs i (OEnd EndPanic)) o' <->
     (exists m, l = WClient i (LRead m) /\ (overflow_message (obs_of i o) m \/ unshowable_message log (obs_of i o) m)) \/
     (l = WClient i LTake /\ In OChannelClosed (obs_of i o) /\ s_chan s = []) \/
     l = WClient i LCbPanic \/ l = WRefuse i).
Proof. exact world_panics. Qed.
Print Assumptions C54_panics_exactly.
(** The second client is refused the callback that panicked in the first, and its task ends. *)
Example C54_nonvacuous :
  world_run false 2 shared_panic (world_of shared_panic) (wobs_of shared_panic) /\
  In (WRefused (RTask 1) 7%N) (wobs_of shared_panic) /\
  map s_phase (w_clients (world_of shared_panic)) = [PEnded EndPanic; PEnded EndPanic] /\
  In (WObs 1 (OEnd EndPanic)) (wobs_of shared_panic).
Proof.
  split; [exact shared_panic_ok|]. split; [exact shared_refused|]. split; [vm_compute; reflexivity|]. vm_compute. auto 40.
Qed.
