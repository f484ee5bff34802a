(** Properties of callbacks that call callbacks, each with its theorem(s), the assumptions of each, and a
    case that meets its hypotheses. *)
From Verif Require Import NestDemo.

(** ** C95 *)
(** A run of a callback begins only while nobody executes the callback, not even the thread that calls it, and only if no
    panic has ever passed through a run of it. *)
Theorem C95_begins_alone :
  forall n ls s o o1 t f o2, nest_run n ls s o -> o = o1 ++ CBegin t f :: o2 ->
    (forall t', ~ executes o1 t' f) /\ ~ was_passed o1 f.
Proof. exact begins_alone. Qed.
Print Assumptions C95_begins_alone.
Theorem C95_one_at_a_time :
  forall n ls s o t t' f, nest_run n ls s o -> executes o t f -> executes o t' f -> t = t'.
Proof. exact one_executes. Qed.
Print Assumptions C95_one_at_a_time.
(** Runs of one thread end in the reverse order of their beginnings. *)
Theorem C95_last_ends_first :
  forall n ls s o o1 t f p o2, nest_run n ls s o -> o = o1 ++ CEnd t f p :: o2 -> innermost o1 t f.
Proof. exact ends_innermost. Qed.
Print Assumptions C95_last_ends_first.
(** A call goes on exactly if nobody executes the callback: it runs, or panics if a panic has passed through a run. *)
Theorem C95_goes_on_exactly :
  forall n ls s o t f, nest_run n ls s o -> calls s t f ->
    ((exists s' o', cstep s (CEnter t) = Some (s', o')) <-> (forall t', ~ executes o t' f) /\ ~ was_passed o f) /\
    ((exists s' o', cstep s (CRefuse t 0) = Some (s', o')) <-> (forall t', ~ executes o t' f) /\ was_passed o f).
Proof. exact goes_on. Qed.
Print Assumptions C95_goes_on_exactly.
(** Who does not wait may call any callback, and the innermost body may return or panic. *)
Theorem C95_may_call_any :
  forall n ls s o t, nest_run n ls s o -> t < n -> (forall f, ~ calls s t f) ->
    (forall f, exists s', cstep s (CCall t f) = Some (s', []) /\ calls s' t f) /\
    (forall f, innermost o t f -> (exists s', cstep s (CReturn t) = Some (s', [CEnd t f false])) /\ exists s', cstep s (CPanic t 1) = Some (s', [CEnd t f true])).
Proof. exact may_do. Qed.
Print Assumptions C95_may_call_any.
(** A callback that is called from its own body, directly or by way of others, waits for ever: whatever
    happens, its thread stays where it is, and nobody can run the callback again. *)
Theorem C95_calling_itself_is_for_ever :
  forall n ls s o t f ls' s' o', nest_run n ls s o -> calls s t f -> executes o t f -> cexecute s ls' = Some (s', o') ->
    nth_error (n_threads s') t = nth_error (n_threads s) t /\ executes (o ++ o') t f.
Proof. exact calls_itself. Qed.
Print Assumptions C95_calling_itself_is_for_ever.
(** Callback 1 has called callback 2, and another thread waits for callback 1. *)
Example C95_nonvacuous :
  nest_run 2 nested_run (nest_of 2 nested_run) (cobs_of 2 nested_run) /\
  executes (cobs_of 2 nested_run) 0 1%N /\ innermost (cobs_of 2 nested_run) 0 2%N /\
  calls (nest_of 2 nested_run) 1 1%N /\ cobs_of 2 (nested_run ++ [CReturn 0; CReturn 0; CEnter 1]) =
    [CBegin 0 1%N; CBegin 0 2%N; CEnd 0 2%N false; CEnd 0 1%N false; CBegin 1 1%N].
Proof. split; [exact nested_ok|]. destruct nested_waits as (_ & A & B). split; [exact A|]. split; [exact B|]. split; [exists []; reflexivity|vm_compute; reflexivity]. Qed.
Example C95_itself_nonvacuous :
  nest_run 1 self_run (nest_of 1 self_run) (cobs_of 1 self_run) /\ calls (nest_of 1 self_run) 0 1%N /\ executes (cobs_of 1 self_run) 0 1%N.
Proof. split; [exact self_ok|exact self_calls]. Qed.

(** ** C96 *)
(** False: a callback that has called one that panicked is refused too. *)
Theorem C96_refused_only_own_panic_refuted : ~ C96_full.
Proof. exact C96_refuted_lemma. Qed.
Print Assumptions C96_refused_only_own_panic_refuted.
(** True if the bodies catch the panics of the callbacks they call. *)
Theorem C96_refused_only_own_panic_partial :
  forall n ls s o t f, nest_run n ls s o -> bodies_catch ls -> In (CRefused t f) o -> has_panicked_itself n ls f.
Proof. exact caught_panics. Qed.
Print Assumptions C96_refused_only_own_panic_partial.
(** A call is refused exactly because a panic has passed through a run of the callback, and for ever (C95). *)
Theorem C96_refused_because :
  forall n ls s o o1 t f o2, nest_run n ls s o -> o = o1 ++ CRefused t f :: o2 -> was_passed o1 f /\ forall t', ~ executes o1 t' f.
Proof. exact refused_passed. Qed.
Print Assumptions C96_refused_because.
(** A panic passes through a run of a callback because a body panics, or calls a callback that refuses, in the
    thread that executes the callback. *)
Theorem C96_passed_because :
  forall n ls s o f, nest_run n ls s o -> was_passed o f ->
    exists ls1 l ls2 s0 o0 t k, ls = ls1 ++ l :: ls2 /\ nest_run n ls1 s0 o0 /\ executes o0 t f /\
      ((l = CPanic t k /\ exists g, innermost o0 t g) \/ (l = CRefuse t k /\ exists g, calls s0 t g /\ was_passed o0 g)).
Proof. exact passed_cause. Qed.
Print Assumptions C96_passed_because.
(** Callback 2 panics and takes callback 1 along. *)
Example C96_nonvacuous :
  nest_run 2 passing_run (nest_of 2 passing_run) (cobs_of 2 passing_run) /\
  cobs_of 2 passing_run = [CBegin 0 1%N; CBegin 0 2%N; CEnd 0 2%N true; CEnd 0 1%N true; CRefused 1 1%N].
Proof. split; [exact passing_ok|vm_compute; reflexivity]. Qed.
Example C96_partial_nonvacuous :
  nest_run 2 catching_run (nest_of 2 catching_run) (cobs_of 2 catching_run) /\ bodies_catch catching_run /\
  cobs_of 2 catching_run = [CBegin 0 1%N; CBegin 0 2%N; CEnd 0 2%N true; CRefused 1 2%N] /\ t_runs (nth 0 (n_threads (nest_of 2 catching_run)) (Thread [] None)) = [1%N].
Proof. split; [exact catching_ok|]. split; [exact catching_catches|]. split; vm_compute; reflexivity. Qed.

(** ** C97 *)
(** False: two threads that execute callbacks which call each other wait for each other. *)
Theorem C97_no_deadlock_refuted : ~ C97_full.
Proof. exact C97_refuted_lemma. Qed.
Print Assumptions C97_no_deadlock_refuted.
(** True if callbacks call only callbacks of smaller rank, for some rank. *)
Theorem C97_no_deadlock_partial :
  forall rank n ls s o t, nest_run n ls s o -> calls_descend rank n ls -> ~ in_deadlock s o t.
Proof. exact no_deadlock_by_rank. Qed.
Print Assumptions C97_no_deadlock_partial.
(** Deadlocks are for ever, and the only reason to wait for ever. *)
Theorem C97_deadlock_is_for_ever :
  forall n ls s o ls' s' o' t, nest_run n ls s o -> in_deadlock s o t -> cexecute s ls' = Some (s', o') ->
    in_deadlock s' (o ++ o') t /\ nth_error (n_threads s') t = nth_error (n_threads s) t.
Proof. exact deadlock_stays. Qed.
Print Assumptions C97_deadlock_is_for_ever.
Theorem C97_deadlock_exactly :
  forall n ls s o t, nest_run n ls s o -> in_deadlock s o t <-> forall s', after s s' -> exists f, calls s' t f.
Proof. exact waits_for_ever_exactly. Qed.
Print Assumptions C97_deadlock_exactly.
Example C97_deadlock_nonvacuous :
  nest_run 2 crossing_run (nest_of 2 crossing_run) (cobs_of 2 crossing_run) /\ no_callback_calls_itself 2 crossing_run /\
  in_deadlock (nest_of 2 crossing_run) (cobs_of 2 crossing_run) 0 /\ in_deadlock (nest_of 2 crossing_run) (cobs_of 2 crossing_run) 1.
Proof. split; [exact crossing_ok|]. split; [exact crossing_no_self|]. split; apply crossing_deadlock; auto. Qed.
(** A thread waits for a callback that has called another one: no deadlock. *)
Example C97_partial_nonvacuous :
  nest_run 2 nested_run (nest_of 2 nested_run) (cobs_of 2 nested_run) /\ calls_descend down 2 nested_run /\
  awaits (nest_of 2 nested_run) (cobs_of 2 nested_run) 1 0.
Proof. split; [exact nested_ok|]. split; [exact nested_descends|exact (proj1 nested_waits)]. Qed.
