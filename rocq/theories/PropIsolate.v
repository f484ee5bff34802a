(** C82: namespaces do not bear on each other. *)
From Verif Require Import IsolateDemo.

(** Every run has one story: the changes of the table, the callbacks registered for an answer and the
    packets completed, in the order in which they come. *)
Theorem C82_one_story : forall log s o, trace log s o -> exists l, story o l /\ forall l', story o l' -> l' = l.
Proof. exact one_story. Qed.
Print Assumptions C82_one_story.
(** The story decides which callbacks are called, with what and in which order.  Nothing else does:
    not what is written and when, not pings, not what is queued, not how the steps of the threads and
    of the task interleave, not websocket control frames in between. *)
Theorem C82_story_decides : forall log s o l s' o',
  trace log s o -> trace log s' o' -> story o l -> story o' l -> calls o = calls o'.
Proof. exact same_story. Qed.
Print Assumptions C82_story_decides.
(** The calls on account of packets of one namespace are decided by the part of the story that
    concerns this namespace. *)
Theorem C82_namespaces_isolated : forall log s o l s' o' l' ns,
  trace log s o -> trace log s' o' -> story o l -> story o' l' ->
  inputs_in ns l = inputs_in ns l' -> calls_in ns o = calls_in ns o'.
Proof. exact isolated. Qed.
Print Assumptions C82_namespaces_isolated.
(** A run in which only namespace "/a" is used, and one with traffic in two others, a ping and writing
    in between. *)
Example C82_nonvacuous :
  ((exists s, trace false s (obs_from quiet_run)) /\ story (obs_from quiet_run) (told_of quiet_run)) /\
  ((exists s, trace false s (obs_from noisy_run)) /\ story (obs_from noisy_run) (told_of noisy_run)) /\
  inputs_in (bs "/a") (told_of quiet_run) = inputs_in (bs "/a") (told_of noisy_run) /\
  length (inputs_in (bs "/a") (told_of quiet_run)) = 2 /\ length (told_of noisy_run) = 5 /\
  length (calls_in (bs "/a") (obs_from quiet_run)) = 1.
Proof. split; [exact quiet_told|]. split; [exact noisy_told|]. exact both_told. Qed.
