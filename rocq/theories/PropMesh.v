(** Deadlocks between callbacks and threads that use clients, each property with its theorem(s), the
    assumptions of each, and a case that meets its hypotheses. *)
From Verif Require Import MeshOrder MeshProofs SpecMesh.

(** ** C66 *)
(** Nobody asks for a client while having one, nobody calls callbacks directly, no callback sets
    callbacks of its own client: there are deadlocks all the same. *)
Theorem C66_no_deadlock_refuted : ~ C66_full.
Proof. exact C66_refuted_lemma. Qed.
Print Assumptions C66_no_deadlock_refuted.
(** There are none if in addition callbacks use no clients (they may send acks), or nobody sets
    callbacks. *)
Theorem C66_no_deadlock_partial :
  forall log n ls m o r, mesh_run log n ls m o -> one_client_each log n ls -> no_direct_calls ls ->
    callbacks_use_no_client ls \/ no_table_methods ls -> ~ hopeless m r.
Proof. exact no_deadlock. Qed.
Print Assumptions C66_no_deadlock_partial.
(** There are none either if everybody asks only for things of a smaller rank than all it has, whatever
    the rank: clients, callbacks called directly, and the tables of clients, which a client has while
    it calls a callback. *)
Theorem C66_no_deadlock_in_order :
  forall rank log n ls m o r, mesh_run log n ls m o -> asks_in_order rank log n ls -> ~ hopeless m r.
Proof. exact no_deadlock_in_order. Qed.
Print Assumptions C66_no_deadlock_in_order.
(** In particular if the callbacks of each client use only clients of lower levels, event callbacks are
    not shared, nobody asks for a client while having one, and nobody calls callbacks directly. *)
Theorem C66_no_deadlock_by_levels :
  forall level home log n ls m o r, mesh_run log n ls m o -> one_client_each log n ls -> no_direct_calls ls ->
    uses_lower_levels level ls -> not_shared o home -> ~ hopeless m r.
Proof. exact no_deadlock_by_levels. Qed.
Print Assumptions C66_no_deadlock_by_levels.
(** A callback of client 1 uses client 0 and its table while threads wait for both clients: no deadlock.
    ([crossed_run] below has callbacks that use each other's clients.) *)
Example C66_levels_nonvacuous :
  mesh_run false 2 stacked_run (mesh_of 2 stacked_run) (mobs_of 2 stacked_run) /\ one_client_each false 2 stacked_run /\
  no_direct_calls stacked_run /\ uses_lower_levels (fun i => i) stacked_run /\ not_shared (mobs_of 2 stacked_run) (fun _ => 1) /\
  asks_in_order (level_rank (fun i => i) (fun _ => 1)) false 2 stacked_run /\
  blocked_by (mesh_of 2 stacked_run) (RUser 1) (RTask 1) /\ blocked_by (mesh_of 2 stacked_run) (RUser 2) (RTask 1).
Proof.
  split; [exact stacked_ok|]. destruct stacked_rules as (A & B & C & D). destruct stacked_waits as (E & F & _). auto 10 using stacked_in_order.
Qed.
(** In every deadlock somebody waits for the table of a client, having the client, while a callback
    of that client runs which is itself in a deadlock; and some callback waits for a client or a
    table. *)
Theorem C66_parts_of_a_deadlock :
  forall log n ls m o r, mesh_run log n ls m o -> one_client_each log n ls -> no_direct_calls ls -> hopeless m r ->
    (exists y j l, wants m y = Some (WantTable j l) /\ m_owner m j = Some y /\ hopeless m y /\ hopeless m (RTask j)) /\
    (exists i x, wants m (RTask i) = Some x /\ hopeless m (RTask i)).
Proof. exact deadlock_parts. Qed.
Print Assumptions C66_parts_of_a_deadlock.
(** A deadlock is for ever, whatever anybody does. *)
Theorem C66_deadlock_is_for_ever :
  forall log n ls m o m' r, mesh_run log n ls m o -> hopeless m r -> later log m m' -> hopeless m' r /\ wants m' r = wants m r.
Proof. exact deadlock_forever. Qed.
Print Assumptions C66_deadlock_is_for_ever.
(** Deadlocks are the only reason to wait for ever: who is not in one can get what it waits for. *)
Theorem C66_deadlock_exactly :
  forall log n ls m o r, mesh_run log n ls m o -> hopeless m r <-> forall m', later log m m' -> waits m' r.
Proof. exact deadlock_exactly. Qed.
Print Assumptions C66_deadlock_exactly.
(** With one client: a callback that has to emit, and a thread that has the client and clears a
    callback. *)
Example C66_deadlock_nonvacuous :
  mesh_run false 1 deadlock_run (mesh_of 1 deadlock_run) (mobs_of 1 deadlock_run) /\ one_client_each false 1 deadlock_run /\
  not_its_own_table deadlock_run /\ no_direct_calls deadlock_run /\
  hopeless (mesh_of 1 deadlock_run) (RUser 1) /\ hopeless (mesh_of 1 deadlock_run) (RTask 0).
Proof.
  split; [exact deadlock_run_ok|]. split; [exact deadlock_run_one|]. split; [exact (proj1 deadlock_run_rules)|].
  split; [exact (proj2 deadlock_run_rules)|]. split; apply deadlock_run_hopeless; auto.
Qed.
(** A thread that waits for a callback to end, without a deadlock. *)
Example C66_partial_nonvacuous :
  mesh_run false 1 quiet_mesh (mesh_of 1 quiet_mesh) (mobs_of 1 quiet_mesh) /\ one_client_each false 1 quiet_mesh /\
  no_direct_calls quiet_mesh /\ callbacks_use_no_client quiet_mesh /\ blocked_by (mesh_of 1 quiet_mesh) (RUser 1) (RTask 0).
Proof. split; [exact quiet_mesh_ok|]. destruct quiet_mesh_rules as (A & B & C). auto using quiet_mesh_waits. Qed.
(** A task waits for a callback which waits for a client which a thread has. *)
Example C66_exactly_nonvacuous :
  mesh_run false 2 busy_mesh (mesh_of 2 busy_mesh) (mobs_of 2 busy_mesh) /\
  blocked_by (mesh_of 2 busy_mesh) (RTask 1) (RTask 0) /\ blocked_by (mesh_of 2 busy_mesh) (RTask 0) (RUser 1) /\
  forall y, ~ blocked_by (mesh_of 2 busy_mesh) (RUser 1) y.
Proof. split; [exact busy_mesh_ok|exact busy_mesh_waits]. Qed.
(** Two callbacks that set callbacks of each other's clients, and no thread. *)
Example C66_crossed_nonvacuous :
  mesh_run false 2 crossed_run (mesh_of 2 crossed_run) (mobs_of 2 crossed_run) /\ one_client_each false 2 crossed_run /\
  not_its_own_table crossed_run /\ no_direct_calls crossed_run /\ hopeless (mesh_of 2 crossed_run) (RTask 0).
Proof. split; [exact crossed_run_ok|]. destruct crossed_run_rules as (A & B & C). auto using crossed_run_hopeless. Qed.
(** What is said of callbacks goes for all of them, of events and of acks: one whose body is executed can
    ask for any client, and gets it if nobody has it. *)
Theorem C66_callbacks_ask :
  forall log n ls m o i s b c j, mesh_run log n ls m o -> client_at m i = Some s -> s_phase s = PCalling b c -> ~ waits m (RTask i) ->
  exists m', mstep log m (MWant (RTask i) (WantClient j)) = Some (m', []) /\ waits m' (RTask i) /\
    (m_owner m j = None ->
     exists m'', mstep log m' (MGet (RTask i)) = Some (m'', []) /\ m_owner m'' j = Some (RTask i) /\ ~ waits m'' (RTask i)).
Proof. exact callbacks_ask. Qed.
Print Assumptions C66_callbacks_ask.
Example C66_callbacks_ask_nonvacuous :
  mesh_run false 1 ack_run (mesh_of 1 ack_run) (mobs_of 1 ack_run) /\
  exists s p, client_at (mesh_of 1 ack_run) 0 = Some s /\ s_phase s = PCalling false (AckCall 5%N p) /\
    ~ waits (mesh_of 1 ack_run) (RTask 0) /\ m_owner (mesh_of 1 ack_run) 0 = None.
Proof. split; [exact ack_run_ok|exact ack_run_waits]. Qed.
