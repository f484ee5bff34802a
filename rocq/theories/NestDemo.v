(** Sample runs of callbacks that call callbacks. *)
From Verif Require Export NestProofs.

Definition nest_of (n : nat) (ls : list clabel) : nest := match cexecute (nest_init n) ls with Some (s, _) => s | None => nest_init 0 end.
Definition cobs_of (n : nat) (ls : list clabel) : list cobs := match cexecute (nest_init n) ls with Some (_, o) => o | None => [] end.
Definition nest_runs_b (n : nat) (ls : list clabel) : bool := match cexecute (nest_init n) ls with Some _ => true | None => false end.
Lemma nest_runs_ok n ls : nest_runs_b n ls = true -> nest_run n ls (nest_of n ls) (cobs_of n ls).
Proof. unfold nest_runs_b, nest_run, nest_of, cobs_of. destruct (cexecute (nest_init n) ls) as [[]|]; [reflexivity|discriminate]. Qed.

(** Callback 1 calls callback 2; another thread calls callback 1 meanwhile. *)
Definition nested_run : list clabel := [CCall 0 1%N; CEnter 0; CCall 1 1%N; CCall 0 2%N; CEnter 0].
(** Callback 2 panics; callback 1, which called it, does not catch that. *)
Definition passing_run : list clabel := [CCall 0 1%N; CEnter 0; CCall 0 2%N; CEnter 0; CPanic 0 2; CCall 1 1%N; CRefuse 1 0].
(** Callback 1 catches it. *)
Definition catching_run : list clabel := [CCall 0 1%N; CEnter 0; CCall 0 2%N; CEnter 0; CPanic 0 1; CCall 1 2%N; CRefuse 1 0].
(** Two threads execute callbacks 1 and 2, which call each other. *)
Definition crossing_run : list clabel := [CCall 0 1%N; CEnter 0; CCall 1 2%N; CEnter 1; CCall 0 2%N; CCall 1 1%N].
(** Callback 1 calls itself by way of callback 2. *)
Definition self_run : list clabel := [CCall 0 1%N; CEnter 0; CCall 0 2%N; CEnter 0; CCall 0 1%N].

Lemma nested_ok : nest_run 2 nested_run (nest_of 2 nested_run) (cobs_of 2 nested_run).
Proof. apply nest_runs_ok. reflexivity. Qed.
Lemma passing_ok : nest_run 2 passing_run (nest_of 2 passing_run) (cobs_of 2 passing_run).
Proof. apply nest_runs_ok. reflexivity. Qed.
Lemma catching_ok : nest_run 2 catching_run (nest_of 2 catching_run) (cobs_of 2 catching_run).
Proof. apply nest_runs_ok. reflexivity. Qed.
Lemma crossing_ok : nest_run 2 crossing_run (nest_of 2 crossing_run) (cobs_of 2 crossing_run).
Proof. apply nest_runs_ok. reflexivity. Qed.
Lemma self_ok : nest_run 1 self_run (nest_of 1 self_run) (cobs_of 1 self_run).
Proof. apply nest_runs_ok. reflexivity. Qed.

Lemma executes_stack n ls s o t f : nest_run n ls s o -> executes o t f <-> In f (stack t o []).
Proof. intros R. symmetry. apply (ok_exec _ _ (proj1 (run_ok _ _ _ _ R))). Qed.
Lemma innermost_stack n ls s o t f : nest_run n ls s o -> innermost o t f <-> hd_error (stack t o []) = Some f.
Proof.
  intros R. rewrite (innermost_iff _ _ _ _ (proj1 (run_ok _ _ _ _ R))). split; [intros [fs ->]; reflexivity|].
  destruct (stack t o []); cbn; [discriminate|]. intros E. injection E as ->. eauto.
Qed.

Lemma C96_refuted_lemma : ~ C96_full.
Proof.
  intros H. destruct (H _ _ _ _ 1 1%N passing_ok) as (ls1 & t & k & ls2 & s & o & E & R & I); [vm_compute; auto 10|].
  apply (innermost_stack _ _ _ _ _ _ R) in I. unfold passing_run in E.
  do 7 try (destruct ls1 as [|? ls1]; [try discriminate E|injection E as <- E]).
  - injection E as <- <- <-. unfold nest_run in R. vm_compute in R. injection R as <- <-. discriminate I.
  - destruct ls1; discriminate.
Qed.
Lemma catching_catches : bodies_catch catching_run.
Proof.
  intros t k. split; intros I; cbn in I; repeat (destruct I as [I|I]; [try discriminate I; injection I as _ <-; reflexivity|]); destruct I.
Qed.
Lemma crossing_no_self : no_callback_calls_itself 2 crossing_run.
Proof.
  intros ls1 t f ls2 s o E R X. apply (executes_stack _ _ _ _ _ _ R) in X. unfold crossing_run in E.
  do 6 try (destruct ls1 as [|? ls1]; [try discriminate E|injection E as <- E]);
    try (injection E as <- <- <-; unfold nest_run in R; vm_compute in R; injection R as <- <-; vm_compute in X; intuition discriminate).
  destruct ls1; discriminate.
Qed.
Lemma crossing_deadlock t : t < 2 -> in_deadlock (nest_of 2 crossing_run) (cobs_of 2 crossing_run) t.
Proof.
  intros L. exists (fun x => x < 2). split; [exact L|]. intros x M. pose proof (run_ok _ _ _ _ crossing_ok) as K.
  destruct x as [|[|x]]; [exists 1|exists 0|lia]; (split; [lia|]); apply (awaits_iff _ _ _ _ K); reflexivity.
Qed.
Lemma C97_refuted_lemma : ~ C97_full.
Proof. intros H. apply (H _ _ _ _ 0 crossing_ok crossing_no_self). apply crossing_deadlock. lia. Qed.
Definition down (f : cb) : nat := 9 - N.to_nat f.
Lemma nested_descends : calls_descend down 2 nested_run.
Proof.
  intros ls1 t f ls2 s o E R g X. apply (innermost_stack _ _ _ _ _ _ R) in X. unfold nested_run in E.
  do 5 try (destruct ls1 as [|? ls1]; [try discriminate E|injection E as <- E]);
    try (injection E as <- <- <-; unfold nest_run in R; vm_compute in R; injection R as <- <-; vm_compute in X; try discriminate X; injection X as <-; vm_compute; lia).
  destruct ls1; discriminate.
Qed.
Lemma nested_waits : awaits (nest_of 2 nested_run) (cobs_of 2 nested_run) 1 0 /\ executes (cobs_of 2 nested_run) 0 1%N /\ innermost (cobs_of 2 nested_run) 0 2%N.
Proof.
  pose proof (run_ok _ _ _ _ nested_ok) as K. split; [apply (awaits_iff _ _ _ _ K); reflexivity|]. split.
  - apply (executes_stack _ _ _ _ _ _ nested_ok). vm_compute. auto.
  - apply (innermost_stack _ _ _ _ _ _ nested_ok). reflexivity.
Qed.
Lemma self_calls : calls (nest_of 1 self_run) 0 1%N /\ executes (cobs_of 1 self_run) 0 1%N.
Proof.
  split; [exists [2%N; 1%N]; reflexivity|]. apply (executes_stack _ _ _ _ _ _ self_ok). vm_compute. auto.
Qed.
