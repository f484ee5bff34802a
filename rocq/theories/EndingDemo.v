(** A life that meets the hypotheses of the theorem about letting go: the client is dropped while a
    packet is being written; a clone of its sender is used for ever after. *)
From Verif Require Export EndingProofs FairDemo.
From Coq Require Import Lia.

Definition dropped_pre : list label := opened_run ++ [LEmit (Emission (bs "/") (bs "tick") [] []); LTake; LDropClient; LCancel].
Definition dropped_life : life := following false (lasso_label dropped_pre [LRaw []]).
Definition dropped_state : state := match execute false init dropped_pre with Some (s, _) => s | None => init end.
Lemma dropped_lasso : (exists o, execute false init dropped_pre = Some (dropped_state, o)) /\ (exists o, execute false dropped_state [LRaw []] = Some (dropped_state, o)).
Proof. split; eexists; vm_compute; reflexivity. Qed.
Lemma dropped_nonempty : [LRaw []] <> [].
Proof. discriminate. Qed.
Lemma dropped_fair : lives false dropped_life /\ callbacks_end dropped_life /\ fair_to false dropped_life LCancel.
Proof.
  destruct dropped_lasso as [[o0 H0] [o1 H1]]. split; [exact (lasso_lives _ _ _ _ _ _ H0 H1 dropped_nonempty)|]. split.
  - intros k b c _. apply (lasso_leaves _ _ _ _ _ _ H0 H1 dropped_nonempty). vm_compute. discriminate.
  - apply (lasso_fair_never _ _ _ _ _ _ H0 H1 dropped_nonempty).
    intros i s o Hi E. destruct i as [|i]; [|cbn in Hi; lia]. cbn [firstn execute] in E. apply (f_equal (fun x => match x with Some (a, _) => a | None => s end)) in E. cbv beta iota in E. rewrite <- E. vm_compute. reflexivity.
Qed.
Lemma dropped_drops : does dropped_life (length opened_run + 2) = Some LDropClient.
Proof. vm_compute. reflexivity. Qed.
