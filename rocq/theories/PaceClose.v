(** Proofs about closing in runs with a clock. *)
From Verif Require Export PaceDemo.
From Coq Require Import Lia.

(** ** To be sure, wait *)
Lemma until_prefix log d k c t : paced log d k c -> exists o, observed c = seen_until t c ++ o.
Proof.
  intros [t0 L]. induction L as [|c1 c2 L IH T]; [exists []; reflexivity|].
  pose proof (paced_clocked _ _ _ _ (ex_intro _ t0 L)) as C. destruct IH as [o E].
  destruct T as [s t1 t2 a n w ob Ht Hb|s t1 a n w ob l s' o' H Hp Hd]; [exists o; exact E|].
  unfold observed, seen_until in *. cbn [k_seen] in *. rewrite filter_app, !map_app, map_snd_pair.
  destruct (t1 <=? t) eqn:Et.
  - exists []. rewrite app_nil_r. f_equal.
    + symmetry. apply (until_all t (Clock s t1 a n w ob)). eapply Forall_impl; [|exact (q_stamps _ _ _ _ C)]. cbn [k_now]. intros x Hx. cbn in Hx. apply Nat.leb_le in Et. lia.
    + clear - Et. induction o' as [|x o' IH]; [reflexivity|]. cbn. rewrite Et. cbn. rewrite <- IH. reflexivity.
  - exists (o ++ o'). replace (filter (fun x => fst x <=? t) (map (pair t1) o')) with (@nil (nat * obs)); [cbn [map]; rewrite app_nil_r, app_assoc, E; reflexivity|].
    clear - Et. induction o' as [|x o' IH]; [reflexivity|]. cbn. rewrite Et. exact IH.
Qed.
Lemma wait_then_close log d k c c' : paced log d k c -> later log d k c c' ->
  k_now c + d * steps_needed k c < k_now c' ->
  s_signal (k_state c') = false -> ~ In OBlocked (observed c') -> (forall e, ~ In (OEnd e) (observed c')) ->
  exists rest, writes (observed c') = concat (queued (observed c)) ++ rest.
Proof.
  intros P L B S Nb Ne. pose proof (paced_later _ _ _ _ _ P L) as P'. destruct (written_in_time _ _ _ _ _ P L B) as [X|[rest E]].
  - exfalso. destruct (past_signal _ _ _ (paced_is_trace _ _ _ _ P') X) as [Y|[Y|[e Y]]]; [congruence|contradiction|exact (Ne e Y)].
  - destruct (until_prefix _ _ _ _ (k_now c + d * steps_needed k c) P') as [o Ho]. exists (rest ++ writes o). rewrite Ho, writes_app, E, <- app_assoc. reflexivity.
Qed.

(** ** The close frame in time *)
Definition closing (s : state) : Prop := in_main_loop s \/ s_phase s = PClosing.
Definition close_cost (k f w : nat) (s : state) : nat :=
  match s_phase s with
  | PLoop => 2 + (k - w) * (f + 1)
  | PSending rest => length rest + 2 + (k - w) * (f + 1)
  | PCalling _ _ => 3 + (k - w) * (f + 1)
  | PClosing => 1
  | _ => 0
  end.
Lemma closing_past s : s_phase s = PUnborn \/ closing s \/ past_closing s.
Proof. unfold closing, in_main_loop, past_closing. destruct (s_phase s) as [| | | | | [] ? | |]; auto. Qed.
Lemma past_closing_stays p l p' : moves p l p' ->
  match p with PReading | PCalling true _ | PStuck | PEnded _ => True | _ => False end ->
  match p' with PReading | PCalling true _ | PStuck | PEnded _ => True | _ => False end.
Proof. intros H. destruct H; cbn; auto; try contradiction; destruct b; auto. Qed.
Lemma close_step log k f s o l s' o' w : trace log s o -> step log s l = Some (s', o') -> closing s -> s_signal s = true ->
  Forall (fun fs => length fs <= f) (s_chan s) -> 1 <= f -> w <= k -> (passes_close s l = true -> w < k) ->
  past_closing s' \/
  (closing s' /\ (if by_task l then S else fun x => x) (close_cost k f (if passes_close s l then S w else w) s') <= close_cost k f w s).
Proof.
  intros Ht H M Sg F Hf Hw Hp. pose proof (moving _ _ _ _ _ _ Ht H) as Hm.
  destruct (by_task l) eqn:B.
  - destruct l; try discriminate B.
    + destruct (read_label _ _ _ _ _ H) as (b & Hb & _). destruct M as [M|M]; [|rewrite Hb in M; destruct b; discriminate].
      unfold in_main_loop in M. rewrite Hb in M, Hm. destruct b; [contradiction|].
      assert (Hpass : passes_close s (LRead m) = true) by (unfold passes_close; rewrite Hb; exact Sg). rewrite Hpass in *. specialize (Hp eq_refl).
      assert (Ph : past_closing s' \/ s_phase s' = PLoop \/ exists c, s_phase s' = PCalling false c).
      { unfold past_closing. remember (s_phase s') as p'. clear - Hm. remember PLoop as p. remember (LRead m) as l0.
        destruct Hm; subst; auto; try discriminate; try (destruct b; try discriminate; eauto). }
      destruct Ph as [Ph|Ph]; [left; exact Ph|]. right. split; [left; unfold in_main_loop; destruct Ph as [->|[c ->]]; exact I|].
      unfold close_cost. rewrite Hb. replace (k - w) with (S (k - S w)) by lia. rewrite Nat.mul_succ_l. destruct Ph as [->|[c ->]]; lia.
    + left. cbn in H. destruct (s_phase s); try discriminate; injection H as <- <-; exact I.
    + left. cbn in H. destruct (s_phase s); try discriminate; injection H as <- <-; exact I.
    + cbn [step] in H. destruct (s_phase s) eqn:Hph; try discriminate. destruct (s_chan s) as [|fs ch] eqn:Hc.
      * left. destruct (s_chan_closed s); [|discriminate]. injection H as <- <-. exact I.
      * injection H as <- <-. right. assert (Hpass : passes_close s LTake = true) by (unfold passes_close; rewrite Hph; exact Sg). rewrite Hpass in *. specialize (Hp eq_refl).
        inversion F as [|? ? Hfs _]; subst. split; [left; unfold in_main_loop; cbn; destruct fs; exact I|].
        unfold close_cost. cbn [s_phase set_chan set_phase]. rewrite Hph. replace (k - w) with (S (k - S w)) by lia. generalize (k - S w). intros x. destruct fs as [|m fs]; cbn [sending length] in *; rewrite Nat.mul_succ_l; lia.
    + cbn in H. destruct (s_phase s) as [| |[|m rest]| | | | |] eqn:Hph; try discriminate. injection H as <- <-. right.
      split; [left; unfold in_main_loop; cbn; destruct rest; exact I|]. cbn [passes_close].
      unfold close_cost. cbn [s_phase set_phase]. rewrite Hph. destruct rest as [|m' rest]; cbn [sending length]; lia.
    + left. cbn in H. destruct (s_phase s); try discriminate; injection H as <- <-; exact I.
    + cbn in H. destruct (s_phase s) eqn:Hph; try discriminate. rewrite Sg in H. injection H as <- <-. right. split; [right; reflexivity|].
      unfold close_cost. cbn [s_phase set_phase passes_close]. rewrite Hph. generalize ((k - w) * (f + 1)). intros x. lia.
    + left. cbn in H. destruct (s_phase s); try discriminate; injection H as <- <-; exact I.
    + left. cbn in H. destruct (s_handle s); try discriminate; destruct (s_phase s); try discriminate; injection H as <- <-; exact I.
    + left. cbn in H. destruct (s_phase s); try discriminate; injection H as <- <-; exact I.
    + destruct M as [M|M]; [|cbn in H; rewrite M in H; discriminate]. unfold in_main_loop in M.
      assert (X : exists c, s_phase s = PCalling false c). { cbn in H. destruct (s_phase s) as [| | | | |[] c| |]; try discriminate; try contradiction. eauto. }
      destruct X as [c Hc]. cbn in H. rewrite Hc in H. injection H as <- <-. right. split; [left; exact I|].
      unfold close_cost. cbn [s_phase set_phase passes_close]. rewrite Hc. generalize ((k - w) * (f + 1)). intros x. lia.
    + left. cbn in H. destruct (s_phase s); try discriminate; injection H as <- <-; exact I.
  - assert (Hpass : passes_close s l = false) by (destruct l; try reflexivity; discriminate B). rewrite Hpass.
    assert (Ph : past_closing s' \/ s_phase s' = s_phase s).
    { unfold past_closing. destruct M as [M|M]; [unfold in_main_loop in M|]; destruct Hm; cbn in *; auto; try discriminate; destruct b; try discriminate; auto; contradiction. }
    destruct Ph as [Ph|Ph]; [auto|]. right. unfold closing, in_main_loop, close_cost. rewrite Ph. split; [exact M|lia].
Qed.
Lemma closing_busy s : closing s -> s_signal s = true -> busy s = true.
Proof. unfold closing, in_main_loop, busy. intros [M|M] S; [destruct (s_phase s); try contradiction; auto; rewrite S; reflexivity|rewrite M; reflexivity]. Qed.
Lemma closing_cost k f w s log o : trace log s o -> closing s -> 1 <= close_cost k f w s.
Proof. unfold closing, in_main_loop, close_cost. intros _ [M|M]; [generalize ((k - w) * (f + 1)); intros x; destruct (s_phase s); try contradiction; lia|rewrite M; lia]. Qed.
Lemma chan_queued log s o : trace log s o -> closing s -> exists q, queued o = q ++ s_chan s.
Proof.
  intros Ht M. destruct (n_running _ _ (trace_sent _ _ _ Ht)) as (q & Q & _); [|eauto].
  unfold closing, in_main_loop, task_ended in *. destruct M as [M|M]; [destruct (s_phase s); auto; contradiction|rewrite M; reflexivity].
Qed.
Theorem closed_in_time log d k f c c' : paced log d k c -> later log d k c c' -> 1 <= f ->
  Forall (fun fs => length fs <= f) (queued (observed c')) -> In OCloseCalled (observed c) ->
  k_now c + d * steps_to_close k f c < k_now c' -> past_closing (k_state c').
Proof.
  intros P L Hf. set (B := k_now c + d * steps_to_close k f c).
  assert (I : Forall (fun fs => length fs <= f) (queued (observed c')) -> In OCloseCalled (observed c) ->
    past_closing (k_state c') \/ (closing (k_state c') /\ k_since c' + d * close_cost k f (k_told c') (k_state c') <= B)).
  { induction L as [|c1 c2 L IH T]; intros F Cl.
    - pose proof (paced_clocked _ _ _ _ P) as C. destruct (closing_past (k_state c)) as [U|[M|X]]; [| |auto].
      + exfalso. pose proof (q_trace _ _ _ _ C) as Ht. destruct (unborn_waits _ _ _ Ht U) as (_ & Nc & _).
        rewrite (connected_if_closed _ _ _ Ht Cl) in Nc. discriminate.
      + right. split; [exact M|]. pose proof (q_since _ _ _ _ C) as Q. unfold B, steps_to_close.
        assert (close_cost k f (k_told c) (k_state c) <= 2 + in_hand (k_state c) + k * (f + 1)).
        { assert ((k - k_told c) * (f + 1) <= k * (f + 1)) by (apply Nat.mul_le_mono_r; lia).
          unfold close_cost, in_hand. revert H. generalize ((k - k_told c) * (f + 1)), (k * (f + 1)). intros x y H. destruct (s_phase (k_state c)); lia. }
        nia.
    - pose proof (paced_later _ _ _ _ _ P L) as P1. pose proof (paced_clocked _ _ _ _ P1) as C1.
      pose proof (paced_clocked _ _ _ _ (paced_later _ _ _ _ _ P1 (lt_tick _ _ _ _ _ _ (lt_here _ _ _ _) T))) as C2.
      assert (F1 : Forall (fun fs => length fs <= f) (queued (observed c1))).
      { destruct (observed_later _ _ _ _ _ (lt_tick _ _ _ _ _ _ (lt_here log d k c1) T)) as [o Eo]. rewrite Eo, queued_app in F. apply Forall_app in F. exact (proj1 F). }
      destruct (observed_later _ _ _ _ _ L) as [oo Eoo].
      assert (Sg : s_signal (k_state c1) = true).
      { apply (signal_called _ _ _ (q_trace _ _ _ _ C1)). rewrite Eoo. apply in_or_app. auto. }
      destruct (IH F1 Cl) as [X|[M Lc]].
      + left. destruct T as [|s t a n w o l s' o' H Hp Hd]; [exact X|]. exact (past_closing_stays _ _ _ (moving _ _ _ _ _ _ (q_trace _ _ _ _ C1) H) X).
      + pose proof (q_soon _ _ _ _ C1 (closing_busy _ M Sg)) as Soon. pose proof (q_trace _ _ _ _ C1) as Ht. pose proof (q_told _ _ _ _ C1) as Tk.
        pose proof (closing_busy _ M Sg) as Hb.
        destruct T as [s t t' a n w o Hle Hbt|s t a n w o l s' o' H Hp Hd]; cbn [k_state k_now k_since k_told] in *; [right; auto|].
        assert (Fc : Forall (fun fs => length fs <= f) (s_chan s)).
        { destruct (chan_queued _ _ _ Ht M) as [q Q]. rewrite Q in F1. apply Forall_app in F1. exact (proj2 F1). }
        destruct (close_step log k f s _ l s' o' w Ht H M Sg Fc Hf Tk Hd) as [X|[M' L']]; [auto|]. right. split; [exact M'|].
        rewrite Hb. cbn [negb]. rewrite orb_false_r. destruct (by_task l); nia. }
  intros F Cl Lt. destruct (I F Cl) as [X|[M Lc]]; [exact X|]. exfalso.
  pose proof (paced_clocked _ _ _ _ (paced_later _ _ _ _ _ P L)) as C'. destruct (observed_later _ _ _ _ _ L) as [oo Eoo].
  assert (Sg : s_signal (k_state c') = true). { apply (signal_called _ _ _ (q_trace _ _ _ _ C')). rewrite Eoo. apply in_or_app. auto. }
  pose proof (q_soon _ _ _ _ C' (closing_busy _ M Sg)). pose proof (closing_cost k f (k_told c') _ _ _ (q_trace _ _ _ _ C') M). nia.
Qed.

(** ** What is written after closing has begun *)
(** The messages that have been taken: all but the last are written, and what is pending is its end. *)
Definition taken_so_far (s : state) (o : list obs) : Prop :=
  exists q p a, queued o = q ++ p ++ s_chan s /\ length p <= 1 /\ writes o = concat q ++ a /\ concat p = a ++ pending s.
Lemma taken_invariant log s o : trace log s o -> task_ended s = false -> taken_so_far s o.
Proof.
  revert s o. apply (trace_ind log (fun s o => task_ended s = false -> taken_so_far s o)).
  - intros _. exists [], [], []. cbn. auto.
  - intros s o l s' o' Ht IH H He.
    assert (Ch : channel_step s s' o').
    { destruct l; try (apply (other_channel log s o _ s' o' Ht) with (2 := H); discriminate). exact (read_channel log s o m s' o' Ht H). }
    destruct Ch as [Q W C Pe Te|fs Q W C Pe Te Te'|W Te|fs Q W C Pe Pe' Te Te'|m Q W C Pe Te Te']; try congruence.
    + destruct (IH ltac:(congruence)) as (q & p & a & E1 & E2 & E3 & E4). exists q, p, a. rewrite queued_app, writes_app, Q, W, C, Pe, !app_nil_r. auto.
    + destruct (IH Te) as (q & p & a & E1 & E2 & E3 & E4). exists q, p, a. rewrite queued_app, writes_app, Q, W, C, Pe, E1, app_nil_r, <- !app_assoc. auto.
    + destruct (IH Te) as (q & p & a & E1 & E2 & E3 & E4). exists (q ++ p), [fs], []. rewrite queued_app, writes_app, Q, W, E1, C, !app_nil_r, <- app_assoc.
      rewrite Pe, app_nil_r in E4. split; [reflexivity|]. split; [cbn; lia|]. rewrite concat_app, E3, E4. split; [reflexivity|]. cbn. rewrite Pe', app_nil_r. reflexivity.
    + destruct (IH Te) as (q & p & a & E1 & E2 & E3 & E4). exists q, p, (a ++ [m]). rewrite queued_app, writes_app, Q, W, C, app_nil_r, E3, <- !app_assoc.
      rewrite Pe in E4. auto.
Qed.
Lemma concat_prefix {A} (L : list (list A)) : forall w r, concat L = w ++ r -> exists q p rest a b, L = q ++ p ++ rest /\ length p <= 1 /\ w = concat q ++ a /\ concat p = a ++ b.
Proof.
  induction L as [|x L IH]; intros w r E; cbn in E.
  - symmetry in E. apply app_eq_nil in E as [-> ->]. exists [], [], [], [], []. cbn. auto.
  - destruct (Nat.leb (length x) (length w)) eqn:Hl.
    + apply Nat.leb_le in Hl. destruct (prefix_split _ _ _ _ E Hl) as [e ->]. rewrite <- app_assoc in E. apply app_inv_head in E.
      destruct (IH e r E) as (q & p & rest & a & b & -> & H1 & -> & H2). exists (x :: q), p, rest, a, b. cbn. rewrite <- app_assoc. auto.
    + apply Nat.leb_gt in Hl. symmetry in E. destruct (prefix_split _ _ _ _ E ltac:(lia)) as [e ->]. exists [], [w ++ e], L, w, e. cbn. rewrite app_nil_r. auto.
Qed.
Definition few_after (k : nat) (c c' : clock) : Prop :=
  exists q q2 q3 r r', queued (observed c') = q ++ q2 ++ q3 /\ writes (observed c) = concat q ++ r /\
    length q2 <= k + 1 /\ concat (q ++ q2) = writes (observed c') ++ r'.
Theorem few_after_close log d k c c' : paced log d k c -> later log d k c c' -> In OCloseCalled (observed c) -> few_after k c c'.
Proof.
  intros P L Cl.
  assert (I : (task_ended (k_state c') = false /\ exists q q2 r, queued (observed c') = q ++ q2 ++ s_chan (k_state c') /\ writes (observed c) = concat q ++ r /\
      length q2 <= k_told c' + 1 /\ concat (q ++ q2) = writes (observed c') ++ pending (k_state c')) \/
    (task_ended (k_state c') = true /\ few_after k c c')).
  { induction L as [|c1 c2 L IH T].
    - pose proof (paced_is_trace _ _ _ _ P) as Ht. destruct (task_ended (k_state c)) eqn:Te.
      + right. split; [reflexivity|]. destruct (n_prefix _ _ (trace_sent _ _ _ Ht)) as [r E].
        destruct (concat_prefix _ _ _ E) as (q & p & rest & a & b & E1 & E2 & E3 & E4). exists q, p, rest, a, b.
        split; [exact E1|]. split; [exact E3|]. split; [lia|]. rewrite concat_app, E3, E4, <- app_assoc. reflexivity.
      + left. split; [reflexivity|]. destruct (taken_invariant _ _ _ Ht Te) as (q & p & a & E1 & E2 & E3 & E4). exists q, p, a.
        split; [exact E1|]. split; [exact E3|]. split; [lia|]. rewrite concat_app, E3, E4, <- app_assoc. reflexivity.
    - pose proof (paced_later _ _ _ _ _ P L) as P1. pose proof (paced_clocked _ _ _ _ P1) as C1. pose proof (paced_is_trace _ _ _ _ P1) as Ht.
      destruct (observed_later _ _ _ _ _ L) as [oo Eoo].
      assert (Sg : s_signal (k_state c1) = true). { apply (signal_called _ _ _ Ht). rewrite Eoo. apply in_or_app. auto. }
      pose proof (q_told _ _ _ _ C1) as Tk.
      destruct T as [s t t' a n w o Hle Hbt|s t a n w o l s' o' H Hp Hd]; [exact IH|].
      unfold few_after in *. set (c1 := Clock s t a n w o) in *. set (c2 := Clock s' _ _ _ _ _).
      assert (Ob : observed c2 = observed c1 ++ o') by (unfold c2, c1, observed; cbn [k_seen]; rewrite map_app, map_snd_pair; reflexivity).
      rewrite Ob. cbn [k_state c1 c2] in *. change (k_told c1) with w in *.
      assert (Wm : w <= k_told c2) by (unfold c2; cbn [k_told]; destruct (passes_close s l); lia).
      assert (Ch : channel_step s s' o').
      { destruct l; try (apply (other_channel log s _ _ s' o' Ht) with (2 := H); discriminate). exact (read_channel log s _ m s' o' Ht H). }
      destruct IH as [(Te & q & q2 & r & E1 & E2 & E3 & E4)|(Te & q & q2 & q3 & r & r' & E1 & E2 & E3 & E4)].
      + destruct Ch as [Q W C Pe Te2|fs Q W C Pe _ Te2|W Te2|fs Q W C Pe Pe' _ Te2|m Q W C Pe _ Te2].
        * left. split; [congruence|]. exists q, q2, r. rewrite queued_app, writes_app, Q, W, C, Pe, !app_nil_r. repeat split; auto; lia.
        * left. split; [congruence|]. exists q, q2, r. rewrite queued_app, writes_app, Q, W, C, Pe, E1, app_nil_r, <- !app_assoc. repeat split; auto; lia.
        * right. split; [exact Te2|]. exists q, q2, (s_chan s ++ queued o'), r, (pending s). rewrite queued_app, writes_app, W, E1, app_nil_r, <- !app_assoc. repeat split; auto; lia.
        * assert (Lt : passes_close s l = true).
          { assert (X : l = LTake).
            { destruct (by_task l) eqn:B; [|exfalso; exact (no_user_take _ _ _ _ _ B Te2 H _ C)].
              assert (Ln : length (s_chan s) = S (length (s_chan s'))) by (rewrite C; reflexivity). clear C.
              assert (Hl : (exists m, l = LRead m) \/ forall m, l <> LRead m) by (destruct l; eauto; right; discriminate).
              destruct Hl as [[m ->]|Hl].
              - exfalso. pose proof H as E. apply read_label in E as (b & _ & _ & E). unfold read_step in E. clear - E Ln Te2.
                destruct (pr_open _); destruct (pr_queue _); unfold push in E; destruct (pr_outcome _) as [[| |]|]; step_cases E; injection E as <- <-; cbn in *; rewrite ?app_length in Ln; cbn in *; try lia; try discriminate.
              - clear - H Hl Ln Te2 B. other_cases H Hl; try reflexivity; exfalso; cbn in *; try discriminate; rewrite ?app_length in Ln; cbn in Ln; lia. }
            subst l. unfold passes_close. cbn in H. destruct (s_phase s); try discriminate. exact Sg. }
          left. split; [exact Te2|]. exists q, (q2 ++ [fs]), r. rewrite queued_app, writes_app, Q, W, E1, C, !app_nil_r, <- !app_assoc.
          split; [reflexivity|]. split; [exact E2|]. split; [rewrite app_length; unfold c2; cbn [k_told length]; rewrite Lt; lia|].
          rewrite app_assoc, concat_app, E4, Pe, Pe', app_nil_r. cbn. rewrite app_nil_r. reflexivity.
        * left. split; [congruence|]. exists q, q2, r. rewrite queued_app, writes_app, Q, W, C, app_nil_r, E1, <- !app_assoc. rewrite Pe in E4. repeat split; auto; lia.
      + assert (Wn : writes o' = [] /\ task_ended s' = true) by (destruct Ch; try congruence; split; congruence). destruct Wn as [W Te2].
        right. split; [exact Te2|]. exists q, q2, (q3 ++ queued o'), r, r'. rewrite queued_app, writes_app, W, E1, app_nil_r, <- !app_assoc. auto. }
  pose proof (q_told _ _ _ _ (paced_clocked _ _ _ _ (paced_later _ _ _ _ _ P L))) as Tk.
  destruct I as [(_ & q & q2 & r & E1 & E2 & E3 & E4)|[_ X]]; [|exact X]. exists q, q2, (s_chan (k_state c')), r, (pending (k_state c')). repeat split; auto; lia.
Qed.
