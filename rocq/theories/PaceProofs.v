(** Proofs about runs with a clock. *)
From Verif Require Export SpecPace FairProofs.
From Coq Require Import Lia.

Lemma later_trans log d k c1 c2 c3 : later log d k c1 c2 -> later log d k c2 c3 -> later log d k c1 c3.
Proof. intros H1 H2. induction H2; [exact H1|]. eapply lt_tick; eassumption. Qed.
Lemma map_snd_pair (t : nat) (o : list obs) : map snd (map (pair t) o) = o.
Proof. rewrite map_map. cbn. apply map_id. Qed.

(** ** The clock *)
Record clocked (log : bool) (d k : nat) (c : clock) : Prop := Clocked {
  q_trace : trace log (k_state c) (observed c);
  q_since : k_since c <= k_now c;
  q_soon : busy (k_state c) = true -> k_now c <= k_since c + d;
  q_passed : k_passed c <= k;
  q_told : k_told c <= k;
  q_stamps : Forall (fun x => fst x <= k_now c) (k_seen c)
}.
Lemma clocked_tick log d k c c' : clocked log d k c -> ticks log d k c c' -> clocked log d k c'.
Proof.
  intros [T S Q P U F] H. destruct H as [s t t' a n c o Ht Hb|s t a n c o l s' o' E Hp Hd]; unfold observed in *; cbn [k_state k_now k_since k_passed k_told k_seen] in *.
  - split; unfold observed; cbn [k_state k_now k_since k_passed k_told k_seen]; auto; [lia|]. eapply Forall_impl; [|exact F]. cbn. intros x Hx. lia.
  - split; unfold observed; cbn [k_state k_now k_since k_passed k_told k_seen].
    + rewrite map_app, map_snd_pair. apply (trace_extend log s (map snd o) [l] s' o' T). cbn [execute]. rewrite E, app_nil_r. reflexivity.
    + destruct (_ || _); lia.
    + intros _. destruct (by_task l); cbn [orb]; [lia|]. destruct (busy s); cbn [negb]; [apply Q; reflexivity|lia].
    + destruct (passes s l); [specialize (Hp eq_refl); lia|]. destruct l; lia.
    + destruct (passes_close s l); [specialize (Hd eq_refl); lia|exact U].
    + apply Forall_app. split; [exact F|]. apply Forall_forall. intros x Hx. apply in_map_iff in Hx as (y & <- & _). cbn. lia.
Qed.
Lemma clocked_later log d k c c' : later log d k c c' -> clocked log d k c -> clocked log d k c'.
Proof. intros H C. induction H; [exact C|]. eapply clocked_tick; eassumption. Qed.
Lemma paced_clocked log d k c : paced log d k c -> clocked log d k c.
Proof.
  intros [t H]. apply (clocked_later _ _ _ _ _ H). split; cbn; try lia; try discriminate; [exists []; reflexivity|constructor].
Qed.
Lemma clocked_ticks_trace log d k c c' : clocked log d k c -> later log d k c c' -> trace log (k_state c') (observed c').
Proof. intros C H. exact (q_trace _ _ _ _ (clocked_later _ _ _ _ _ H C)). Qed.

(** ** Labels *)
Lemma user_phase log s o l s' o' : trace log s o -> by_task l = false -> step log s l = Some (s', o') -> in_main_loop s ->
  s_phase s' = s_phase s \/ past_loop s'.
Proof.
  intros Ht B H M. pose proof (moving _ _ _ _ _ _ Ht H) as Hm. unfold past_loop, in_main_loop in *.
  destruct Hm; cbn in *; auto; discriminate.
Qed.
Lemma no_user_take log s l s' o' : by_task l = false -> task_ended s' = false -> step log s l = Some (s', o') -> forall fs, s_chan s = fs :: s_chan s' -> False.
Proof.
  intros B Te H fs E. assert (Hl : forall m, l <> LRead m) by (intros m ->; discriminate B).
  assert (L : length (s_chan s) = S (length (s_chan s'))) by (rewrite E; reflexivity). clear E.
  other_cases H Hl; cbn in *; try discriminate; try lia; rewrite ?app_length in L; cbn in L; lia.
Qed.

(** ** Steps that are left *)
Definition full (k : nat) (front : list (list wsmsg)) : nat := length (concat front) + (2 * k + 1) * length front.
Definition loop_cost (k n : nat) (front : list (list wsmsg)) : nat := match front with [] => 0 | _ => full k front - 2 * n end.
Definition cost (k n : nat) (s : state) (front : list (list wsmsg)) : nat :=
  match s_phase s with
  | PSending rest => length rest + full k front
  | PCalling _ _ => 1 + loop_cost k n front
  | _ => loop_cost k n front
  end.
Lemma full_cons k f front : full k (f :: front) = length f + full k front + 2 * k + 1.
Proof. unfold full. cbn [concat length]. rewrite app_length. lia. Qed.
Lemma loop_le k n front : loop_cost k n front <= full k front.
Proof. unfold loop_cost. destruct front; lia. Qed.
Lemma cost_le k n s front : cost k n s front <= 1 + length (pending s) + full k front.
Proof. unfold cost, pending. pose proof (loop_le k n front). destruct (s_phase s); cbn [length]; lia. Qed.

Definition to_write (s : state) (front : list (list wsmsg)) : list wsmsg := pending s ++ concat front.
Lemma busy_left s front back : in_main_loop s -> s_chan s = front ++ back -> to_write s front <> [] -> busy s = true.
Proof.
  unfold in_main_loop, to_write, pending, busy. intros M C W. destruct (s_phase s) as [| | | | |[] ?| |]; try contradiction; auto.
  destruct front as [|f fr]; [contradiction|]. rewrite C. cbn. apply orb_true_r.
Qed.
Lemma cost_pos k n s front : n <= k -> in_main_loop s -> (forall rest, s_phase s = PSending rest -> rest <> []) -> to_write s front <> [] -> 1 <= cost k n s front.
Proof.
  unfold in_main_loop, to_write, pending, cost. intros Hn M N W.
  assert (L : s_phase s = PLoop -> 1 <= loop_cost k n front).
  { intros E. rewrite E in W. cbn in W. destruct front as [|f fr]; [contradiction|]. unfold loop_cost. rewrite full_cons. lia. }
  destruct (s_phase s) as [| |rest| | |[] ?| |]; try contradiction; auto; try lia.
  specialize (N rest eq_refl). destruct rest; [contradiction|cbn [length]; lia].
Qed.

(** One step: what was to be written is written or still to be written, and a step of the task leaves
    fewer steps to do. *)
Lemma one_step log k s o l s' o' front back n : trace log s o -> step log s l = Some (s', o') -> in_main_loop s ->
  s_chan s = front ++ back -> to_write s front <> [] -> n <= k -> (passes s l = true -> n < k) ->
  past_loop s' \/
  exists front' back', s_chan s' = front' ++ back' /\ to_write s front = writes o' ++ to_write s' front' /\
    (if by_task l then S else fun x => x) (cost k (if passes s l then S n else match l with LTake => 0 | _ => n end) s' front') <= cost k n s front.
Proof.
  intros Ht H M C W Hn Hp.
  destruct (by_task l) eqn:B.
  - destruct l; try discriminate B.
    + (* LRead *) pose proof (read_channel _ _ _ _ _ _ Ht H) as Ch. pose proof (moving _ _ _ _ _ _ Ht H) as Hm.
      destruct (read_label _ _ _ _ _ H) as (b & Hb & _). unfold in_main_loop in M. rewrite Hb in M, Hm. destruct b; [contradiction|].
      assert (Hpen : pending s = []) by (unfold pending; rewrite Hb; reflexivity).
      assert (F : front <> []). { intros ->. apply W. unfold to_write. rewrite Hpen. reflexivity. }
      assert (Hpass : passes s (LRead m) = true). { unfold passes. rewrite Hb, C. destruct front; [contradiction|reflexivity]. }
      rewrite Hpass in *. specialize (Hp eq_refl).
      assert (Ph : past_loop s' \/ s_phase s' = PLoop \/ exists c, s_phase s' = PCalling false c).
      { unfold past_loop. remember (s_phase s') as p'. clear - Hm. remember PLoop as p. remember (LRead m) as l0.
        destruct Hm; subst; auto; try discriminate; try (destruct b; try discriminate; eauto). }
      destruct Ph as [Ph|Ph]; [left; exact Ph|]. right.
      assert (Hpen' : pending s' = []) by (unfold pending; destruct Ph as [->|[c ->]]; reflexivity).
      assert (Cost : S (cost k (S n) s' front) <= cost k n s front).
      { unfold cost. rewrite Hb. destruct front as [|f fr]; [contradiction|]. unfold loop_cost. rewrite full_cons. destruct Ph as [->|[c ->]]; lia. }
      destruct Ch as [_ Hw Hc _ _|fs _ Hw Hc _ _ _|_ He|fs _ _ Hc _ Hx _ _|mm _ _ _ Hx _ _].
      * exists front, back. rewrite Hc, Hw. unfold to_write. rewrite Hpen, Hpen'. auto.
      * exists front, (back ++ [fs]). rewrite Hc, Hw, C, app_assoc. unfold to_write. rewrite Hpen, Hpen'. auto.
      * exfalso. unfold task_ended in He. destruct Ph as [E|[c E]]; rewrite E in He; discriminate.
      * exfalso. clear - H Hc Ph Hb. pose proof H as E. apply read_label in E as (b & _ & _ & E). unfold read_step in E.
        assert (L : length (s_chan s) = S (length (s_chan s'))) by (rewrite Hc; reflexivity). clear Hc H.
        destruct (pr_open _); destruct (pr_queue _); unfold push in E; destruct (pr_outcome _) as [[| |]|]; step_cases E; injection E as <- <-; cbn in *; rewrite ?app_length in L; cbn in *; try lia;
        destruct Ph as [X|[c X]]; discriminate X.
      * exfalso. rewrite Hpen in Hx. discriminate.
    + left. cbn in H. unfold in_main_loop in M. destruct (s_phase s); try discriminate; injection H as <- <-; exact I.
    + left. cbn in H. unfold in_main_loop in M. destruct (s_phase s); try discriminate; injection H as <- <-; exact I.
    + (* LTake *) cbn in H. destruct (s_phase s) eqn:Hph; try discriminate.
      assert (Hpen : pending s = []) by (unfold pending; rewrite Hph; reflexivity).
      destruct front as [|f fr]; [exfalso; apply W; unfold to_write; rewrite Hpen; reflexivity|]. rewrite C in H. cbn [app] in H.
      injection H as <- <-. right. exists fr, back. cbn [passes]. split; [reflexivity|].
      unfold to_write. rewrite Hpen. unfold pending. cbn [s_phase set_chan set_phase]. rewrite sending_pending. split; [reflexivity|].
      unfold cost. cbn [s_phase set_chan set_phase]. rewrite Hph. change (loop_cost k n (f :: fr)) with (full k (f :: fr) - 2 * n). rewrite full_cons.
      destruct f as [|m f]; cbn [sending]; [pose proof (loop_le k 0 fr)|]; cbn [length]; lia.
    + (* LWrite *) cbn in H. destruct (s_phase s) as [| |[|m rest]| | | | |] eqn:Hph; try discriminate.
      injection H as <- <-. right. exists front, back. cbn [passes]. split; [exact C|].
      unfold to_write, pending. cbn [s_phase set_phase]. rewrite Hph, sending_pending. split; [reflexivity|].
      unfold cost. cbn [s_phase set_phase]. rewrite Hph. pose proof (loop_le k n front).
      destruct rest as [|m' rest]; cbn [sending length]; lia.
    + left. cbn in H. destruct (s_phase s); try discriminate; injection H as <- <-; exact I.
    + left. cbn in H. destruct (s_phase s); try discriminate. destruct (s_signal s); try discriminate. injection H as <- <-; exact I.
    + left. cbn in H. destruct (s_phase s); try discriminate; injection H as <- <-; exact I.
    + left. cbn in H. destruct (s_handle s); try discriminate; destruct (s_phase s); try discriminate; injection H as <- <-; exact I.
    + left. cbn in H. destruct (s_phase s); try discriminate; injection H as <- <-; exact I.
    + (* LCbReturn *) pose proof (moving _ _ _ _ _ _ Ht H) as Hm. unfold in_main_loop in M.
      assert (X : exists c, s_phase s = PCalling false c). { cbn in H. destruct (s_phase s) as [| | | | |[] c| |]; try discriminate; try contradiction. eauto. }
      destruct X as [c Hc]. cbn in H. rewrite Hc in H. injection H as <- <-. right. exists front, back. cbn [passes]. split; [exact C|].
      unfold to_write, pending, cost. cbn [s_phase set_phase]. rewrite Hc. split; [reflexivity|lia].
    + left. cbn in H. destruct (s_phase s); try discriminate; injection H as <- <-; exact I.
  - destruct (user_phase _ _ _ _ _ _ Ht B H M) as [Ph|Ph]; [|left; exact Ph]. right.
    assert (Hl : forall m, l <> LRead m) by (intros m ->; discriminate B).
    assert (Hpass : passes s l = false) by (destruct l; try reflexivity; discriminate B).
    assert (Hn' : match l with LTake => 0 | _ => n end = n) by (destruct l; try reflexivity; discriminate B).
    assert (Hpen : pending s' = pending s) by (unfold pending; rewrite Ph; reflexivity).
    rewrite Hpass, Hn'. assert (Cost : cost k n s' front <= cost k n s front) by (unfold cost; rewrite Ph; lia).
    destruct (other_channel _ _ _ _ _ _ Ht Hl H) as [_ Hw Hc _ _|fs _ Hw Hc _ _ _|_ He|fs _ _ Hc _ _ _ Te|mm _ _ _ Hx _ _].
    + exists front, back. rewrite Hc, Hw. unfold to_write. rewrite Hpen. auto.
    + exists front, (back ++ [fs]). rewrite Hc, Hw, C, app_assoc. unfold to_write. rewrite Hpen. auto.
    + exfalso. unfold task_ended in He. rewrite Ph in He. unfold in_main_loop in M. destruct (s_phase s); try discriminate; contradiction.
    + exfalso. exact (no_user_take _ _ _ _ _ B ltac:(eassumption) H _ Hc).
    + exfalso. rewrite Hpen in Hx. apply (f_equal (@length _)) in Hx. cbn in Hx. lia.
Qed.

(** ** In time *)
Lemma until_all t c : Forall (fun x => fst x <= t) (k_seen c) -> seen_until t c = observed c.
Proof.
  unfold seen_until, observed. intros F. f_equal. induction F as [|x l Hx F IH]; [reflexivity|]. cbn [filter].
  rewrite (proj2 (Nat.leb_le _ _) Hx), IH. reflexivity.
Qed.
Lemma until_grows log d k c c' t : ticks log d k c c' -> exists o, seen_until t c' = seen_until t c ++ o.
Proof.
  intros H. destruct H; unfold seen_until; cbn [k_seen]; [exists []; rewrite app_nil_r; reflexivity|].
  rewrite filter_app, map_app. eauto.
Qed.
Lemma until_later log d k c c' t : later log d k c c' -> exists o, seen_until t c' = seen_until t c ++ o.
Proof.
  intros H. induction H as [|c1 c2 _ [o E] T]; [exists []; rewrite app_nil_r; reflexivity|].
  destruct (until_grows _ _ _ _ _ t T) as [o' E']. exists (o ++ o'). rewrite E', E, app_assoc. reflexivity.
Qed.

Definition in_time (k d B : nat) (Q : list wsmsg) (c : clock) : Prop :=
  past_loop (k_state c) \/ (exists rest, writes (seen_until B c) = Q ++ rest) \/
  (in_main_loop (k_state c) /\ exists front back, s_chan (k_state c) = front ++ back /\
    Q = writes (observed c) ++ to_write (k_state c) front /\ to_write (k_state c) front <> [] /\
    k_since c + d * cost k (k_passed c) (k_state c) front <= B).
Lemma in_time_now log k d B Q c : clocked log d k c -> (in_main_loop (k_state c) /\ exists front back, s_chan (k_state c) = front ++ back /\
    Q = writes (observed c) ++ to_write (k_state c) front /\ to_write (k_state c) front <> [] /\
    k_since c + d * cost k (k_passed c) (k_state c) front <= B) -> k_now c <= B.
Proof.
  intros C (M & front & back & Hc & _ & W & L).
  pose proof (q_soon _ _ _ _ C (busy_left _ _ _ M Hc W)) as S.
  pose proof (cost_pos k (k_passed c) (k_state c) front (q_passed _ _ _ _ C) M) as P.
  specialize (P (fun rest Hr => sending_nonempty _ _ _ _ (q_trace _ _ _ _ C) Hr) W). nia.
Qed.
Lemma in_time_tick log k d B Q c c' : clocked log d k c -> ticks log d k c c' -> in_time k d B Q c -> in_time k d B Q c'.
Proof.
  intros C T [P|[[rest E]|X]].
  - left. destruct T as [|s t a n w o l s' o' H Hp Hd]; [exact P|]. cbn [k_state] in *.
    pose proof (q_trace _ _ _ _ C) as Ht. cbn [k_state] in Ht. exact (past_stays _ _ _ (moving _ _ _ _ _ _ Ht H) P).
  - right. left. destruct (until_grows _ _ _ _ _ B T) as [o ->]. rewrite writes_app, E, <- app_assoc. eauto.
  - pose proof (in_time_now _ _ _ _ _ _ C X) as Now. destruct X as (M & front & back & Hc & HQ & W & L).
    pose proof (clocked_tick _ _ _ _ _ C T) as C'.
    pose proof (q_soon _ _ _ _ C (busy_left _ _ _ M Hc W)) as Soon.
    destruct T as [s t t' a n w o Ht Hb|s t a n w o l s' o' H Hp Hd]; [right; right; split; [exact M|]; exists front, back; auto|].
    pose proof (q_trace _ _ _ _ C) as Htr. pose proof (q_passed _ _ _ _ C) as Hn. pose proof (busy_left _ _ _ M Hc W) as Hbusy.
    cbn [k_state k_now k_since k_passed k_told k_seen] in *.
    destruct (one_step log k s _ l s' o' front back n Htr H M Hc W Hn Hp) as [P|(front' & back' & Hc' & W' & L')]; [left; exact P|].
    destruct (main_or_past s') as [U|[M'|P]].
    + exfalso. unfold in_main_loop in M. rewrite (moves_unborn _ _ _ (moving _ _ _ _ _ _ Htr H) U) in M. exact M.
    + right. set (c2 := Clock _ _ _ _ _ _) in C' |- *.
      assert (Ob : observed c2 = observed (Clock s t a n w o) ++ o').
      { unfold c2, observed. cbn [k_seen]. rewrite map_app, map_snd_pair. reflexivity. }
      assert (HQ' : Q = writes (observed c2) ++ to_write s' front').
      { rewrite Ob, writes_app, <- app_assoc, <- W'. exact HQ. }
      destruct (to_write s' front') eqn:Hw.
      * left. exists []. rewrite until_all. { rewrite app_nil_r. symmetry. rewrite app_nil_r in HQ'. exact HQ'. }
        eapply Forall_impl; [|exact (q_stamps _ _ _ _ C')]. unfold c2. cbn [k_now]. intros x Hx. cbn in Hx. lia.
      * right. split; [exact M'|]. exists front', back'. unfold c2 in HQ' |- *. cbn [k_state k_since k_passed] in *. rewrite Hw.
        split; [exact Hc'|split; [exact HQ'|split; [discriminate|]]].
        rewrite Hbusy. cbn [negb]. rewrite orb_false_r. destruct (by_task l); nia.
    + left. exact P.
Qed.
Lemma in_time_later log k d B Q c c' : later log d k c c' -> clocked log d k c -> in_time k d B Q c -> in_time k d B Q c'.
Proof.
  intros H C I. induction H as [|c1 c2 H1 IH T]; [exact I|]. exact (in_time_tick _ _ _ _ _ _ _ (clocked_later _ _ _ _ _ H1 C) T IH).
Qed.
Lemma main_task s : in_main_loop s -> task_ended s = false.
Proof. unfold in_main_loop, task_ended. destruct (s_phase s); intros; auto; contradiction. Qed.
Lemma in_time_start log k d c : clocked log d k c -> in_time k d (k_now c + d * steps_needed k c) (concat (queued (observed c))) c.
Proof.
  intros C. pose proof (q_trace _ _ _ _ C) as Ht. destruct (main_or_past (k_state c)) as [U|[M|P]]; [| |left; exact P].
  - right. left. destruct (unborn_empty _ _ _ Ht U) as (_ & _ & ->). exists (writes (seen_until (k_now c + d * steps_needed k c) c)). reflexivity.
  - right. destruct (n_running _ _ (trace_sent _ _ _ Ht) (main_task _ M)) as (q1 & Q & W).
    assert (HQ : concat (queued (observed c)) = writes (observed c) ++ to_write (k_state c) (s_chan (k_state c))).
    { unfold to_write. rewrite Q, concat_app, <- W, <- app_assoc. reflexivity. }
    destruct (to_write (k_state c) (s_chan (k_state c))) eqn:E.
    + left. exists []. rewrite until_all; [rewrite HQ, !app_nil_r; reflexivity|].
      eapply Forall_impl; [|exact (q_stamps _ _ _ _ C)]. cbn. intros x Hx. lia.
    + right. split; [exact M|]. exists (s_chan (k_state c)), []. rewrite app_nil_r, E. split; [reflexivity|split; [exact HQ|split; [discriminate|]]].
      pose proof (q_since _ _ _ _ C) as S. pose proof (cost_le k (k_passed c) (k_state c) (s_chan (k_state c))) as L.
      assert (N : steps_needed k c = 1 + length (pending (k_state c)) + full k (s_chan (k_state c))).
      { unfold steps_needed, unwritten. rewrite HQ, app_length, <- E. unfold to_write, full. rewrite app_length. lia. }
      rewrite N. nia.
Qed.
Theorem written_in_time log d k c c' : paced log d k c -> later log d k c c' ->
  k_now c + d * steps_needed k c < k_now c' ->
  past_loop (k_state c') \/ exists rest, writes (seen_until (k_now c + d * steps_needed k c) c') = concat (queued (observed c)) ++ rest.
Proof.
  intros P L B. pose proof (paced_clocked _ _ _ _ P) as C. pose proof (clocked_later _ _ _ _ _ L C) as C'.
  destruct (in_time_later _ _ _ _ _ _ _ L C (in_time_start _ _ _ _ C)) as [X|[X|X]]; auto.
  exfalso. pose proof (in_time_now _ _ _ _ _ _ C' X). lia.
Qed.

(** ** Pongs *)
Lemma observed_later log d k c c' : later log d k c c' -> exists o, observed c' = observed c ++ o.
Proof.
  intros H. induction H as [|c1 c2 _ [o E] T]; [exists []; rewrite app_nil_r; reflexivity|].
  destruct T as [|s t a n w ob l s' o' H Hp Hd]; [eauto|]. unfold observed in *. cbn [k_seen] in *. rewrite map_app, map_snd_pair, E, <- app_assoc. eauto.
Qed.
Theorem pongs_in_time log d k c c' : paced log d k c -> later log d k c c' ->
  k_now c + d * steps_needed k c < k_now c' ->
  past_loop (k_state c') \/ In OChannelClosed (observed c') \/
  ping_count (reads (observed c)) <= pongs_written (seen_until (k_now c + d * steps_needed k c) c').
Proof.
  intros P L B. pose proof (paced_clocked _ _ _ _ P) as C. pose proof (q_trace _ _ _ _ C) as Ht.
  destruct (written_in_time _ _ _ _ _ P L B) as [X|[rest E]]; [left; exact X|].
  destruct (main_or_past (k_state c)) as [U|[M|Pa]].
  - right. right. pose proof (unborn_reads _ _ _ Ht U) as R. rewrite R. cbn. lia.
  - right. destruct (in_dec_closed (observed c)) as [Cl|Nc]; [left; destruct (observed_later _ _ _ _ _ L) as [o ->]; apply in_app_iff; auto|].
    right. pose proof (pongs_are _ _ _ Ht) as Hp. unfold pongs_written. rewrite E, filter_app, app_length.
    enough (X : length (pongs (observed c)) <= length (filter is_pong (concat (queued (observed c))))).
    { rewrite Hp, repeat_length in X. lia. }
    apply pongs_queued.
    + intros fs Hi. destruct (nothing_lost _ _ _ _ _ Ht Hi) as [X|X]; [contradiction|]. rewrite (main_running _ M) in X. discriminate.
    + rewrite Hp. apply Forall_forall. intros x Hx. apply repeat_spec in Hx. congruence.
  - left. clear E B. induction L as [|c1 c2 L1 IH T]; [exact Pa|].
    pose proof (q_trace _ _ _ _ (clocked_later _ _ _ _ _ L1 C)) as T1.
    destruct T as [|s t a n w o l s' o' H Hp Hd]; [exact IH|]. exact (past_stays _ _ _ (moving _ _ _ _ _ _ T1 H) IH).
Qed.

(** ** The runs are those of the client *)
Theorem paced_is_trace log d k c : paced log d k c -> trace log (k_state c) (observed c).
Proof. intros P. exact (q_trace _ _ _ _ (paced_clocked _ _ _ _ P)). Qed.
Lemma run_clocked log d k t ls : forall s o n w s' o', execute log s ls = Some (s', o') -> n + length ls <= k -> w + length ls <= k ->
  exists n' w', later log d k (Clock s t t n w o) (Clock s' t t n' w' (o ++ map (pair t) o')).
Proof.
  induction ls as [|l ls IH]; intros s o n w s' o' H L Lw; cbn [execute] in H.
  - injection H as <- <-. exists n, w. cbn. rewrite app_nil_r. apply lt_here.
  - destruct (step log s l) as [[s1 o1]|] eqn:E1; [|discriminate]. destruct (execute log s1 ls) as [[s2 o2]|] eqn:E2; [|discriminate].
    injection H as <- <-. rewrite map_app, app_assoc. cbn [length] in L, Lw.
    pose proof (tk_step log d k s t t n w o l s1 o1 E1) as T. specialize (T ltac:(lia) ltac:(lia)).
    replace (if by_task l || negb (busy s) then t else t) with t in T by (destruct (_ || _); reflexivity).
    set (n1 := if passes s l then S n else match l with LTake => 0 | _ => n end) in T.
    set (w1 := if passes_close s l then S w else w) in T.
    assert (N : n1 <= S n) by (unfold n1; destruct (passes s l); [lia|]; destruct l; lia).
    assert (W : w1 <= S w) by (unfold w1; destruct (passes_close s l); lia).
    destruct (IH s1 (o ++ map (pair t) o1) n1 w1 _ _ E2 ltac:(lia) ltac:(lia)) as (n' & w' & Hl). exists n', w'.
    eapply later_trans; [|exact Hl]. eapply lt_tick; [apply lt_here|exact T].
Qed.
Theorem trace_is_paced log d s o : trace log s o -> exists k c, paced log d k c /\ k_state c = s /\ observed c = o.
Proof.
  intros [ls H]. destruct (run_clocked log d (length ls) 0 ls init [] 0 0 s o H ltac:(lia) ltac:(lia)) as (n & w & L).
  exists (length ls), (Clock s 0 0 n w ([] ++ map (pair 0) o)). split; [exists 0; exact L|]. split; [reflexivity|].
  unfold observed. cbn [k_seen app]. apply map_snd_pair.
Qed.
