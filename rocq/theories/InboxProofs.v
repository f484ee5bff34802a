(** Proofs about runs with a clock and an inbox. *)
From Verif Require Export SpecInbox PaceClose.
From Coq Require Import Lia.

Lemma onward_trans log d k c1 c2 c3 : onward log d k c1 c2 -> onward log d k c2 c3 -> onward log d k c1 c3.
Proof. intros H1 H2. induction H2; [exact H1|]. eapply on_turn; eassumption. Qed.
Lemma attended_onward log d k c c' : attended log d k c -> onward log d k c c' -> attended log d k c'.
Proof. intros [t H] L. exists t. exact (onward_trans _ _ _ _ _ _ H L). Qed.
Lemma step_reads log s l s' o' : step log s l = Some (s', o') -> reads o' = match l with LRead m => [m] | _ => [] end.
Proof.
  intros H. assert (Hl : (exists m, l = LRead m) \/ forall m, l <> LRead m) by (destruct l; eauto; right; discriminate).
  destruct Hl as [[m ->]|Hl].
  - destruct (read_label _ _ _ _ _ H) as (b & _ & _ & E). unfold read_step in E.
    destruct (pr_open _); destruct (pr_queue _); unfold push in E; destruct (pr_outcome _) as [[| |]|]; step_cases E; injection E as <- <-; reflexivity.
  - replace (match l with LRead m => [m] | _ => [] end) with (@nil wsmsg) by (destruct l; try reflexivity; exfalso; eapply Hl; reflexivity).
    other_cases H Hl; cbn; rewrite ?reads_app, ?requests_reads; reflexivity.
Qed.

Record manned (log : bool) (d k : nat) (c : desk) : Prop := Manned {
  u_trace : trace log (e_state c) (noticed c);
  u_since : e_since c <= e_now c;
  u_soon : occupied (e_state c) (e_inbox c) = true -> e_now c <= e_since c + d;
  u_passed : e_passed c <= k;
  u_came : e_came c = reads (noticed c) ++ e_inbox c;
  u_unborn : s_phase (e_state c) = PUnborn -> e_inbox c = [];
  u_stamps : Forall (fun x => fst x <= e_now c) (e_seen c)
}.
Lemma manned_turn log d k c c' : manned log d k c -> turns log d k c c' -> manned log d k c'.
Proof.
  intros [T S Q P M U F] H. destruct H as [s t t' a n i h o Ht Hb|s t a n i h o m Hu Hv|s t a n i h o l s' o' i' E R Hp]; unfold noticed in *; cbn [e_state e_now e_since e_passed e_inbox e_came e_seen] in *.
  - split; unfold noticed; cbn [e_state e_now e_since e_passed e_inbox e_came e_seen]; auto; [lia|]. eapply Forall_impl; [|exact F]. cbn. intros x Hx. lia.
  - split; unfold noticed; cbn [e_state e_now e_since e_passed e_inbox e_came e_seen]; auto.
    + destruct (occupied s i); lia.
    + intros _. destruct (occupied s i); [auto|lia].
    + rewrite M, <- app_assoc. reflexivity.
    + intros X. contradiction.
  - split; unfold noticed; cbn [e_state e_now e_since e_passed e_inbox e_came e_seen].
    + rewrite map_app, map_snd_pair. apply (trace_extend log s (map snd o) [l] s' o' T). cbn [execute]. rewrite E, app_nil_r. reflexivity.
    + destruct (_ || _); lia.
    + intros O. destruct (by_task l) eqn:B; cbn [orb]; [lia|]. destruct (occupied s i) eqn:O0; cbn [negb]; [auto|lia].
    + destruct (passes_reading i l); [specialize (Hp eq_refl); lia|]. destruct l; lia.
    + rewrite map_app, map_snd_pair, reads_app, (step_reads _ _ _ _ _ E), M, <- app_assoc. f_equal. destruct l; cbn in R; subst; reflexivity.
    + intros X. pose proof (moves_unborn _ _ _ (moving _ _ _ _ _ _ T E) X) as Y. specialize (U Y). subst i. destruct l; cbn in R; congruence.
    + apply Forall_app. split; [exact F|]. apply Forall_forall. intros x Hx. apply in_map_iff in Hx as (y & <- & _). cbn. lia.
Qed.
Lemma manned_onward log d k c c' : onward log d k c c' -> manned log d k c -> manned log d k c'.
Proof. intros H C. induction H; [exact C|]. eapply manned_turn; eassumption. Qed.
Lemma attended_manned log d k c : attended log d k c -> manned log d k c.
Proof. intros [t H]. apply (manned_onward _ _ _ _ _ H). split; cbn; try lia; try discriminate; try reflexivity; [exists []; reflexivity|constructor]. Qed.

(** ** Steps that are left *)
Definition room (k f : nat) : nat := k * (f + 1).
Definition read_cost (k f n : nat) (s : state) (left : nat) : nat :=
  let l := left * (2 + room k f) - n * (f + 1) - 1 in
  match s_phase s with
  | PSending rest => length rest + 2 + l
  | PCalling false _ => 3 + l
  | PCalling true _ => 1 + l
  | PClosing => 1 + l
  | PLoop => 2 + l
  | _ => l
  end.
Lemma over_or s : s_phase s = PUnborn \/ over s \/ match s_phase s with PLoop | PSending _ | PCalling _ _ | PClosing | PReading => True | _ => False end.
Proof. unfold over, task_ended. destruct (s_phase s); auto. Qed.
Lemma over_stays p l p' : moves p l p' -> (p = PStuck \/ exists e, p = PEnded e) -> p' = PStuck \/ exists e, p' = PEnded e.
Proof. intros H. destruct H; intros [X|[e0 X]]; try discriminate; eauto; try (destruct b; discriminate). Qed.
Lemma over_is s : over s <-> s_phase s = PStuck \/ exists e, s_phase s = PEnded e.
Proof. unfold over, task_ended. destruct (s_phase s); split; intros [X|X]; try discriminate; eauto; try (destruct X; discriminate). Qed.

Lemma passes_small k f n : n <= k -> n * (f + 1) <= room k f.
Proof. unfold room. intros H. apply Nat.mul_le_mono_r. exact H. Qed.
Lemma read_one k f n left : n <= k -> 1 <= left -> 1 + (left * (2 + room k f) - 1) + 1 <= (S left) * (2 + room k f) - n * (f + 1) - 1.
Proof. intros Hn Hl. pose proof (passes_small k f n Hn). rewrite Nat.mul_succ_l. assert (1 <= left * (2 + room k f)) by nia. lia. Qed.
Lemma pass_one k f n left : n < k -> 1 <= left -> f + 1 + (left * (2 + room k f) - S n * (f + 1) - 1) <= left * (2 + room k f) - n * (f + 1) - 1.
Proof.
  intros Hn Hl. pose proof (passes_small k f (S n) Hn) as Q. rewrite Nat.mul_succ_l in *.
  assert (2 + room k f <= left * (2 + room k f)) by nia. lia.
Qed.
Lemma read_step_cost log k f s o l s' o' i i' n front back : trace log s o -> step log s l = Some (s', o') -> s_phase s <> PUnborn -> ~ over s ->
  Forall (fun fs => length fs <= f) (s_chan s) -> reads_from i l i' -> i = front ++ back -> front <> [] -> n <= k -> (passes_reading i l = true -> n < k) ->
  over s' \/ exists front', i' = front' ++ back /\ front = reads o' ++ front' /\
    (front' = [] \/ (if by_task l then S else fun x => x) (read_cost k f (if passes_reading i l then S n else match l with LRead _ => 0 | _ => n end) s' (length front')) <= read_cost k f n s (length front)).
Proof.
  intros Ht H U O F R Hi Hf Hn Hp. pose proof (moving _ _ _ _ _ _ Ht H) as Hm. rewrite (step_reads _ _ _ _ _ H).
  assert (L1 : 1 <= length front) by (destruct front; [contradiction|cbn; lia]).
  destruct (by_task l) eqn:B.
  - destruct l; try discriminate B; cbn [reads_from] in R.
    + destruct front as [|m0 front]; [contradiction|]. cbn in Hi. rewrite R in Hi. injection Hi as -> ->. cbn [passes_reading].
      destruct (read_label _ _ _ _ _ H) as (b & Hb & _). rewrite Hb in Hm.
      assert (Ph : over s' \/ s_phase s' = (if b then PReading else PLoop) \/ exists c, s_phase s' = PCalling b c).
      { rewrite over_is. remember (s_phase s') as p'. clear - Hm. remember (if b then PReading else PLoop) as p. remember (LRead m0) as l0.
        destruct Hm; subst; auto; try discriminate; eauto; destruct b; try destruct b0; try discriminate; eauto. }
      destruct Ph as [Ph|Ph]; [left; exact Ph|]. right. exists front. split; [reflexivity|]. split; [reflexivity|].
      destruct front as [|m1 front]; [left; reflexivity|]. right. assert (L : 1 <= length (m1 :: front)) by (cbn; lia).
      change (length (m0 :: m1 :: front)) with (S (length (m1 :: front))). pose proof (read_one k f n (length (m1 :: front)) Hn L) as Q. revert Q. generalize (length (m1 :: front)). intros z Q.
      unfold read_cost. rewrite Hb. cbn [Nat.mul Nat.sub]. rewrite Nat.sub_0_r. destruct b, Ph as [->|[c ->]]; lia.
    + left. cbn in H. unfold over. destruct (s_phase s); try discriminate; injection H as <- <-; right; reflexivity.
    + left. cbn in H. unfold over. destruct (s_phase s); try discriminate; injection H as <- <-; right; reflexivity.
    + subst i'. assert (Hps : passes_reading i LTake = true) by (subst i; destruct front; [contradiction|reflexivity]). rewrite Hps in *. specialize (Hp eq_refl).
      cbn [step] in H. destruct (s_phase s) eqn:Hph; try discriminate. destruct (s_chan s) as [|fs ch] eqn:Hc.
      * left. destruct (s_chan_closed s); [|discriminate]. injection H as <- <-. right. reflexivity.
      * injection H as <- <-. right. exists front. split; [exact Hi|]. split; [reflexivity|]. right. inversion F as [|? ? Hfs _]; subst.
        pose proof (pass_one k f n (length front) Hp L1) as Q. unfold read_cost. cbn [s_phase set_chan set_phase]. rewrite Hph.
        destruct fs as [|m fs]; cbn [sending length] in *; lia.
    + subst i'. cbn in H. destruct (s_phase s) as [| |[|m rest]| | | | |] eqn:Hph; try discriminate. injection H as <- <-. right. exists front. split; [exact Hi|]. split; [reflexivity|]. right.
      replace (passes_reading i LWrite) with false by reflexivity. unfold read_cost. cbn [s_phase set_phase]. rewrite Hph. destruct rest as [|m' rest]; cbn [sending length]; lia.
    + left. cbn in H. unfold over. destruct (s_phase s); try discriminate; injection H as <- <-; right; reflexivity.
    + subst i'. cbn in H. destruct (s_phase s) eqn:Hph; try discriminate. destruct (s_signal s); [|discriminate]. injection H as <- <-. right. exists front. split; [exact Hi|]. split; [reflexivity|]. right.
      cbn [passes_reading]. unfold read_cost. cbn [s_phase set_phase]. rewrite Hph. lia.
    + subst i'. cbn in H. destruct (s_phase s) eqn:Hph; try discriminate. injection H as <- <-. right. exists front. split; [exact Hi|]. split; [reflexivity|]. right.
      cbn [passes_reading]. unfold read_cost. cbn [s_phase set_phase]. rewrite Hph. lia.
    + left. cbn in H. destruct (s_handle s); try discriminate; unfold over; destruct (s_phase s); try discriminate; injection H as <- <-; right; reflexivity.
    + left. cbn in H. unfold over. destruct (s_phase s); try discriminate; injection H as <- <-; right; reflexivity.
    + subst i'. cbn in H. destruct (s_phase s) as [| | | | |b c| |] eqn:Hph; try discriminate. injection H as <- <-. right. exists front. split; [exact Hi|]. split; [reflexivity|]. right.
      cbn [passes_reading]. unfold read_cost. cbn [s_phase set_phase]. rewrite Hph. destruct b; lia.
    + left. cbn in H. unfold over. destruct (s_phase s); try discriminate; injection H as <- <-; right; reflexivity.
  - assert (Hps : passes_reading i l = false) by (destruct l; try reflexivity; discriminate B). rewrite Hps.
    assert (R' : i' = i) by (destruct l; try discriminate B; exact R).
    assert (Ph : over s' \/ s_phase s' = s_phase s).
    { rewrite over_is. clear - Hm B U. destruct Hm; cbn in *; auto; try discriminate; eauto. contradiction. }
    destruct Ph as [Ph|Ph]; [left; exact Ph|]. right. exists front. split; [congruence|].
    replace (match l with LRead m => [m] | _ => [] end) with (@nil wsmsg) by (destruct l; try reflexivity; discriminate B).
    replace (match l with LRead _ => 0 | _ => n end) with n by (destruct l; try reflexivity; discriminate B).
    split; [reflexivity|]. right. unfold read_cost. rewrite Ph. lia.
Qed.
Lemma occupied_front s front back : s_phase s <> PUnborn -> ~ over s -> front <> [] -> occupied s (front ++ back) = true.
Proof. unfold occupied, over, task_ended. intros U O F. destruct front as [|m front]; [contradiction|]. cbn. destruct (s_phase s); try reflexivity; exfalso; auto. Qed.
Lemma read_cost_pos k f n s left : n <= k -> 1 <= left -> 1 <= read_cost k f n s left.
Proof.
  intros Hn Hl. pose proof (passes_small k f n Hn). assert (2 + room k f <= left * (2 + room k f)) by nia.
  unfold read_cost. destruct (s_phase s) as [| | | | |[] ?| |]; lia.
Qed.

(** ** In time *)
Lemma noticed_all t c : Forall (fun x => fst x <= t) (e_seen c) -> noticed_until t c = noticed c.
Proof.
  unfold noticed_until, noticed. intros F. f_equal. induction F as [|x l Hx F IH]; [reflexivity|]. cbn [filter].
  rewrite (proj2 (Nat.leb_le _ _) Hx), IH. reflexivity.
Qed.
Lemma noticed_turn log d k c c' t : turns log d k c c' -> exists o, noticed_until t c' = noticed_until t c ++ o.
Proof.
  intros H. destruct H; unfold noticed_until; cbn [e_seen]; try (exists []; rewrite app_nil_r; reflexivity).
  rewrite filter_app, map_app. eauto.
Qed.
Lemma noticed_onward log d k c c' : onward log d k c c' -> exists o, noticed c' = noticed c ++ o.
Proof.
  intros H. induction H as [|c1 c2 _ [o E] T]; [exists []; rewrite app_nil_r; reflexivity|].
  destruct T; unfold noticed in *; cbn [e_seen] in *; eauto. rewrite map_app, map_snd_pair, E, <- app_assoc. eauto.
Qed.
Definition read_in_time (k f d B : nat) (Q : list wsmsg) (c : desk) : Prop :=
  over (e_state c) \/ (exists rest, reads (noticed_until B c) = Q ++ rest) \/
  (s_phase (e_state c) <> PUnborn /\ ~ over (e_state c) /\ exists front back, e_inbox c = front ++ back /\ front <> [] /\
    Q = reads (noticed c) ++ front /\ e_since c + d * read_cost k f (e_passed c) (e_state c) (length front) <= B).
Lemma live_chan log s o f : trace log s o -> ~ over s -> Forall (fun fs => length fs <= f) (queued o) -> Forall (fun fs => length fs <= f) (s_chan s).
Proof.
  intros Ht O F. destruct (n_running _ _ (trace_sent _ _ _ Ht)) as (q & Q & _).
  - destruct (task_ended s) eqn:E; [|reflexivity]. exfalso. apply O. right. exact E.
  - rewrite Q in F. apply Forall_app in F. exact (proj2 F).
Qed.
Lemma left_now log k f d B c front back : manned log d k c -> s_phase (e_state c) <> PUnborn -> ~ over (e_state c) -> e_inbox c = front ++ back -> front <> [] ->
  e_since c + d * read_cost k f (e_passed c) (e_state c) (length front) <= B -> e_now c <= B.
Proof.
  intros C U O Hi Hf L. pose proof (u_soon _ _ _ _ C) as S. rewrite Hi in S. specialize (S (occupied_front _ _ _ U O Hf)).
  assert (L1 : 1 <= length front) by (destruct front; [contradiction|cbn; lia]).
  pose proof (read_cost_pos k f (e_passed c) (e_state c) (length front) (u_passed _ _ _ _ C) L1). nia.
Qed.
Lemma over_dec s : over s \/ ~ over s.
Proof. rewrite over_is. destruct (s_phase s); eauto; right; intros [X|[e X]]; discriminate. Qed.
Lemma read_turn log k f d B Q c c' : manned log d k c -> Forall (fun fs => length fs <= f) (queued (noticed c)) -> turns log d k c c' ->
  read_in_time k f d B Q c -> read_in_time k f d B Q c'.
Proof.
  intros C F T [P|[[rest E]|(U & O & front & back & Hi & Hf & HQ & L)]].
  - left. destruct T as [| |s t a n i h o l s' o' i' H R Hp]; [exact P|exact P|]. cbn [e_state] in *. rewrite over_is in *.
    exact (over_stays _ _ _ (moving _ _ _ _ _ _ (u_trace _ _ _ _ C) H) P).
  - right. left. destruct (noticed_turn _ _ _ _ _ B T) as [o ->]. rewrite reads_app, E, <- app_assoc. eauto.
  - pose proof (left_now _ _ _ _ _ _ _ _ C U O Hi Hf L) as Now. pose proof (manned_turn _ _ _ _ _ C T) as C'.
    pose proof (u_soon _ _ _ _ C) as Soon. rewrite Hi in Soon. pose proof (occupied_front _ _ back U O Hf) as Oc. specialize (Soon Oc).
    destruct T as [s t t' a n i h o Ht Hb|s t a n i h o m Hu Hv|s t a n i h o l s' o' i' H R Hp]; cbn [e_state e_now e_since e_passed e_inbox] in *.
    + right. right. split; [exact U|split; [exact O|]]. exists front, back. auto.
    + right. right. split; [exact U|split; [exact O|]]. exists front, (back ++ [m]). cbn [e_inbox e_since e_passed e_state]. rewrite Hi, Oc, app_assoc. auto.
    + pose proof (u_trace _ _ _ _ C) as Htr. cbn [e_state] in Htr.
      destruct (read_step_cost log k f s _ l s' o' i i' n front back Htr H U O (live_chan _ _ _ _ Htr O F) R Hi Hf (u_passed _ _ _ _ C) Hp) as [P|(front' & Hi' & Hr & L')]; [left; exact P|].
      destruct (over_dec s') as [P|O']; [left; exact P|]. right. set (c2 := Desk s' _ _ _ _ _ _) in C' |- *.
      assert (Ob : noticed c2 = noticed (Desk s t a n i h o) ++ o') by (unfold c2, noticed; cbn [e_seen]; rewrite map_app, map_snd_pair; reflexivity).
      assert (HQ' : Q = reads (noticed c2) ++ front') by (rewrite Ob, reads_app, <- app_assoc, <- Hr; exact HQ).
      destruct front' as [|m0 front'].
      * left. exists []. rewrite noticed_all; [rewrite app_nil_r in HQ' |- *; symmetry; exact HQ'|].
        eapply Forall_impl; [|exact (u_stamps _ _ _ _ C')]. unfold c2. cbn [e_now]. intros x Hx. cbn in Hx. lia.
      * right. destruct L' as [L'|L']; [discriminate|]. split; [intros X; exact (U (moves_unborn _ _ _ (moving _ _ _ _ _ _ Htr H) X))|]. split; [exact O'|].
        exists (m0 :: front'), back. split; [exact Hi'|]. split; [discriminate|]. split; [exact HQ'|]. unfold c2. cbn [e_since e_passed e_state].
        rewrite Hi, Oc. cbn [negb]. rewrite orb_false_r. rewrite Hi in L'. revert L'. generalize (read_cost k f (if passes_reading (front ++ back) l then S n else match l with LRead _ => 0 | _ => n end) s' (length (m0 :: front'))). intros z L'.
        destruct (by_task l); nia.
Qed.
Theorem arrived_read_in_time log d k f c c' : attended log d k c -> onward log d k c c' ->
  Forall (fun fs => length fs <= f) (queued (noticed c')) ->
  e_now c + d * steps_to_read k f c < e_now c' ->
  over (e_state c') \/ exists rest, reads (noticed_until (e_now c + d * steps_to_read k f c) c') = e_came c ++ rest.
Proof.
  intros P L F Lt. pose proof (attended_manned _ _ _ _ P) as C. set (B := e_now c + d * steps_to_read k f c) in *.
  assert (I0 : read_in_time k f d B (e_came c) c).
  { pose proof (u_came _ _ _ _ C) as Cm. destruct (e_inbox c) as [|m0 inbox] eqn:Ei.
    - right. left. exists []. rewrite noticed_all; [rewrite Cm, !app_nil_r; reflexivity|].
      eapply Forall_impl; [|exact (u_stamps _ _ _ _ C)]. unfold B. cbn. intros x Hx. lia.
    - destruct (over_or (e_state c)) as [U|[O|M]]; [pose proof (u_unborn _ _ _ _ C U); congruence|left; exact O|]. right. right.
      split; [intros X; rewrite X in M; exact M|]. split; [unfold over, task_ended; intros [X|X]; destruct (s_phase (e_state c)); try discriminate; contradiction|].
      exists (m0 :: inbox), []. rewrite Ei, app_nil_r. split; [reflexivity|]. split; [discriminate|]. split; [exact Cm|].
      pose proof (u_since _ _ _ _ C). assert (read_cost k f (e_passed c) (e_state c) (length (m0 :: inbox)) <= steps_to_read k f c); [|unfold B; nia].
      unfold steps_to_read, read_cost, in_hand. rewrite Ei. fold (room k f). assert (2 + room k f <= length (m0 :: inbox) * (2 + room k f)) by (cbn [length]; nia).
      revert H0. generalize (length (m0 :: inbox) * (2 + room k f)). intros z Hz. destruct (s_phase (e_state c)) as [| | | | |[] ?| |]; lia. }
  assert (I : read_in_time k f d B (e_came c) c').
  { clear Lt. induction L as [|c1 c2 L IH T]; [exact I0|]. pose proof (attended_manned _ _ _ _ (attended_onward _ _ _ _ _ P L)) as C1.
    assert (F1 : Forall (fun fs => length fs <= f) (queued (noticed c1))).
    { destruct (noticed_onward _ _ _ _ _ (on_turn _ _ _ _ _ _ (on_here log d k c1) T)) as [o Eo]. rewrite Eo, queued_app in F. apply Forall_app in F. exact (proj1 F). }
    exact (read_turn _ _ _ _ _ _ _ _ C1 F1 T (IH F1)). }
  destruct I as [X|[X|(U & O & front & back & Hi & Hf & _ & Lc)]]; auto. exfalso.
  pose proof (left_now _ _ _ _ _ _ _ _ (attended_manned _ _ _ _ (attended_onward _ _ _ _ _ P L)) U O Hi Hf Lc). lia.
Qed.
