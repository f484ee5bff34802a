(** Proofs about whole runs: what is asked for is what is sent; progress. *)
From Verif Require Export SpecFlow AnswerProofs.

Lemma run_ind log (P : list label -> state -> list obs -> Prop) : P [] init [] ->
  (forall ls s o l s' o', client_run log ls s o -> P ls s o -> step log s l = Some (s', o') -> P (ls ++ [l]) s' (o ++ o')) ->
  forall ls s o, client_run log ls s o -> P ls s o.
Proof.
  intros H0 Hs ls. induction ls as [|l ls IH] using rev_ind; intros s o H.
  - injection H as <- <-. exact H0.
  - unfold client_run in H. rewrite execute_app in H. destruct (execute log init ls) as [[s1 o1]|] eqn:E; [|discriminate].
    cbn [execute] in H. destruct (step log s1 l) as [[s2 o2]|] eqn:E2; [|discriminate].
    injection H as <- <-. rewrite app_nil_r. exact (Hs ls s1 o1 l s2 o2 E (IH _ _ E) E2).
Qed.
Lemma run_trace' log ls s o : client_run log ls s o -> trace log s o.
Proof. intros H. exists ls. exact H. Qed.

Lemma next_after_app a : forall n b, next_after n (a ++ b) = next_after (next_after n a) b.
Proof. induction a as [|l a IH]; intros n b; [reflexivity|]. cbn [app next_after]. apply IH. Qed.
Lemma asked_app a : forall n b, asked n (a ++ b) = asked n a ++ asked (next_after n a) b.
Proof.
  induction a as [|l a IH]; intros n b; [reflexivity|]. cbn [app asked next_after].
  destruct (label_emission l) as [[e []]|]; rewrite IH, ?app_assoc; reflexivity.
Qed.
Lemma builder_next l : forall n e, fst (builder_calls n e l) = ids_after n l.
Proof. induction l as [|[b|f] l IH]; intros n e; cbn [builder_calls ids_after]; [reflexivity|apply IH|apply IH]. Qed.
Lemma emission_next s e n b : emission_builder s e = (n, b) -> n = ids_after (s_next_id s) (em_calls e).
Proof. intros H. rewrite <- (builder_next (em_calls e) (s_next_id s) (event_builder_new (em_event e) (em_ns e))). unfold emission_builder in H. rewrite H. reflexivity. Qed.

Lemma emission_request s e n b fs : emission_builder s e = (n, b) -> event_packets b (em_args e) = Some fs ->
  request_of (s_next_id s) e = [(eb_ns b, match eb_callback b with Some (f, k) => Some (k, f) | None => None end, fs)].
Proof.
  intros Eb Ep. destruct (emission_choice _ _ _ _ Eb) as (C1 & C2 & C3 & C4 & C5).
  rewrite event_packets_build, C1, C2, C3 in Ep. unfold request_of, binary_or_not. rewrite C4, C2. rewrite C4 in Ep.
  destruct (chosen_id (s_next_id s) (em_calls e)) as [k|], (chosen_callback (em_calls e)) as [f|]; cbn [option_map fst snd] in *; rewrite Ep; reflexivity.
Qed.
Lemma emission_no_panic b args : event_packets b args <> None.
Proof. rewrite event_packets_build. apply build_no_panic. Qed.

Definition flight_callback (f : inflight) : list (bytes * N * cb) :=
  if f_registered f then [] else [(f_ns f, f_id f, f_cb f)].

Record flow (ls : list label) (s : state) (o : list obs) : Prop := Flow {
  w_next : s_next_id s = next_after 0 ls;
  w_packets : exists lost, Permutation (map packet_of (asked 0 ls)) (emitted o ++ map flight_packet (s_inflight s) ++ lost) /\
    (lost <> [] -> disturbed o);
  w_callbacks : exists lost, Permutation (flat_map callback_of (asked 0 ls)) (registrations o ++ flat_map flight_callback (s_inflight s) ++ lost) /\
    (lost <> [] -> disturbed o)
}.

Lemma emitted_app' a b : emitted (a ++ b) = emitted a ++ emitted b.
Proof. apply flat_map_app. Qed.
Lemma registrations_app a b : registrations (a ++ b) = registrations a ++ registrations b.
Proof. apply flat_map_app. Qed.
Lemma disturbed_app a b : disturbed a \/ disturbed b -> disturbed (a ++ b).
Proof. unfold disturbed. rewrite !in_app_iff. tauto. Qed.
Lemma requests_emitted n l : emitted (requests n l) = [] /\ registrations (requests n l) = [].
Proof. revert n. induction l as [|[b|f] l IH]; intros n; cbn; auto. Qed.
Lemma read_emitted o' : (forall x, In x o' -> by_read x \/ x = OEnd EndPanic) -> emitted o' = [] /\ registrations o' = [].
Proof.
  induction o' as [|x o' IH]; intros H; [auto|]. destruct (IH (fun y Hy => H y (or_intror Hy))) as [I1 I2].
  change (x :: o') with ([x] ++ o'). rewrite emitted_app', registrations_app.
  rewrite I1, I2, !app_nil_r. destruct (H x (or_introl eq_refl)) as [B| ->]; [|auto].
  destruct x; cbn in *; try destruct o; try contradiction; auto.
Qed.

(** One step adds [da] to what was asked, [de] to what was sent, and so on. *)
Lemma flow_step ls s o l s' o' lost1 lost2 : flow ls s o ->
  s_next_id s' = next_after (s_next_id s) [l] ->
  Permutation (map flight_packet (s_inflight s) ++ map packet_of (asked (s_next_id s) [l]))
              (emitted o' ++ map flight_packet (s_inflight s') ++ lost1) ->
  Permutation (flat_map flight_callback (s_inflight s) ++ flat_map callback_of (asked (s_next_id s) [l]))
              (registrations o' ++ flat_map flight_callback (s_inflight s') ++ lost2) ->
  (lost1 <> [] \/ lost2 <> [] -> disturbed o') -> flow (ls ++ [l]) s' (o ++ o').
Proof.
  intros [W1 (x1 & P1 & Q1) (x2 & P2 & Q2)] Hn H1 H2 Hd. constructor.
  - rewrite next_after_app, <- W1. exact Hn.
  - exists (x1 ++ lost1). split.
    + rewrite asked_app, map_app, <- W1, emitted_app'. rewrite P1.
      transitivity (emitted o ++ x1 ++ (map flight_packet (s_inflight s) ++ map packet_of (asked (s_next_id s) [l]))).
      { rewrite <- !app_assoc. apply Permutation_app_head. rewrite !app_assoc. apply Permutation_app_tail. apply Permutation_app_comm. }
      rewrite H1. rewrite <- !app_assoc. apply Permutation_app_head.
      rewrite !app_assoc. apply Permutation_app_tail. rewrite (Permutation_app_comm x1). rewrite <- !app_assoc. apply Permutation_app_head, Permutation_app_comm.
    + intros N. destruct x1; [destruct lost1; [destruct N; reflexivity|]|].
      * apply disturbed_app. right. apply Hd. left. discriminate.
      * apply disturbed_app. left. apply Q1. discriminate.
  - exists (x2 ++ lost2). split.
    + rewrite asked_app, flat_map_app, <- W1, registrations_app. rewrite P2.
      transitivity (registrations o ++ x2 ++ (flat_map flight_callback (s_inflight s) ++ flat_map callback_of (asked (s_next_id s) [l]))).
      { rewrite <- !app_assoc. apply Permutation_app_head. rewrite !app_assoc. apply Permutation_app_tail. apply Permutation_app_comm. }
      rewrite H2. rewrite <- !app_assoc. apply Permutation_app_head.
      rewrite !app_assoc. apply Permutation_app_tail. rewrite (Permutation_app_comm x2). rewrite <- !app_assoc. apply Permutation_app_head, Permutation_app_comm.
    + intros N. destruct x2; [destruct lost2; [destruct N; reflexivity|]|].
      * apply disturbed_app. right. apply Hd. right. discriminate.
      * apply disturbed_app. left. apply Q2. discriminate.
Qed.
(** Nothing concerned. *)
Lemma flow_quiet ls s o l s' o' : flow ls s o -> label_emission l = None ->
  s_next_id s' = s_next_id s -> s_inflight s' = s_inflight s -> emitted o' = [] -> registrations o' = [] ->
  flow (ls ++ [l]) s' (o ++ o').
Proof.
  intros F Hl Hn Hi He Hr. apply (flow_step ls s o l s' o' [] [] F).
  - cbn [next_after]. rewrite Hl. exact Hn.
  - cbn [asked]. rewrite Hl, He, Hi. cbn. rewrite !app_nil_r. reflexivity.
  - cbn [asked]. rewrite Hl, Hr, Hi. cbn. rewrite !app_nil_r. reflexivity.
  - intros [N|N]; destruct (N eq_refl).
Qed.

Lemma flat_delete (l : list inflight) i f : nth_error l i = Some f ->
  Permutation (flat_map flight_callback l) (flight_callback f ++ flat_map flight_callback (list_delete i l)).
Proof. intros E. rewrite (Permutation_flat_map flight_callback (delete_perm _ _ _ E)). reflexivity. Qed.
Lemma flat_update (l : list inflight) i f g : nth_error l i = Some f ->
  Permutation (flat_map flight_callback (list_update i g l)) (flight_callback g ++ flat_map flight_callback (list_delete i l)).
Proof. intros E. rewrite (Permutation_flat_map flight_callback (update_perm l i f g E)). reflexivity. Qed.
Lemma map_delete (l : list inflight) i f : nth_error l i = Some f ->
  Permutation (map flight_packet l) (flight_packet f :: map flight_packet (list_delete i l)).
Proof. intros E. rewrite (Permutation_map flight_packet (delete_perm _ _ _ E)). reflexivity. Qed.
Lemma map_update (l : list inflight) i f g : nth_error l i = Some f ->
  Permutation (map flight_packet (list_update i g l)) (flight_packet g :: map flight_packet (list_delete i l)).
Proof. intros E. rewrite (Permutation_map flight_packet (update_perm l i f g E)). reflexivity. Qed.

Lemma push_flow og fs s s' o' : push og fs s = (s', o') ->
  s_next_id s' = s_next_id s /\ s_inflight s' = s_inflight s /\ registrations o' = [] /\
  emitted o' = (match og with ByEmit ns id => [(ns, id, fs)] | _ => [] end).
Proof.
  intros H. destruct (push_cases og fs s) as [[_ E]|(_ & _ & E)]; rewrite E in H; injection H as <- <-; destruct og; cbn; auto.
Qed.

Lemma run_flow log ls s o : client_run log ls s o -> flow ls s o.
Proof.
  revert ls s o. apply run_ind.
  - constructor; [reflexivity| |]; exists []; split; try reflexivity; intros N; destruct (N eq_refl).
  - intros ls s o l s' o' Hr F H. pose proof (run_trace' _ _ _ _ Hr) as Ht.
    assert (Q : forall s' o', label_emission l = None -> s_next_id s' = s_next_id s -> s_inflight s' = s_inflight s ->
                emitted o' = [] -> registrations o' = [] -> flow (ls ++ [l]) s' (o ++ o')).
    { intros. apply (flow_quiet ls s); assumption. }
    destruct l; cbn [step] in H.
    (* a read *)
    5:{ destruct (step_read log s o m s' o' Ht) as (B & N & I & _); [exact H|].
        destruct (read_emitted _ B). apply Q; auto. }
    all: try (step_cases H; injection H as <- <-; apply Q; reflexivity).
    + (* LCbEmit *)
      destruct (s_phase s) eqn:Eph; try discriminate. destruct (usable_client s); [|discriminate].
      destruct (emission_builder s e) as [n b] eqn:Eb. pose proof (emission_next _ _ _ _ Eb) as En.
      destruct (event_packets b (em_args e)) as [fs|] eqn:Ep; [|destruct (emission_no_panic _ _ Ep)].
      pose proof (emission_request _ _ _ _ _ Eb Ep) as Er.
      assert (Ea : asked (s_next_id s) [LCbEmit e] = request_of (s_next_id s) e) by (cbn; apply app_nil_r).
      destruct (requests_emitted (s_next_id s) (em_calls e)) as [R1 R2].
      destruct (eb_callback b) as [[f k]|] eqn:Ec.
      * injection H as <- <-. apply (flow_step ls s o _ _ _ [(eb_ns b, Some k, fs)] [(eb_ns b, k, f)] F).
        -- cbn. exact En.
        -- rewrite Ea, Er, emitted_app', R1. cbn. reflexivity.
        -- rewrite Ea, Er, registrations_app, R2. cbn. reflexivity.
        -- intros _. left. apply in_app_iff. cbn. auto.
      * destruct (push (emit_origin b) fs (set_next_id n s)) as [s2 o2] eqn:Epu. injection H as <- <-.
        destruct (push_flow _ _ _ _ _ Epu) as (P1 & P2 & P3 & P4). cbn in P1, P2. unfold emit_origin in P4. rewrite Ec in P4. cbn in P4.
        apply (flow_step ls s o _ _ _ [] [] F).
        -- cbn. rewrite P1. exact En.
        -- rewrite Ea, Er, emitted_app', R1, P2, P4. cbn. rewrite app_nil_r. symmetry. apply Permutation_cons_append.
        -- rewrite Ea, Er, registrations_app, R2, P2, P3. cbn. reflexivity.
        -- intros [N|N]; destruct (N eq_refl).
    + (* LCbAck *)
      destruct (s_phase s) eqn:Eph; try discriminate. destruct (nth_error (s_acks s) i) as [[ns id]|]; [|discriminate].
      destruct (ack_packets _ args) as [fs|]; [|injection H as <- <-; apply Q; reflexivity].
      injection H as H. destruct (push_flow _ _ _ _ _ H) as (P1 & P2 & P3 & P4). apply Q; auto.
    + (* LBuild *)
      destruct (usable_client s); [|discriminate]. destruct (emission_builder s e) as [n b] eqn:Eb. pose proof (emission_next _ _ _ _ Eb) as En.
      destruct (requests_emitted (s_next_id s) (em_calls e)) as [R1 R2].
      injection H as <- <-. apply (flow_step ls s o _ _ _ [] [] F).
      * cbn. exact En.
      * cbn. rewrite R1. reflexivity.
      * cbn. rewrite R2. reflexivity.
      * intros [N|N]; destruct (N eq_refl).
    + (* LEmit *)
      destruct (usable_client s); [|discriminate].
      destruct (emission_builder s e) as [n b] eqn:Eb. pose proof (emission_next _ _ _ _ Eb) as En.
      destruct (event_packets b (em_args e)) as [fs|] eqn:Ep; [|destruct (emission_no_panic _ _ Ep)].
      pose proof (emission_request _ _ _ _ _ Eb Ep) as Er.
      assert (Ea : asked (s_next_id s) [LEmit e] = request_of (s_next_id s) e) by (cbn; apply app_nil_r).
      destruct (requests_emitted (s_next_id s) (em_calls e)) as [R1 R2].
      destruct (eb_callback b) as [[f k]|] eqn:Ec.
      * injection H as <- <-. apply (flow_step ls s o _ _ _ [] [] F).
        -- cbn. exact En.
        -- rewrite Ea, Er, R1. cbn. rewrite map_app, app_nil_r. cbn. reflexivity.
        -- rewrite Ea, Er, R2. cbn. rewrite flat_map_app, app_nil_r. cbn. reflexivity.
        -- intros [N|N]; destruct (N eq_refl).
      * destruct (push (emit_origin b) fs (set_next_id n s)) as [s2 o2] eqn:Epu. injection H as <- <-.
        destruct (push_flow _ _ _ _ _ Epu) as (P1 & P2 & P3 & P4). cbn in P1, P2. unfold emit_origin in P4. rewrite Ec in P4. cbn in P4.
        apply (flow_step ls s o _ _ _ [] [] F).
        -- cbn. rewrite P1. exact En.
        -- rewrite Ea, Er, emitted_app', R1, P2, P4. cbn. rewrite app_nil_r. symmetry. apply Permutation_cons_append.
        -- rewrite Ea, Er, registrations_app, R2, P2, P3. cbn. reflexivity.
        -- intros [N|N]; destruct (N eq_refl).
    + (* LRegister *)
      destruct (nth_error (s_inflight s) i) as [[ns id f [] fs]|] eqn:Ei; try discriminate.
      pose proof (map_delete _ _ _ Ei) as M1. pose proof (flat_delete _ _ _ Ei) as M2.
      destruct (s_poisoned s).
      * injection H as <- <-. apply (flow_step ls s o _ _ _ [(ns, Some id, fs)] [(ns, id, f)] F).
        -- reflexivity.
        -- cbn. rewrite app_nil_r, M1. cbn. apply Permutation_cons_append.
        -- cbn. rewrite app_nil_r, M2. cbn. apply Permutation_cons_append.
        -- intros _. right. cbn. auto.
      * destruct (locked s); [discriminate|]. injection H as <- <-. apply (flow_step ls s o _ _ _ [] [] F).
        -- reflexivity.
        -- cbn. rewrite !app_nil_r, M1. symmetry. rewrite (map_update _ _ _ (Inflight ns id f true fs) Ei). reflexivity.
        -- cbn. rewrite !app_nil_r, M2. symmetry. rewrite (flat_update _ _ _ (Inflight ns id f true fs) Ei). reflexivity.
        -- intros [N|N]; destruct (N eq_refl).
    + (* LPush *)
      destruct (nth_error (s_inflight s) i) as [[ns id f [] fs]|] eqn:Ei; try discriminate.
      pose proof (map_delete _ _ _ Ei) as M1. pose proof (flat_delete _ _ _ Ei) as M2.
      injection H as H. destruct (push_flow _ _ _ _ _ H) as (P1 & P2 & P3 & P4). cbn in P1, P2.
      apply (flow_step ls s o _ _ _ [] [] F).
      * exact P1.
      * cbn [asked label_emission]. cbn. rewrite P2, P4. cbn. rewrite !app_nil_r, M1. reflexivity.
      * cbn. rewrite P2, P3. cbn. rewrite !app_nil_r, M2. reflexivity.
      * intros [N|N]; destruct (N eq_refl).
    + (* LAck *)
      destruct (nth_error (s_acks s) i) as [[ns id]|]; [|discriminate].
      destruct (ack_packets _ args) as [fs|]; [|injection H as <- <-; apply Q; reflexivity].
      injection H as H. destruct (push_flow _ _ _ _ _ H) as (P1 & P2 & P3 & P4). apply Q; auto.
    + (* LRaw *)
      destruct (is_connected s); [|discriminate]. injection H as H. destruct (push_flow _ _ _ _ _ H) as (P1 & P2 & P3 & P4). apply Q; auto.
Qed.

(** Nothing is sent that was not asked for, nothing is sent more often than asked for, and what is
    missing is under way in some thread, unless a callback blocked or a thread panicked. *)
Lemma emissions_sent log ls s o : client_run log ls s o ->
  exists missing, Permutation (map packet_of (asked 0 ls)) (emitted o ++ missing) /\
    (~ disturbed o -> missing = map flight_packet (s_inflight s)).
Proof.
  intros H. destruct (run_flow _ _ _ _ H) as [_ (l & P & Q) _]. exists (map flight_packet (s_inflight s) ++ l). split; [exact P|].
  intros N. destruct l; [apply app_nil_r|]. destruct (N (Q ltac:(discriminate))).
Qed.
Lemma callbacks_registered log ls s o : client_run log ls s o ->
  exists missing, Permutation (flat_map callback_of (asked 0 ls)) (registrations o ++ missing) /\
    (~ disturbed o -> s_inflight s = [] -> missing = []).
Proof.
  intros H. destruct (run_flow _ _ _ _ H) as [_ _ (l & P & Q)]. exists (flat_map flight_callback (s_inflight s) ++ l). split; [exact P|].
  intros N E. rewrite E. cbn. destruct l; [reflexivity|]. destruct (N (Q ltac:(discriminate))).
Qed.

(** ** Progress *)
Lemma write_all log rest : forall s, s_phase s = PSending rest -> exists s',
  execute log s (repeat LWrite (length rest)) = Some (s', map OWrite rest) /\
  (rest <> [] -> s_phase s' = PLoop) /\ s_chan s' = s_chan s /\ s_handle s' = s_handle s.
Proof.
  induction rest as [|m rest IH]; intros s Hs.
  - exists s. cbn. repeat split; auto. intros N; destruct (N eq_refl).
  - destruct rest as [|m' rest].
    + exists (set_phase PLoop s). cbn. rewrite Hs. cbn. auto.
    + destruct (IH (set_phase (PSending (m' :: rest)) s) eq_refl) as (s' & E & P & C & Hh).
      exists s'. split; [|split; [|split]].
      * change (length (m :: m' :: rest)) with (S (length (m' :: rest))). cbn [repeat execute step]. rewrite Hs. cbn [sending]. rewrite E. reflexivity.
      * intros _. apply P. discriminate.
      * rewrite C. reflexivity.
      * rewrite Hh. reflexivity.
Qed.
Lemma drain log q : forall s, s_phase s = PLoop -> s_chan s = q -> exists ls s',
  Forall writing ls /\ execute log s ls = Some (s', map OWrite (concat q)) /\ s_phase s' = PLoop /\ s_chan s' = [].
Proof.
  induction q as [|fs q IH]; intros s Hp Hc.
  - exists [], s. cbn. auto.
  - set (s1 := set_chan q (set_phase (sending fs) s)).
    assert (E1 : step log s LTake = Some (s1, [])) by (cbn; rewrite Hp, Hc; reflexivity).
    destruct fs as [|m fs].
    + destruct (IH s1 eq_refl eq_refl) as (ls & s' & F & E & P & C). exists (LTake :: ls), s'.
      split; [constructor; [left; reflexivity|exact F]|]. split; [|auto].
      cbn [execute]. rewrite E1, E. reflexivity.
    + destruct (write_all log (m :: fs) s1 eq_refl) as (s2 & E2 & P2 & C2 & _).
      destruct (IH s2 (P2 ltac:(discriminate)) C2) as (ls & s' & F & E & P & C).
      exists (LTake :: repeat LWrite (length (m :: fs)) ++ ls), s'. split; [|split; [|auto]].
      * constructor; [left; reflexivity|]. apply Forall_app. split; [|exact F]. apply Forall_forall. intros x Hx. apply repeat_spec in Hx. subst x. right. left. reflexivity.
      * cbn [execute]. rewrite E1, execute_app, E2, E. cbn [concat]. rewrite map_app. reflexivity.
Qed.
Lemma writes_map l : writes (map OWrite l) = l.
Proof. induction l as [|m l IH]; [reflexivity|]. cbn. f_equal. exact IH. Qed.
Lemma queued_map l : queued (map OWrite l) = [].
Proof. induction l; cbn; auto. Qed.
Lemma sending_nonempty log s o rest : trace log s o -> s_phase s = PSending rest -> rest <> [].
Proof.
  intros H. revert rest. revert s o H. apply (trace_ind2 log (fun s o => forall rest, s_phase s = PSending rest -> rest <> [])).
  - discriminate.
  - intros s o m s' o' Ht IH H rest Hr. destruct (read_label _ _ _ _ _ H) as (b & Hb & _ & E).
    pose proof (read_step_obs log b m s) as X. destruct (read_end _ _ _ _ _ _ Ht H) as [[Hn _]|(e & _ & _ & _ & Hp)]; [|congruence].
    unfold read_step in E.
    destruct (pr_open _); destruct (pr_queue _); unfold push in E; destruct (pr_outcome _) as [[| |]|]; step_cases E; injection E as <- <-; cbn in Hr; try discriminate; rewrite Hb in Hr; destruct b; discriminate.
  - intros s o l s' o' Ht IH Hl H rest Hr. other_cases H Hl; cbn in Hr; try discriminate; try (exact (IH _ Hr));
      try (unfold sending in Hr; destruct l; [discriminate|]; injection Hr as <-; discriminate);
      try (match type of Hr with context [sending ?x] => destruct x; [discriminate|] end; injection Hr as <-; discriminate);
      try (match type of Hr with context [if ?x then _ else _] => destruct x; discriminate end);
      try (match goal with E : s_phase s = _, I : forall r, s_phase s = PSending r -> _ |- _ => rewrite E in Hr; try discriminate; eapply I; congruence end); try congruence.
Qed.

(** As long as the task is in its main loop, it can write everything that was queued, in order,
    without any doing of others (but a running callback has to return). *)
Lemma progress_loop log s o : trace log s o -> in_main_loop s ->
  exists ls s' o', Forall writing ls /\ execute log s ls = Some (s', o') /\ writes (o ++ o') = concat (queued o) /\
    queued o' = [] /\ s_phase s' = PLoop.
Proof.
  intros Ht Hm. destruct (trace_sent _ _ _ Ht) as [Hr _].
  assert (K : forall s1 ls1 o1, execute log s ls1 = Some (s1, o1) -> Forall writing ls1 -> s_phase s1 = PLoop -> queued o1 = [] ->
            exists ls s' o', Forall writing ls /\ execute log s ls = Some (s', o') /\ writes (o ++ o') = concat (queued o) /\
              queued o' = [] /\ s_phase s' = PLoop).
  { intros s1 ls1 o1 E1 W1 P1 Q1. destruct (drain log (s_chan s1) s1 P1 eq_refl) as (ls & s' & F & E & P & C).
    exists (ls1 ++ ls), s', (o1 ++ map OWrite (concat (s_chan s1))).
    split; [apply Forall_app; auto|]. split; [rewrite execute_app, E1, E; reflexivity|].
    assert (Ht1 : trace log s1 (o ++ o1)). { destruct Ht as [l0 E0]. exists (l0 ++ ls1). rewrite execute_app, E0, E1. reflexivity. }
    destruct (trace_sent _ _ _ Ht1) as [Hr1 _]. destruct (Hr1 ltac:(unfold task_ended; rewrite P1; reflexivity)) as (q1 & A1 & A2).
    unfold pending in A2. rewrite P1, app_nil_r in A2. rewrite queued_app, Q1, app_nil_r in A1.
    split; [|split].
    - rewrite app_assoc, writes_app, A2, writes_map, A1, concat_app. reflexivity.
    - rewrite queued_app, Q1, queued_map. reflexivity.
    - exact P. }
  unfold in_main_loop in Hm. destruct (s_phase s) as [| | rest | | | [] c | |e] eqn:Ep; try contradiction.
  - apply (K s [] []); auto.
  - destruct (write_all log rest s Ep) as (s1 & E1 & P1 & _).
    apply (K s1 _ _ E1); [|apply P1; apply (sending_nonempty log s o); assumption|apply queued_map].
    apply Forall_forall. intros x Hx. apply repeat_spec in Hx. subst x. right. left. reflexivity.
  - apply (K (set_phase PLoop s) [LCbReturn] []); [cbn; rewrite Ep; reflexivity| |reflexivity|reflexivity].
    constructor; [right; right; reflexivity|constructor].
Qed.
Lemma progress log s o : trace log s o -> in_main_loop s ->
  exists ls s' o', Forall writing ls /\ execute log s ls = Some (s', o') /\ writes (o ++ o') = concat (queued o) /\
    queued o' = [] /\ in_main_loop s'.
Proof.
  intros Ht Hm. destruct (progress_loop log s o Ht Hm) as (ls & s' & o' & A & B & C & D & E). exists ls, s', o'. repeat split; auto. unfold in_main_loop. rewrite E. exact I.
Qed.
