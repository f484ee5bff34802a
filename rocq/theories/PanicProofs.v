(** Which steps panic. *)
From Verif Require Export FlowProofs.

Lemma answer_emsg_ok log s o m x s' o' : trace log s o -> step log s (LRead m) = Some (s', o') -> is_data m = true ->
  engine_answer (reads o) m (Ok (PktMessage x)) -> emsg_ok x.
Proof.
  intros Ht H Hd He. pose proof (trace_invariant _ _ _ Ht) as Hi. destruct (read_label _ _ _ _ _ H) as (b & _ & Hw & _).
  assert (Forall emsg_ok (messages (reads o ++ [m]))) as F.
  { apply messages_ok. intros t Hin. apply in_app_iff in Hin as [Hin|[->|[]]]; [exact (v_valid _ _ Hi t Hin)|exact Hw]. }
  rewrite messages_snoc, Hd in F. apply engine_answer_decode in He. rewrite He in F. apply Forall_app in F as [_ F]. inversion F; assumption.
Qed.

Lemma read_panics_exactly log s o m s' o' : trace log s o -> step log s (LRead m) = Some (s', o') ->
  (In (OEnd EndPanic) o' <-> overflow_message o m \/ unshowable_message log o m).
Proof.
  intros Ht H. destruct (reaction_exact _ _ _ _ _ _ Ht H) as (out & -> & Hr). split.
  - intros [X|Hi]; [discriminate|]. inversion Hr; subst; cbn [In] in Hi; try contradiction; try (destruct Hi as [Hi|[]]; discriminate).
    match goal with M : message_reaction _ _ _ _ |- _ => inversion M; subst end; cbn [In] in Hi; try contradiction; try (destruct Hi as [Hi|[]]; discriminate).
    + right. match goal with P : packet_reaction _ _ _ _ |- _ => inversion P; subst end; cbn [In] in Hi; try contradiction; try (destruct Hi as [Hi|[]]; discriminate).
      split; [reflexivity|]. eexists. split; [|eassumption]. split; [assumption|].
      match goal with E : ex _ |- _ => destruct E as [rest Er] end. eauto 8.
    + left. split; [assumption|]. split; [eauto|].
      match goal with E : engine_answer _ _ (Ok (PktMessage ?x)) |- _ => pose proof (answer_emsg_ok _ _ _ _ _ _ _ Ht H ltac:(assumption) E) as Ok; destruct x as [x|d] end.
      * cbn in Ok. destruct (sub_deref_str x) as [t|] eqn:Et; [|destruct (Ok eq_refl)].
        assert (P : deserialize (MText x) = Panic) by assumption. apply (panic_exact x t Et) in P as (w & W1 & W2).
        exists x, t, w. auto.
      * exfalso. cbn in Ok. assert (P : deserialize (MBinary d) = Panic) by assumption. cbn in P. destruct (sub_deref_vec d); [discriminate|congruence].
  - intros [(Hd & (ps & Ha) & x & t & w & He & Et & Hw & Hb)|(-> & p & Hc & Hs)]; right.
    + assert (reaction log o m [OEnd EndPanic]) as R.
      { eapply re_message; eauto. eapply mr_panic; eauto. apply (panic_exact x t Et). eauto. }
      rewrite (reaction_unique _ _ _ _ _ Hr R). left. reflexivity.
    + rewrite (packet_reaction_unique _ _ _ _ _ (completes_reaction _ _ _ _ _ Hc Hr) (pr_unshowable true o p eq_refl Hs)). left. reflexivity.
Qed.

Lemma panics_exactly log s o l s' o' : trace log s o -> step log s l = Some (s', o') ->
  (In (OEnd EndPanic) o' <->
   (exists m, l = LRead m /\ (overflow_message o m \/ unshowable_message log o m)) \/
   (l = LTake /\ In OChannelClosed o /\ s_chan s = []) \/ l = LCbPanic).
Proof.
  intros Ht H. assert (D : (exists m, l = LRead m) \/ forall m, l <> LRead m) by (destruct l; (left; eexists; reflexivity) || (right; discriminate)).
  destruct D as [[m ->]|Hl].
  { rewrite (read_panics_exactly _ _ _ _ _ _ Ht H). split; [eauto|]. intros [(m' & [= <-] & X)|[(X & _)|X]]; [exact X|discriminate|discriminate]. }
  assert (Ep : forall b args, event_packets b args <> None) by apply emission_no_panic.
  assert (Ea : forall b args, ack_packets b args <> None) by (intros b args; rewrite ack_packets_build; apply build_no_panic).
  pose proof (v_closed _ _ (trace_invariant _ _ _ Ht)) as Hc.
  split.
  - intros Hi. right. other_cases H Hl;
      try (exfalso; match goal with E : event_packets _ _ = None |- _ => exact (Ep _ _ E) | E : ack_packets _ _ = None |- _ => exact (Ea _ _ E) end);
      repeat (apply in_app_iff in Hi as [Hi|Hi]); try (apply requests_in in Hi as [? Hi]; discriminate);
      cbn [In] in Hi; repeat (destruct Hi as [Hi|Hi]); try contradiction; try discriminate; auto.
    left. split; [reflexivity|]. split; [apply Hc; first [reflexivity|assumption]|first [reflexivity|assumption]].
  - intros [(m & -> & _)|[(-> & Hcl & He)| ->]]; [destruct (Hl m eq_refl)| |].
    + cbn [step] in H. destruct (s_phase s); try discriminate. rewrite He in H. apply Hc in Hcl. rewrite Hcl in H. injection H as _ <-. left. reflexivity.
    + cbn [step] in H. destruct (s_phase s); try discriminate. injection H as _ <-. left. reflexivity.
Qed.

(** ** Poisoning *)
Lemma poisoned_iff log ls s o : client_run log ls s o -> (s_poisoned s = true <-> In LCbPanic ls).
Proof.
  revert ls s o. apply run_ind; [split; [discriminate|intros []]|].
  intros ls s o l s' o' Hr IH H. rewrite in_app_iff. pose proof (run_trace' _ _ _ _ Hr) as Ht.
  assert (D : (exists m, l = LRead m) \/ forall m, l <> LRead m) by (destruct l; (left; eexists; reflexivity) || (right; discriminate)).
  destruct D as [[m ->]|Hl].
  { destruct (read_label _ _ _ _ _ H) as (b & _ & _ & E). destruct (read_step_fields _ _ _ _ _ _ E) as (_ & _ & Ep & _).
    rewrite Ep, IH. cbn [In]. split; [auto|]. intros [X|[X|[]]]; [exact X|discriminate]. }
  assert (Ep : forall b args, event_packets b args <> None) by apply emission_no_panic.
  assert (Ea : forall b args, ack_packets b args <> None) by (intros b args; rewrite ack_packets_build; apply build_no_panic).
  cbn [In].
  other_cases H Hl; try (exfalso; match goal with E : event_packets _ _ = None |- _ => exact (Ep _ _ E) | E : ack_packets _ _ = None |- _ => exact (Ea _ _ E) end);
    cbn; try (match goal with E : s_poisoned s = _ |- _ => rewrite ?E in * end); try (rewrite IH; split; [auto|intros [X|[X|[]]]; [exact X|discriminate X]]);
    try (rewrite <- IH; split; [auto|intros [X|[X|[]]]; [exact X|discriminate X]]);
    try (split; [intros _; auto|intros _; reflexivity]).
Qed.
(** A user thread panics exactly when it uses the callback table after a callback has panicked. *)
Lemma user_panics_exactly log ls s o l s' o' : client_run log ls s o -> step log s l = Some (s', o') ->
  (In OUserPanic o' <-> In LCbPanic ls /\ ((exists op, l = LTable op) \/ (exists i, l = LRegister i))).
Proof.
  intros Hr H. rewrite <- (poisoned_iff _ _ _ _ Hr). pose proof (run_trace' _ _ _ _ Hr) as Ht.
  assert (D : (exists m, l = LRead m) \/ forall m, l <> LRead m) by (destruct l; (left; eexists; reflexivity) || (right; discriminate)).
  destruct D as [[m ->]|Hl].
  { destruct (step_read _ _ _ _ _ _ Ht H) as (B & _). split.
    - intros Hi. destruct (B _ Hi) as [X|X]; [destruct X|discriminate].
    - intros (_ & [(op & X)|(i & X)]); discriminate. }
  assert (Ep : forall b args, event_packets b args <> None) by apply emission_no_panic.
  assert (Ea : forall b args, ack_packets b args <> None) by (intros b args; rewrite ack_packets_build; apply build_no_panic).
  split.
  - intros Hi. other_cases H Hl; try (exfalso; match goal with E : event_packets _ _ = None |- _ => exact (Ep _ _ E) | E : ack_packets _ _ = None |- _ => exact (Ea _ _ E) end);
      repeat (apply in_app_iff in Hi as [Hi|Hi]); try (apply requests_in in Hi as [? Hi]; discriminate);
      cbn [In] in Hi; repeat (destruct Hi as [Hi|Hi]); try contradiction; try discriminate; eauto.
  - intros (Hp & [(op & ->)|(i & ->)]); cbn [step] in H.
    + destruct (usable_client s); [|discriminate]. rewrite Hp in H. injection H as _ <-. left. reflexivity.
    + destruct (nth_error (s_inflight s) i) as [[ns id f [] fs]|]; try discriminate. rewrite Hp in H. injection H as _ <-. left. reflexivity.
Qed.
Lemma user_panics_trace log s o : trace log s o -> In OUserPanic o -> In (OEnd EndPanic) o.
Proof.
  intros [ls H] Hi.
  assert (K : forall ls s o, client_run log ls s o -> (In OUserPanic o -> In LCbPanic ls) /\ (In LCbPanic ls -> In (OEnd EndPanic) o)).
  { apply run_ind; [split; intros []|]. intros l0 s0 o0 l s' o' Hr [I1 I2] Hs. split.
    - intros X. apply in_app_iff in X as [X|X]; apply in_app_iff; left; [auto|]. apply (user_panics_exactly _ _ _ _ _ _ _ Hr Hs) in X. tauto.
    - intros X. apply in_app_iff in X as [X|[X|[]]]; apply in_app_iff; [left; auto|]. right. subst l.
      apply (panics_exactly _ _ _ _ _ _ (run_trace' _ _ _ _ Hr) Hs). auto. }
  destruct (K _ _ _ H). auto.
Qed.

(** ** Order of events without ack *)
Lemma emitted_in_order log ls s o : client_run log ls s o ->
  filter no_ack (map packet_of (asked 0 ls)) = filter no_ack (emitted o).
Proof.
  intros H. enough (s_next_id s = next_after 0 ls /\ filter no_ack (map packet_of (asked 0 ls)) = filter no_ack (emitted o)) by tauto.
  revert ls s o H. apply run_ind; [auto|].
  intros ls s o l s' o' Hr [I1 I2] H. pose proof (run_trace' _ _ _ _ Hr) as Ht.
  pose proof (w_next _ _ _ (run_flow log (ls ++ [l]) s' (o ++ o') ltac:(unfold client_run in *; rewrite execute_app, Hr; cbn [execute]; rewrite H, app_nil_r; reflexivity))) as I1'.
  split; [exact I1'|]. rewrite asked_app, <- I1, map_app, filter_app, emitted_app', filter_app, I2. f_equal.
  assert (D : (exists m, l = LRead m) \/ forall m, l <> LRead m) by (destruct l; (left; eexists; reflexivity) || (right; discriminate)).
  destruct D as [[m ->]|Hl].
  { destruct (step_read _ _ _ _ _ _ Ht H) as (B & _). destruct (read_emitted _ B) as [-> _]. reflexivity. }
  assert (Pu : forall og fs s1 s2 o2, push og fs s1 = (s2, o2) -> emitted o2 = match og with ByEmit ns id => [(ns, id, fs)] | _ => [] end)
    by (intros og fs s1 s2 o2 E; apply (push_flow _ _ _ _ _ E)).
  destruct l; cbn [step] in H; try (destruct (Hl _ eq_refl); fail);
    try (step_cases H; injection H as <- <-; reflexivity).
  - destruct (s_phase s) eqn:Eph; try discriminate. destruct (usable_client s); [|discriminate].
    destruct (emission_builder s e) as [n b] eqn:Eb.
    destruct (event_packets b (em_args e)) as [fs|] eqn:Ep; [|destruct (emission_no_panic _ _ Ep)].
    cbn [asked label_emission]. rewrite app_nil_r, (emission_request _ _ _ _ _ Eb Ep).
    destruct (requests_emitted (s_next_id s) (em_calls e)) as [R1 _].
    destruct (eb_callback b) as [[f k]|] eqn:Ec.
    + injection H as <- <-. rewrite emitted_app', R1. reflexivity.
    + destruct (push (emit_origin b) fs (set_next_id n s)) as [s2 o2] eqn:Epu. injection H as <- <-.
      rewrite emitted_app', R1, (Pu _ _ _ _ _ Epu). unfold emit_origin. rewrite Ec. reflexivity.
  - destruct (s_phase s) eqn:Eph; try discriminate. destruct (nth_error (s_acks s) i) as [[ns id]|]; [|discriminate].
    destruct (ack_packets _ args) as [fs|]; [|injection H as <- <-; reflexivity]. injection H as H. rewrite (Pu _ _ _ _ _ H). reflexivity.
  - destruct (usable_client s); [|discriminate]. destruct (emission_builder s e) as [n b] eqn:Eb. injection H as <- <-.
    destruct (requests_emitted (s_next_id s) (em_calls e)) as [R1 _]. rewrite R1. reflexivity.
  - destruct (usable_client s); [|discriminate].
    destruct (emission_builder s e) as [n b] eqn:Eb.
    destruct (event_packets b (em_args e)) as [fs|] eqn:Ep; [|destruct (emission_no_panic _ _ Ep)].
    cbn [asked label_emission]. rewrite app_nil_r, (emission_request _ _ _ _ _ Eb Ep).
    destruct (requests_emitted (s_next_id s) (em_calls e)) as [R1 _].
    destruct (eb_callback b) as [[f k]|] eqn:Ec.
    + injection H as <- <-. rewrite R1. reflexivity.
    + destruct (push (emit_origin b) fs (set_next_id n s)) as [s2 o2] eqn:Epu. injection H as <- <-.
      rewrite emitted_app', R1, (Pu _ _ _ _ _ Epu). unfold emit_origin. rewrite Ec. reflexivity.
  - destruct (nth_error (s_inflight s) i) as [[ns id f [] fs]|] eqn:Ei; try discriminate.
    injection H as H. rewrite (Pu _ _ _ _ _ H). reflexivity.
  - destruct (nth_error (s_acks s) i) as [[ns id]|]; [|discriminate].
    destruct (ack_packets _ args) as [fs|]; [|injection H as <- <-; reflexivity]. injection H as H. rewrite (Pu _ _ _ _ _ H). reflexivity.
  - destruct (is_connected s); [|discriminate]. injection H as H. rewrite (Pu _ _ _ _ _ H). reflexivity.
Qed.

(** ** Witnesses *)
Definition overflow_run : list label := opened_run ++ [LRead (WText (bs "4218446744073709551616[""x""]"))].
Lemma C48_refuted_lemma : ~ C48_full.
Proof.
  intros F. destruct (execute false init opened_run) as [[s o]|] eqn:E; [|vm_compute in E; discriminate].
  pose proof (run_trace _ _ _ _ E) as Ht. set (m := WText (bs "4218446744073709551616[""x""]")).
  destruct (step false s (LRead m)) as [[s' o']|] eqn:Es.
  - apply (F false s o m s' o' Ht Es). vm_compute in E. injection E as <- <-. vm_compute in Es. injection Es as _ <-. right. left. reflexivity.
  - vm_compute in E. injection E as <- <-. vm_compute in Es. discriminate.
Qed.
Definition poison_run : list label := opened_run ++
  [LTable (SetEvent (bs "/") (bs "news") 7%N); LRead (WText (bs "42[""news"",1]")); LCbPanic; LTable (ClearFallback (bs "/"))].
Lemma C49_refuted_lemma : ~ C49_full.
Proof.
  intros F. destruct (execute false init poison_run) as [[s o]|] eqn:E; [|vm_compute in E; discriminate].
  apply (F false s o (run_trace _ _ _ _ E)). vm_compute in E. injection E as _ <-. cbn [In]. tauto.
Qed.
(** A run with emissions of all kinds. *)
Definition flow_run : list label := opened_run ++
  [LEmit (Emission (bs "/") (bs "a") [] [SInt 1]); LBuild (Emission (bs "/") (bs "b") [SetCallback 3%N] []);
   LEmit (Emission (bs "/c") (bs "c") [SetCallback 4%N; SetBinary true] [SBytes (bs "z")]);
   LEmit (Emission (bs "/") (bs "d") [] []); LRegister 0; LPush 0].
