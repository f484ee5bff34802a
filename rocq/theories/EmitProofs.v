(** Emission and acks in traces (C29, C30, C31). *)
From Coq Require Export Permutation.
From Verif Require Export ClientProofs.

Lemma read_out log o m out x : reaction log o m out -> In x out -> by_read x \/ x = OEnd EndPanic.
Proof.
  intros [| | | | | | |y out' _ _ H] Hi; try destruct H as [ps p out2 _ _ H| | | |]; try destruct H;
    repeat (destruct Hi as [<-|Hi]); try destruct Hi; cbn; auto.
Qed.
(** Steps other than reads, and what a read leaves alone. *)
Lemma step_read log s o m s' o' : trace log s o -> step log s (LRead m) = Some (s', o') ->
  (forall x, In x o' -> by_read x \/ x = OEnd EndPanic) /\
  s_next_id s' = s_next_id s /\ s_inflight s' = s_inflight s /\ s_handle s' = s_handle s /\ s_signal s' = s_signal s /\
  s_conn s' = s_conn s /\ s_client s' = s_client s.
Proof.
  intros Ht H. destruct (reaction_exact _ _ _ _ _ _ Ht H) as (out & E & Hr). split.
  - rewrite E. intros x [<-|Hi]; [left; exact I|]. eapply read_out; eauto.
  - apply read_label in H as (b & _ & _ & H). apply read_step_fields in H as (_ & _ & _ & _ & H1 & H2 & H3 & H4 & H5 & H6 & _). auto 10.
Qed.
Lemma trace_ind2 log (P : state -> list obs -> Prop) : P init [] ->
  (forall s o m s' o', trace log s o -> P s o -> step log s (LRead m) = Some (s', o') -> P s' (o ++ o')) ->
  (forall s o l s' o', trace log s o -> P s o -> (forall m, l <> LRead m) -> step log s l = Some (s', o') -> P s' (o ++ o')) ->
  forall s o, trace log s o -> P s o.
Proof.
  intros H0 H1 H2. apply (trace_ind log P); [exact H0|]. intros s o l s' o' Ht IH H.
  assert (Hl : (exists m, l = LRead m) \/ forall m, l <> LRead m) by (destruct l; eauto; right; discriminate).
  destruct Hl as [[m ->]|Hl]; eauto.
Qed.
Ltac other_cases H Hl :=
  unfold step, push, emit_origin in H;
  match type of H with context [match ?l with LHandshake _ => _ | _ => _ end] => destruct l; try (destruct (Hl _ eq_refl); fail) end;
  step_cases H; injection H as <- <-.

Lemma in_delete {A} (x : A) l : forall i, In x (list_delete i l) -> In x l.
Proof. induction l as [|y l IH]; intros [|i]; cbn; auto. intros [H|H]; eauto. Qed.
Lemma in_update {A} (x y : A) l : forall i, In x (list_update i y l) -> x = y \/ In x l.
Proof. induction l as [|z l IH]; intros [|i]; cbn; auto. intros [H|H]; auto. intros [H|H]; auto. destruct (IH _ H); auto. Qed.
Lemma delete_perm {A} l : forall i (x : A), nth_error l i = Some x -> Permutation l (x :: list_delete i l).
Proof.
  induction l as [|y l IH]; intros [|i] x; cbn; try discriminate.
  - intros [= ->]. reflexivity.
  - intros H. rewrite (IH i x H) at 1. apply perm_swap.
Qed.
Lemma update_perm {A} l : forall i (x y : A), nth_error l i = Some x -> Permutation (list_update i y l) (y :: list_delete i l).
Proof.
  induction l as [|z l IH]; intros [|i] x y; cbn; try discriminate; [reflexivity|].
  intros H. rewrite (IH i x y H). apply perm_swap.
Qed.

(** ** A callback is registered before its event is queued *)
Record registered (s : state) (o : list obs) : Prop := Registered {
  g_inflight : forall ns id f fs, In (Inflight ns id f true fs) (s_inflight s) -> In (ORegister ns id f) o;
  g_queued : forall ns id fs, In (OQueued (ByEmit ns (Some id)) fs) o -> exists f, In (ORegister ns id f) o
}.
Lemma requests_in n l x : In x (requests n l) -> exists id, x = ORequest id.
Proof. apply requests_form. Qed.
Ltac in_cases Hi :=
  repeat (apply in_app_iff in Hi as [Hi|Hi]);
  try (apply requests_in in Hi as [? Hi]; try discriminate Hi);
  cbn [In] in Hi; repeat (destruct Hi as [Hi|Hi]); try contradiction; try discriminate Hi.
Lemma trace_registered log s o : trace log s o -> registered s o.
Proof.
  revert s o. apply (trace_ind2 log registered).
  - constructor; cbn; intros; contradiction.
  - intros s o m s' o' Ht [H1 H2] H. destruct (step_read _ _ _ _ _ _ Ht H) as (Hx & _ & Hf & _). constructor.
    + rewrite Hf. intros. apply in_app_iff. eauto.
    + intros ns id fs Hi. apply in_app_iff in Hi as [Hi|Hi].
      * destruct (H2 _ _ _ Hi) as [f Hf']. exists f. apply in_app_iff. auto.
      * apply Hx in Hi as [[]|[=]].
  - intros s o l s' o' _ [H1 H2] Hl H.
    assert (K : (forall ns id f fs, In (Inflight ns id f true fs) (s_inflight s') -> In (Inflight ns id f true fs) (s_inflight s) \/ In (ORegister ns id f) o') /\
                (forall ns id fs, In (OQueued (ByEmit ns (Some id)) fs) o' -> exists f, In (Inflight ns id f true fs) (s_inflight s))).
    { clear H1 H2. other_cases H Hl; cbn.
      all: split; [intros ? ? ? ? Hi|intros ? ? ? Hi].
      all: try (left; exact Hi).
      all: try (in_cases Hi; fail).
      all: try (left; apply in_delete in Hi; exact Hi).
      - in_cases Hi; subst; auto.
      - apply in_update in Hi as [Hi|Hi]; [injection Hi as -> -> -> ->; auto|auto].
      - in_cases Hi. injection Hi as <- <- <-. eexists. eapply nth_error_In. eassumption. }
    destruct K as [K1 K2]. constructor.
    + intros. apply in_app_iff. apply K1 in H0 as [?|?]; eauto.
    + intros ns id fs Hi. apply in_app_iff in Hi as [Hi|Hi].
      * destruct (H2 _ _ _ Hi) as [f Hf]. exists f. apply in_app_iff. auto.
      * destruct (K2 _ _ _ Hi) as [f Hf]. exists f. apply in_app_iff. eauto.
Qed.

Lemma about_dec ns id y : about_ack ns id y \/ ~ about_ack ns id y.
Proof.
  destruct (table_history [y]) as [|x [|]] eqn:E.
  - right. assert (H : Forall (fun z => ~ about_ack ns id z) [y]) by (apply history_about; rewrite E; constructor). inversion H; assumption.
  - destruct (history_one y x E) as [_ H]. destruct x as [ns' ev f|ns' ev|ns' f|ns'|ns' id' f|ns' id'];
      try (right; rewrite <- H; intros [[g Hg]|Hg]; discriminate);
      destruct (bytes_eqb ns ns' && (id =? id')%N) eqn:Ek.
    + apply same_id in Ek as [-> ->]. left. apply H. left. eauto.
    + right. rewrite <- H. intros [[g Hg]|Hg]; [|discriminate]. injection Hg as -> -> ->. rewrite bytes_eqb_refl, N.eqb_refl in Ek. discriminate.
    + apply same_id in Ek as [-> ->]. left. apply H. right. reflexivity.
    + right. rewrite <- H. intros [[g Hg]|Hg]; [discriminate|]. injection Hg as -> ->. rewrite bytes_eqb_refl, N.eqb_refl in Ek. discriminate.
  - destruct (history_split [y] [x] c l E) as (o1 & z & o2 & E1 & E2 & E3 & _). destruct o1 as [|a o1]; [discriminate|].
    destruct o1; discriminate.
Qed.
Lemma last_register ns id o : (exists f, In (ORegister ns id f) o) ->
  (forall y, In y o -> about_ack ns id y -> exists f, y = ORegister ns id f) ->
  exists f, awaiting (table_history o) ns id f.
Proof.
  intros [f0 H0] Hall.
  assert (K : exists f o1 o2, o = o1 ++ ORegister ns id f :: o2 /\ Forall (fun y => ~ about_ack ns id y) o2).
  { induction o as [|y o IH] using rev_ind; [destruct H0|].
    destruct (about_dec ns id y) as [Hy|Hy].
    - destruct (Hall y) as [f ->]; [apply in_app_iff; cbn; auto|exact Hy|]. exists f, o, []. auto.
    - apply in_app_iff in H0 as [H0|[H0|[]]].
      + destruct IH as (f & o1 & o2 & -> & Hf); [exact H0|intros; apply Hall; auto; apply in_app_iff; auto|].
        exists f, o1, (o2 ++ [y]). split; [rewrite <- app_assoc; reflexivity|]. apply Forall_app. auto.
      + subst y. destruct Hy. left. eauto. }
  destruct K as (f & o1 & o2 & E & Hf). exists f. apply awaiting_trace. eauto.
Qed.

(** An ack read after [o1], in a trace whose server is honest so far, is awaited. *)
Lemma honest_awaited log s o m ns id : trace log s o -> brings_ack o m ns id -> honest (o ++ [ORead m]) ->
  exists f, awaiting (table_history o) ns id f /\ In (ORegister ns id f) o.
Proof.
  intros Ht Hb Hh. destruct (Hh o m [] ns id eq_refl Hb) as [[fs Hq] Hno].
  assert (Ha : exists f, awaiting (table_history o) ns id f).
  { apply last_register; [eapply g_queued; [eapply trace_registered; eauto|exact Hq]|].
    intros y Hy [Hf|[(p & a & f & b & -> & Hn & Hd)|(p & a & -> & Hn & Hd)]]; [exact Hf|exfalso|exfalso].
    - apply in_split in Hy as (a1 & a2 & ->). destruct (by_read_follows _ _ _ _ _ Ht I) as (a0 & m' & -> & Hr); [discriminate|].
      destruct (call_completes _ _ _ _ Hr p) as [Hc _]; [left; eexists; left; reflexivity|].
      rewrite <- !app_assoc in Hno. apply (Hno a0 m' _ eq_refl). exists p, a. auto.
    - apply in_split in Hy as (a1 & a2 & ->). destruct (by_read_follows _ _ _ _ _ Ht I) as (a0 & m' & -> & Hr); [discriminate|].
      destruct (call_completes _ _ _ _ Hr p) as [Hc _]; [right; left; reflexivity|].
      rewrite <- !app_assoc in Hno. apply (Hno a0 m' _ eq_refl). exists p, a. auto. }
  destruct Ha as [f Ha]. exists f. split; [exact Ha|]. apply awaiting_trace in Ha as (o1 & o2 & -> & _). apply in_app_iff. cbn. auto.
Qed.
Lemma honest_prefix o o' : honest (o ++ o') -> honest o.
Proof. intros H o1 m o2 ns id -> Hb. apply (H o1 m (o2 ++ o') ns id); [rewrite <- app_assoc; reflexivity|exact Hb]. Qed.
Lemma honest_never_unexpected log s o : trace log s o -> honest o -> forall p, ~ In (OEnd (EndErr (RUnexpectedAck p))) o.
Proof.
  intros Ht Hh p Hi. apply in_split in Hi as (o1 & o2 & ->).
  destruct (by_read_follows _ _ _ _ _ Ht I) as (o0 & m & -> & Hr); [discriminate|].
  destruct (call_completes _ _ _ _ Hr p) as [Hc Hp]; [right; left; reflexivity|].
  assert (Ht0 : exists s0, trace log s0 o0).
  { rewrite <- app_assoc in Ht. apply read_in_trace in Ht as (s0 & _ & _ & _ & H & _). eauto. }
  destruct Ht0 as [s0 Ht0]. inversion Hp as [| | | | | | |ns id a Hl Hn Hd Hno]; subst.
  destruct (honest_awaited log s0 o0 m ns id Ht0) as (f & Hf & _).
  - exists p, a. auto.
  - eapply honest_prefix. exact Hh.
  - exact (Hno f Hf).
Qed.
Lemma honest_delivered log s o m s' o' p ns id a : trace log s o -> step log s (LRead m) = Some (s', o') ->
  completes o m p -> packet_namespace p = Some ns -> packet_data p = Some (DataAck id a) ->
  (log = true -> show_packet p <> None) -> honest (o ++ o') ->
  exists f, In (ORegister ns id f) o /\ o' = [ORead m; OCall p (AckCall f a)].
Proof.
  intros Ht Hs Hc Hn Hd Hl Hh. destruct (ack_reaction _ _ _ _ _ _ _ _ _ _ Ht Hs Hc Hn Hd Hl) as [H1 _].
  destruct (honest_awaited log s o m ns id Ht) as (f & Hf & Hr).
  - exists p, a. auto.
  - destruct (reaction_exact _ _ _ _ _ _ Ht Hs) as (out & -> & _). apply (honest_prefix _ out). rewrite <- app_assoc. exact Hh.
  - exists f. auto.
Qed.

(** ** Ack ids (C29) *)
Fixpoint callbacks_in (l : list bcall) : nat :=
  match l with [] => 0 | SetBinary _ :: l' => callbacks_in l' | SetCallback _ :: l' => S (callbacks_in l') end.
Definition nth_id (k : nat) : N := (N.of_nat k mod 2 ^ 64)%N.
Lemma next_nth_id k : next_u64 (nth_id k) = nth_id (S k).
Proof. unfold next_u64, nth_id. rewrite N.add_mod_idemp_l by discriminate. f_equal. lia. Qed.
Lemma requested_app a b : requested (a ++ b) = requested a ++ requested b.
Proof. apply flat_map_app. Qed.
Lemma builder_calls_spec l : forall k e n e', builder_calls (nth_id k) e l = (n, e') ->
  n = nth_id (k + callbacks_in l) /\
  requested (requests (nth_id k) l) = map nth_id (seq k (callbacks_in l)) /\
  eb_event e' = eb_event e /\ eb_ns e' = eb_ns e /\
  (eb_callback e' = eb_callback e /\ callbacks_in l = 0 \/
   exists f, 0 < callbacks_in l /\ eb_callback e' = Some (f, nth_id (k + callbacks_in l - 1))).
Proof.
  induction l as [|[b|f] l IH]; intros k e n e'; cbn [builder_calls callbacks_in requests].
  - intros [= <- <-]. rewrite Nat.add_0_r. auto 10.
  - intros H. apply IH in H. exact H.
  - unfold event_callback. rewrite next_nth_id. intros H. apply IH in H as (-> & H2 & H3 & H4 & H5).
    cbn [eb_event eb_ns eb_callback] in *. split; [f_equal; lia|]. split.
    + cbn [requested flat_map app seq map]. fold requested. f_equal. exact H2.
    + split; [exact H3|]. split; [exact H4|]. right. destruct H5 as [[H5 H6]|(g & H5 & H6)].
      * exists f. split; [lia|]. rewrite H5, H6. do 2 f_equal. f_equal. lia.
      * exists g. split; [lia|]. rewrite H6. do 2 f_equal. f_equal. lia.
Qed.
Lemma requested_none o' : (forall x, In x o' -> by_read x \/ x = OEnd EndPanic) -> requested o' = [].
Proof.
  induction o' as [|x o' IH]; intros H; [reflexivity|]. cbn [requested flat_map]. change (flat_map _ o') with (requested o').
  rewrite IH by (intros; apply H; cbn; auto). destruct (H x) as [Hx|Hx]; [cbn; auto| |subst x; reflexivity].
  destruct x; try reflexivity. destruct Hx.
Qed.
Record numbered (s : state) (o : list obs) : Prop := Numbered {
  n_next : s_next_id s = nth_id (length (requested o));
  n_requested : requested o = map nth_id (seq 0 (length (requested o)))
}.
Lemma numbered_step s o s' o' k : numbered s o -> s_next_id s' = nth_id (length (requested o) + k) ->
  requested o' = map nth_id (seq (length (requested o)) k) -> numbered s' (o ++ o').
Proof.
  intros [H1 H2] H3 H4. constructor; rewrite requested_app, app_length, H4, map_length, seq_length.
  - exact H3.
  - rewrite seq_app, map_app, <- H2. reflexivity.
Qed.
Lemma trace_numbered log s o : trace log s o -> numbered s o.
Proof.
  revert s o. apply (trace_ind2 log numbered).
  - constructor; reflexivity.
  - intros s o m s' o' Ht Hn H. destruct (step_read _ _ _ _ _ _ Ht H) as (Hx & Hi & _). apply (numbered_step s o s' o' 0 Hn).
    + rewrite Hi, Nat.add_0_r. apply (n_next _ _ Hn).
    + apply requested_none. exact Hx.
  - intros s o l s' o' _ Hn Hl H.
    assert (K : exists k, s_next_id s' = nth_id (length (requested o) + k) /\ requested o' = map nth_id (seq (length (requested o)) k)).
    { pose proof (n_next _ _ Hn) as Hid. clear Hn.
      assert (B : forall e n b, emission_builder s e = (n, b) -> n = nth_id (length (requested o) + callbacks_in (em_calls e)) /\
                 requested (requests (s_next_id s) (em_calls e)) = map nth_id (seq (length (requested o)) (callbacks_in (em_calls e)))).
      { intros e n b He. unfold emission_builder in He. rewrite Hid in *. apply builder_calls_spec in He as (? & ? & _). auto. }
      other_cases H Hl; cbn.
      all: try (exists 0; rewrite Nat.add_0_r; split; [exact Hid|reflexivity]).
      all: match goal with E : emission_builder _ ?e = _ |- _ => exists (callbacks_in (em_calls e)); destruct (B _ _ _ E) as [B1 B2] end.
      all: split; [exact B1|rewrite ?requested_app, B2; cbn; rewrite ?app_nil_r; reflexivity]. }
    destruct K as (k & K1 & K2). eapply numbered_step; eauto.
Qed.

Lemma emitted_app a b : emitted_ids (a ++ b) = emitted_ids a ++ emitted_ids b.
Proof. apply flat_map_app. Qed.
Lemma registered_app a b : registered_ids (a ++ b) = registered_ids a ++ registered_ids b.
Proof. apply flat_map_app. Qed.
Lemma emitted_none o' : (forall x, In x o' -> by_read x \/ x = OEnd EndPanic) -> emitted_ids o' = [] /\ registered_ids o' = [].
Proof.
  induction o' as [|x o' IH]; intros H; [split; reflexivity|].
  destruct IH as [I1 I2]; [intros; apply H; cbn; auto|].
  change (x :: o') with ([x] ++ o'). rewrite emitted_app, registered_app, I1, I2, !app_nil_r. destruct (H x) as [Hx|Hx]; [cbn; auto| |subst x; split; reflexivity].
  destruct x as [| | | | |oo ?|oo ?| | | | | | | | | |]; try (split; reflexivity); try destruct Hx; destruct oo; try (split; reflexivity); destruct Hx.
Qed.
Lemma requests_none n l : emitted_ids (requests n l) = [] /\ registered_ids (requests n l) = [].
Proof. revert n. induction l as [|[b|f] l IH]; intros n; cbn [requests]; auto. apply IH. Qed.
(** Ids still to be sent, and still to be registered. *)
Definition pending (s : state) : list N := map f_id (s_inflight s).
Definition unregistered (s : state) : list N :=
  flat_map (fun f => if f_registered f then [] else [f_id f]) (s_inflight s).
Definition distinct (l : list N) (o : list obs) : Prop := incl l (requested o) /\ NoDup l.
Lemma NoDup_app_l {A} (a b : list A) : NoDup (a ++ b) -> NoDup a.
Proof. induction a as [|x a IH]; cbn; intros H; constructor; inversion H; subst; auto. intros Hi. apply H2. apply in_app_iff. auto. Qed.
Lemma distinct_mono l o o' : distinct l o -> distinct l (o ++ o').
Proof. intros [H1 H2]. split; [|exact H2]. rewrite requested_app. intros x Hx. apply in_app_iff. auto. Qed.
Lemma distinct_perm l l' o : Permutation l l' -> distinct l o -> distinct l' o.
Proof. intros P [H1 H2]. split; [intros x Hx; apply H1; apply (Permutation_in x (Permutation_sym P) Hx)|eapply Permutation_NoDup; eauto]. Qed.
Lemma distinct_less x l o : distinct (x :: l) o -> distinct l o.
Proof. intros [H1 H2]. split; [intros y Hy; apply H1; cbn; auto|inversion H2; auto]. Qed.
Lemma distinct_new x l o o' : NoDup (requested (o ++ o')) -> In x (requested o') -> distinct l o -> distinct (x :: l) (o ++ o').
Proof.
  intros Hn Hx [H1 H2]. rewrite requested_app in Hn. split.
  - rewrite requested_app. intros y [<-|Hy]; apply in_app_iff; auto.
  - constructor; [|exact H2]. intros Hl. apply H1 in Hl. clear -Hn Hx Hl.
    apply in_split in Hl as (a & b & E). rewrite E in Hn. rewrite <- app_assoc in Hn. apply NoDup_remove_2 in Hn. apply Hn. rewrite !in_app_iff. auto.
Qed.
Lemma unregistered_delete l i f : nth_error l i = Some f ->
  Permutation (flat_map (fun f => if f_registered f then [] else [f_id f]) l)
    ((if f_registered f then [] else [f_id f]) ++ flat_map (fun f => if f_registered f then [] else [f_id f]) (list_delete i l)).
Proof. intros H. rewrite (delete_perm l i f H) at 1. reflexivity. Qed.
Lemma ids_distinct log s o : trace log s o -> NoDup (requested o) ->
  distinct (emitted_ids o ++ pending s) o /\ distinct (registered_ids o ++ unregistered s) o.
Proof.
  revert s o. apply (trace_ind2 log (fun s o => NoDup (requested o) ->
     distinct (emitted_ids o ++ pending s) o /\ distinct (registered_ids o ++ unregistered s) o)).
  - intros _. split; (split; [intros x []|constructor]).
  - intros s o m s' o' Ht IH H Hn. destruct (step_read _ _ _ _ _ _ Ht H) as (Hx & _ & Hf & _).
    rewrite requested_app, (requested_none _ Hx), app_nil_r in Hn. destruct (IH Hn) as [I1 I2].
    destruct (emitted_none _ Hx) as [E1 E2]. unfold pending, unregistered. rewrite emitted_app, registered_app, E1, E2, Hf, !app_nil_r.
    split; apply distinct_mono; assumption.
  - intros s o l s' o' Ht IH Hl H Hn.
    assert (Hn0 : NoDup (requested o)) by (rewrite requested_app in Hn; eapply NoDup_app_l; exact Hn).
    destruct (IH Hn0) as [I1 I2]. clear IH Hn0.
    assert (Hnew : forall e n b f id, emission_builder s e = (n, b) -> eb_callback b = Some (f, id) -> In id (requested (requests (s_next_id s) (em_calls e)))).
    { intros e n b f id He Hc. unfold emission_builder in He. rewrite (n_next _ _ (trace_numbered _ _ _ Ht)) in *.
      apply builder_calls_spec in He as (_ & Hr & _ & _ & [[H1 _]|(g & H1 & H2)]).
      - rewrite H1 in Hc. discriminate.
      - rewrite Hr. rewrite H2 in Hc. injection Hc as <- <-. apply in_map. apply in_seq. lia. }
    assert (K : (pending s' = pending s /\ emitted_ids o' = [] /\ unregistered s' = unregistered s /\ registered_ids o' = []) \/
       (exists id, In id (requested o') /\ pending s' = pending s ++ [id] /\ emitted_ids o' = [] /\
          unregistered s' = unregistered s ++ [id] /\ registered_ids o' = []) \/
       (exists id, Permutation (pending s) (id :: pending s') /\ Permutation (unregistered s) (id :: unregistered s') /\
          emitted_ids o' = [] /\ registered_ids o' = []) \/
       (exists id, Permutation (pending s) (pending s') /\ Permutation (unregistered s) (id :: unregistered s') /\ emitted_ids o' = [] /\ registered_ids o' = [id]) \/
       (exists id, Permutation (pending s) (id :: pending s') /\ Permutation (unregistered s) (unregistered s') /\
          emitted_ids o' = [id] /\ registered_ids o' = [])).
    { clear I1 I2 Hn Ht. unfold pending, unregistered. other_cases H Hl; cbn.
      all: try (left; rewrite ?emitted_app, ?registered_app, ?(proj1 (requests_none _ _)), ?(proj2 (requests_none _ _)); auto; fail).
      - match goal with E : eb_callback _ = Some (_, ?n) |- _ => right; left; exists n end.
        rewrite map_app, flat_map_app. rewrite (proj1 (requests_none _ _)), (proj2 (requests_none _ _)). cbn. split; [eapply Hnew; eassumption|]. auto.
      - match goal with E : nth_error _ _ = Some (Inflight _ ?n _ _ _) |- _ => right; right; left; exists n; split;
          [exact (Permutation_map System.f_id (delete_perm _ _ _ E))|split; [exact (unregistered_delete _ _ _ E)|auto]] end.
      - match goal with E : nth_error _ _ = Some (Inflight _ ?n _ _ _) |- _ => right; right; right; left; exists n; split;
          [rewrite (update_perm _ _ _ _ E); exact (Permutation_map System.f_id (delete_perm _ _ _ E))|split; [|auto]];
          rewrite (update_perm _ _ _ _ E); exact (unregistered_delete _ _ _ E) end.
      - match goal with E : nth_error _ _ = Some (Inflight _ ?n _ _ _) |- _ => right; right; right; right; exists n; split;
          [exact (Permutation_map System.f_id (delete_perm _ _ _ E))|split; [exact (unregistered_delete _ _ _ E)|auto]] end.
      - match goal with E : nth_error _ _ = Some (Inflight _ ?n _ _ _) |- _ => right; right; right; right; exists n; split;
          [exact (Permutation_map System.f_id (delete_perm _ _ _ E))|split; [exact (unregistered_delete _ _ _ E)|auto]] end. }
    destruct K as [(K1 & K2 & K3 & K4)|[(id & K0 & K1 & K2 & K3 & K4)|[(id & K1 & K3 & K2 & K4)|[(id & K1 & K3 & K2 & K4)|(id & K1 & K3 & K2 & K4)]]]];
      rewrite emitted_app, registered_app, K2, K4, ?app_nil_r.
    + rewrite K1, K3. split; apply distinct_mono; assumption.
    + rewrite K1, K3. split; rewrite app_assoc.
      * eapply distinct_perm; [apply Permutation_cons_append|]. apply distinct_new; auto.
      * eapply distinct_perm; [apply Permutation_cons_append|]. apply distinct_new; auto.
    + split; apply distinct_mono; apply (distinct_less id).
      * eapply distinct_perm; [|exact I1]. rewrite K1. symmetry. apply Permutation_middle.
      * eapply distinct_perm; [|exact I2]. rewrite K3. symmetry. apply Permutation_middle.
    + split; apply distinct_mono.
      * eapply distinct_perm; [|exact I1]. rewrite K1. reflexivity.
      * eapply distinct_perm; [|exact I2]. rewrite K3, <- app_assoc. reflexivity.
    + split; apply distinct_mono.
      * eapply distinct_perm; [|exact I1]. rewrite K1, <- app_assoc. reflexivity.
      * eapply distinct_perm; [|exact I2]. rewrite K3. reflexivity.
Qed.

Lemma requested_NoDup log s o : trace log s o -> (N.of_nat (length (requested o)) <= 2 ^ 64)%N -> NoDup (requested o).
Proof.
  intros Ht Hl. rewrite (n_requested _ _ (trace_numbered _ _ _ Ht)). remember (length (requested o)) as k eqn:Ek. clear Ek.
  assert (G : forall n a, (N.of_nat (a + n) <= 2 ^ 64)%N -> NoDup (map nth_id (seq a n))).
  { induction n as [|n IH]; intros a Ha; [constructor|]. cbn [seq map]. constructor; [|apply IH; rewrite Nat.add_succ_comm; exact Ha].
    intros Hi. apply in_map_iff in Hi as (b & E & Hb). apply in_seq in Hb. unfold nth_id in E.
    rewrite !N.mod_small in E by lia. lia. }
  apply (G k 0). exact Hl.
Qed.
Lemma ids_unique log s o : trace log s o -> (N.of_nat (length (requested o)) <= 2 ^ 64)%N ->
  NoDup (requested o) /\ NoDup (emitted_ids o) /\ NoDup (registered_ids o) /\
  incl (emitted_ids o) (requested o) /\ incl (registered_ids o) (requested o).
Proof.
  intros Ht Hl. pose proof (requested_NoDup _ _ _ Ht Hl) as Hn. destruct (ids_distinct _ _ _ Ht Hn) as [[H1 H2] [H3 H4]].
  split; [exact Hn|]. split; [eapply NoDup_app_l; exact H2|]. split; [eapply NoDup_app_l; exact H4|].
  split; intros x Hx; [apply H1|apply H3]; apply in_app_iff; auto.
Qed.
Lemma requested_order log s o : trace log s o -> requested o = map (fun k => (N.of_nat k mod 2 ^ 64)%N) (seq 0 (length (requested o))).
Proof. intros Ht. exact (n_requested _ _ (trace_numbered _ _ _ Ht)). Qed.

(** ** What is sent (C29, C31) *)
Lemma event_args_fold args : forall a, ea_builder (fold_left (fun a v => fst (event_arg_ref a v)) args a) = serialize_args (ea_builder a) args.
Proof.
  induction args as [|v args IH]; intros a; [reflexivity|]. cbn [fold_left]. rewrite IH. unfold event_arg_ref.
  unfold serialize_args. cbn [fold_left]. destruct (serialize_arg (ea_builder a) v) as [b r]. reflexivity.
Qed.
Lemma event_packets_build e args : event_packets e args =
  build (OfEvent (eb_event e) (option_map snd (eb_callback e))) (eb_ns e) (eb_binary e) args.
Proof.
  unfold event_packets, event_args, build, fresh. destruct (new_event _ _ _ _) as [b|]; [|reflexivity].
  rewrite event_args_fold. reflexivity.
Qed.
Lemma ack_packets_build a args : ack_packets a args = build (OfAck (ab_id a)) (ab_ns a) (ab_binary a) args.
Proof. reflexivity. Qed.

Record sources (s : state) (o : list obs) : Prop := Sources {
  c_inflight : forall ns id f r fs, In (Inflight ns id f r fs) (s_inflight s) ->
    exists ev bin args, build (OfEvent ev (Some id)) ns bin args = Some fs;
  c_emit : forall ns id fs, In (OQueued (ByEmit ns id) fs) o \/ In (OLost (ByEmit ns id) fs) o ->
    exists ev bin args, build (OfEvent ev id) ns bin args = Some fs;
  c_ack : forall ns id fs, In (OQueued (ByAck ns id) fs) o \/ In (OLost (ByAck ns id) fs) o ->
    exists bin args, build (OfAck id) ns bin args = Some fs;
  c_builders : Permutation (builders_given o) (builders_used o ++ s_acks s)
}.
Lemma given_app a b : builders_given (a ++ b) = builders_given a ++ builders_given b.
Proof. apply flat_map_app. Qed.
Lemma used_app a b : builders_used (a ++ b) = builders_used a ++ builders_used b.
Proof. apply flat_map_app. Qed.
Lemma requests_builders n l : builders_given (requests n l) = [] /\ builders_used (requests n l) = [].
Proof. revert n. induction l as [|[b|f] l IH]; intros n; cbn [requests]; auto. apply IH. Qed.
Lemma read_acks log b m s s' o' : read_step log b m s = (s', o') ->
  s_acks s' = s_acks s ++ builders_given o' /\ builders_used o' = [].
Proof.
  unfold read_step. cbv zeta. destruct (process_websocket_packet _ _ _ _ _) as [r c op q out]. cbn [pr_receiver pr_callbacks pr_open pr_queue pr_outcome].
  destruct op; destruct q; unfold push; cbn [s_chan_closed task_ended s_phase set_open set_table set_receiver];
    try (destruct (s_chan_closed s || _)); destruct out as [[u|e|]|p [f a [k|]|f a]]; intros [= <- <-]; cbn; rewrite ?app_nil_r; auto.
Qed.
Lemma trace_sources log s o : trace log s o -> sources s o.
Proof.
  revert s o. apply (trace_ind2 log sources).
  - constructor; cbn; try (intros; tauto); constructor.
  - intros s o m s' o' Ht [H1 H2 H3 H4] H. destruct (step_read _ _ _ _ _ _ Ht H) as (Hx & _ & Hf & _).
    apply read_label in H as (b & _ & _ & H). apply read_acks in H as [Ha Hu]. constructor.
    + rewrite Hf. exact H1.
    + intros ns id fs Hi. apply (H2 ns id fs). rewrite !in_app_iff in Hi. destruct Hi as [[Hi|Hi]|[Hi|Hi]]; auto; apply Hx in Hi as [[]|[=]].
    + intros ns id fs Hi. apply (H3 ns id fs). rewrite !in_app_iff in Hi. destruct Hi as [[Hi|Hi]|[Hi|Hi]]; auto; apply Hx in Hi as [[]|[=]].
    + rewrite given_app, used_app, Hu, Ha, app_nil_r, app_assoc. apply Permutation_app_tail. exact H4.
  - intros s o l s' o' _ [H1 H2 H3 H4] Hl H.
    assert (K : (forall ns id f r fs, In (Inflight ns id f r fs) (s_inflight s') -> exists ev bin args, build (OfEvent ev (Some id)) ns bin args = Some fs) /\
      (forall ns id fs, In (OQueued (ByEmit ns id) fs) o' \/ In (OLost (ByEmit ns id) fs) o' -> exists ev bin args, build (OfEvent ev id) ns bin args = Some fs) /\
      (forall ns id fs, In (OQueued (ByAck ns id) fs) o' \/ In (OLost (ByAck ns id) fs) o' -> exists bin args, build (OfAck id) ns bin args = Some fs) /\
      builders_given o' = [] /\ Permutation (s_acks s) (builders_used o' ++ s_acks s')).
    { clear H2 H3 H4.
      assert (B : forall e b fs x, event_packets b (em_args e) = Some fs -> eb_callback b = x -> exists ev bin args, build (OfEvent ev (option_map snd x)) (eb_ns b) bin args = Some fs).
      { intros e b fs x E <-. rewrite event_packets_build in E. eauto. }
      assert (A : forall ns id bin args fs, ack_packets (ack_binary bin (ack_builder_new ns id)) args = Some fs -> exists bin args, build (OfAck id) ns bin args = Some fs).
      { intros ns id bin args fs E. rewrite ack_packets_build in E. exists bin, args. exact E. }
      assert (NA : forall a args, ack_packets a args <> None) by (intros a args; rewrite ack_packets_build; apply build_no_panic).
      other_cases H Hl; cbn; rewrite ?given_app, ?used_app, ?(proj1 (requests_builders _ _)), ?(proj2 (requests_builders _ _)); cbn.
      all: try (match goal with E : ack_packets ?a ?x = None |- _ => destruct (NA a x E) end).
      all: split; [|split; [|split; [|split]]]; try reflexivity; try exact H1.
      all: try (intros ? ? ? [Hi|Hi]; in_cases Hi; injection Hi as <- <- <-;
        first [eapply A; eassumption | eapply B with (x := None); eassumption | eapply H1, nth_error_In; eassumption]).
      all: try (intros ? ? ? ? ? Hi; apply in_delete in Hi; eapply H1; exact Hi).
      all: try (apply delete_perm; assumption).
      - intros ? ? ? ? ? Hi. in_cases Hi; [eapply H1; eassumption|]. injection Hi as <- <- <- <- <-. exact (B _ _ _ _ E1 E2).
      - intros ? ? ? ? ? Hi. apply in_update in Hi as [Hi|Hi]; [|eapply H1; exact Hi]. injection Hi as -> -> -> -> ->. eapply H1, nth_error_In; eassumption. }
    destruct K as (K1 & K2 & K3 & K4 & K5). constructor.
    + exact K1.
    + intros ns id fs Hi. rewrite !in_app_iff in Hi. destruct Hi as [[Hi|Hi]|[Hi|Hi]]; eauto.
    + intros ns id fs Hi. rewrite !in_app_iff in Hi. destruct Hi as [[Hi|Hi]|[Hi|Hi]]; eauto.
    + rewrite given_app, used_app, K4, app_nil_r, H4, <- app_assoc. apply Permutation_app_head. exact K5.
Qed.
