(** Namespaces do not bear on each other (C82). *)
From Verif Require Export SpecIsolate TalkProofs.

(** ** The table, one namespace at a time *)
Definition ops_in (ns : bytes) (h : list cop) : list cop := filter (fun o => bytes_eqb (ns_of o) ns) h.
Lemma table_part h ns : get_or_create_namespace (table_after h) ns = get_or_create_namespace (table_after (ops_in ns h)) ns.
Proof.
  induction h as [|o h IH] using rev_ind; [reflexivity|]. unfold ops_in in *. rewrite filter_app, table_snoc, gcn_do. cbn [filter].
  rewrite (bytes_eqb_sym ns). destruct (bytes_eqb (ns_of o) ns) eqn:E.
  - rewrite table_snoc, gcn_do, (bytes_eqb_sym ns), E, IH. reflexivity.
  - rewrite app_nil_r. exact IH.
Qed.
Lemma event_part h ns ev : get_event (table_after h) ns ev = get_event (table_after (ops_in ns h)) ns ev.
Proof. rewrite !get_event_of. unfold ev_of, fb_of. rewrite (table_part h). reflexivity. Qed.
Lemma ack_part h ns id : snd (get_and_clear_ack (table_after h) ns id) = snd (get_and_clear_ack (table_after (ops_in ns h)) ns id).
Proof. rewrite !take_ack_of. unfold ack_of. rewrite (table_part h). reflexivity. Qed.

(** ** The calls that a packet causes *)
Definition called (p : packet) (r : routcome) : list (packet * call) :=
  match r with CallOf p' c => [(p', c)] | Return _ => [] end.
Definition reply (log : bool) (h : list cop) (p : packet) : list (packet * call) :=
  called p (snd (process_packet log false (table_after h) p)).
Lemma reply_part log h p ns : packet_namespace p = Some ns -> reply log h p = reply log (ops_in ns h) p.
Proof.
  intros E. unfold reply, process_packet. destruct (log && _); [reflexivity|]. rewrite E. destruct (packet_data p) as [[| |id a|id a]|]; try reflexivity.
  - destruct (args_get a 0) as [[g|]|e|]; try reflexivity. destruct (arg_deserialize TyString g) as [[]| |]; try reflexivity.
    rewrite (event_part h). match goal with |- context [get_event ?c ?n ?e] => destruct (get_event c n e); reflexivity end.
  - pose proof (ack_part h ns id) as A. destruct (get_and_clear_ack (table_after h) ns id) as [c f], (get_and_clear_ack (table_after (ops_in ns h)) ns id) as [c' f'].
    cbn [snd] in A. subst f'. destruct f; reflexivity.
Qed.
Lemma shown log p : (log = true -> show_packet p <> None) -> log && match show_packet p with None => true | Some _ => false end = false.
Proof. destruct log, (show_packet p); auto. intros H. destruct (H eq_refl eq_refl). Qed.
Lemma reaction_reply log o p out : packet_reaction log o p out -> calls out = reply log (table_history o) p.
Proof.
  intros H. unfold reply, process_packet.
  destruct H as [L S|ns L V|ns L V|ns id a name f L N D E R|ns id a name L N D E R|e L E|ns id a f L N D A|ns id a L N D A]; try (rewrite (shown _ _ L)).
  - rewrite L, S. reflexivity.
  - unfold view in V. destruct (packet_namespace p); [|discriminate]. destruct (packet_data p) as [[| |id a|id a]|]; try discriminate; try reflexivity;
      destruct (args_view a) as [[]|]; discriminate.
  - unfold view in V. destruct (packet_namespace p); [|discriminate]. destruct (packet_data p) as [[| |id a|id a]|]; try discriminate; try reflexivity;
      destruct (args_view a) as [[]|]; discriminate.
  - destruct E as (id' & a' & g & D' & G & T). rewrite D in D'. injection D' as <- <-. rewrite N, D, G, T. cbn.
    apply routing_exact in R. rewrite R. reflexivity.
  - destruct E as (id' & a' & g & D' & G & T). rewrite D in D'. injection D' as <- <-. rewrite N, D, G, T. cbn.
    destruct (get_event _ ns name) eqn:Q; [|reflexivity]. apply routing_exact in Q. destruct (R _ Q).
  - destruct E as (id' & a' & g & D' & G & T). rewrite D', G, T. destruct (packet_namespace p); reflexivity.
  - rewrite N, D. apply take_exact in A. cbn. destruct (get_and_clear_ack _ ns id) as [c f']. cbn in A. subst. reflexivity.
  - rewrite N, D. cbn. destruct (get_and_clear_ack (table_after (table_history o)) ns id) as [c f'] eqn:Q. destruct f' as [f|]; [|reflexivity].
    destruct (A f). apply take_exact. rewrite Q. reflexivity.
Qed.

(** ** The inputs told again *)
Definition input_ops (i : input) : list cop :=
  match i with
  | Change x => table_history [OTable x]
  | Await ns id f => [CSetAck ns id f]
  | Arrived p => match packet_namespace p, packet_data p with Some ns, Some (DataAck id _) => [CTakeAck ns id] | _, _ => [] end
  end.
Fixpoint replay (log : bool) (h : list cop) (l : list input) : list (packet * call) :=
  match l with
  | [] => []
  | i :: l' => match i with Arrived p => reply log h p | _ => [] end ++ replay log (h ++ input_ops i) l'
  end.
Lemma replay_app log l : forall h l', replay log h (l ++ l') = replay log h l ++ replay log (h ++ flat_map input_ops l) l'.
Proof.
  induction l as [|i l IH]; intros h l'; cbn [app replay flat_map]; [rewrite app_nil_r; reflexivity|].
  rewrite IH, <- !app_assoc. reflexivity.
Qed.
Lemma input_ops_ns i o : In o (input_ops i) -> input_ns i = Some (ns_of o).
Proof.
  destruct i as [x|ns id f|p]; cbn.
  - destruct x; cbn; intros [<-|[]]; reflexivity.
  - intros [<-|[]]. reflexivity.
  - destruct (packet_namespace p) as [ns|]; [|intros []]. destruct (packet_data p) as [[]|]; cbn; intros []; subst; try contradiction; reflexivity.
Qed.
Lemma ops_in_app ns a b : ops_in ns (a ++ b) = ops_in ns a ++ ops_in ns b.
Proof. apply filter_app. Qed.
Lemma ops_in_all ns i : is_ns ns (input_ns i) = true -> ops_in ns (input_ops i) = input_ops i.
Proof.
  intros H. unfold ops_in. assert (A : forall o, In o (input_ops i) -> bytes_eqb (ns_of o) ns = true).
  { intros o Hi. rewrite (input_ops_ns _ _ Hi) in H. exact H. }
  induction (input_ops i) as [|o l IH]; [reflexivity|]. cbn. rewrite (A o (or_introl eq_refl)), IH; [reflexivity|]. intros x Hx. apply A. right. exact Hx.
Qed.
Lemma ops_in_none ns i : is_ns ns (input_ns i) = false -> ops_in ns (input_ops i) = [].
Proof.
  intros H. unfold ops_in. assert (A : forall o, In o (input_ops i) -> bytes_eqb (ns_of o) ns = false).
  { intros o Hi. rewrite (input_ops_ns _ _ Hi) in H. exact H. }
  induction (input_ops i) as [|o l IH]; [reflexivity|]. cbn. rewrite (A o (or_introl eq_refl)), IH; [reflexivity|]. intros x Hx. apply A. right. exact Hx.
Qed.
Definition mine (ns : bytes) (l : list (packet * call)) : list (packet * call) := filter (fun pc => is_ns ns (packet_namespace (fst pc))) l.
Lemma reply_packet log h p : Forall (fun pc => fst pc = p) (reply log h p).
Proof.
  unfold reply, process_packet. destruct (log && _); [constructor|]. destruct (packet_namespace p), (packet_data p) as [[| |id a|id a]|]; cbn; auto.
  - destruct (args_get a 0) as [[g|]|e|]; cbn; auto. destruct (arg_deserialize TyString g) as [[]| |]; cbn; auto. destruct (get_event _ _ _); cbn; auto.
  - destruct (get_and_clear_ack _ _ _) as [c [f|]]; cbn; auto.
Qed.
Lemma mine_reply ns log h p : mine ns (reply log h p) = if is_ns ns (packet_namespace p) then reply log h p else [].
Proof.
  unfold mine. induction (reply_packet log h p) as [|pc l E F IH]; [destruct (is_ns _ _); reflexivity|]. cbn [filter]. rewrite E, IH.
  destruct (is_ns _ _); reflexivity.
Qed.
Lemma replay_part log ns l : forall h, mine ns (replay log h l) = replay log (ops_in ns h) (inputs_in ns l).
Proof.
  induction l as [|i l IH]; intros h; [reflexivity|]. cbn [replay]. unfold mine in *. rewrite filter_app, IH, ops_in_app. cbn [inputs_in filter].
  fold (inputs_in ns l). destruct (is_ns ns (input_ns i)) eqn:E.
  - cbn [replay]. rewrite (ops_in_all _ _ E). f_equal. destruct i as [x|n id f|p]; try reflexivity. fold (mine ns (reply log h p)). rewrite mine_reply.
    cbn [input_ns] in E. rewrite E. apply reply_part. unfold is_ns in E. destruct (packet_namespace p) as [n|]; [|discriminate].
    apply bytes_eqb_eq in E. congruence.
  - rewrite (ops_in_none _ _ E), app_nil_r. destruct i as [x|n id f|p]; try reflexivity. fold (mine ns (reply log h p)). rewrite mine_reply.
    cbn [input_ns] in E. rewrite E. reflexivity.
Qed.

(** ** Stories *)
Lemma completes_unique o m p p' : completes o m p -> completes o m p' -> p = p'.
Proof.
  intros (_ & x & ps & rest & Hx & Ha & Hp) (_ & x' & ps' & rest' & Hx' & Ha' & Hp').
  pose proof (engine_answer_unique _ _ _ _ Hx Hx') as Q. injection Q as <-.
  destruct (assembled_unique _ _ _ Hp _ _ Hp') as [E _]. apply app_inj_tail in E as [_ E]. exact E.
Qed.
Lemma story_unique o l : story o l -> forall l', story o l' -> l = l'.
Proof.
  induction 1 as [|o l m p H IH C|o l m H IH C|o l x H IH|o l ns id f H IH|o l x H IH A]; intros l' H'; inversion H' as [E1|o' l2 m' p' H2 C2 E1 E2|o' l2 m' H2 C2 E1 E2|o' l2 x' H2 E1 E2|o' l2 ns' id' f' H2 E1 E2|o' l2 x' H2 A2 E1 E2];
    subst; try reflexivity; try (destruct o; discriminate); try (destruct o'; discriminate).
  all: apply app_inj_tail in E1 as [Eo Ex]; try discriminate Ex; subst; try (injection Ex; intros; subst); try contradiction.
  all: try (f_equal; [apply IH; assumption|]); try (apply IH; assumption); try reflexivity.
  all: try (destruct (C2 _ C)); try (destruct (C _ C2)).
  all: try (apply f_equal2; [|reflexivity]; f_equal; eapply completes_unique; eauto; fail).
  all: rewrite (IH _ H2); reflexivity.
Qed.
Lemma completes_dec log s o m s' o' : trace log s o -> step log s (LRead m) = Some (s', o') ->
  (exists p, completes o m p) \/ (forall p, ~ completes o m p).
Proof.
  intros Ht H. destruct (reaction_exact _ _ _ _ _ _ Ht H) as (out & -> & Hr).
  destruct Hr as [Hd|e Hd He|x Hd He|Hd He|Hd He|Hd He _|Hd He _|x out Hd He Hm];
    try (right; intros p (Hd' & y & ps & rest & Hy & _); try congruence; pose proof (engine_answer_unique _ _ _ _ He Hy); discriminate).
  destruct Hm as [ps0 p out [rest0 H0] H1 Hp|ps0 rest1 [rest0 H0] H1 Hn|ps0 e H0 E|ps0 H0 E|ps0 t l q e H0 E En Ee].
  1:{ left. exists p. split; [exact Hd|]. exists x, ps0, rest0. auto. }
  all: right; intros p (_ & y & ps & rest & Hy & Ha & Hp); pose proof (engine_answer_unique _ _ _ _ He Hy) as Q; injection Q as <-.
  - destruct (assembled_unique _ _ _ Hp _ _ H1) as [_ E]. congruence.
  - destruct (assembled_cancel _ _ H0 _ _ _ Hp) as (ps2 & _ & H2).
    apply assembled_single in H2 as [(? & ? & -> & E' & _)|(? & ? & -> & E' & _)]; rewrite E in E'; discriminate.
  - destruct (assembled_cancel _ _ H0 _ _ _ Hp) as (ps2 & _ & H2).
    apply assembled_single in H2 as [(? & ? & -> & E' & _)|(? & ? & -> & E' & _)]; rewrite E in E'; discriminate.
  - destruct (assembled_extend _ _ _ _ _ _ H0 Hp) as (ps2 & _ & H2). cbn [app] in H2.
    apply assembled_cons in H2 as [(t' & q' & n & Et & _ & _ & E' & En' & L)|(t' & l1 & l2 & p' & ps3 & Et & El & _ & Hrc & _)].
    + injection Et as <-. rewrite E in E'. injection E' as <-. rewrite En in En'. injection En' as <-. lia.
    + injection Et as <-. destruct (received_length _ _ _ Hrc) as [[E' _]|(q' & E' & En')]; rewrite E in E'; [discriminate|]. injection E' as <-.
      rewrite En in En'. injection En' as En'. apply Nnat.Nat2N.inj in En'.
      assert (l2 = []) as ->. { apply (f_equal (@length _)) in El. rewrite (app_length l1) in El. destruct l2; [reflexivity|cbn [length] in El; lia]. }
      rewrite app_nil_r in El. subst l1. destruct Hrc as [[E' _]|(q' & E' & Ep)]; rewrite E in E'; [discriminate|]. injection E' as <-. rewrite Ee in Ep. discriminate.
Qed.
(** What happens without reading. *)
Definition own (o : list obs) : list input :=
  flat_map (fun x => match x with OTable x => [Change x] | ORegister ns id f => [Await ns id f] | _ => [] end) o.
Lemma story_more o l o' : story o l -> reads o' = [] -> story (o ++ o') (l ++ own o').
Proof.
  revert o l. induction o' as [|x o' IH]; intros o l H R; [rewrite !app_nil_r; exact H|].
  change (x :: o') with ([x] ++ o') in *. rewrite reads_app in R. apply app_eq_nil in R as [R1 R2].
  unfold own in *. rewrite flat_map_app, !app_assoc. apply IH; [|exact R2].
  destruct x; try discriminate R1; cbn; rewrite ?app_nil_r; try (apply st_aside; [exact H|exact I]).
  - apply st_table, H.
  - apply st_register, H.
Qed.
Lemma own_replay log o : forall h, replay log h (own o) = [].
Proof. unfold own. induction o as [|x o IH]; intros h; [reflexivity|]. cbn [flat_map]. rewrite replay_app. destruct x; cbn; rewrite ?IH; reflexivity. Qed.
Lemma own_ops o : (forall x, In x o -> ~ by_read x) -> flat_map input_ops (own o) = table_history o.
Proof.
  induction o as [|x o IH]; intros H; [reflexivity|]. change (x :: o) with ([x] ++ o). unfold own in *. rewrite flat_map_app, flat_map_app, table_history_app.
  rewrite IH by (intros y Hy; apply H; right; exact Hy). f_equal. specialize (H x (or_introl eq_refl)).
  destruct x as [| |e| | | | |t| | | | | | | | |]; try reflexivity.
  - destruct H. exact I.
  - destruct e; try reflexivity. destruct H. exact I.
  - destruct t; reflexivity.
Qed.
Lemma out_own log o m out : reaction log o m out -> own out = [].
Proof. intros H. destruct H as [| | | | | | |x out Hd Ha Hm]; auto. destruct Hm as [ps p out _ _ Hp| | | | ]; auto. destruct Hp; auto. Qed.
Lemma packet_ops log o p out : packet_reaction log o p out -> (forall e, ~ In (OEnd e) out) -> table_history out = input_ops (Arrived p).
Proof.
  intros H N. destruct H as [L S|ns L V|ns L V|ns id a name f L E D Q R|ns id a name L E D Q R|e L E|ns id a f L E D A|ns id a L E D A];
    try (destruct (N _ (or_introl eq_refl)); fail); cbn [input_ops].
  - unfold view in V. destruct (packet_namespace p); [|discriminate]. destruct (packet_data p) as [[| |id a|id a]|]; try discriminate; try reflexivity;
      destruct (args_view a) as [[]|]; discriminate.
  - unfold view in V. destruct (packet_namespace p); [|discriminate]. destruct (packet_data p) as [[| |id a|id a]|]; try discriminate; try reflexivity;
      destruct (args_view a) as [[]|]; discriminate.
  - rewrite E, D. reflexivity.
  - rewrite E, D. reflexivity.
  - rewrite E, D. cbn. rewrite E, D. reflexivity.
Qed.
Lemma no_packet_out log o m out : reaction log o m out -> (forall p, ~ completes o m p) -> calls out = [] /\ table_history out = [].
Proof.
  intros Hr N. pose proof (call_completes _ _ _ _ Hr) as C.
  destruct Hr as [| | | | | | |x out Hd Ha Hm]; auto. destruct Hm as [ps p out [rest H0] H1 Hp| | | | ]; auto.
  destruct (N p). split; [exact Hd|]. exists x, ps, rest. auto.
Qed.
Lemma told log s o : trace log s o ->
  exists l, story o l /\ calls o = replay log [] l /\ ((forall e, ~ In (OEnd e) o) -> table_history o = flat_map input_ops l).
Proof.
  revert s o. apply (trace_ind2 log (fun s o => exists l, story o l /\ calls o = replay log [] l /\ ((forall e, ~ In (OEnd e) o) -> table_history o = flat_map input_ops l))).
  - exists []. repeat split; constructor.
  - intros s o m s' o' Ht (l & Hs & Hc & Hh) H. pose proof (completes_dec _ _ _ _ _ _ Ht H) as D.
    destruct (reaction_exact _ _ _ _ _ _ Ht H) as (out & -> & Hr).
    assert (NE : forall e, ~ In (OEnd e) o).
    { intros e He. assert (Q : task_ended s = true) by (apply (ended_iff _ _ _ Ht); eauto). apply read_label in H as (b & Hp & _). unfold task_ended in Q. rewrite Hp in Q. destruct b; discriminate. }
    specialize (Hh NE). change (ORead m :: out) with ([ORead m] ++ out). rewrite app_assoc.
    pose proof (reaction_reads _ _ _ _ Hr) as R0. pose proof (out_own _ _ _ _ Hr) as O0.
    destruct D as [[p C]|N].
    + exists (l ++ [Arrived p]). pose proof (completes_reaction _ _ _ _ _ C Hr) as Hp. split; [|split].
      * pose proof (story_more _ _ out (st_packet _ _ _ _ Hs C) R0) as X. rewrite O0, app_nil_r in X. exact X.
      * rewrite !calls_app, replay_app, Hc. cbn [calls flat_map app replay]. rewrite !app_nil_r, <- Hh. f_equal. apply (reaction_reply _ _ _ _ Hp).
      * intros Ne. rewrite !table_history_app, flat_map_app, Hh. cbn [flat_map]. rewrite !app_nil_r. f_equal. apply (packet_ops _ _ _ _ Hp).
        intros e He. apply (Ne e). apply in_app_iff. auto.
    + destruct (no_packet_out _ _ _ _ Hr N) as [C1 C2]. exists l. split; [|split].
      * pose proof (story_more _ _ out (st_read _ _ _ Hs N) R0) as X. rewrite O0, app_nil_r in X. exact X.
      * rewrite !calls_app, C1, Hc. cbn. rewrite !app_nil_r. reflexivity.
      * intros _. rewrite !table_history_app, C2, Hh. cbn. rewrite !app_nil_r. reflexivity.
  - intros s o l0 s' o' Ht (l & Hs & Hc & Hh) Hl H.
    assert (N : forall x, In x o' -> ~ by_read x). { intros x Hx Hb. destruct (by_read_label _ _ _ _ _ _ H Hx Hb) as [m ->]. exact (Hl m eq_refl). }
    exists (l ++ own o'). split; [apply story_more; [exact Hs|apply no_reads, N]|]. split.
    + rewrite calls_app, (no_calls _ N), replay_app, own_replay, Hc, app_nil_r. reflexivity.
    + intros Ne. rewrite table_history_app, flat_map_app, (own_ops _ N), Hh; [reflexivity|]. intros e He. apply (Ne e). apply in_app_iff. auto.
Qed.

(** ** The theorems *)
Lemma one_story log s o : trace log s o -> exists l, story o l /\ forall l', story o l' -> l' = l.
Proof. intros H. destruct (told _ _ _ H) as (l & Hs & _). exists l. split; [exact Hs|]. intros l' H'. symmetry. eapply story_unique; eauto. Qed.
Lemma calls_replayed log s o l : trace log s o -> story o l -> calls o = replay log [] l.
Proof. intros H Hs. destruct (told _ _ _ H) as (l' & Hs' & E & _). rewrite (story_unique _ _ Hs _ Hs'). exact E. Qed.
Lemma same_story log s o l s' o' : trace log s o -> trace log s' o' -> story o l -> story o' l -> calls o = calls o'.
Proof. intros H H' Hs Hs'. rewrite (calls_replayed _ _ _ _ H Hs), (calls_replayed _ _ _ _ H' Hs'). reflexivity. Qed.
Lemma isolated log s o l s' o' l' ns : trace log s o -> trace log s' o' -> story o l -> story o' l' ->
  inputs_in ns l = inputs_in ns l' -> calls_in ns o = calls_in ns o'.
Proof.
  intros H H' Hs Hs' E. unfold calls_in. rewrite (calls_replayed _ _ _ _ H Hs), (calls_replayed _ _ _ _ H' Hs').
  fold (mine ns (replay log [] l)). fold (mine ns (replay log [] l')). rewrite !replay_part, E. reflexivity.
Qed.
