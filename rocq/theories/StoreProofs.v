(** What the server can make a client keep (C71). *)
From Verif Require Export SpecStore HeldProofs PeerReadProofs.
From Coq Require Import Lia.

Lemma kept_exactly log s o : trace log s o -> task_ended s = false ->
  exists ps rest, assembled (messages (reads o)) ps rest /\ buffered s = tl rest /\ (nothing_kept s <-> rest = []).
Proof.
  intros Ht He. destruct (v_progress _ _ (trace_invariant _ _ _ Ht) He) as (ps & rest & Ha & Hp).
  exists ps, rest. split; [exact Ha|]. unfold buffered, nothing_kept. destruct (r_progress (s_receiver s)) as [[q l]|]; cbn in Hp.
  - destruct Hp as (m & n & -> & _). split; [reflexivity|]. split; discriminate.
  - subst rest. split; [reflexivity|]. split; reflexivity.
Qed.

(** ** One message *)
Lemma hget_present {V} ns n (c : hmap bytes V) : hget bytes_eqb ns c = Some n -> In (ns, n) c.
Proof.
  induction c as [|[k v] c IH]; cbn [hget]; [discriminate|]. destruct (bytes_eqb ns k) eqn:E; [|intros H; right; auto].
  apply bytes_eqb_eq in E. subst k. intros [= ->]. left. reflexivity.
Qed.
Lemma take_ack_held c ns id f : held (fst (get_and_clear_ack c ns id)) f -> held c f.
Proof.
  unfold get_and_clear_ack. destruct (hget bytes_eqb ns c) as [n|] eqn:E; cbn [fst]; [|auto].
  intros (ns' & n' & Hin & D). destruct Hin as [Hin|Hin].
  - injection Hin as <- <-. exists ns, n. split; [apply hget_present; exact E|]. cbn [n_fallback n_events n_acks] in D.
    destruct D as [D|[D|(i & D)]]; [auto|auto|]. right. right. exists i. apply (hremove_keys N.eqb N.eqb_eq) in D as [D _]. exact D.
  - apply (hremove_keys bytes_eqb bytes_eqb_eq) in Hin as [Hin _]. exists ns', n'. auto.
Qed.
Lemma hremove_other {V} ns x (c : hmap bytes V) : In x (map fst c) -> x = ns \/ In x (map fst (hremove bytes_eqb ns c)).
Proof.
  induction c as [|[k v] c IH]; cbn [map fst hremove In]; [auto|]. destruct (bytes_eqb ns k) eqn:E.
  - apply bytes_eqb_eq in E. subst k. intros [<-|H]; auto.
  - cbn [map fst In]. intros [<-|H]; [auto|]. destruct (IH H); auto.
Qed.
Lemma take_ack_namespaces c ns id x : In x (map fst (fst (get_and_clear_ack c ns id))) <-> In x (map fst c).
Proof.
  unfold get_and_clear_ack. destruct (hget bytes_eqb ns c) as [n|] eqn:E; cbn [fst]; [|tauto].
  apply hget_present in E. cbn [hinsert map fst In]. split.
  - intros [<-|H]; [exact (in_map fst _ _ E)|]. apply in_map_iff in H as (y & <- & H). apply (hremove_keys bytes_eqb bytes_eqb_eq) in H as [H _].
    apply in_map. exact H.
  - intros H. destruct (hremove_other ns x c H); auto.
Qed.
Lemma hremove_absent {V} ns (c : hmap bytes V) : ~ In ns (map fst c) -> hremove bytes_eqb ns c = c.
Proof.
  induction c as [|[k v] c IH]; cbn [map fst hremove In]; [auto|]. intros H. destruct (bytes_eqb ns k) eqn:E.
  - apply bytes_eqb_eq in E. subst k. destruct H. auto.
  - f_equal. apply IH. auto.
Qed.
Lemma hremove_length {V} ns (c : hmap bytes V) : NoDup (map fst c) -> In ns (map fst c) -> S (length (hremove bytes_eqb ns c)) = length c.
Proof.
  induction c as [|[k v] c IH]; cbn [map fst hremove In length]; [intros _ []|]. intros N H. inversion N as [|? ? N1 N2]; subst.
  destruct (bytes_eqb ns k) eqn:E.
  - apply bytes_eqb_eq in E. subst k. rewrite (hremove_absent _ _ N1). reflexivity.
  - cbn [length]. f_equal. apply IH; [exact N2|]. destruct H as [->|H]; [|exact H]. rewrite (proj2 (bytes_eqb_eq ns ns) eq_refl) in E. discriminate.
Qed.
Lemma take_ack_size c ns id : clean c -> length (fst (get_and_clear_ack c ns id)) = length c.
Proof.
  intros [C _]. unfold get_and_clear_ack. destruct (hget bytes_eqb ns c) as [n|] eqn:E; cbn [fst]; [|reflexivity].
  cbn [hinsert length]. apply hremove_length; [exact C|]. apply hget_present in E. exact (in_map fst _ _ E).
Qed.

Definition only_less (c c' : callbacks) : Prop :=
  (forall f, held c' f -> held c f) /\ (forall ns, In ns (map fst c') <-> In ns (map fst c)) /\ (clean c -> length c' = length c).
Lemma less_same c : only_less c c.
Proof. repeat split; auto. Qed.
Lemma process_packet_less log po c p : only_less c (fst (process_packet log po c p)).
Proof.
  unfold process_packet. destruct (log && _); [apply less_same|]. destruct (packet_namespace p); [|apply less_same].
  destruct (packet_data p) as [d|]; [|apply less_same]. destruct d as [| |i a|i a]; try apply less_same.
  - destruct (args_get a 0) as [[g|]|e|]; try apply less_same. destruct (arg_deserialize TyString g) as [v|e|]; try apply less_same.
    destruct v; try apply less_same. destruct po; [apply less_same|]. destruct (get_event _ _ _); apply less_same.
  - destruct po; [apply less_same|]. destruct (get_and_clear_ack c b i) as [c' [f|]] eqn:E; cbn [fst];
      (repeat split; [intros g; pose proof (take_ack_held c b i g) as H; rewrite E in H; exact H
        |apply (proj1 (take_ack_namespaces c b i ns)) || idtac|idtac|intros C; pose proof (take_ack_size c b i C) as H; rewrite E in H; exact H]);
      pose proof (take_ack_namespaces c b i ns) as H; rewrite E in H; cbn [fst] in H; apply H.
Qed.
Lemma process_packet_call log po c p p' k : snd (process_packet log po c p) = CallOf p' k -> p' = p.
Proof.
  unfold process_packet. destruct (log && _); [discriminate|]. destruct (packet_namespace p); [|discriminate].
  destruct (packet_data p) as [d|]; [|discriminate]. destruct d as [| |i a|i a]; try discriminate.
  - destruct (args_get a 0) as [[g|]|e|]; try discriminate. destruct (arg_deserialize TyString g) as [v|e|]; try discriminate.
    destruct v; try discriminate. destruct po; [discriminate|]. destruct (get_event _ _ _); [|discriminate]. intros [= -> _]. reflexivity.
  - destruct po; [discriminate|]. destruct (get_and_clear_ack c b i) as [c' [f|]]; [|discriminate]. intros [= -> _]. reflexivity.
Qed.
Definition grows (a b : option (parse * list emsg)) : Prop :=
  b = None \/ b = a \/ (exists q, a = None /\ b = Some (q, [])) \/ (exists q l x, a = Some (q, l) /\ b = Some (q, l ++ [x])).
Definition queue_of (r : processed) : Prop :=
  pr_queue r = None \/ (pr_queue r = Some [WText (bs "3")] /\ pr_open r = None /\ pr_outcome r = Return (Ok tt)).
Definition quiet_call (r : processed) : Prop :=
  forall p c, pr_outcome r = CallOf p c -> pr_open r = None /\ pr_queue r = None.
Lemma process_keeps log po r c m : let x := process_websocket_packet log po r c m in
  only_less c (pr_callbacks x) /\ grows (r_progress r) (r_progress (pr_receiver x)) /\ queue_of x /\ quiet_call x.
Proof.
  cbv zeta. unfold process_websocket_packet, process_message, queue_of, quiet_call.
  assert (K : forall r' (op : option open_t) (q : option (list wsmsg)) out, r_progress r' = r_progress r ->
    (q = None \/ (q = Some [WText (bs "3")] /\ op = None /\ out = Return (Ok tt))) -> (forall p k, out = CallOf p k -> op = None /\ q = None) ->
    only_less c c /\ grows (r_progress r) (r_progress r') /\
    (q = None \/ (q = Some [WText (bs "3")] /\ op = None /\ out = Return (Ok tt))) /\ (forall p k, out = CallOf p k -> op = None /\ q = None)).
  { intros r' op q out E1 E2 E3. split; [apply less_same|]. split; [right; left; exact E1|]. auto. }
  destruct m as [t|t|t|t|t]; cbn [pr_callbacks pr_receiver pr_queue pr_open pr_outcome]; try (apply K; [reflexivity|auto|discriminate]).
  all: destruct (decode (r_decoder r) _) as [d [[o| | | |e]|e|]]; cbn [pr_callbacks pr_receiver pr_queue pr_open pr_outcome];
    try (apply K; [reflexivity|auto|discriminate]).
  all: unfold process_emsg; destruct (r_progress r) as [[q l]|] eqn:Ep.
  all: try (destruct (progress_ready q (l ++ [e])) as [[|]|]; cbn [pr_callbacks pr_receiver pr_queue pr_open pr_outcome r_progress]).
  all: try (destruct (deserialize_partial q (l ++ [e])) as [p|e'|]; cbn [pr_callbacks pr_receiver pr_queue pr_open pr_outcome r_progress]).
  all: try (destruct (deserialize e) as [[p|q]|e'|]; cbn [pr_callbacks pr_receiver pr_queue pr_open pr_outcome r_progress]).
  all: try (split; [apply less_same|]; split; [unfold grows; eauto 10|]; split; [auto|discriminate]).
  all: pose proof (process_packet_less log po c p) as L; destruct (process_packet log po c p) as [c' out] eqn:E;
    cbn [pr_callbacks pr_receiver pr_queue pr_open pr_outcome r_progress fst] in *; split; [exact L|]; split; [left; reflexivity|]; auto.
Qed.

Lemma trace_clean log s o : trace log s o -> clean (s_table s).
Proof. intros Ht. rewrite (v_table _ _ (trace_invariant _ _ _ Ht)). apply clean_after. Qed.
Lemma one_message log s o m s' o' : trace log s o -> step log s (LRead m) = Some (s', o') -> leaves_behind s s' m o'.
Proof.
  intros Ht H. cbn [step] in H. destruct (negb (ws_valid m)); [discriminate|].
  assert (X : exists b, read_step log b m s = (s', o') /\ task_ended s = false).
  { unfold task_ended. destruct (s_phase s); try discriminate; injection H; eauto. }
  clear H. destruct X as (b & H & He). pose proof (read_step_fields _ _ _ _ _ _ H) as F. cbv zeta in F. decompose [and] F. clear F.
  pose proof (process_keeps log (s_poisoned s) (s_receiver s) (s_table s) m) as P. cbv zeta in P.
  pose proof (trace_clean _ _ _ Ht) as C.
  destruct P as ((L1 & L2 & L3) & G & Q & K).
  assert (Et : s_table s' = pr_callbacks (process_websocket_packet log (s_poisoned s) (s_receiver s) (s_table s) m)) by assumption.
  constructor.
  - rewrite Et. exact L1.
  - rewrite Et. exact L2.
  - rewrite Et. exact (L3 C).
  - assumption.
  - assumption.
  - clear - H Q K He. unfold read_step in H. destruct (process_websocket_packet _ _ _ _ _) as [r' c' op q out].
    unfold queue_of, quiet_call in *. cbn [pr_receiver pr_callbacks pr_open pr_queue pr_outcome] in *.
    destruct Q as [->|(-> & -> & ->)].
    + destruct op; destruct out as [[u|e|]|p k]; injection H as <- <-; cbn; auto.
    + unfold push in H. cbn [s_chan_closed set_table set_receiver] in H. change (task_ended (set_table c' (set_receiver r' s))) with (task_ended s) in H.
      rewrite He, orb_false_r in H. destruct (s_chan_closed s); injection H as <- <-; cbn; auto.
  - clear - H Q K He. unfold read_step in H. destruct (process_websocket_packet _ _ _ _ _) as [r' c' op q out].
    unfold queue_of, quiet_call in *. cbn [pr_receiver pr_callbacks pr_open pr_queue pr_outcome] in *.
    destruct Q as [->|(-> & -> & ->)].
    + destruct out as [[u|e|]|p k].
      1-3: destruct op; injection H as <- <-; cbn; auto.
      destruct (K _ _ eq_refl) as [-> _]. injection H as <- <-. cbn [s_acks set_acks]. change (s_acks (set_table _ _)) with (s_acks s).
      destruct k as [f a [x|]|f a]; cbn [given app]; rewrite ?app_nil_r; auto. right. exists p, f, a, x. split; reflexivity.
    + unfold push in H. cbn [s_chan_closed set_table set_receiver] in H. change (task_ended (set_table c' (set_receiver r' s))) with (task_ended s) in H.
      rewrite He, orb_false_r in H. destruct (s_chan_closed s); injection H as <- <-; cbn; auto.
  - unfold buffered. replace (s_receiver s') with (pr_receiver (process_websocket_packet log (s_poisoned s) (s_receiver s) (s_table s) m)) by congruence.
    destruct G as [->|[->|[(q & -> & ->)|(q & l & x & -> & ->)]]]; eauto.
Qed.

(** ** The attachments kept are bounded only by the numbers a packet can announce *)
Definition announcing (n : N) : bytes := wire_text (Wire PKBinaryEvent (Some n) None None None).
Lemma announcing_text n : announcing n = "5"%byte :: dec n ++ bs "-".
Proof. unfold announcing, wire_text. cbn. rewrite app_nil_r. reflexivity. Qed.
Lemma announcing_accepted n : (0 < n <= u64_max)%N -> accepts (announcing n) KEvent (bs "/") None [] n.
Proof.
  intros [Hn Hm]. exists (Wire PKBinaryEvent (Some n) None None None). split; [|repeat split; auto].
  - split; [reflexivity|]. split; [split; discriminate|]. intros w' E [W _]. cbn. unfold ns_length. destruct (w_ns w') as [x|] eqn:Ex; [|cbn; lia].
    exfalso. destruct (W _ eq_refl) as [(c & r & ->) _]. assert (X : In "/"%byte (announcing n)).
    { rewrite E. unfold wire_text. rewrite Ex. cbn [opt_text]. right. apply in_app_iff. right. cbn. left. reflexivity. }
    rewrite announcing_text in X. destruct X as [X|X]; [discriminate|]. apply in_app_iff in X as [X|[X|[]]]; [|discriminate].
    pose proof (dec_digits n) as D. rewrite forallb_forall in D. specialize (D _ X). discriminate.
  - intros (k & [= <-] & X). lia.
  - intros (k & [=] & _).
  - intros ->. lia.
Qed.

Definition keeping (s : state) (q : parse) (l : list emsg) : Prop :=
  s_phase s = PLoop /\ r_decoder (s_receiver s) = DActive /\ r_progress (s_receiver s) = Some (q, l).
Definition more : wsmsg := WBinary [x04].
Lemma keep_one log s q l n : keeping s q l -> partial_attachments q = Some n -> (N.of_nat (length l) + 1 < n)%N ->
  exists s' o' x, step log s (LRead more) = Some (s', o') /\ keeping s' q (l ++ [x]).
Proof.
  intros (Hp & Hd & Hq) Hn Hl. unfold more. cbn [step ws_valid negb]. rewrite Hp. unfold read_step. cbn [process_websocket_packet]. unfold process_message.
  rewrite Hd. cbn [decode decode_binary]. change (negb (x04 =b x04)) with false. cbv iota. unfold process_emsg. rewrite Hq. unfold progress_ready.
  rewrite Hn, app_length. cbn [length]. destruct (N.eqb_spec n (N.of_nat (length l + 1))); [lia|]. cbn.
  eexists _, _, _. split; [reflexivity|]. repeat split; cbn; auto.
Qed.
Lemma execute_snoc log s ls l s1 o1 s2 o2 : execute log s ls = Some (s1, o1) -> step log s1 l = Some (s2, o2) -> execute log s (ls ++ [l]) = Some (s2, o1 ++ o2).
Proof.
  revert s o1. induction ls as [|x ls IH]; intros s o1; cbn [execute app].
  - intros [= <- <-] ->. rewrite app_nil_r. reflexivity.
  - destruct (step log s x) as [[s3 o3]|]; [|discriminate]. destruct (execute log s3 ls) as [[s4 o4]|] eqn:E; [|discriminate].
    intros [= <- <-] H. rewrite (IH _ _ E H), app_assoc. reflexivity.
Qed.
Lemma announced log n : (0 < n <= u64_max)%N -> exists s o q, execute log init (opened_run ++ [LRead (WText ("4"%byte :: announcing n))]) = Some (s, o) /\
  keeping s q [] /\ partial_attachments q = Some n.
Proof.
  intros Hn. destruct (execute log init opened_run) as [[s0 o0]|] eqn:E0; [|destruct log; discriminate].
  assert (K : s_phase s0 = PLoop /\ r_decoder (s_receiver s0) = DActive /\ r_progress (s_receiver s0) = None).
  { destruct log; vm_compute in E0; injection E0 as <- _; auto. }
  destruct K as (K1 & K2 & K3). set (t := "4"%byte :: announcing n).
  assert (U0 : utf8_valid (announcing n) = true).
  { rewrite announcing_text. apply (utf8_app_true [_]); [reflexivity|]. apply utf8_app_true; [apply dec_utf8|reflexivity]. }
  assert (Sub : sub_deref_str (sub_new t (1, length t)) = Some (announcing n)).
  { apply sub_tail_str. exact U0. }
  destruct (accepts_deserialize _ _ _ _ _ _ _ Sub (announcing_accepted n Hn)) as ([p|q] & E & V).
  { destruct V as [V _]. lia. }
  destruct V as (_ & Vn & _).
  assert (U : ws_valid (WText t) = true).
  { exact U0. }
  assert (St : exists s1 o1, step log s0 (LRead (WText t)) = Some (s1, o1) /\ keeping s1 q []).
  { cbn [step]. rewrite U. cbn [negb]. rewrite K1. unfold read_step, process_websocket_packet, process_message. rewrite K2.
    change (decode DActive (WText t)) with (DActive, @Ok eerror epacket (PktMessage (MText (sub_new t (1, length t))))). cbv iota beta.
    unfold process_emsg. rewrite K3, E. cbn. eexists _, _. split; [reflexivity|]. repeat split; cbn; auto. }
  destruct St as (s1 & o1 & St & K). exists s1, (o0 ++ o1), q. split; [eapply execute_snoc; eauto|auto].
Qed.
Lemma keep_many log s q n k : keeping s q [] -> partial_attachments q = Some n -> (N.of_nat k < n)%N ->
  exists s' o' l, execute log s (repeat (LRead more) k) = Some (s', o') /\ keeping s' q l /\ length l = k.
Proof.
  intros Hk Hn. induction k as [|k IH]; intros L.
  - exists s, [], []. auto.
  - destruct IH as (s1 & o1 & l & E & K & Hl); [lia|].
    destruct (keep_one log s1 q l n K Hn) as (s2 & o2 & x & E2 & K2); [lia|].
    exists s2, (o1 ++ o2), (l ++ [x]). split; [|rewrite app_length; cbn [length]; split; [exact K2|lia]].
    replace (S k) with (k + 1) by lia. rewrite repeat_app. cbn [repeat]. eapply execute_snoc; eauto.
Qed.
Lemma kept_at_most log s o : trace log s o -> task_ended s = false -> (N.of_nat (length (buffered s)) < u64_max)%N.
Proof.
  intros Ht He. destruct (trace_invariant _ _ _ Ht) as [_ _ _ Hv _ _ Hp]. destruct (Hp He) as (ps & rest & Ha & P). clear Hp.
  unfold buffered. destruct (r_progress (s_receiver s)) as [[q l]|]; cbn in P; [|reflexivity].
  destruct P as (m & n & -> & E & En & L). apply assembled_split in Ha as (es & Em & _).
  pose proof (messages_ok _ Hv) as Ok. rewrite Em in Ok. apply Forall_app in Ok as [_ Ok]. inversion Ok as [|? ? O _]; subst. cbn in O.
  destruct (sub_deref_str m) as [t|] eqn:Es; [|congruence].
  destruct (deserialize_ok_sound _ _ _ Es E) as (k & ns & id & ts & n' & (w & _ & B & _ & _ & _ & _ & W) & V). cbn in V. destruct V as (_ & V & _ & _).
  rewrite V in En. injection En as ->.
  assert (n <= u64_max)%N; [|lia]. destruct (N.leb_spec n u64_max); [assumption|]. exfalso.
  destruct (w_kind w); try (decompose [and] W; subst; lia); destruct W as (_ & W & _); apply B; exists n; split; auto; lia.
Qed.
Lemma kept_any log n : (N.of_nat n < u64_max)%N -> exists s o, trace log s o /\ task_ended s = false /\ length (buffered s) = n.
Proof.
  intros L. destruct (announced log (N.of_nat n + 1)) as (s & o & q & E & K & En); [lia|].
  destruct (keep_many log s q _ n K En) as (s' & o' & l & E' & (K1 & K2 & K3) & Hl); [lia|].
  exists s', (o ++ o'). split; [|split].
  - exists ((opened_run ++ [LRead (WText ("4"%byte :: announcing (N.of_nat n + 1)))]) ++ repeat (LRead more) n).
    rewrite execute_app, E, E'. reflexivity.
  - unfold task_ended. rewrite K1. reflexivity.
  - unfold buffered. rewrite K3. exact Hl.
Qed.
Lemma kept_bound log n : (exists s o, trace log s o /\ task_ended s = false /\ length (buffered s) = n) <-> (N.of_nat n < u64_max)%N.
Proof. split; [|apply kept_any]. intros (s & o & Ht & He & <-). eapply kept_at_most; eauto. Qed.

(** ** Examples *)
Definition hoard_run : list label := opened_run ++
  [LTable (SetEvent (bs "/") (bs "x") 3%N); LRead (WText (bs "453-[""x""]")); LRead (WBinary [x04; x01]); LRead (WText (bs "2")); LRead (WBinary [x04; x02])].
Example hoard_reached : exists s o, execute false init hoard_run = Some (s, o) /\ task_ended s = false /\ length (buffered s) = 2 /\
  s_chan s = [[WText (bs "3")]].
Proof. eexists _, _. split; [vm_compute; reflexivity|]. repeat split. Qed.
