(** Which frames a client sends (C70). *)
From Verif Require Export SpecJoin PeerReadProofs FlowProofs SentProofs ClientDemo.

Lemma request_built n e r : In r (request_of n e) ->
  exists ev bin args, build (OfEvent ev (option_map fst (snd (fst r)))) (fst (fst r)) bin args = Some (snd r).
Proof.
  unfold request_of. destruct (build _ _ _ _) as [fs|] eqn:E; [|intros []]. intros [<-|[]]. cbn [fst snd].
  do 3 eexists. exact E.
Qed.
Lemma asked_built ls : forall n r, In r (asked n ls) ->
  exists ev bin args, build (OfEvent ev (option_map fst (snd (fst r)))) (fst (fst r)) bin args = Some (snd r).
Proof.
  induction ls as [|l ls IH]; intros n r H; [destruct H|]. cbn [asked] in H.
  destruct (label_emission l) as [[e [|]]|]; [apply in_app_iff in H as [H|H]; [eapply request_built; eauto|]|..]; eapply IH; eauto.
Qed.
Lemma emitted_in o ns id fs : In (OQueued (ByEmit ns id) fs) o -> In (ns, id, fs) (emitted o).
Proof. intros H. apply in_flat_map. eexists. split; [exact H|]. left. reflexivity. Qed.
Lemma sources log s o by_ fs : trace log s o -> In (OQueued by_ fs) o -> made by_ fs.
Proof.
  intros Ht Hin. destruct by_ as [|ns id|ns id|]; cbn [made].
  - pose proof (pongs_are log s o Ht) as P.
    assert (X : In fs (pongs o)) by (apply in_flat_map; eexists; split; [exact Hin|left; reflexivity]).
    rewrite P in X. apply repeat_spec in X. exact X.
  - destruct Ht as [ls Hr]. destruct (emissions_sent log ls s o Hr) as (missing & Hp & _).
    apply emitted_in in Hin.
    assert (X : In (ns, id, fs) (map packet_of (asked 0 ls))).
    { eapply Permutation_in; [apply Permutation_sym; exact Hp|]. apply in_or_app. auto. }
    apply in_map_iff in X as (r & E & Hr'). destruct (asked_built _ _ _ Hr') as (ev & bin & args & B).
    destruct r as [[ns' ack] fs']. cbn in E, B. injection E as -> E ->. rewrite E in B. eauto.
  - destruct (ack_sources log s o ns id fs Ht (or_introl Hin)) as ((bin & args & B) & _). eauto.
  - exact I.
Qed.
Lemma written_from log s o m : trace log s o -> In m (writes o) -> exists by_ fs, In (OQueued by_ fs) o /\ In m fs.
Proof.
  intros Ht Hin. destruct (frames_contiguous log s o Ht) as [r E].
  assert (X : In m (concat (queued o))) by (rewrite E; apply in_or_app; auto).
  apply in_concat in X as (fs & Hf & Hm). apply in_flat_map in Hf as (x & Hx & Hf).
  destruct x; try destruct Hf as [Hf|[]]; try destruct Hf. subst. eauto.
Qed.
Lemma made_frames src ns bin args fs t : build src ns bin args = Some fs -> In (WText ("4"%byte :: t)) fs ->
  exists t', t = type_digit (out_kind src bin) :: t'.
Proof.
  intros B Hin. destruct (build_shape src ns bin args) as (ts & E & _). rewrite E in B. injection B as <-.
  destruct Hin as [[= <-]|Hin]; [eexists; reflexivity|]. apply in_map_iff in Hin as (b & [=] & _).
Qed.
Lemma decode_type t ty n ns id d : sio_decode t = Some (Sio ty n ns id d) -> exists c t', t = c :: t' /\ read_type c = Some ty.
Proof.
  destruct t as [|c t]; [discriminate|]. cbn [sio_decode]. destruct (read_type c) as [ty'|] eqn:E; [|discriminate].
  destruct (read_count ty' t) as [[k t2]|]; [|discriminate]. destruct (read_nsp t2) as [ns' t3].
  destruct (read_id t3) as [[i t4]|]; [|discriminate]. destruct (read_data t4) as [x|]; [|discriminate].
  intros [= <- _ _ _ _]. eauto.
Qed.
Lemma never_joins log s o m ns : trace log s o -> In m (writes o) -> joins ns m \/ leaves ns m ->
  exists fs, In (OQueued ByUser fs) o /\ In m fs.
Proof.
  intros Ht Hin Hj. destruct (written_from log s o m Ht Hin) as (by_ & fs & Hq & Hm).
  pose proof (sources log s o by_ fs Ht Hq) as Hs.
  assert (X : exists t ty n id d, m = WText ("4"%byte :: t) /\ sio_decode t = Some (Sio ty n ns id d) /\ (ty = SConnect \/ ty = SDisconnect)).
  { destruct Hj as [(t & n & id & d & E & D)|(t & n & id & d & E & D)]; exists t; do 4 eexists; split; eauto. }
  clear Hj. destruct X as (t & ty & n & id & d & -> & D & Hty). destruct (decode_type _ _ _ _ _ _ D) as (c & t' & -> & Hc).
  destruct by_ as [|ns' id'|ns' id'|]; cbn [made] in Hs.
  - subst fs. destruct Hm as [Hm|[]]. discriminate.
  - exfalso. destruct Hs as (e & bin & args & B). destruct (made_frames _ _ _ _ _ _ B Hm) as [t2 [= -> _]].
    destruct bin; cbn in Hc; injection Hc as <-; destruct Hty; discriminate.
  - exfalso. destruct Hs as (bin & args & B). destruct (made_frames _ _ _ _ _ _ B Hm) as [t2 [= -> _]].
    destruct bin; cbn in Hc; injection Hc as <-; destruct Hty; discriminate.
  - eauto.
Qed.

(** ** The witness *)
Definition chat_run : list label := opened_run ++ [LEmit (Emission (bs "/chat") (bs "hello") [] [SStr (bs "x")]); LTake; LWrite].
Lemma C70_refuted_lemma : ~ C70_full.
Proof.
  intros H. destruct (execute false init chat_run) as [[s o]|] eqn:E; [|vm_compute in E; discriminate].
  assert (Ht : trace false s o) by (exists chat_run; exact E). vm_compute in E. injection E as <- <-.
  match type of Ht with trace _ ?st ?o =>
    let o1 := eval vm_compute in (firstn (length o - 2) o) in
    specialize (H false st o1 (bs "/chat") None [WText (bs "42/chat,[""hello"",""x""]")]); 
    let x := eval vm_compute in (skipn (length o - 1) o) in specialize (H x Ht) end.
  destruct H as (m & Hm & _). vm_compute in Hm. exact Hm.
Qed.
Lemma welcome_read : exists s o s' o', trace false s o /\ live o /\ between_packets o /\
  step false s (LRead (WText ("4"%byte :: sio_encode welcome))) = Some (s', o').
Proof.
  destruct (execute false init opened_run) as [[s o]|] eqn:E; [|vm_compute in E; discriminate].
  pose proof (run_trace _ _ _ _ E) as Ht.
  destruct (step false s (LRead (WText ("4"%byte :: sio_encode welcome)))) as [[s' o']|] eqn:E'.
  - exists s, o, s', o'. split; [exact Ht|]. split; [|split; [|exact E']].
    + vm_compute in E. injection E as <- <-. apply state_active. vm_compute. reflexivity.
    + vm_compute in E. injection E as <- <-. exists []. vm_compute. constructor.
  - exfalso. vm_compute in E. injection E as <- <-. vm_compute in E'. discriminate.
Qed.
(** A message whose text alone makes the task panic. *)
Definition gossip : sio := Sio SEvent 0 (bs "/chat") None (Some (bs "[""m"",""a,99999999999999999999[b""]")).
Lemma gossip_texts : jvalue (RStr (bs "m")) (bs """m""") /\ jvalue (RStr (bs "a,99999999999999999999[b")) (bs """a,99999999999999999999[b""").
Proof. split; [apply (jv_str (bs "m"))|apply (jv_str (bs "a,99999999999999999999[b"))]; apply body_of; reflexivity. Qed.
Lemma gossip_sent : sends gossip.
Proof.
  constructor; cbn.
  - split; [split; [exists (bs "chat"); reflexivity|]|]; vm_compute; intuition discriminate.
  - exact I.
  - vm_compute. discriminate.
  - reflexivity.
  - discriminate.
  - intros a [= <-]. vm_compute. intuition discriminate.
  - exists (RStr (bs "m")), [RStr (bs "a,99999999999999999999[b")]. eexists. split; [reflexivity|]. split.
    + apply (jv_arr _ (bs """m"",""a,99999999999999999999[b""")).
      apply (je_cons (RStr (bs "m")) (bs """m""") [] [] [RStr (bs "a,99999999999999999999[b")] (bs """a,99999999999999999999[b""")
        (Forall_nil _) (Forall_nil _) (proj1 gossip_texts)).
      apply (je_one (RStr (bs "a,99999999999999999999[b")) (bs """a,99999999999999999999[b""") [] [] (Forall_nil _) (Forall_nil _) (proj2 gossip_texts)).
    + cbn. intros e He. apply means_unescape in He. vm_compute in He. injection He as <-. vm_compute. intuition discriminate.
Qed.
Lemma gossip_args : sio_args gossip [bs """m"""; bs """a,99999999999999999999[b"""].
Proof.
  eexists. split; [reflexivity|]. exists [], (bs """m"",""a,99999999999999999999[b"""), []. split; [exact (Forall_nil _)|].
  split; [exact (Forall_nil _)|]. split; [reflexivity|]. right.
  apply (ji_cons (RStr (bs "m")) (bs """m""") [] [] [bs """a,99999999999999999999[b"""] (bs """a,99999999999999999999[b""")
    (Forall_nil _) (Forall_nil _) (proj1 gossip_texts)).
  apply (ji_one (RStr (bs "a,99999999999999999999[b")) (bs """a,99999999999999999999[b""") [] [] (Forall_nil _) (Forall_nil _) (proj2 gossip_texts)).
Qed.
Lemma gossip_misunderstood : ~ understood gossip [bs """m"""; bs """a,99999999999999999999[b"""].
Proof.
  intros [_ [H|H]]; [discriminate|]. apply (H _ eq_refl).
  exists (bs "[""m"",""a"), (Some 99999999999999999999%N), (bs "b""]"). vm_compute. reflexivity.
Qed.
Lemma gossip_panics : exists s o s', trace false s o /\ live o /\ between_packets o /\
  step false s (LRead (WText ("4"%byte :: sio_encode gossip))) =
    Some (s', [ORead (WText (bs "42/chat,[""m"",""a,99999999999999999999[b""]")); OEnd EndPanic]).
Proof.
  destruct (execute false init opened_run) as [[s o]|] eqn:E; [|vm_compute in E; discriminate].
  pose proof (run_trace _ _ _ _ E) as Ht.
  destruct (step false s (LRead (WText ("4"%byte :: sio_encode gossip)))) as [[s' o']|] eqn:E'.
  - exists s, o, s'. split; [exact Ht|]. split; [|split].
    + vm_compute in E. injection E as <- <-. apply state_active. vm_compute. reflexivity.
    + vm_compute in E. injection E as <- <-. exists []. vm_compute. constructor.
    + rewrite E'. vm_compute in E. injection E as <- <-. vm_compute in E'. injection E' as <- <-. vm_compute. reflexivity.
  - exfalso. vm_compute in E. injection E as <- <-. vm_compute in E'. discriminate.
Qed.
