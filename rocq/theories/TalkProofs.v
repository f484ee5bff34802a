(** Proofs about whole conversations with the reference implementation. *)
From Verif Require Export SpecTalk JoinProofs.
From Verif Require Import FairProofs PeerReadProofs DeliverProofs SentProofs.

(** ** The peer understands frames in one way *)
Lemma rebuilt_unique bl : forall v a b, rebuilt bl v a -> rebuilt bl v b -> a = b.
Proof.
  induction v as [|b|n|s|l IH|m IH] using value_ind'; intros x y Hx Hy; inversion Hx; inversion Hy; subst; try reflexivity; try congruence.
  - f_equal. match goal with F : Forall2 _ l ?a, G : Forall2 _ l ?b |- ?a = ?b => clear - F G IH; revert b G;
      induction F as [|r x l vs Hr F IHF]; intros vs0 G; inversion G; subst; [reflexivity|];
      inversion IH; subst; f_equal; [eauto|apply IHF; assumption] end.
  - f_equal. match goal with F : Forall2 _ m ?a, G : Forall2 _ m ?b |- ?a = ?b => clear - F G IH; revert b G;
      induction F as [|[k r] [k1 x] l vs [Hk Hr] F IHF]; intros vs0 G; inversion G as [|? [k2 y] ? ? [Hk2 Hr2] G2]; subst; [reflexivity|];
      cbn [fst snd] in *; inversion IH; subst; cbn [snd] in *; f_equal; [|apply IHF; assumption]; f_equal; eauto end.
Qed.
Lemma F2_same {A B} (R : A -> B -> Prop) l : (forall x a b, In x l -> R x a -> R x b -> a = b) ->
  forall m m', Forall2 R l m -> Forall2 R l m' -> m = m'.
Proof.
  induction l as [|x l IH]; intros H m m' F G; inversion F; inversion G; subst; [reflexivity|].
  f_equal; [eapply H; [left; reflexivity| |]; eassumption|apply IH; auto]. intros z a b Hz. apply H. right. exact Hz.
Qed.
Lemma map_frames v a : forall b x y, map (attachment_frame v) a ++ x = map (attachment_frame v) b ++ y -> length a = length b -> a = b /\ x = y.
Proof.
  induction a as [|c a IH]; intros [|d b] x y E L; try discriminate; [auto|]. cbn [map app] in E.
  injection L as L. injection E as Ec E. destruct (IH b x y E L) as [-> ->].
  destruct v; cbn [attachment_frame] in Ec; injection Ec as ->; auto.
Qed.
Lemma gets_unique v pk k ns id vs k' ns' id' vs' :
  peer_gets v pk k ns id vs -> peer_gets v pk k' ns' id' vs' -> k = k' /\ ns = ns' /\ id = id' /\ vs = vs'.
Proof.
  intros (t & ty & a & rs & bl & xs & Ef & Hd & Hk & Hj & Hp & Hm & Hv) (t' & ty' & a' & rs' & bl' & xs' & Ef' & Hd' & Hk' & Hj' & Hp' & Hm' & Hv').
  rewrite Ef in Ef'. injection Ef' as -> Eb. rewrite Hd in Hd'. injection Hd' as <- Hl <- <- <-.
  assert (bl = bl') as <-. { destruct (map_frames v bl bl' [] []); [rewrite !app_nil_r; exact Eb|lia|assumption]. }
  pose proof (jdoc_unique _ _ _ Hj Hj') as X. injection X as <-.
  assert (xs = xs') as <-.
  { apply (F2_same js_means rs); [|assumption|assumption]. intros r x y Hin. apply js_unique.
    pose proof (jdoc_well _ _ Hj) as W. cbn [well] in W. rewrite allP_Forall in W. rewrite Forall_forall in W. apply W, Hin. }
  split; [destruct k, k'; try reflexivity; exfalso; cbn in Hk, Hk'; intuition congruence|].
  split; [reflexivity|split; [reflexivity|]].
  destruct bl; [congruence|]. apply (F2_same (rebuilt (b :: bl)) xs); [|assumption|assumption]. intros r x y _. apply rebuilt_unique.
Qed.
Lemma gets_frames v pk k ns id vs : peer_gets v pk k ns id vs ->
  exists t p bl, pk = WText ("4"%byte :: t) :: map (attachment_frame v) bl /\ sio_decode t = Some p /\ o_count p = N.of_nat (length bl).
Proof. intros (t & ty & a & rs & bl & xs & Ef & Hd & _). exists t. eexists. exists bl. split; [exact Ef|]. split; [exact Hd|reflexivity]. Qed.
Lemma hears_unique v fs : forall hs rest hs' rest', hears v fs hs rest -> hears v fs hs' rest' -> hs = hs' /\ rest = rest'.
Proof.
  intros hs rest hs' rest' H. revert hs' rest'.
  induction H as [|t p bl Hd Hc|fs hs rest H IH|pk k ns id vs fs hs rest Hg H IH]; intros hs' rest' H'.
  - inversion H'; subst; auto. exfalso. destruct (gets_frames _ _ _ _ _ _ H0) as (t & p & bl & -> & _). discriminate.
  - inversion H'; subst.
    + auto.
    + exfalso. destruct (gets_frames _ _ _ _ _ _ H0) as (t' & p' & bl' & -> & Hd' & Hc').
      cbn [app] in H. injection H as -> E. rewrite Hd in Hd'. injection Hd' as <-.
      apply (f_equal (@length _)) in E. rewrite app_length, !map_length in E. lia.
  - inversion H'; subst.
    + match goal with X : hears v fs _ _ |- _ => destruct (IH _ _ X) as [-> ->] end. auto.
    + exfalso. match goal with X : peer_gets _ _ _ _ _ _ |- _ => destruct (gets_frames _ _ _ _ _ _ X) as (t' & p' & bl' & -> & _) end. discriminate.
  - destruct (gets_frames _ _ _ _ _ _ Hg) as (t & p & bl & Ep & Hd & Hc).
    remember (pk ++ fs) as all eqn:Eall. revert Hg Eall. destruct H' as [|t' p' bl' Hd' Hc'|fs' hs' rest' H'|pk' k' ns' id' vs' fs' hs' rest' Hg' H'];
      intros Hg Eall; rewrite Ep in Eall.
    + discriminate.
    + exfalso. injection Eall as -> E. rewrite Hd in Hd'. injection Hd' as <-.
      apply (f_equal (@length _)) in E. rewrite app_length, !map_length in E. lia.
    + discriminate.
    + destruct (gets_frames _ _ _ _ _ _ Hg') as (t' & p' & bl' & Ep' & Hd' & Hc'). rewrite Ep' in Eall.
      cbn [app] in Eall. injection Eall as -> E. rewrite Hd in Hd'. injection Hd' as <-.
      destruct (map_frames v bl' bl fs' fs E) as [-> ->]; [lia|]. rewrite <- Ep in Ep'. subst pk'.
      destruct (gets_unique _ _ _ _ _ _ _ _ _ _ Hg Hg') as (-> & -> & -> & ->). destruct (IH _ _ H') as [-> ->]. auto.
Qed.

(** ** Clear speech is heard as it is meant *)
Lemma clear_gets v src ns bin args fs : clear v (Say src ns bin args) -> build src ns bin args = Some fs ->
  peer_gets v fs (src_kind src) ns (src_id src) (pkt_values bin (all_args src args)).
Proof.
  intros ([Hn Hc] & Hi & Hst & Hu & Hb & Hl & Hv & Hf) E. apply (peer_exactly v src ns bin args fs); auto.
Qed.
Lemma app_prefix {A} (a : list A) : forall b x y, a ++ x = b ++ y ->
  (exists r, b = a ++ r /\ x = r ++ y) \/ (exists c r, a = b ++ c :: r).
Proof.
  induction a as [|c a IH]; intros b x y E; [left; exists b; auto|]. destruct b as [|d b].
  - right. exists c, a. reflexivity.
  - cbn [app] in E. injection E as <- E. destruct (IH b x y E) as [(r & -> & ->)|(c' & r & ->)]; [left; exists r; auto|right; exists c', r; reflexivity].
Qed.
Lemma heard_prefix v us : forall qs w r, Forall2 (fun q u => spoken u = Some q) qs us -> Forall (clear v) us -> concat qs = w ++ r ->
  exists us1 us2 q1 rest, us = us1 ++ us2 /\ hears v w (map meant us1) rest /\ w = concat q1 ++ rest /\
    Forall2 (fun q u => spoken u = Some q) q1 us1 /\
    (rest = [] \/ exists u us2' more, us2 = u :: us2' /\ more <> [] /\ spoken u = Some (rest ++ more)).
Proof.
  induction us as [|u us IH]; intros qs w r F C E; inversion F as [|q ? qs' ? Hq F']; subst.
  - cbn in E. symmetry in E. apply app_eq_nil in E as [-> ->]. exists [], [], [], []. repeat split; auto; constructor.
  - inversion C as [|? ? Cu C']; subst. cbn [concat] in E. destruct (app_prefix q w (concat qs') r E) as [(x & -> & Ex)|(c & x & ->)].
    + destruct (IH qs' x r F' C' Ex) as (us1 & us2 & q1 & rest & -> & Hh & -> & F1 & Hrest).
      exists (u :: us1), us2, (q :: q1), rest. split; [reflexivity|]. split.
      { destruct u as [|src ns bin args]; cbn [spoken] in Hq.
        - injection Hq as <-. cbn [map meant app]. apply he_pong. exact Hh.
        - cbn [map meant]. apply he_packet; [|exact Hh]. apply clear_gets; assumption. }
      split; [cbn [concat]; apply app_assoc|]. split; [constructor; assumption|exact Hrest].
    + destruct w as [|f w].
      { exists [], (u :: us), [], []. split; [reflexivity|]. split; [constructor|]. split; [reflexivity|]. split; [constructor|left; reflexivity]. }
      exists [], (u :: us), [], (f :: w). split; [reflexivity|]. split.
      { destruct u as [|src ns bin args]; cbn [spoken] in Hq.
        - cbn [app] in Hq. injection Hq as _ X. destruct w; discriminate.
        - destruct (gets_frames _ _ _ _ _ _ (clear_gets _ _ _ _ _ _ Cu Hq)) as (t & p & bl & Ef & Hd & Hc). cbn [app] in Ef. injection Ef as -> Ew.
          symmetry in Ew. apply map_eq_app in Ew as (bl1 & bl2 & -> & <- & Eb). apply (he_waiting v t p bl1 Hd).
          rewrite Hc, app_length. destruct bl2; [discriminate|]. cbn [length]. lia. }
      split; [reflexivity|]. split; [constructor|]. right. exists u, us, (c :: x). split; [reflexivity|]. split; [discriminate|exact Hq].
Qed.

(** ** What is queued is what was said *)
Record talk (ls : list label) (s : state) (o : list obs) : Prop := Talk {
  t_next : s_next_id s = next_after 0 ls;
  t_lists : exists us gs lost,
    Forall2 (fun q u => spoken u = Some q) (queued o) us /\
    Forall2 (fun f u => exists e bin args, u = Say (OfEvent e (Some (f_id f))) (f_ns f) bin args /\ spoken u = Some (f_packet f)) (s_inflight s) gs /\
    Permutation (said 0 ls) (filter is_event us ++ gs ++ lost) /\
    (forall id ns bin args, In (Say (OfAck id) ns bin args) us -> In (ns, id) (builders_given o) /\ In (bin, args) (replies ls)) /\
    (calm o -> lost = [] /\ filter unasked (said 0 ls) = filter unasked us /\ flat_map reply_of us = replies ls /\
               length (filter pongs_back us) = ping_count (reads o))
}.
Lemma said_app a : forall n b, said n (a ++ b) = said n a ++ said (next_after n a) b.
Proof.
  induction a as [|l a IH]; intros n b; [reflexivity|]. cbn [app said next_after].
  destruct (label_emission l) as [[e []]|]; rewrite IH; reflexivity.
Qed.
Lemma replies_app a b : replies (a ++ b) = replies a ++ replies b.
Proof. apply flat_map_app. Qed.
Lemma queued_app' a b : queued (a ++ b) = queued a ++ queued b.
Proof. apply flat_map_app. Qed.
Lemma reads_app' a b : reads (a ++ b) = reads a ++ reads b.
Proof. apply flat_map_app. Qed.
Lemma calm_app a b : calm (a ++ b) -> calm a /\ calm b.
Proof.
  intros [D L]. unfold calm, disturbed in *. split; (split; [intros [X|X]; apply D; [left|right]; apply in_app_iff; auto|]);
    intros by_ fs X; apply (L by_ fs), in_app_iff; auto.
Qed.
Lemma talk_step ls s o l s' o' du gs' dl :
  talk ls s o -> s_next_id s' = next_after (s_next_id s) [l] ->
  (forall gs, Forall2 (fun f u => exists e bin args, u = Say (OfEvent e (Some (f_id f))) (f_ns f) bin args /\ spoken u = Some (f_packet f)) (s_inflight s) gs ->
    Forall2 (fun f u => exists e bin args, u = Say (OfEvent e (Some (f_id f))) (f_ns f) bin args /\ spoken u = Some (f_packet f)) (s_inflight s') (gs' gs) /\
    Forall2 (fun q u => spoken u = Some q) (queued o') (du gs) /\
    Permutation (gs ++ said (s_next_id s) [l]) (filter is_event (du gs) ++ gs' gs ++ dl gs) /\
    (forall id ns bin args, In (Say (OfAck id) ns bin args) (du gs) -> In (ns, id) (builders_given (o ++ o')) /\ In (bin, args) (replies [l])) /\
    (calm o' -> dl gs = [] /\ filter unasked (said (s_next_id s) [l]) = filter unasked (du gs) /\ flat_map reply_of (du gs) = replies [l] /\
       ping_count (reads (o ++ o')) = ping_count (reads o) + length (filter pongs_back (du gs)))) ->
  talk (ls ++ [l]) s' (o ++ o').
Proof.
  intros [W (us & gs & lost & F1 & F2 & P & A & C)] Hn H. destruct (H gs F2) as (G1 & G2 & G3 & G4 & G5). constructor.
  - rewrite next_after_app, <- W. exact Hn.
  - exists (us ++ du gs), (gs' gs), (lost ++ dl gs). repeat split.
    + rewrite queued_app'. apply Forall2_app; assumption.
    + exact G1.
    + rewrite said_app, <- W, filter_app, P.
      transitivity (filter is_event us ++ lost ++ (gs ++ said (s_next_id s) [l])).
      { rewrite <- !app_assoc. apply Permutation_app_head. rewrite !app_assoc. apply Permutation_app_tail, Permutation_app_comm. }
      rewrite G3. rewrite <- !app_assoc. apply Permutation_app_head. rewrite !app_assoc. apply Permutation_app_tail.
      rewrite (Permutation_app_comm lost). rewrite <- !app_assoc. apply Permutation_app_head, Permutation_app_comm.
    + apply in_app_iff in H0 as [X|X]; [apply A in X as [X _]; rewrite given_app; apply in_app_iff; auto|apply G4 in X as [X _]; exact X].
    + rewrite replies_app. apply in_app_iff. apply in_app_iff in H0 as [X|X]; [apply A in X as [_ X]; auto|apply G4 in X as [_ X]; auto].
    + apply calm_app in H0 as [K1 K2]. destruct (C K1) as (-> & _). destruct (G5 K2) as (-> & _). reflexivity.
    + apply calm_app in H0 as [K1 K2]. destruct (C K1) as (_ & E & _). destruct (G5 K2) as (_ & E' & _).
      rewrite said_app, <- W, !filter_app, E, E'. reflexivity.
    + apply calm_app in H0 as [K1 K2]. destruct (C K1) as (_ & _ & E & _). destruct (G5 K2) as (_ & _ & E' & _).
      rewrite flat_map_app, replies_app, E, E'. reflexivity.
    + apply calm_app in H0 as [K1 K2]. destruct (C K1) as (_ & _ & _ & E). destruct (G5 K2) as (_ & _ & _ & E').
      rewrite filter_app, app_length, E, E'. reflexivity.
Qed.
Definition flies (f : inflight) (u : speech) : Prop :=
  exists e bin args, u = Say (OfEvent e (Some (f_id f))) (f_ns f) bin args /\ spoken u = Some (f_packet f).
Lemma F2_delete {A B} (R : A -> B -> Prop) l : forall m i x, Forall2 R l m -> nth_error l i = Some x ->
  exists y, nth_error m i = Some y /\ R x y /\ Forall2 R (list_delete i l) (list_delete i m).
Proof.
  induction l as [|a l IH]; intros m i x F E; [destruct i; discriminate|]. inversion F as [|? b ? m' Hab F']; subst. destruct i as [|i].
  - injection E as <-. exists b. cbn. auto.
  - destruct (IH m' i x F' E) as (y & E1 & E2 & E3). exists y. cbn. auto.
Qed.
Lemma F2_update {A B} (R : A -> B -> Prop) l : forall m i x x', Forall2 R l m -> nth_error l i = Some x ->
  (forall y, R x y -> R x' y) -> Forall2 R (list_update i x' l) m.
Proof.
  induction l as [|a l IH]; intros m i x x' F E H; [destruct i; discriminate|]. inversion F as [|? b ? m' Hab F']; subst. destruct i as [|i].
  - injection E as <-. cbn. constructor; auto.
  - cbn. constructor; [exact Hab|]. eapply IH; eauto.
Qed.
Lemma emission_speech s e n b fs : emission_builder s e = (n, b) -> event_packets b (em_args e) = Some fs ->
  spoken (speech_of (s_next_id s) e) = Some fs /\
  speech_of (s_next_id s) e = Say (OfEvent (em_event e) (option_map snd (eb_callback b))) (eb_ns b) (binary_or_not (em_calls e)) (em_args e).
Proof.
  intros Eb Ep. destruct (emission_choice _ _ _ _ Eb) as (C1 & C2 & C3 & C4 & C5).
  rewrite event_packets_build, C1, C2, C3 in Ep. unfold speech_of, binary_or_not. rewrite C2. rewrite C4 in *.
  destruct (chosen_id (s_next_id s) (em_calls e)) as [k|], (chosen_callback (em_calls e)) as [f|]; cbn [option_map fst snd spoken] in *; auto.
Qed.
Lemma requests_queued n l : queued (requests n l) = [].
Proof. revert n. induction l as [|[b|f] l IH]; intros n; cbn; auto. Qed.
Lemma push_talk og fs s s' o' : push og fs s = (s', o') ->
  s_next_id s' = s_next_id s /\ s_inflight s' = s_inflight s /\
  (o' = [OQueued og fs] \/ (o' = [OLost og fs] /\ forall o, ~ calm (o ++ o'))).
Proof.
  intros H. destruct (push_cases og fs s) as [[_ E]|(_ & _ & E)]; rewrite E in H; injection H as <- <-; cbn; split; auto; split; auto.
  right. split; [reflexivity|]. intros o [_ C]. apply (C og fs), in_app_iff. cbn. auto.
Qed.
Lemma pongs_after log s o l s' o' : trace log s o -> step log s l = Some (s', o') ->
  ping_count (reads (o ++ o')) = ping_count (reads o) + length (pongs o').
Proof.
  intros Ht H. assert (Ht' : trace log s' (o ++ o')). { destruct Ht as [ls Hl]. exists (ls ++ [l]). rewrite execute_app, Hl. cbn. rewrite H. rewrite app_nil_r. reflexivity. }
  pose proof (f_equal (@length _) (pongs_are _ _ _ Ht)) as A. pose proof (f_equal (@length _) (pongs_are _ _ _ Ht')) as B.
  rewrite pongs_app, app_length in B. rewrite repeat_length in A, B. lia.
Qed.
Lemma reply_talk log ls s o s' o' l ns id bin args fs i : talk ls s o -> label_emission l = None -> replies [l] = [(bin, args)] ->
  nth_error (s_acks s) i = Some (ns, id) -> build (OfAck id) ns bin args = Some fs -> trace log s o ->
  push (ByAck ns id) fs (set_acks (list_delete i (s_acks s)) s) = (s', o') ->
  ping_count (reads (o ++ o')) = ping_count (reads o) + length (pongs o') -> talk (ls ++ [l]) s' (o ++ o').
Proof.
  intros F Hl Hr Ei Ea Ht H Hp. destruct (push_talk _ _ _ _ _ H) as (P1 & P2 & P3). cbn in P1, P2.
  destruct P3 as [-> | [-> C]].
  - apply (talk_step ls s o _ _ _ (fun _ => [Say (OfAck id) ns bin args]) (fun gs => gs) (fun _ => []) F).
    + cbn [next_after]. rewrite Hl. exact P1.
    + intros gs G. rewrite P2. split; [exact G|]. split; [repeat constructor; exact Ea|]. rewrite Hr. cbn [said]. rewrite Hl. cbn [filter is_event app].
      rewrite !app_nil_r. split; [reflexivity|]. split.
      * intros ? ? ? ? [X|[]]. injection X as <- <- <- <-. split; [|left; reflexivity]. rewrite given_app. apply in_app_iff. left.
        destruct (trace_sources _ _ _ Ht) as [_ _ _ Pb]. eapply Permutation_in; [apply Permutation_sym; exact Pb|].
        apply in_app_iff. right. apply nth_error_In in Ei. exact Ei.
      * intros _. rewrite Hp. cbn. auto.
  - apply (talk_step ls s o _ _ _ (fun _ => []) (fun gs => gs) (fun _ => []) F).
    + cbn [next_after]. rewrite Hl. exact P1.
    + intros gs G. rewrite P2. split; [exact G|]. split; [constructor|]. cbn [said]. rewrite Hl. cbn. rewrite !app_nil_r. split; [reflexivity|].
      split; [intros ? ? ? ? []|]. intros X. destruct (C [] X).
Qed.
Lemma reaction_queues log o m out : reaction log o m out ->
  (queued out = [] /\ pongs out = []) \/ out = [OQueued ByReceiver [WText (bs "3")]] \/ out = [OLost ByReceiver [WText (bs "3")]].
Proof.
  intros H. destruct H as [| | | | | | |x out Hd Ha Hm]; auto.
  left. destruct Hm as [ps p out _ _ Hp| | | | ]; auto. destruct Hp; auto.
Qed.
Lemma run_talk log ls s o : client_run log ls s o -> no_raw ls -> talk ls s o.
Proof.
  revert ls s o. apply (run_ind log (fun ls s o => no_raw ls -> talk ls s o)).
  - intros _. constructor; [reflexivity|]. exists [], [], []. repeat split; try constructor; intros; cbn in *; contradiction.
  - intros ls s o l s' o' Hr IH H Hraw.
    assert (F : talk ls s o). { apply IH. intros fs X. apply (Hraw fs), in_app_iff. auto. }
    pose proof (run_trace' _ _ _ _ Hr) as Ht. pose proof (pongs_after _ _ _ _ _ _ Ht H) as Hp. clear IH.
    assert (Q : label_emission l = None -> s_next_id s' = s_next_id s -> s_inflight s' = s_inflight s ->
                queued o' = [] -> (calm o' -> replies [l] = []) -> pongs o' = [] -> talk (ls ++ [l]) s' (o ++ o')).
    { intros H1 H2 H3 H4 H5 H6. apply (talk_step ls s o l s' o' (fun _ => []) (fun gs => gs) (fun _ => []) F).
      - cbn [next_after]. rewrite H1. exact H2.
      - intros gs G. rewrite H3, H4. split; [exact G|]. split; [constructor|]. cbn [said]. rewrite H1. cbn [filter app flat_map]. rewrite !app_nil_r.
        split; [reflexivity|]. split; [intros ? ? ? ? []|]. intros C. rewrite H6 in Hp. cbn in Hp. rewrite (H5 C). rewrite Hp. auto. }
    destruct l.
    (* a read *)
    5:{ destruct (step_read log s o m s' o' Ht H) as (B & N & I & _).
        destruct (reaction_exact _ _ _ _ _ _ Ht H) as (out & E & Hrx). apply reaction_queues in Hrx as [[E1 E2]|[-> | ->]].
        - apply Q; subst; auto.
        - subst o'. apply (talk_step ls s o _ _ _ (fun _ => [Pong]) (fun gs => gs) (fun _ => []) F).
          + exact N.
          + intros gs G. rewrite I. split; [exact G|]. split; [repeat constructor|]. split; [cbn; rewrite !app_nil_r; reflexivity|].
            split; [intros ? ? ? ? [X|[]]; discriminate|]. intros _. rewrite Hp. cbn. auto.
        - subst o'. apply (talk_step ls s o _ _ _ (fun _ => []) (fun gs => gs) (fun _ => []) F).
          + exact N.
          + intros gs G. rewrite I. split; [exact G|]. split; [constructor|]. split; [cbn; rewrite !app_nil_r; reflexivity|].
            split; [intros ? ? ? ? []|]. intros [_ C]. exfalso. eapply C. right. left. reflexivity. }
    all: try (cbn [step] in H; step_cases H; injection H as <- <-; apply Q; reflexivity).
    + (* LCbEmit *)
      cbn [step] in H. destruct (s_phase s) eqn:Eph; try discriminate. destruct (usable_client s); [|discriminate].
      destruct (emission_builder s e) as [n b] eqn:Eb. pose proof (emission_next _ _ _ _ Eb) as En.
      destruct (event_packets b (em_args e)) as [fs|] eqn:Ep; [|destruct (emission_no_panic _ _ Ep)].
      destruct (emission_speech _ _ _ _ _ Eb Ep) as [Es Es2].
      pose proof (requests_queued (s_next_id s) (em_calls e)) as R1. pose proof (requests_pongs (s_next_id s) (em_calls e)) as R2.
      destruct (eb_callback b) as [[f k]|] eqn:Ec.
      * injection H as <- <-. apply (talk_step ls s o _ _ _ (fun _ => []) (fun gs => gs) (fun _ => [speech_of (s_next_id s) e]) F).
        -- cbn. exact En.
        -- intros gs G. split; [exact G|]. rewrite queued_app', R1. split; [constructor|]. split; [reflexivity|]. split; [intros ? ? ? ? []|].
           intros [C _]. exfalso. apply C. left. apply in_app_iff. right. left. reflexivity.
      * destruct (push (emit_origin b) fs (set_next_id n s)) as [s2 o2] eqn:Epu. injection H as <- <-.
        destruct (push_talk _ _ _ _ _ Epu) as (P1 & P2 & P3). cbn in P1, P2.
        rewrite pongs_app, R2 in Hp. unfold emit_origin in P3. rewrite Ec in P3. cbn in P3.
        destruct P3 as [-> | [-> C]].
        -- apply (talk_step ls s o _ _ _ (fun _ => [speech_of (s_next_id s) e]) (fun gs => gs) (fun _ => []) F).
           ++ cbn. rewrite P1. exact En.
           ++ intros gs G. rewrite P2. split; [exact G|]. rewrite queued_app', R1. split; [repeat constructor; exact Es|].
              split. { rewrite app_nil_r. cbn [said label_emission]. rewrite Es2. cbn [filter is_event]. symmetry. apply Permutation_cons_append. }
              split; [rewrite Es2; intros ? ? ? ? [X|[]]; discriminate|]. intros _. rewrite Hp. cbn [said label_emission]. rewrite Es2. cbn. auto.
        -- apply (talk_step ls s o _ _ _ (fun _ => []) (fun gs => gs) (fun _ => [speech_of (s_next_id s) e]) F).
           ++ cbn. rewrite P1. exact En.
           ++ intros gs G. rewrite P2. split; [exact G|]. rewrite queued_app', R1. split; [constructor|]. split; [reflexivity|]. split; [intros ? ? ? ? []|].
              intros X. destruct (C _ X).
    + (* LCbAck *)
      cbn [step] in H. destruct (s_phase s) eqn:Eph; try discriminate. destruct (nth_error (s_acks s) i) as [[ns id]|] eqn:Ei; [|discriminate].
      destruct (ack_packets _ args) as [fs|] eqn:Ea; [|rewrite ack_packets_build in Ea; destruct (build_no_panic _ _ _ _ Ea)].
      rewrite ack_packets_build in Ea. cbn in Ea. injection H as H. exact (reply_talk log ls s o s' o' (LCbAck i binary args) ns id binary args fs i F eq_refl eq_refl Ei Ea Ht H Hp).
    + (* LBuild *)
      cbn [step] in H. destruct (usable_client s); [|discriminate]. destruct (emission_builder s e) as [n b] eqn:Eb. pose proof (emission_next _ _ _ _ Eb) as En.
      injection H as <- <-. apply (talk_step ls s o _ _ _ (fun _ => []) (fun gs => gs) (fun _ => []) F).
      * cbn. exact En.
      * intros gs G. split; [exact G|]. rewrite requests_queued. split; [constructor|]. split; [cbn; rewrite !app_nil_r; reflexivity|].
        split; [intros ? ? ? ? []|]. intros _. rewrite Hp, requests_pongs. cbn. auto.
    + (* LEmit *)
      cbn [step] in H. destruct (usable_client s); [|discriminate].
      destruct (emission_builder s e) as [n b] eqn:Eb. pose proof (emission_next _ _ _ _ Eb) as En.
      destruct (event_packets b (em_args e)) as [fs|] eqn:Ep; [|destruct (emission_no_panic _ _ Ep)].
      destruct (emission_speech _ _ _ _ _ Eb Ep) as [Es Es2].
      pose proof (requests_queued (s_next_id s) (em_calls e)) as R1. pose proof (requests_pongs (s_next_id s) (em_calls e)) as R2.
      destruct (eb_callback b) as [[f k]|] eqn:Ec.
      * injection H as <- <-. apply (talk_step ls s o _ _ _ (fun _ => []) (fun gs => gs ++ [speech_of (s_next_id s) e]) (fun _ => []) F).
        -- cbn. exact En.
        -- intros gs G. cbn [s_inflight set_inflight set_next_id]. split.
           { apply Forall2_app; [exact G|]. constructor; [|constructor]. cbn [f_id f_ns f_packet]. rewrite <- Es. rewrite Es2. cbn [option_map snd]. eauto 6. }
           rewrite R1. split; [constructor|]. split; [cbn; rewrite app_nil_r; reflexivity|]. split; [intros ? ? ? ? []|].
           intros _. rewrite Hp, R2. cbn [said label_emission]. rewrite Es2. cbn. auto.
      * destruct (push (emit_origin b) fs (set_next_id n s)) as [s2 o2] eqn:Epu. injection H as <- <-.
        destruct (push_talk _ _ _ _ _ Epu) as (P1 & P2 & P3). cbn in P1, P2.
        rewrite pongs_app, R2 in Hp. unfold emit_origin in P3. rewrite Ec in P3. cbn in P3.
        destruct P3 as [-> | [-> C]].
        -- apply (talk_step ls s o _ _ _ (fun _ => [speech_of (s_next_id s) e]) (fun gs => gs) (fun _ => []) F).
           ++ cbn. rewrite P1. exact En.
           ++ intros gs G. rewrite P2. split; [exact G|]. rewrite queued_app', R1. split; [repeat constructor; exact Es|].
              split. { rewrite app_nil_r. cbn [said label_emission]. rewrite Es2. cbn [filter is_event]. symmetry. apply Permutation_cons_append. }
              split; [rewrite Es2; intros ? ? ? ? [X|[]]; discriminate|]. intros _. rewrite Hp. cbn [said label_emission]. rewrite Es2. cbn. auto.
        -- apply (talk_step ls s o _ _ _ (fun _ => []) (fun gs => gs) (fun _ => [speech_of (s_next_id s) e]) F).
           ++ cbn. rewrite P1. exact En.
           ++ intros gs G. rewrite P2. split; [exact G|]. rewrite queued_app', R1. split; [constructor|]. split; [reflexivity|]. split; [intros ? ? ? ? []|].
              intros X. destruct (C _ X).
    + (* LRegister *)
      cbn [step] in H. destruct (nth_error (s_inflight s) i) as [[ns id f [] fs]|] eqn:Ei; try discriminate.
      destruct (s_poisoned s).
      * injection H as <- <-. apply (talk_step ls s o _ _ _ (fun _ => []) (fun gs => list_delete i gs) (fun gs => match nth_error gs i with Some u => [u] | None => [] end) F).
        -- reflexivity.
        -- intros gs G. destruct (F2_delete _ _ _ _ _ G Ei) as (u & Eu & Hu & G'). rewrite Eu. split; [exact G'|]. split; [constructor|].
           split; [cbn; rewrite app_nil_r; rewrite (delete_perm _ _ _ Eu) at 1; apply Permutation_cons_append|]. split; [intros ? ? ? ? []|].
           intros [C _]. exfalso. apply C. right. left. reflexivity.
      * destruct (locked s); [discriminate|]. injection H as <- <-. apply (talk_step ls s o _ _ _ (fun _ => []) (fun gs => gs) (fun _ => []) F).
        -- reflexivity.
        -- intros gs G. cbn [s_inflight set_inflight set_table]. split; [apply (F2_update _ _ _ _ _ _ G Ei); auto|]. split; [constructor|].
           split; [cbn; rewrite !app_nil_r; reflexivity|]. split; [intros ? ? ? ? []|]. intros _. rewrite Hp. cbn. auto.
    + (* LPush *)
      cbn [step] in H. destruct (nth_error (s_inflight s) i) as [[ns id f [] fs]|] eqn:Ei; try discriminate.
      injection H as H. destruct (push_talk _ _ _ _ _ H) as (P1 & P2 & P3). cbn in P1, P2. destruct P3 as [-> | [-> C]].
      * apply (talk_step ls s o _ _ _ (fun gs => match nth_error gs i with Some u => [u] | None => [] end) (fun gs => list_delete i gs) (fun _ => []) F).
        -- exact P1.
        -- intros gs G. rewrite P2. destruct (F2_delete _ _ _ _ _ G Ei) as (u & Eu & Hu & G'). rewrite Eu. split; [exact G'|].
           destruct Hu as (e & bin & args & -> & Hu). cbn [f_id f_ns f_packet] in *. split; [repeat constructor; exact Hu|].
           split; [cbn; rewrite !app_nil_r; apply (delete_perm _ _ _ Eu)|]. split; [intros ? ? ? ? [X|[]]; discriminate|].
           intros _. rewrite Hp. cbn. auto.
      * apply (talk_step ls s o _ _ _ (fun _ => []) (fun gs => list_delete i gs) (fun gs => match nth_error gs i with Some u => [u] | None => [] end) F).
        -- exact P1.
        -- intros gs G. rewrite P2. destruct (F2_delete _ _ _ _ _ G Ei) as (u & Eu & Hu & G'). rewrite Eu. split; [exact G'|]. split; [constructor|].
           split; [cbn; rewrite app_nil_r; rewrite (delete_perm _ _ _ Eu) at 1; apply Permutation_cons_append|]. split; [intros ? ? ? ? []|].
           intros X. destruct (C [] X).
    + (* LAck *)
      cbn [step] in H. destruct (nth_error (s_acks s) i) as [[ns id]|] eqn:Ei; [|discriminate].
      destruct (ack_packets _ args) as [fs|] eqn:Ea; [|rewrite ack_packets_build in Ea; destruct (build_no_panic _ _ _ _ Ea)].
      rewrite ack_packets_build in Ea. cbn in Ea. injection H as H. exact (reply_talk log ls s o s' o' (LAck i binary args) ns id binary args fs i F eq_refl eq_refl Ei Ea Ht H Hp).
    + (* LRaw *)
      exfalso. apply (Hraw fs), in_app_iff. right. left. reflexivity.
Qed.

Lemma run_as_said log ls s o : client_run log ls s o -> no_raw ls -> exists us, as_said ls s o us.
Proof.
  intros Hr Hn. destruct (run_talk _ _ _ _ Hr Hn) as [_ (us & gs & lost & F & G & P & A & C)]. exists us.
  split; [exact F|]. split; [exact A|]. exists (gs ++ lost). split; [exact P|]. intros K. destruct (C K) as (-> & E1 & E2 & E3).
  rewrite app_nil_r. split; [intros E; rewrite E in G; inversion G; reflexivity|]. split.
  - clear - G. induction G as [|f u fs gs (e & bin & args & -> & _) G IH]; constructor; auto.
  - auto.
Qed.
Lemma said_clear v ls s o us : as_said ls s o us -> well_spoken v ls o -> Forall (clear v) us.
Proof.
  intros (_ & A & missing & P & _) [W1 W2]. apply Forall_forall. intros u Hu. destruct u as [|[e id|id] ns bin args].
  - exact I.
  - rewrite Forall_forall in W1. apply W1. eapply Permutation_in; [apply Permutation_sym; exact P|]. apply in_app_iff. left.
    apply filter_In. auto.
  - destruct (A _ _ _ _ Hu). auto.
Qed.
Lemma spoken_nonempty v u : clear v u -> spoken u <> Some [].
Proof.
  destruct u as [|src ns bin args]; cbn [spoken]; [discriminate|]. intros C H.
  destruct (gets_frames _ _ _ _ _ _ (clear_gets _ _ _ _ _ _ C H)) as (t & p & bl & E & _). discriminate.
Qed.
Lemma F2_app_inv {A B} (R : A -> B -> Prop) m1 : forall l m2, Forall2 R l (m1 ++ m2) ->
  exists l1 l2, l = l1 ++ l2 /\ Forall2 R l1 m1 /\ Forall2 R l2 m2.
Proof. intros l m2 H. apply Forall2_app_inv_r in H as (l1 & l2 & A1 & A2 & ->). eauto. Qed.
Lemma spoken_same us : forall qs qs', Forall2 (fun q u => spoken u = Some q) qs us -> Forall2 (fun q u => spoken u = Some q) qs' us -> qs = qs'.
Proof.
  induction us as [|u us IH]; intros qs qs' F F'; inversion F as [|q ? qs1 ? Hq F1]; inversion F' as [|q' ? qs1' ? Hq' F1']; subst; [reflexivity|].
  rewrite Hq in Hq'. injection Hq' as <-. f_equal. auto.
Qed.
Lemma conversation v log ls s o : client_run log ls s o -> no_raw ls -> well_spoken v ls o ->
  exists us1 us2 rest, as_said ls s o (us1 ++ us2) /\ hears v (writes o) (map meant us1) rest /\
    (rest = [] \/ exists u us more, us2 = u :: us /\ more <> [] /\ spoken u = Some (rest ++ more)) /\
    (writes o = concat (queued o) -> us2 = [] /\ rest = []).
Proof.
  intros Hr Hn Hw. destruct (run_as_said _ _ _ _ Hr Hn) as [us A]. pose proof (said_clear _ _ _ _ _ A Hw) as C.
  destruct (frames_contiguous _ _ _ (run_trace' _ _ _ _ Hr)) as [r E]. pose proof A as (F & _).
  destruct (heard_prefix v us (queued o) (writes o) r F C E) as (us1 & us2 & q1 & rest & -> & Hh & Ew & F1 & Hrest).
  exists us1, us2, rest. split; [exact A|]. split; [exact Hh|]. split; [exact Hrest|]. intros Eall.
  destruct (F2_app_inv _ _ _ _ F) as (qa & q2 & Eq & Fa & F2). rewrite (spoken_same _ _ _ Fa F1) in Eq. rewrite Eq, concat_app, Ew in Eall.
  apply app_inv_head in Eall. apply Forall_app in C as [_ C].
  destruct us2 as [|u us2]; inversion F2 as [|q ? q2' ? Hq F2']; subst; [auto|]. exfalso. inversion C as [|? ? Cu _]; subst. cbn [concat] in Hrest.
  destruct Hrest as [E0|(u' & us' & more & E1 & Nm & E2)].
  - apply app_eq_nil in E0 as [-> _]. exact (spoken_nonempty _ _ Cu Hq).
  - injection E1 as <- <-. rewrite Hq in E2. injection E2 as E2. apply (f_equal (@length _)) in E2. rewrite !app_length in E2.
    destruct more; [destruct (Nm eq_refl)|cbn [length] in E2; lia].
Qed.

(** ** Everything is heard some time *)
Lemma life_run log r : lives log r -> forall k, client_run log (deeds r k) (at_time r k) (seen r k).
Proof.
  intros [H0 H]. unfold client_run. induction k as [|k IH]; [cbn; rewrite H0; reflexivity|]. cbn [deeds seen]. specialize (H k).
  destruct (does r k) as [l|].
  - rewrite execute_app, IH. cbn. rewrite H, app_nil_r. reflexivity.
  - destruct H as [-> ->]. rewrite !app_nil_r. exact IH.
Qed.
Lemma clear_heard v us : forall qs, Forall2 (fun q u => spoken u = Some q) qs us -> Forall (clear v) us -> hears v (concat qs) (map meant us) [].
Proof.
  induction us as [|u us IH]; intros qs F C; inversion F as [|q ? qs' ? Hq F']; subst; [constructor|]. inversion C as [|? ? Cu C']; subst.
  cbn [concat map]. destruct u as [|src ns bin args]; cbn [spoken meant] in *.
  - injection Hq as <-. apply he_pong. auto.
  - apply he_packet; auto. apply clear_gets; assumption.
Qed.
Lemma all_heard v log r : lives log r -> writes_end r -> callbacks_end r -> fair_to log r LTake ->
  forall k, no_raw (deeds r k) -> well_spoken v (deeds r k) (seen r k) ->
  exists us, as_said (deeds r k) (at_time r k) (seen r k) us /\
  exists j, k <= j /\ (past_loop (at_time r j) \/ exists fs more, writes (seen r j) = fs ++ more /\ hears v fs (map meant us) []).
Proof.
  intros L W Cb Fa k Hn Hw. destruct (run_as_said _ _ _ _ (life_run _ _ L k) Hn) as [us A]. exists us. split; [exact A|].
  destruct (queued_is_written log r L W Cb Fa k) as (j & Hj & [P|[more E]]); exists j; (split; [exact Hj|]); [left; exact P|].
  right. exists (concat (queued (seen r k))), more. split; [exact E|]. apply clear_heard; [apply A|exact (said_clear _ _ _ _ _ A Hw)].
Qed.

(** ** Packets in turn *)
Lemma in_turn_calls log o ps cs : in_turn log o ps cs -> calls o = concat cs.
Proof.
  induction 1 as [o E|o ps cs m p out o' H IH Hc Hp E]; [exact E|].
  rewrite calls_app, IH. change (ORead m :: out ++ o') with ([ORead m] ++ out ++ o'). rewrite !calls_app, E, concat_app. cbn. rewrite !app_nil_r. reflexivity.
Qed.
Lemma in_turn_more log o ps cs o' : in_turn log o ps cs -> calls o' = [] -> in_turn log (o ++ o') ps cs.
Proof.
  intros H E. destruct H as [o E0|o ps cs m p out o2 H Hc Hp E2].
  - apply it_none. rewrite calls_app, E0, E. reflexivity.
  - rewrite <- app_assoc. cbn [app]. rewrite <- app_assoc. apply it_next; auto. rewrite calls_app, E2, E. reflexivity.
Qed.
Lemma no_calls o : (forall x, In x o -> ~ by_read x) -> calls o = [].
Proof.
  induction o as [|x o IH]; intros H; [reflexivity|]. change (x :: o) with ([x] ++ o). rewrite calls_app, IH by (intros y Hy; apply H; right; exact Hy).
  destruct x; try reflexivity. exfalso. exact (H _ (or_introl eq_refl) I).
Qed.
Lemma no_reads o : (forall x, In x o -> ~ by_read x) -> reads o = [].
Proof.
  induction o as [|x o IH]; intros H; [reflexivity|]. change (x :: o) with ([x] ++ o). rewrite reads_app, IH by (intros y Hy; apply H; right; exact Hy).
  destruct x; try reflexivity. exfalso. exact (H _ (or_introl eq_refl) I).
Qed.
Lemma reaction_reads log o m out : reaction log o m out -> reads out = [].
Proof. intros H. destruct H as [| | | | | | |x out Hd Ha Hm]; auto. destruct Hm as [ps p out _ _ Hp| | | | ]; auto. destruct Hp; auto. Qed.
Lemma all_in_turn log s o : trace log s o -> forall ps rest, assembled (messages (reads o)) ps rest -> exists cs, in_turn log o ps cs.
Proof.
  revert s o. apply (trace_ind2 log (fun s o => forall ps rest, assembled (messages (reads o)) ps rest -> exists cs, in_turn log o ps cs)).
  - intros ps rest H. cbn in H. inversion H; subst. exists []. apply it_none. reflexivity.
  - intros s o m s' o' Ht IH H ps rest Ha. destruct (reaction_exact _ _ _ _ _ _ Ht H) as (out & -> & Hr).
    assert (K : messages (reads (o ++ ORead m :: out)) = messages (reads o ++ [m])).
    { f_equal. rewrite reads_app. f_equal. change (ORead m :: out) with ([ORead m] ++ out). rewrite reads_app, (reaction_reads _ _ _ _ Hr). reflexivity. }
    rewrite K, messages_snoc in Ha. clear K.
    assert (Same : calls out = [] -> assembled (messages (reads o)) ps rest -> exists cs, in_turn log (o ++ ORead m :: out) ps cs).
    { intros E Ha'. destruct (IH _ _ Ha') as [cs Hc]. exists cs. apply in_turn_more; [exact Hc|]. cbn. exact E. }
    destruct Hr as [Hd|e Hd He|x Hd He|Hd He|Hd He|Hd He _|Hd He _|x out Hd He Hm]; rewrite Hd in Ha;
      try (apply engine_answer_decode in He; rewrite He in Ha); try (rewrite app_nil_r in Ha; apply Same; [reflexivity|exact Ha]).
    assert (He' := proj2 (engine_answer_decode _ _ _) He).
    destruct Hm as [ps0 p out [rest0 H0] H1 Hp|ps0 rest1 [rest0 H0] H1 Hn|ps0 e H0 E|ps0 H0 E|ps0 t l q e H0 E En Ee].
    + destruct (assembled_unique _ _ _ Ha _ _ H1) as [-> ->]. destruct (IH _ _ H0) as [cs Hc]. exists (cs ++ [calls out]).
      rewrite <- (app_nil_r out) at 1. apply it_next; auto. split; [exact Hd|]. exists x, ps0, rest0. auto.
    + destruct (assembled_unique _ _ _ Ha _ _ H1) as [-> ->]. destruct (IH _ _ H0) as [cs Hc]. exists cs. apply in_turn_more; [exact Hc|reflexivity].
    + exfalso. destruct (assembled_cancel _ _ H0 _ _ _ Ha) as (ps2 & -> & H2).
      apply assembled_single in H2 as [(? & ? & -> & E' & _)|(? & ? & -> & E' & _)]; rewrite E in E'; discriminate.
    + exfalso. destruct (assembled_cancel _ _ H0 _ _ _ Ha) as (ps2 & -> & H2).
      apply assembled_single in H2 as [(? & ? & -> & E' & _)|(? & ? & -> & E' & _)]; rewrite E in E'; discriminate.
    + exfalso. destruct (assembled_extend _ _ _ _ _ _ H0 Ha) as (ps2 & -> & H2). cbn [app] in H2.
      apply assembled_cons in H2 as [(t' & q' & n & Et & _ & _ & E' & En' & L)|(t' & l1 & l2 & p & ps3 & Et & El & -> & Hrc & _)].
      * injection Et as <-. rewrite E in E'. injection E' as <-. rewrite En in En'. injection En' as <-. lia.
      * injection Et as <-. destruct (received_length _ _ _ Hrc) as [[E' _]|(q' & E' & En')]; rewrite E in E'; [discriminate|]. injection E' as <-.
        rewrite En in En'. injection En' as En'. apply Nnat.Nat2N.inj in En'.
        assert (l2 = []) as ->. { apply (f_equal (@length _)) in El. rewrite (app_length l1) in El. destruct l2; [reflexivity|cbn [length] in El; lia]. }
        rewrite app_nil_r in El. subst l1. destruct Hrc as [[E' _]|(q' & E' & Ep)]; rewrite E in E'; [discriminate|]. injection E' as <-. rewrite Ee in Ep. discriminate.
  - intros s o l s' o' Ht IH Hl H ps rest Ha.
    assert (N : forall x, In x o' -> ~ by_read x). { intros x Hx Hb. destruct (by_read_label _ _ _ _ _ _ H Hx Hb) as [m ->]. exact (Hl m eq_refl). }
    rewrite reads_app, (no_reads _ N), app_nil_r in Ha. destruct (IH _ _ Ha) as [cs Hc]. exists cs. apply in_turn_more; [exact Hc|]. apply no_calls, N.
Qed.

(** ** What the server says *)
Lemma third_frames v bl : v = Third \/ bl = [] -> map (attachment_frame v) bl = map frame bl.
Proof. intros [-> | ->]; reflexivity. Qed.
Lemma understood_kind p ts : understood p ts -> exists k, sio_kind k (o_type p).
Proof. unfold understood. destruct (o_type p); intros H; try contradiction; [exists KDisconnect|exists KEvent|exists KAck|exists KEvent|exists KAck]; cbn; auto. Qed.
Lemma saying_active v x : plain_saying v x -> state_after DActive (saying_frames v x) = DActive /\
  match x with
  | SPing => answers DActive (saying_frames v x) = [Ok PktPing]
  | SPacket _ _ => exists m l p, answers DActive (saying_frames v x) = map (fun e => Ok (PktMessage e)) (MText m :: l) /\ received m l p /\ taken_as p x
  end.
Proof.
  destruct x as [|p bl]; cbn [plain_saying saying_frames]; [intros _; split; reflexivity|]. intros (S & Hn & Hv & ts & Ha & Hu).
  destruct (understood_kind _ _ Hu) as [k Hk]. destruct sample_opened as [Ho Hc].
  destruct (proj2 (client_exact v [sample_open] p bl ts k Ho Hc S Hn Ha Hk) (conj Hv Hu)) as (q & Hq & V).
  rewrite (third_frames _ _ Hv) in *. split; [cbn [state_after decode fst]; apply frames_stay|].
  pose proof Hq as Hr. apply arrives_received in Hr; [|assumption|assumption]. exists (tsub (sio_encode p)), (bmsgs bl), q. split; [|split; [exact Hr|]].
  - pose proof (decode_frames [sample_open] (sio_encode p) bl Ho Hc) as D.
    unfold history_answers, decoder_new in D. rewrite answers_app in D. apply app_inv_head in D.
    rewrite (proj2 (state_active _) (conj Ho Hc)) in D. exact D.
  - exists k, ts. auto.
Qed.
Definition emsgs (l : list (res eerror epacket)) : list emsg := flat_map (fun r => match r with Ok (PktMessage m) => [m] | _ => [] end) l.
Definition epings (l : list (res eerror epacket)) : nat := length (filter (fun r => match r with Ok PktPing => true | _ => false end) l).
Lemma emsgs_map l : emsgs (map (fun e => Ok (PktMessage e)) l) = l.
Proof. unfold emsgs. induction l as [|e l IH]; [reflexivity|]. cbn. f_equal. exact IH. Qed.
Lemma epings_map l : epings (map (fun e => Ok (PktMessage e)) l) = 0.
Proof. unfold epings. induction l as [|e l IH]; [reflexivity|]. exact IH. Qed.
Lemma epings_app a b : epings (a ++ b) = epings a + epings b.
Proof. unfold epings. rewrite filter_app, app_length. reflexivity. Qed.
Lemma emsgs_app a b : emsgs (a ++ b) = emsgs a ++ emsgs b.
Proof. apply flat_map_app. Qed.
Lemma sayings_heard v ss : Forall (plain_saying v) ss ->
  state_after DActive (concat (map (saying_frames v) ss)) = DActive /\
  exists ps, assembled (emsgs (answers DActive (concat (map (saying_frames v) ss)))) ps [] /\ Forall2 taken_as ps (filter is_packet ss) /\
    epings (answers DActive (concat (map (saying_frames v) ss))) = length (filter (fun x => negb (is_packet x)) ss).
Proof.
  induction 1 as [|x ss Hx Hs [IH1 (ps & IH2 & IH3 & IH4)]].
  - split; [reflexivity|]. exists []. split; [constructor|]. split; [constructor|reflexivity].
  - cbn [map concat]. destruct (saying_active v x Hx) as [A B]. rewrite answers_app, state_after_app, A. split; [exact IH1|].
    rewrite emsgs_app, epings_app. destruct x as [|q bl].
    + rewrite B. exists ps. cbn. split; [exact IH2|]. split; [exact IH3|]. rewrite IH4. reflexivity.
    + destruct B as (m & l & p & -> & Hr & Ht). rewrite emsgs_map, epings_map. exists (p :: ps). cbn [filter is_packet negb].
      split; [cbn [app]; apply as_packet; assumption|]. split; [constructor; assumption|]. rewrite IH4. reflexivity.
Qed.
Lemma saying_nonempty v x : saying_frames v x <> [].
Proof. destruct x; discriminate. Qed.
Lemma sayings_cut v ss : forall fs more, concat (map (saying_frames v) ss) = fs ++ more ->
  exists ss1 ss2 part, ss = ss1 ++ ss2 /\ fs = concat (map (saying_frames v) ss1) ++ part /\
    (part = [] \/ exists x ss' more', ss2 = x :: ss' /\ saying_frames v x = part ++ more' /\ more' <> []).
Proof.
  induction ss as [|x ss IH]; intros fs more E; cbn [map concat] in E.
  - symmetry in E. apply app_eq_nil in E as [-> _]. exists [], [], []. auto.
  - destruct (app_prefix _ _ _ _ E) as [(r & -> & Er)|(c & r & Ec)].
    + destruct (IH r more Er) as (ss1 & ss2 & part & -> & -> & Hp). exists (x :: ss1), ss2, part. cbn [map concat app]. rewrite app_assoc. auto.
    + exists [], (x :: ss), fs. split; [reflexivity|]. split; [reflexivity|]. right. exists x, ss, (c :: r). split; [reflexivity|]. split; [exact Ec|discriminate].
Qed.
Lemma answers_length d fs : length (answers d fs) = length fs.
Proof. revert d. induction fs as [|f fs IH]; intros d; [reflexivity|]. cbn [answers]. destruct (decode d f). cbn. f_equal. apply IH. Qed.
Lemma part_heard v x part more : plain_saying v x -> saying_frames v x = part ++ more -> more <> [] -> part <> [] ->
  exists rest, assembled (emsgs (answers DActive part)) [] rest /\ epings (answers DActive part) = 0.
Proof.
  intros Hx E Nm Np. destruct (saying_active v x Hx) as [_ B]. destruct x as [|q bl].
  - exfalso. destruct part as [|f [|g part]]; [congruence| |discriminate]. cbn in E. injection E as _ E. destruct more; [congruence|discriminate].
  - destruct B as (m & l & p & Ea & Hr & _). rewrite E, answers_app in Ea.
    symmetry in Ea. apply map_eq_app in Ea as (e1 & e2 & E12 & E1 & E2).
    pose proof (f_equal (@length _) E1) as L1. rewrite answers_length in L1. rewrite <- E1, emsgs_map, epings_map.
    destruct e1 as [|e e1]; [exfalso|].
    + destruct part; [congruence|discriminate].
    + cbn [app] in E12. injection E12 as <- ->. exists (MText m :: e1). split; [|reflexivity].
      assert (N2 : e2 <> []). { intros ->. cbn in E2. apply (f_equal (@length _)) in E2. rewrite answers_length in E2. destruct more; [congruence|discriminate]. }
      destruct (received_length _ _ _ Hr) as [[_ El]|(q' & Ed & En)]; [destruct e1; [contradiction|discriminate]|].
      eapply as_waiting; [exact Ed|exact En|]. rewrite app_length. destruct e2; [congruence|]. cbn [length]. lia.
Qed.
Lemma one_open f : opened [f] -> exists x, history_answers [f] = [Ok (PktOpen x)].
Proof.
  intros (i & x & H). unfold answer_at, history_answers in *. cbn [answers] in *. destruct (decode decoder_new f) as [d r].
  destruct i as [|[|i]]; [injection H as ->; eauto|discriminate|discriminate].
Qed.
Lemma one_open_active f : opened [f] -> state_after DInitial [f] = DActive.
Proof.
  intros H. apply state_active. split; [exact H|]. intros [i Hi]. destruct (one_open f H) as [x E]. unfold close_at, answer_at in Hi. rewrite E in Hi.
  destruct i as [|[|i]]; discriminate.
Qed.
Lemma client_hears v log s o f fs more ss : trace log s o -> opened [f] -> Forall (plain_saying v) ss ->
  data_frames (reads o) = f :: fs -> fs ++ more = concat (map (saying_frames v) ss) ->
  exists ss1 ss2 part ps cs, ss = ss1 ++ ss2 /\ fs = concat (map (saying_frames v) ss1) ++ part /\
    (part = [] \/ exists x ss' more', ss2 = x :: ss' /\ saying_frames v x = part ++ more' /\ more' <> []) /\
    in_turn log o ps cs /\ calls o = concat cs /\ Forall2 taken_as ps (filter is_packet ss1) /\
    ping_count (reads o) = length (filter (fun x => negb (is_packet x)) ss1).
Proof.
  intros Ht Ho Hs Ef Em. symmetry in Em. destruct (sayings_cut _ _ _ _ Em) as (ss1 & ss2 & part & -> & -> & Hp).
  apply Forall_app in Hs as [Hs1 Hs2]. destruct (sayings_heard v ss1 Hs1) as [A (ps & B & C & D)].
  assert (H : exists rest, assembled (emsgs (answers DActive part)) [] rest /\ epings (answers DActive part) = 0).
  { destruct Hp as [-> |(x & ss' & more' & -> & Ex & Nm)]; [exists []; split; [constructor|reflexivity]|].
    destruct part as [|g part]; [exists []; split; [constructor|reflexivity]|]. inversion Hs2; subst. eapply part_heard; eauto. discriminate. }
  destruct H as (rest & H1 & H2). destruct (one_open f Ho) as [x Ex].
  assert (E : history_answers (data_frames (reads o)) = Ok (PktOpen x) :: answers DActive (concat (map (saying_frames v) ss1)) ++ answers DActive part).
  { rewrite Ef. change (f :: ?l) with ([f] ++ l). unfold history_answers, decoder_new in *. rewrite answers_app, Ex, (one_open_active f Ho), answers_app, A. reflexivity. }
  assert (As : assembled (messages (reads o)) ps rest).
  { unfold messages. rewrite E. change (assembled (emsgs (answers DActive (concat (map (saying_frames v) ss1)) ++ answers DActive part)) ps rest).
    rewrite emsgs_app, <- (app_nil_r ps). eapply assembled_app; eauto. }
  destruct (all_in_turn _ _ _ Ht _ _ As) as [cs Hc]. exists ss1, ss2, part, ps, cs.
  split; [reflexivity|]. split; [reflexivity|]. split; [exact Hp|]. split; [exact Hc|]. split; [exact (in_turn_calls _ _ _ _ Hc)|].
  split; [exact C|]. unfold ping_count. rewrite E.
  change (epings (answers DActive (concat (map (saying_frames v) ss1)) ++ answers DActive part) = length (filter (fun x => negb (is_packet x)) ss1)).
  rewrite epings_app, D, H2. lia.
Qed.
