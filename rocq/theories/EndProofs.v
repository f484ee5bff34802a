(** The end of the connection task (C38, C39). *)
From Verif Require Export EmitProofs.

Lemma requests_ends n l : Forall (fun x => ~ ends x) (requests n l).
Proof. apply Forall_forall. intros x H. apply requests_form in H as [id ->]. intros []. Qed.
Lemma reaction_ends log o m out : reaction log o m out -> (exists e, out = [OEnd e]) \/ Forall (fun x => ~ ends x) out.
Proof.
  intros [| | | | | | |x out' _ _ H]; eauto; try (right; repeat constructor; intros []; fail).
  destruct H as [ps p out2 _ _ H| | | |]; eauto; try (right; repeat constructor; intros []; fail).
  destruct H; eauto; try (right; repeat constructor; intros []; fail).
Qed.
(** A step that ends the task ends with that observation. *)
Lemma read_end log s o m s' o' : trace log s o -> step log s (LRead m) = Some (s', o') ->
  (Forall (fun x => ~ ends x) o' /\ task_ended s' = false) \/
  (exists e oa, o' = oa ++ [OEnd e] /\ Forall (fun x => ~ ends x) oa /\ s_phase s' = PEnded e).
Proof.
  intros Ht H. destruct (reaction_exact _ _ _ _ _ _ Ht H) as (out & E & Hr).
  apply read_label in H as (b & Hp & Hw & H). pose proof (read_step_obs log b m s) as Ho. rewrite H in Ho. cbn [snd] in Ho.
  apply read_step_fields in H as (_ & _ & _ & _ & _ & _ & _ & _ & _ & _ & _ & F).
  rewrite E in Ho. injection Ho as Ho.
  destruct (pr_outcome _) as [[u|e|]|p c]; cbn [outcome_obs] in Ho.
  - left. split.
    + rewrite E. constructor; [intros []|]. destruct (reaction_ends _ _ _ _ Hr) as [[e ->]|]; [|assumption].
      exfalso. symmetry in Ho. rewrite app_nil_r in Ho.
      destruct (pr_open _); [discriminate|]. destruct (pr_queue _); [destruct (_ || _); discriminate|discriminate].
    + unfold task_ended. rewrite F, Hp. destruct b; reflexivity.
  - right. exists (EndErr e). rewrite E, Ho. eexists (ORead m :: _ ++ _). rewrite <- app_comm_cons, <- app_assoc. split; [reflexivity|]. split; [|exact F].
    constructor; [intros []|]. apply Forall_app. split; [destruct (pr_open _)|destruct (pr_queue _); [destruct (_ || _)|]]; repeat constructor; intros [].
  - right. exists EndPanic. rewrite E, Ho. eexists (ORead m :: _ ++ _). rewrite <- app_comm_cons, <- app_assoc. split; [reflexivity|]. split; [|exact F].
    constructor; [intros []|]. apply Forall_app. split; [destruct (pr_open _)|destruct (pr_queue _); [destruct (_ || _)|]]; repeat constructor; intros [].
  - left. split.
    + rewrite E. constructor; [intros []|]. rewrite Ho. rewrite !Forall_app. repeat split; [destruct (pr_open _)|destruct (pr_queue _); [destruct (_ || _)|]|]; repeat constructor; intros [].
    + unfold task_ended. rewrite F. reflexivity.
Qed.
Lemma step_end log s o l s' o' : trace log s o -> step log s l = Some (s', o') ->
  (Forall (fun x => ~ ends x) o' /\ (forall e, s_phase s' = PEnded e <-> s_phase s = PEnded e)) \/
  (exists e oa, o' = oa ++ [OEnd e] /\ Forall (fun x => ~ ends x) oa /\ s_phase s' = PEnded e /\ task_ended s = false).
Proof.
  intros Ht H. assert (Hl : (exists m, l = LRead m) \/ forall m, l <> LRead m) by (destruct l; eauto; right; discriminate).
  destruct Hl as [[m ->]|Hl].
  - assert (He : forall e, s_phase s <> PEnded e).
    { apply read_label in H as (b & Hp & _). rewrite Hp. destruct b; discriminate. }
    destruct (read_end _ _ _ _ _ _ Ht H) as [[H1 H2]|(e & oa & E & H1 & H2)]; [left|right].
    + split; [exact H1|]. intros e. split; intros Hx; [unfold task_ended in H2; rewrite Hx in H2; discriminate|destruct (He e Hx)].
    + exists e, oa. conj; auto. unfold task_ended. destruct (s_phase s); try reflexivity. destruct (He _ eq_refl).
  - pose proof (unborn _ _ _ Ht) as Hu. unfold task_ended. other_cases H Hl; cbn.
    all: try (right; first [eexists; exists []; split; [reflexivity|]|eexists; eexists; split; [reflexivity|]]; split; [first [constructor|apply requests_ends]|]; split; [reflexivity|]; 
      first [reflexivity|match goal with E : s_phase ?s = _ |- _ => rewrite E; reflexivity end]).
    all: try (left; split; [rewrite ?Forall_app; repeat split; repeat constructor; try (apply requests_ends); intros []|]).
    all: try (intros ?; reflexivity).
    all: try (intros ?; rewrite ?E, ?E0, ?E1; split; discriminate).
    all: try (match goal with E : s_phase ?s = _ |- _ => rewrite E; intros ?; reflexivity end).
    all: try (match goal with E : s_phase ?s = _ |- _ => rewrite E; intros ?; split; discriminate end).
    all: try (rewrite (Hu eq_refl); intros ?; split; discriminate).
    all: try (intros ?; unfold sending; match goal with |- context [match ?x with [] => _ | _ => _ end] => destruct x end; split; discriminate).
Qed.

Lemma trace_ended log s o : trace log s o -> forall e, s_phase s = PEnded e <-> In (OEnd e) o.
Proof.
  intros Ht. revert s o Ht. apply (trace_ind log (fun s o => forall e, s_phase s = PEnded e <-> In (OEnd e) o)).
  - intros e. split; [discriminate|intros []].
  - intros s o l s' o' Ht IH H e. rewrite in_app_iff, <- IH.
    destruct (step_end _ _ _ _ _ _ Ht H) as [[H1 H2]|(e' & oa & -> & H1 & H2 & H3)].
    + rewrite H2. split; [auto|]. intros [Hx|Hx]; [exact Hx|]. rewrite Forall_forall in H1. destruct (H1 _ Hx I).
    + rewrite H2, in_app_iff. unfold task_ended in H3. split.
      * intros [= ->]. right. right. left. reflexivity.
      * intros [Hx|[Hx|[Hx|[]]]]; [rewrite Hx in H3; discriminate| |congruence].
        rewrite Forall_forall in H1. destruct (H1 _ Hx I).
Qed.
Lemma ended_iff log s o : trace log s o -> (task_ended s = true <-> exists e, In (OEnd e) o).
Proof.
  intros Ht. unfold task_ended. split.
  - destruct (s_phase s) eqn:E; try discriminate. intros _. exists e. apply (trace_ended _ _ _ Ht). exact E.
  - intros [e He]. apply (trace_ended _ _ _ Ht) in He. rewrite He. reflexivity.
Qed.
(** At most one end. *)
Lemma requests_after n l : Forall after_end (requests n l).
Proof. apply Forall_forall. intros x H. apply requests_form in H as [id ->]. exact I. Qed.
Lemma step_after_end log s o l s' o' : trace log s o -> task_ended s = true -> step log s l = Some (s', o') ->
  task_ended s' = true /\ Forall after_end o'.
Proof.
  intros Ht He H. split.
  - destruct (step_end _ _ _ _ _ _ Ht H) as [[_ H2]|(e & oa & _ & _ & _ & H3)]; [|congruence].
    unfold task_ended in *. destruct (s_phase s) eqn:E; try discriminate. rewrite (proj2 (H2 e) eq_refl). reflexivity.
  - assert (Hl : forall m, l <> LRead m).
    { intros m ->. apply read_label in H as (b & Hp & _). unfold task_ended in He. rewrite Hp in He. destruct b; discriminate. }
    pose proof (unborn _ _ _ Ht) as Hu.
    unfold task_ended in He. other_cases H Hl; cbn; try discriminate He.
    all: try (unfold task_ended in *; match goal with E : s_phase ?s = _ |- _ => rewrite E in *; discriminate end).
    all: try (rewrite ?Forall_app; repeat split; repeat constructor; apply requests_after).
    all: exfalso; match goal with E : (_ || _) = false |- _ => apply orb_false_iff in E as [_ E]; unfold task_ended in E; cbn in E; rewrite He in E; discriminate end.
Qed.
Lemma execute_after_end log ls : forall s o s' o', trace log s o -> task_ended s = true ->
  execute log s ls = Some (s', o') -> task_ended s' = true /\ Forall after_end o'.
Proof.
  induction ls as [|l ls IH]; intros s o s' o' Ht He H; cbn [execute] in H.
  - injection H as <- <-. auto.
  - destruct (step log s l) as [[s1 o1]|] eqn:E1; [|discriminate]. destruct (execute log s1 ls) as [[s2 o2]|] eqn:E2; [|discriminate].
    injection H as <- <-. destruct (step_after_end _ _ _ _ _ _ Ht He E1) as [H1 H2].
    destruct (IH _ _ _ _ (trace_step _ _ _ _ _ _ Ht E1) H1 E2) as [H3 H4]. split; [exact H3|]. apply Forall_app. auto.
Qed.
(** C38 *)
Lemma nothing_after_end log s o1 e o2 : trace log s (o1 ++ OEnd e :: o2) ->
  Forall (fun x => ~ ends x) o1 /\ Forall after_end o2 /\ s_phase s = PEnded e.
Proof.
  intros Ht. destruct (trace_split _ _ _ _ _ _ Ht eq_refl) as (s0 & o0 & l & s1 & oa & ob & o3 & H1 & H2 & H3 & -> & -> & ls & Hls).
  assert (Hp : s_phase s = PEnded e) by (apply (trace_ended _ _ _ Ht); apply in_app_iff; cbn; auto).
  destruct (step_end _ _ _ _ _ _ H1 H2) as [[K _]|(e' & ox & E & K1 & K2 & K3)].
  { apply Forall_app in K as [_ K]. inversion K as [|? ? Hx]; subst. destruct (Hx I). }
  assert (oa = ox /\ ob = [] /\ e = e') as (-> & -> & ->).
  { assert (Hob : ob = [] \/ exists y ys, ob = ys ++ [y]) by (destruct ob as [|y ys] using rev_ind; eauto).
    destruct Hob as [->|(y & ys & ->)].
    - apply app_inj_tail in E as [-> E]. injection E as ->. auto.
    - exfalso. rewrite app_comm_cons, app_assoc in E. apply app_inj_tail in E as [<- ->].
      apply Forall_app in K1 as [_ K1]. inversion K1 as [|? ? Hx]; subst. destruct (Hx I). }
  split; [|split; [|exact Hp]].
  - apply Forall_app. split; [|exact K1]. apply Forall_forall. intros x Hx. destruct x as [| |e2| | | | | | | | | | | | | |]; try (intros []; fail).
    intros _. assert (Q : task_ended s0 = true) by (apply (ended_iff _ _ _ H1); eauto). congruence.
  - refine (proj2 (execute_after_end _ _ _ _ _ _ H3 _ Hls)). unfold task_ended. rewrite K2. reflexivity.
Qed.

(** C39: an error ends the task directly after the read that it rejects; everything read before has
    had its effect. *)
Lemma error_ends log s o1 e o2 : trace log s (o1 ++ OEnd (EndErr e) :: o2) ->
  exists o0 m, o1 = o0 ++ [ORead m] /\ reaction log o0 m [OEnd (EndErr e)] /\
    (forall oa m' ob, o0 = oa ++ ORead m' :: ob -> exists out oc, ob = out ++ oc /\ reaction log oa m' out /\ Forall (fun x => ~ ends x) out) /\
    Forall after_end o2.
Proof.
  intros Ht. destruct (nothing_after_end _ _ _ _ _ Ht) as (N1 & N2 & _).
  destruct (by_read_follows _ _ _ _ _ Ht I) as (o0 & m & -> & Hr); [discriminate|].
  exists o0, m. conj; auto. intros oa m' ob ->.
  rewrite <- !app_assoc in Ht. cbn [app] in Ht.
  destruct (read_in_trace _ _ _ _ _ Ht) as (s0 & s1 & out & o3 & H1 & H2 & H3 & H4 & E & _).
  exists out. apply Forall_app in N1 as [N1 _]. apply Forall_app in N1 as [_ N1]. inversion N1 as [|? ? _ N3]; subst.
  assert (Hc : (exists oc, ob = out ++ oc) \/ (exists r, r <> [] /\ out = ob ++ r)).
  { clear -E. revert out E. induction ob as [|x ob IH]; intros out E; [destruct out; [left; exists []; reflexivity|right; eexists; split; [|reflexivity]; discriminate]|].
    destruct out as [|y out]; [left; exists (x :: ob); reflexivity|]. cbn [app] in E. injection E as -> E. destruct (IH _ E) as [[oc ->]|(r & Hr & ->)]; [left; exists oc; reflexivity|right; exists r; auto]. }
  destruct Hc as [[oc ->]|(r & Hn & ->)].
  - exists oc. conj; auto. apply Forall_app in N3. apply N3.
  - exfalso. rewrite <- app_assoc in E. apply app_inv_head in E.
    destruct r as [|x r]; [congruence|]. injection E as <- E.
    destruct (reaction_short _ _ _ _ H3) as [Q|[z Q]]; [destruct ob; discriminate|].
    destruct ob; [|destruct ob; discriminate]. injection Q as <- ->. cbn [app] in H3.
    clear -H3. inversion H3 as [| | | | | | |x out' _ _ H]; subst. inversion H as [ps p out _ _ H'| | | |]; subst. inversion H'.
Qed.

(** The reaction to a message is determined by what was observed before. *)
Lemma not_packet_single x e ps rest : deserialize x = Err e -> ~ assembled [x] ps rest.
Proof. intros E H. apply assembled_single in H as [(m & q & _ & Hd & _)|(m & p' & _ & Hd & _)]; congruence. Qed.
Lemma panic_single x ps rest : deserialize x = Panic -> ~ assembled [x] ps rest.
Proof. intros E H. apply assembled_single in H as [(m & q & _ & Hd & _)|(m & p' & _ & Hd & _)]; congruence. Qed.
Lemma not_completed_ext m l x q e ps rest : deserialize (MText m) = Ok (DDataNeeded q) ->
  partial_attachments q = Some (N.of_nat (length (l ++ [x]))) -> deserialize_partial q (l ++ [x]) = Err e ->
  ~ assembled ((MText m :: l) ++ [x]) ps rest.
Proof.
  intros E En Ee H. cbn [app] in H.
  apply assembled_cons in H as [(m' & q' & n' & Ex & _ & _ & E' & En' & L)|(m' & l1 & l2 & p' & ps'' & Ex & Em & _ & Hr & H')]; injection Ex as <-.
  - rewrite E in E'. injection E' as <-. rewrite En in En'. injection En' as <-. lia.
  - pose proof Hr as Hr'. apply received_length in Hr' as [[E' ->]|(q' & E' & En')]; [congruence|].
    rewrite E in E'. injection E' as <-. rewrite En in En'. injection En' as En'. apply Nat2N.inj in En'.
    assert (l1 = l ++ [x]) as ->.
    { rewrite <- (firstn_all (l ++ [x])), En', Em, firstn_app, firstn_all, Nat.sub_diag, firstn_O, app_nil_r. reflexivity. }
    destruct Hr as [[E' _]|(q' & E' & Ep)]; [congruence|]. rewrite E in E'. injection E' as <-. congruence.
Qed.
Lemma message_reaction_unique log o x out out' : message_reaction log o x out -> message_reaction log o x out' -> out = out'.
Proof.
  assert (Hext : forall ps rest ps' rest', assembled (messages (reads o)) ps rest -> assembled (messages (reads o) ++ [x]) ps' rest' ->
    exists qs, assembled (rest ++ [x]) qs rest').
  { intros ps rest ps' rest' H H'. destruct (assembled_extend _ _ _ _ _ _ H H') as (qs & _ & Hq). eauto. }
  intros H H'.
  destruct H as [ps p out [r0 Ha] Hx Hp|ps rest [r0 Ha] Hx Hn|ps e Ha E|ps Ha E|ps m l q e Ha E En Ee];
  destruct H' as [ps' p' out' [r0' Ha'] Hx' Hp'|ps' rest' [r0' Ha'] Hx' Hn'|ps' e' Ha' E'|ps' Ha' E'|ps' m' l' q' e' Ha' E' En' Ee'];
    try reflexivity; try congruence;
    destruct (assembled_unique _ _ _ Ha _ _ Ha') as [Ep Er]; try discriminate; subst;
    try (destruct (Hext _ _ _ _ Ha Hx) as [qs Hq]; exfalso; first [eapply not_packet_single; eassumption|eapply panic_single; eassumption|eapply not_completed_ext; eassumption]; fail);
    try (destruct (Hext _ _ _ _ Ha Hx') as [qs Hq]; exfalso; first [eapply not_packet_single; eassumption|eapply panic_single; eassumption|eapply not_completed_ext; eassumption]; fail).
  - destruct (assembled_unique _ _ _ Hx _ _ Hx') as [E _]. apply app_inv_head in E. injection E as <-. eapply packet_reaction_unique; eauto.
  - destruct (assembled_unique _ _ _ Hx _ _ Hx') as [_ E]. congruence.
  - destruct (assembled_unique _ _ _ Hx _ _ Hx') as [_ E]. congruence.
  - injection Er as <- <-. rewrite E in E'. injection E' as <-. congruence.
Qed.
Lemma reaction_unique log o m out out' : reaction log o m out -> reaction log o m out' -> out = out'.
Proof.
  intros H H'. destruct H; destruct H'; try reflexivity; try congruence;
    try (match goal with H : engine_answer _ _ _, K : engine_answer _ _ _ |- _ => pose proof (engine_answer_unique _ _ _ _ H K) as Q; try discriminate; try (injection Q as <-) end);
    try congruence; try contradiction.
  eapply message_reaction_unique; eassumption.
Qed.
Lemma rejected_ends log s o m e s' o' : trace log s o -> step log s (LRead m) = Some (s', o') ->
  reaction log o m [OEnd (EndErr e)] -> o' = [ORead m; OEnd (EndErr e)] /\ s_phase s' = PEnded (EndErr e).
Proof.
  intros Ht H Hr. destruct (reaction_exact _ _ _ _ _ _ Ht H) as (out & -> & Hr').
  rewrite (reaction_unique _ _ _ _ _ Hr' Hr). split; [reflexivity|].
  rewrite (reaction_unique _ _ _ _ _ Hr' Hr) in H.
  apply (trace_ended _ _ _ (trace_step _ _ _ _ _ _ Ht H)). apply in_app_iff. cbn. auto.
Qed.
