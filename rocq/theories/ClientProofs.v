(** Statements about traces, derived from the invariant and the reaction to reads. *)
From Verif Require Export ReactProofs.

(** ** Where an observation comes from *)
Lemma trace_split log s o x o1 o2 : trace log s o -> o = o1 ++ x :: o2 ->
  exists s0 o0 l s1 oa ob o3, trace log s0 o0 /\ step log s0 l = Some (s1, oa ++ x :: ob) /\
    trace log s1 (o0 ++ oa ++ x :: ob) /\
    o1 = o0 ++ oa /\ o2 = ob ++ o3 /\ exists ls, execute log s1 ls = Some (s, o3).
Proof.
  intros Ht. revert o1 o2. revert s o Ht.
  apply (trace_ind log (fun s o => forall o1 o2, o = o1 ++ x :: o2 ->
   exists s0 o0 l s1 oa ob o3, trace log s0 o0 /\ step log s0 l = Some (s1, oa ++ x :: ob) /\
    trace log s1 (o0 ++ oa ++ x :: ob) /\
    o1 = o0 ++ oa /\ o2 = ob ++ o3 /\ exists ls, execute log s1 ls = Some (s, o3))).
  - intros o1 o2 E. destruct o1; discriminate.
  - intros s o l s' o' Ht IH H o1 o2 E.
    assert (Hc : (exists m, o = o1 ++ x :: m /\ o2 = m ++ o') \/ (exists m, o1 = o ++ m /\ o' = m ++ x :: o2)).
    { clear -E. revert o1 E. induction o as [|y o IH]; intros o1 E; cbn [app] in E; [right; exists o1; auto|].
      destruct o1 as [|z o1]; cbn [app] in E; injection E as -> E.
      - left. exists o. auto.
      - destruct (IH _ E) as [(m & -> & ->)|(m & -> & ->)]; [left|right]; exists m; auto. }
    destruct Hc as [(m & Eo & ->)|(m & -> & ->)].
    + destruct (IH _ _ Eo) as (s0 & o0 & l0 & s1 & oa & ob & o3 & H1 & H2 & H3 & -> & -> & ls & Hls).
      exists s0, o0, l0, s1, oa, ob, (o3 ++ o'). do 4 (split; [assumption || reflexivity|]). split; [symmetry; apply app_assoc|].
      exists (ls ++ [l]). rewrite execute_app, Hls. cbn [execute]. rewrite H. rewrite app_nil_r. reflexivity.
    + exists s, o, l, s', m, o2, []. split; [exact Ht|]. split; [exact H|]. split; [eapply trace_step; eauto|].
      split; [reflexivity|]. split; [rewrite app_nil_r; reflexivity|]. exists []. reflexivity.
Qed.

(** Observations that only reading produces. *)
Definition by_read (x : obs) : Prop :=
  match x with
  | ORead _ | OCall _ _ | OOpened _ | OEnd (EndErr _) => True
  | OQueued ByReceiver _ | OLost ByReceiver _ => True
  | _ => False
  end.
Lemma requests_not_read n l x : In x (requests n l) -> ~ by_read x.
Proof. intros H. apply requests_form in H as [id ->]. intros []. Qed.
Lemma by_read_label log s l s' o' x : step log s l = Some (s', o') -> In x o' -> by_read x -> exists m, l = LRead m.
Proof.
  intros H Hi Hx. assert (Hl : (exists m, l = LRead m) \/ forall m, l <> LRead m) by (destruct l; eauto; right; discriminate).
  destruct Hl as [Hl|Hl]; [exact Hl|exfalso]. unfold step, push, emit_origin in H.
  destruct l; try (destruct (Hl _ eq_refl); fail).
  all: step_cases H.
  all: injection H as <- <-.
  all: try (repeat (apply in_app_iff in Hi as [Hi|Hi]); try (apply (requests_not_read _ _ _ Hi Hx));
     repeat (destruct Hi as [<-|Hi]); try destruct Hi; try destruct Hx; fail).
Qed.
Lemma reaction_short log o m out : reaction log o m out -> out = [] \/ exists x, out = [x].
Proof.
  intros [| | | | | | |x out' _ _ H]; eauto. destruct H as [ps p out2 _ _ H| | | |]; eauto.
  destruct H; eauto.
Qed.
(** Everything reading produces follows its read directly. *)
Lemma read_in_trace log s o1 m o2 : trace log s (o1 ++ ORead m :: o2) ->
  exists s0 s1 out o3, trace log s0 o1 /\ step log s0 (LRead m) = Some (s1, ORead m :: out) /\ reaction log o1 m out /\
    trace log s1 (o1 ++ ORead m :: out) /\ o2 = out ++ o3 /\ exists ls, execute log s1 ls = Some (s, o3).
Proof.
  intros Ht. destruct (trace_split _ _ _ _ _ _ Ht eq_refl) as (s0 & o0 & l & s1 & oa & ob & o3 & H1 & H2 & H3 & -> & -> & Hls).
  destruct (by_read_label _ _ _ _ _ (ORead m) H2) as [m' ->]; [apply in_app_iff; cbn; auto|exact I|].
  destruct (reaction_exact _ _ _ _ _ _ H1 H2) as (out & E & Hr).
  assert (oa = [] /\ m' = m /\ ob = out) as (-> & -> & ->).
  { destruct oa as [|y oa]; cbn [app] in E; injection E as E1 E2; [subst; auto|exfalso]. subst y.
    pose proof (reaction_short _ _ _ _ Hr) as [->|[x ->]]; [destruct oa; discriminate|].
    destruct oa as [|y oa]; [|destruct oa; discriminate]. cbn in E2. injection E2 as <- ->.
    clear -Hr. inversion Hr as [| | | | | | |x out' _ _ H]; subst. inversion H as [ps p out _ _ H'| | | |]; subst. inversion H'. }
  rewrite app_nil_r in *. exists s0, s1, out, o3. auto 10.
Qed.
Lemma by_read_follows log s o1 x o2 : trace log s (o1 ++ x :: o2) -> by_read x -> (forall m, x <> ORead m) ->
  exists o0 m, o1 = o0 ++ [ORead m] /\ reaction log o0 m [x].
Proof.
  intros Ht Hx Hn. destruct (trace_split _ _ _ _ _ _ Ht eq_refl) as (s0 & o0 & l & s1 & oa & ob & o3 & H1 & H2 & _ & -> & -> & _).
  destruct (by_read_label _ _ _ _ _ x H2) as [m ->]; [apply in_app_iff; cbn; auto|exact Hx|].
  destruct (reaction_exact _ _ _ _ _ _ H1 H2) as (out & E & Hr). exists o0, m.
  destruct oa as [|y oa]; cbn [app] in E; injection E as -> E; [destruct (Hn m eq_refl)|].
  destruct (reaction_short _ _ _ _ Hr) as [->|[z ->]]; [destruct oa; discriminate|].
  destruct oa as [|y oa]; [|destruct oa; discriminate]. injection E as -> ->. auto.
Qed.

(** ** The reaction is determined *)
Lemma engine_answer_unique h m r r' : engine_answer h m r -> engine_answer h m r' -> r = r'.
Proof. rewrite !engine_answer_decode. congruence. Qed.
Lemma routed_unique h ns ev f g : routed h ns ev f -> routed h ns ev g -> f = g.
Proof. rewrite <- !routing_exact. congruence. Qed.
Lemma awaiting_unique h ns id f g : awaiting h ns id f -> awaiting h ns id g -> f = g.
Proof. rewrite <- !take_exact. congruence. Qed.
Lemma event_name_unique p r r' : event_name p r -> event_name p r' -> r = r'.
Proof.
  intros (id & a & g & H1 & H2 & H3) (id' & a' & g' & H1' & H2' & H3').
  rewrite H1 in H1'. injection H1' as <- <-. rewrite H2 in H2'. injection H2' as <-.
  destruct r, r'; try contradiction; rewrite H3 in H3'; try discriminate; congruence.
Qed.
Lemma view_event p id a : packet_data p = Some (DataEvent id a) -> forall k ns, k = KConnect \/ k = KDisconnect ->
  view p <> Some (PView k ns None [] []).
Proof.
  intros E k ns Hk H. unfold view in H. rewrite E in H. destruct (packet_namespace p); [|discriminate].
  destruct (args_view a) as [[ts vs]|]; [|discriminate]. injection H. destruct Hk; intros; congruence.
Qed.
Lemma view_ack p id a : packet_data p = Some (DataAck id a) -> forall k ns, k = KConnect \/ k = KDisconnect ->
  view p <> Some (PView k ns None [] []).
Proof.
  intros E k ns Hk H. unfold view in H. rewrite E in H. destruct (packet_namespace p); [|discriminate].
  destruct (args_view a) as [[ts vs]|]; [|discriminate]. injection H. destruct Hk; intros; congruence.
Qed.
Lemma event_name_data p r : event_name p r -> exists id a, packet_data p = Some (DataEvent id a).
Proof. intros (id & a & g & H & _). eauto. Qed.
Lemma packet_reaction_unique log o p out out' : packet_reaction log o p out -> packet_reaction log o p out' -> out = out'.
Proof.
  intros H H'.
  destruct H; destruct H'; try reflexivity;
    try (match goal with H : ?l = true -> show_packet ?p <> None, H1 : ?l = true, H2 : show_packet ?p = None |- _ => destruct (H H1 H2) end; fail);
    repeat match goal with
    | H : event_name ?p (Err _) |- _ =>
        lazymatch goal with K : packet_data p = Some (DataEvent _ _) |- _ => fail | _ => destruct (event_name_data _ _ H) as (? & ? & ?) end
    end;
    try (match goal with H : packet_data ?p = Some (DataEvent _ _), V : view ?p = Some _ |- _ => first [destruct (view_event _ _ _ H _ _ (or_introl eq_refl) V)|destruct (view_event _ _ _ H _ _ (or_intror eq_refl) V)] end; fail);
    try (match goal with H : packet_data ?p = Some (DataAck _ _), V : view ?p = Some _ |- _ => first [destruct (view_ack _ _ _ H _ _ (or_introl eq_refl) V)|destruct (view_ack _ _ _ H _ _ (or_intror eq_refl) V)] end; fail);
    try congruence.
  all: repeat match goal with
    | H : packet_data ?p = Some ?x, K : packet_data ?p = Some ?y |- _ => rewrite H in K; injection K as <- <-
    | H : packet_namespace ?p = Some ?x, K : packet_namespace ?p = Some ?y |- _ => rewrite H in K; injection K as <-
    | H : event_name ?p (Ok _), K : event_name ?p (Err _) |- _ => discriminate (event_name_unique _ _ _ H K)
    | H : event_name ?p (Ok ?x), K : event_name ?p (Ok ?y) |- _ => let E := fresh in pose proof (event_name_unique _ _ _ H K) as E; injection E as <-; clear K
    | H : event_name ?p (Err ?x), K : event_name ?p (Err ?y) |- _ => let E := fresh in pose proof (event_name_unique _ _ _ H K) as E; injection E as <-; clear K
    end; try reflexivity.
  all: try (match goal with H : forall f, ~ ?P f, K : _ |- _ => destruct (H _ K) end; fail).
  - match goal with H : routed _ _ _ _, K : routed _ _ _ _ |- _ => rewrite (routed_unique _ _ _ _ _ H K) end. reflexivity.
  - match goal with H : awaiting _ _ _ _, K : awaiting _ _ _ _ |- _ => rewrite (awaiting_unique _ _ _ _ _ H K) end. reflexivity.
Qed.

Lemma received_cut m l p l' p' r r' : received m l p -> received m l' p' -> l ++ r = l' ++ r' -> l = l' /\ r = r' /\ p = p'.
Proof.
  intros Hr Hr' Em.
  assert (Hl : length l = length l').
  { apply received_length in Hr as [[E ->]|(q & E & En)]; apply received_length in Hr' as [[E' ->]|(q' & E' & En')]; try congruence.
    rewrite E in E'. injection E' as <-. rewrite En in En'. injection En'. lia. }
  assert (l = l' /\ r = r') as [<- <-].
  { clear -Em Hl. revert l' Hl Em. induction l as [|x l IH]; intros [|y l'] Hl Em; try discriminate; [auto|].
    cbn [app] in Em. injection Em as <- Em. injection Hl as Hl. destruct (IH l' Hl Em) as [<- <-]. auto. }
  split; [reflexivity|split; [reflexivity|]].
  destruct Hr as [[E _]|(q & E & Ep)]; destruct Hr' as [[E' _]|(q' & E' & Ep')]; rewrite E in E'; try discriminate; injection E' as E'; subst; congruence.
Qed.
Lemma assembled_cancel es ps : assembled es ps [] -> forall es' ps' rest', assembled (es ++ es') ps' rest' ->
  exists ps'', ps' = ps ++ ps'' /\ assembled es' ps'' rest'.
Proof.
  intros H. remember [] as r eqn:Er in H. revert Er. induction H as [|m q n l _ _ _|m l p es ps rest Hr H IH]; intros Er es' ps' rest' Ha.
  - exists ps'. auto.
  - discriminate.
  - cbn [app] in Ha. rewrite <- app_assoc in Ha.
    apply assembled_cons in Ha as [(m' & q' & n' & Ex & -> & -> & E' & En' & L')|(m' & l1 & l2 & p' & ps'' & Ex & Em & -> & Hr' & H')]; injection Ex as <-.
    + exfalso. apply received_length in Hr as [[E _]|(q & E & En)]; [congruence|]. rewrite E in E'. injection E' as <-.
      rewrite En in En'. injection En' as <-. rewrite app_length in L'. lia.
    + destruct (received_cut _ _ _ _ _ _ _ Hr Hr' Em) as (<- & <- & <-). destruct (IH Er _ _ _ H') as (ps0 & -> & H0).
      exists ps0. auto.
Qed.
Lemma assembled_extend es ps rest es' ps' rest' : assembled es ps rest -> assembled (es ++ es') ps' rest' ->
  exists ps'', ps' = ps ++ ps'' /\ assembled (rest ++ es') ps'' rest'.
Proof.
  intros H H'. destruct (assembled_split _ _ _ H) as (es0 & -> & H0). rewrite <- app_assoc in H'.
  exact (assembled_cancel _ _ H0 _ _ _ H').
Qed.
Lemma assembled_single x ps rest : assembled [x] ps rest ->
  (exists m q, x = MText m /\ deserialize x = Ok (DDataNeeded q) /\ ps = [] /\ rest = [x]) \/
  (exists m p, x = MText m /\ deserialize x = Ok (DPacket p) /\ ps = [p] /\ rest = []).
Proof.
  intros H. apply assembled_cons in H as [(m & q & n & -> & -> & -> & E & _)|(m & l1 & l2 & p & ps' & -> & Em & -> & Hr & H')]; [left; eauto 10|right].
  symmetry in Em. apply app_eq_nil in Em as [-> ->]. inversion H'; subst.
  apply received_length in Hr as [[E _]|(q & E & En)]; [eauto 10|]. destruct (needed_count _ _ E) as (n & En' & Hn).
  rewrite En in En'. injection En' as <-. cbn in Hn. lia.
Qed.
Lemma packet_reaction_message log o x ps rest p out : assembled (messages (reads o)) ps rest ->
  assembled (messages (reads o) ++ [x]) (ps ++ [p]) [] -> message_reaction log o x out -> packet_reaction log o p out.
Proof.
  intros Ha Hx H. destruct (assembled_extend _ _ _ _ _ _ Ha Hx) as (ps'' & E & Hs). apply app_inv_head in E. subst ps''.
  destruct H as [ps' p' out [rest' Ha'] Hx' Hp|ps' rest' [rest0 Ha'] Hx' Hn|ps' e Ha' E|ps' E|ps' m l q e Ha' E En Ee].
  - destruct (assembled_unique _ _ _ Ha _ _ Ha') as [<- <-]. destruct (assembled_unique _ _ _ Hx _ _ Hx') as [E _].
    apply app_inv_head in E. injection E as <-. exact Hp.
  - destruct (assembled_unique _ _ _ Hx _ _ Hx') as [_ E]. congruence.
  - destruct (assembled_unique _ _ _ Ha _ _ Ha') as [<- ->]. cbn [app] in Hs.
    apply assembled_single in Hs as [(m & q & _ & Hd & _)|(m & p' & _ & Hd & _)]; congruence.
  - destruct (assembled_unique _ _ _ Ha _ _ E) as [<- ->]. cbn [app] in Hs.
    apply assembled_single in Hs as [(m & q & _ & Hd & _)|(m & p' & _ & Hd & _)]; congruence.
  - destruct (assembled_unique _ _ _ Ha _ _ Ha') as [<- ->]. cbn [app] in Hs.
    apply assembled_cons in Hs as [(m' & q' & n' & _ & Ex & _)|(m' & l1 & l2 & p' & ps'' & Ex & Em & _ & Hr & H')]; [discriminate|].
    injection Ex as <-. exfalso. pose proof Hr as Hr'. apply received_length in Hr' as [[E' ->]|(q' & E' & En')]; [congruence|].
    rewrite E in E'. injection E' as <-. rewrite En in En'. injection En' as En'. apply Nat2N.inj in En'.
    assert (l1 = l ++ [x]) as ->.
    { rewrite <- (firstn_all (l ++ [x])), En', Em, firstn_app, firstn_all, Nat.sub_diag, firstn_O, app_nil_r. reflexivity. }
    destruct Hr as [[E' _]|(q' & E' & Ep)]; [congruence|]. rewrite E in E'. injection E' as <-. congruence.
Qed.
Lemma completes_reaction log o m p out : completes o m p -> reaction log o m out -> packet_reaction log o p out.
Proof.
  intros (Hd & x & ps & rest & Hx & Ha & Hp) H.
  destruct H as [Hc|e _ He|y _ He|_ He|_ He|_ He|_ He|y out _ He H]; try congruence;
    pose proof (engine_answer_unique _ _ _ _ Hx He) as Q; try discriminate.
  injection Q as <-. eapply packet_reaction_message; eauto.
Qed.
(** A call or an unexpected ack is the reaction to a completed packet. *)
Lemma call_completes log o m out : reaction log o m out ->
  forall p, (exists c, In (OCall p c) out) \/ In (OEnd (EndErr (RUnexpectedAck p))) out -> completes o m p /\ packet_reaction log o p out.
Proof.
  intros H p Hin. destruct H as [Hc|e _ He|y _ He|_ He|_ He|_ He|_ He|y out Hd He H];
    try (destruct Hin as [[c Hin]|Hin]; repeat (destruct Hin as [Hin|Hin]; try discriminate); try destruct Hin; fail).
  destruct H as [ps q out [rest Ha] Hx Hp|ps rest Ha Hx Hn|ps e Ha E|ps Ha E|ps m' l q e Ha E En Ee];
    try (destruct Hin as [[c Hin]|Hin]; repeat (destruct Hin as [Hin|Hin]; try discriminate); try destruct Hin; fail).
  assert (q = p) as ->; [|split; [|exact Hp]].
  - clear -Hp Hin. destruct Hp; destruct Hin as [[c Hin]|Hin]; cbn in Hin; repeat (destruct Hin as [Hin|Hin]); try contradiction; try discriminate Hin; congruence.
  - split; [exact Hd|]. exists y, ps, rest. auto.
Qed.

(** ** Routing and acks (C27, C28, C30, C31) *)
Lemma event_reaction log s o m s' o' p ns id a name : trace log s o -> step log s (LRead m) = Some (s', o') ->
  completes o m p -> packet_namespace p = Some ns -> packet_data p = Some (DataEvent id a) ->
  event_name p (Ok name) -> (log = true -> show_packet p <> None) ->
  (forall f, routed (table_history o) ns name f ->
     o' = [ORead m; OCall p (EventCall f a (option_map (fun i => AckBuilder ns i false) id))]) /\
  ((forall f, ~ routed (table_history o) ns name f) -> o' = [ORead m]).
Proof.
  intros Ht Hs Hc Hn Hd Hname Hlog. destruct (reaction_exact _ _ _ _ _ _ Ht Hs) as (out & -> & Hr).
  apply (completes_reaction _ _ _ _ _ Hc) in Hr. split.
  - intros f Hf. f_equal. apply (packet_reaction_unique _ _ _ _ _ Hr). eapply pr_event; eauto.
  - intros Hf. f_equal. apply (packet_reaction_unique _ _ _ _ _ Hr). eapply pr_event_unheard; eauto.
Qed.
Lemma event_calls_routed log s o1 p f a b o2 : trace log s (o1 ++ OCall p (EventCall f a b) :: o2) ->
  exists o0 m ns id name, o1 = o0 ++ [ORead m] /\ completes o0 m p /\
    packet_namespace p = Some ns /\ packet_data p = Some (DataEvent id a) /\ event_name p (Ok name) /\
    routed (table_history o0) ns name f /\ b = option_map (fun i => AckBuilder ns i false) id.
Proof.
  intros Ht. destruct (by_read_follows _ _ _ _ _ Ht I) as (o0 & m & -> & Hr); [discriminate|].
  destruct (call_completes _ _ _ _ Hr p) as [Hc Hp]; [left; eexists; left; reflexivity|].
  inversion Hp; subst. exists o0, m, ns, id, name. auto 10.
Qed.
Lemma ack_reaction log s o m s' o' p ns id a : trace log s o -> step log s (LRead m) = Some (s', o') ->
  completes o m p -> packet_namespace p = Some ns -> packet_data p = Some (DataAck id a) ->
  (log = true -> show_packet p <> None) ->
  (forall f, awaiting (table_history o) ns id f -> o' = [ORead m; OCall p (AckCall f a)]) /\
  ((forall f, ~ awaiting (table_history o) ns id f) -> o' = [ORead m; OEnd (EndErr (RUnexpectedAck p))]).
Proof.
  intros Ht Hs Hc Hn Hd Hlog. destruct (reaction_exact _ _ _ _ _ _ Ht Hs) as (out & -> & Hr).
  apply (completes_reaction _ _ _ _ _ Hc) in Hr. split.
  - intros f Hf. f_equal. apply (packet_reaction_unique _ _ _ _ _ Hr). eapply pr_ack; eauto.
  - intros Hf. f_equal. apply (packet_reaction_unique _ _ _ _ _ Hr). eapply pr_ack_unexpected; eauto.
Qed.
(** Operations on the ack callbacks of a history are observations. *)
Lemma history_split o : forall h1 x h2, table_history o = h1 ++ x :: h2 ->
  exists o1 y o2, o = o1 ++ y :: o2 /\ table_history o1 = h1 /\ table_history [y] = [x] /\ table_history o2 = h2.
Proof.
  induction o as [|y o IH]; intros h1 x h2 E; [destruct h1; discriminate|].
  assert (Hy : table_history (y :: o) = table_history [y] ++ table_history o) by apply (table_history_app [y] o). rewrite Hy in E. clear Hy.
  assert (Hs : table_history [y] = [] \/ exists z, table_history [y] = [z]).
  { destruct y; cbn; eauto; repeat (match goal with |- context [match ?x with _ => _ end] => destruct x end; cbn; eauto). }
  destruct Hs as [Hs|[z Hs]]; rewrite Hs in E; cbn [app] in E.
  - destruct (IH _ _ _ E) as (o1 & w & o2 & -> & H1 & H2 & H3). exists (y :: o1), w, o2. split; [reflexivity|]. split; [|auto].
    change (table_history ([y] ++ o1) = h1). rewrite table_history_app, Hs. exact H1.
  - destruct h1 as [|z' h1]; cbn [app] in E; injection E as <- E.
    + exists [], y, o. auto.
    + destruct (IH _ _ _ E) as (o1 & w & o2 & -> & H1 & H2 & H3). exists (y :: o1), w, o2. split; [reflexivity|]. split; [|auto].
      change (table_history ([y] ++ o1) = z :: h1). rewrite table_history_app, Hs, H1. reflexivity.
Qed.
Lemma history_one y x : table_history [y] = [x] ->
  (forall ns id f, x = CSetAck ns id f -> y = ORegister ns id f) /\
  (forall ns id, on_ack ns id x <-> about_ack ns id y).
Proof.
  unfold on_ack, about_ack.
  destruct y as [m|p c|e|m| |oo fs|oo fs|t|i|n i f0|x0|c| |r| | |]; cbn; try discriminate.
  - destruct c as [f a b|f a]; try discriminate. destruct (packet_namespace p) as [ns|] eqn:En; try discriminate.
    destruct (packet_data p) as [[| | |id b]|] eqn:Ed; try discriminate. cbn. intros [= <-]. split; [discriminate|].
    intros ns' id'. split.
    + intros [[g Hg]|Hg]; [discriminate|]. injection Hg as <- <-. right. left. exists p, b, f, a. auto.
    + intros [[g Hg]|[(q & b' & g & a' & Hq & H1 & H2)|(q & b' & Hq & _)]]; try discriminate. injection Hq as <- <- <-.
      right. congruence.
  - destruct e as [|[]| | | |]; try discriminate. destruct (packet_namespace p) as [ns|] eqn:En; try discriminate.
    destruct (packet_data p) as [[| | |id b]|] eqn:Ed; try discriminate. cbn. intros [= <-]. split; [discriminate|].
    intros ns' id'. split.
    + intros [[g Hg]|Hg]; [discriminate|]. injection Hg as <- <-. right. right. exists p, b. auto.
    + intros [[g Hg]|[(q & b' & g & a' & Hq & H1 & H2)|(q & b' & Hq & H1 & H2)]]; try discriminate. injection Hq as <-.
      right. congruence.
  - intros E. assert (H : match t with SetEvent ns ev f => x = CSetEvent ns ev f | ClearEvent ns ev => x = CClearEvent ns ev
        | SetFallback ns f => x = CSetFallback ns f | ClearFallback ns => x = CClearFallback ns end) by (destruct t; injection E as <-; reflexivity).
    destruct t; subst x; (split; [discriminate|]); intros ns' id'; split;
      try (intros [[g Hg]|Hg]; discriminate); intros [[g Hg]|[(q & b' & g & a' & Hq & _)|(q & b' & Hq & _)]]; discriminate.
  - intros [= <-]. split; [intros ns id f [= -> -> ->]; reflexivity|]. intros ns' id'. split.
    + intros [[g Hg]|Hg]; [|discriminate]. injection Hg as <- <- <-. left. eauto.
    + intros [[g Hg]|[(q & b' & g & a' & Hq & _)|(q & b' & Hq & _)]]; try discriminate. injection Hg as -> -> ->. left. eauto.
Qed.
Lemma history_about ns id o : Forall (fun x => ~ on_ack ns id x) (table_history o) <-> Forall (fun y => ~ about_ack ns id y) o.
Proof.
  induction o as [|y o IH]; [split; constructor|].
  assert (Hy : table_history (y :: o) = table_history [y] ++ table_history o) by apply (table_history_app [y] o). rewrite Hy, Forall_app, IH. clear Hy IH.
  rewrite Forall_cons_iff. apply and_iff_compat_r.
  assert (Hs : table_history [y] = [] \/ exists z, table_history [y] = [z]).
  { destruct y; cbn; eauto; repeat (match goal with |- context [match ?x with _ => _ end] => destruct x end; cbn; eauto). }
  destruct Hs as [Hs|[z Hs]].
  - rewrite Hs. split; [intros _|constructor]. intros [[f Hf]|[(q & b & g & a & Hq & H1 & H2)|(q & b & Hq & H1 & H2)]]; subst y; cbn in Hs.
    + discriminate.
    + rewrite H1, H2 in Hs. discriminate.
    + rewrite H1, H2 in Hs. discriminate.
  - destruct (history_one _ _ Hs) as [_ H]. rewrite Hs. split.
    + intros Hf Ha. inversion Hf; subst. apply H in Ha. contradiction.
    + intros Hn. constructor; [|constructor]. rewrite H. exact Hn.
Qed.
Lemma awaiting_trace o ns id f : awaiting (table_history o) ns id f <->
  exists o1 o2, o = o1 ++ ORegister ns id f :: o2 /\ Forall (fun y => ~ about_ack ns id y) o2.
Proof.
  split.
  - intros (h1 & h2 & E & _ & Hf). destruct (history_split _ _ _ _ E) as (o1 & y & o2 & -> & _ & Hy & <-).
    exists o1, o2. apply history_one in Hy as [Hy _]. rewrite (Hy _ _ _ eq_refl). split; [reflexivity|]. apply history_about. exact Hf.
  - intros (o1 & o2 & -> & Hf). exists (table_history o1), (table_history o2). split.
    + rewrite table_history_app. reflexivity.
    + split; [left; eauto|]. apply history_about. exact Hf.
Qed.
Lemma ack_calls_registered log s o1 p f a o2 : trace log s (o1 ++ OCall p (AckCall f a) :: o2) ->
  exists o0 m ns id b1 b2, o1 = o0 ++ [ORead m] /\ completes o0 m p /\
    packet_namespace p = Some ns /\ packet_data p = Some (DataAck id a) /\
    o0 = b1 ++ ORegister ns id f :: b2 /\ Forall (fun y => ~ about_ack ns id y) b2.
Proof.
  intros Ht. destruct (by_read_follows _ _ _ _ _ Ht I) as (o0 & m & -> & Hr); [discriminate|].
  destruct (call_completes _ _ _ _ Hr p) as [Hc Hp]; [left; eexists; left; reflexivity|].
  inversion Hp; subst. match goal with H : awaiting _ _ _ _ |- _ => apply awaiting_trace in H as (b1 & b2 & -> & Hf) end.
  exists (b1 ++ ORegister ns id f :: b2), m, ns, id, b1, b2. auto 10.
Qed.
