(** The example programs go on, take few steps, and what they say to the server (SpecProgram.v). *)
From Verif Require Import ProgramProofs ProgramMain ProgramAnswers TraceProofs EmitProofs ClientProofs SentProofs CloseProofs FlowProofs PanicProofs EndProofs EndingProofs BytesProofs CallbacksProofs SpecProgram.

(** ** Going on *)
Lemma stuck_blocked log s o : trace log s o -> s_phase s = PStuck -> In OBlocked o.
Proof.
  revert s o. apply (trace_ind log (fun s o => s_phase s = PStuck -> In OBlocked o)).
  - discriminate.
  - intros s o l s' o' Ht IH H P. apply in_or_app.
    assert (Hl : (exists m, l = LRead m) \/ forall m, l <> LRead m) by (destruct l; eauto; right; discriminate).
    destruct Hl as [[m ->]|Hl].
    + apply read_label in H as (b & P0 & _ & H). exfalso. revert H P. unfold read_step. cbv zeta. destruct (process_websocket_packet _ _ _ _ _) as [r c op q out]. cbn [pr_receiver pr_callbacks pr_open pr_queue pr_outcome].
      destruct op; destruct q; unfold push; cbn [s_chan_closed task_ended s_phase set_open set_table set_receiver];
        try (destruct (s_chan_closed s || _)); destruct out as [[u|e|]|p k]; intros [= <- <-]; cbn; rewrite ?P0; destruct b; discriminate.
    + other_cases H Hl; cbn in P; try (left; apply IH; exact P); try (right; cbn; auto; apply in_or_app; right; left; reflexivity); try discriminate P.
      all: try (rewrite ?E in P; discriminate P); try (revert P; match goal with |- sending ?x = _ -> _ => destruct x; discriminate end); try congruence; try (left; apply IH; congruence).
Qed.
Lemma never_stuck p log ls g o : prog_run p log ls g o -> s_phase (g_sys g) <> PStuck.
Proof. intros R P. apply (never_blocks _ _ _ _ _ R). eapply stuck_blocked; [eapply prog_trace; exact R|exact P]. Qed.
Lemma only_test_answers p c : p <> SocketioTest -> ~ In BAnswer (body p c).
Proof. intros N X. destruct p as [|[ns|]]; [congruence| |]; destruct c; cbn in X; destruct X as [X|[]]; discriminate X. Qed.
Lemma callback_goes_on p log ls g o b c : prog_run p log ls g o -> s_phase (g_sys g) = PCalling b c -> exists g' o', gstep p log g GBody = Some (g', o').
Proof.
  intros R P. cbn [gstep]. rewrite P. destruct (g_body g) as [|[[t|]|] r] eqn:B; cbn [step]; rewrite ?P; eauto.
  assert (N : exists q, nth_error (s_acks (g_sys g)) (length (s_acks (g_sys g)) - 1) = Some q).
  { destruct p as [|w].
    - destruct (ans_holds _ _ _ _ R) as [_ X|qs q l _ _ _ A _|qs q _ _ _ X]; [|rewrite A, nth_last; eauto|]; destruct X; rewrite B; left; reflexivity.
    - exfalso. destruct (at_calls _ _ _ _ _ R) as [N _ _|cs b0 c0 d _ _ B0 _ _|cs c0 d t' r' _ Bo _ _ _ _ _]; [destruct (N _ _ P)| |congruence].
      apply (only_test_answers (WsConnect w) c0); [discriminate|]. rewrite B0, B. apply in_or_app. right. left. reflexivity. }
  destruct N as [[ns id] ->]. cbn [fst snd]. destruct (ack_packets _ _); [destruct (push _ _ _)|]; eauto.
Qed.
Lemma locked_goes_on p log ls g o : prog_run p log ls g o -> locked (g_sys g) = true -> exists g' o', gstep p log g GBody = Some (g', o').
Proof.
  intros R L. unfold locked in L. destruct (s_phase (g_sys g)) eqn:P; try discriminate L.
  - eapply callback_goes_on; eassumption.
  - destruct (never_stuck _ _ _ _ _ R P).
Qed.
Lemma goes_on p log ls g o : prog_run p log ls g o -> ~ has_ended g -> exists l g' o', own_step l = true /\ gstep p log g l = Some (g', o').
Proof.
  intros R N. destruct (main_inv_holds _ _ _ _ _ R) as (d & r & D & Hi & M). unfold main_state in M.
  assert (Wait : locked (g_sys g) = true -> exists l g' o', own_step l = true /\ gstep p log g l = Some (g', o')).
  { intros L. destruct (locked_goes_on _ _ _ _ _ R L) as (g' & o' & X). exists GBody. eauto. }
  destruct (g_main g) as [|l| |e|e] eqn:G.
  - destruct M as (_ & [C|C] & _).
    + exists (GTask (LHandshake (Some CHandshakeTimeout))). cbn [gstep background step]. rewrite G, C. destruct (after_connect _ _ _). eauto.
    + exists (GTask LOpenTimeout). cbn [gstep background step]. rewrite G, C. destruct (after_connect _ _ _). eauto.
  - destruct M as (-> & Ne & [U1 U2] & Hh & I0 & Nx). destruct l as [|a rest]; [congruence|]. pose proof (shapes _ _ _ _ D) as Sh.
    assert (U : usable_client (g_sys g) = true) by (unfold usable_client; rewrite U1, U2; reflexivity).
    assert (Go : forall x, a = Api x \/ a = ApiTry x -> (exists y, step log (g_sys g) x = Some y) -> exists l g' o', own_step l = true /\ gstep p log g l = Some (g', o')).
    { intros x A ([s y] & E). exists GMain. cbn [gstep]. rewrite G. destruct A as [-> | ->]; rewrite E; eauto. }
    destruct a as [x|x|t]; [| |exists GMain; cbn [gstep]; rewrite G; eauto].
    + destruct x; try contradiction.
      * destruct (locked (g_sys g)) eqn:L; [auto|]. eapply Go; [left; reflexivity|]. cbn [step]. rewrite U, L. destruct (s_poisoned _); eauto.
      * eapply Go; [left; reflexivity|]. cbn [step]. rewrite U. destruct (emission_builder _ _). destruct (event_packets _ _); [|eauto]. destruct (eb_callback _) as [[]|]; [eauto|]. destruct (push _ _ _). eauto.
      * destruct Sh as (-> & S1 & _). destruct (locked (g_sys g)) eqn:L; [auto|]. eapply Go; [left; reflexivity|]. cbn [step]. rewrite I0, S1. cbn [nth_error]. unfold flight. rewrite L. destruct (s_poisoned _); eauto.
      * destruct Sh as (-> & S1 & _). eapply Go; [left; reflexivity|]. cbn [step]. rewrite I0, S1. cbn [nth_error]. unfold flight. eauto.
      * eapply Go; [left; reflexivity|]. cbn [step]. rewrite U. destruct (s_handle _); eauto.
    + destruct x; try contradiction. eapply Go; [right; reflexivity|]. cbn [step]. rewrite U1. eauto.
  - destruct M as (_ & _ & Hh). exists GCloseTimeout. cbn [gstep step]. rewrite G, Hh. eauto.
  - destruct M as [U1 U2]. exists GMain. cbn [gstep step]. rewrite G. unfold usable_client. rewrite U1, U2. cbn. eauto.
  - destruct N. exists e. exact G.
Qed.

(** ** Few steps *)
Definition left_over (p : program) (m : spot) : nat :=
  match m with MConnecting => length (main_acts p) + 2 | MActs l => length l + 2 | MClosing => 2 | MLeaving _ => 1 | MExited _ => 0 end.
Lemma main_steps p log ls g o : prog_run p log ls g o -> length (filter main_step ls) + left_over p (g_main g) <= length (main_acts p) + 2.
Proof.
  revert ls g o. apply (prog_ind p log (fun ls g _ => length (filter main_step ls) + left_over p (g_main g) <= length (main_acts p) + 2)).
  - cbn. lia.
  - intros ls g o l g' o' R IH H. rewrite filter_app, app_length. cbn [filter].
    assert (K : (if main_step l then 1 else 0) + left_over p (g_main g') <= left_over p (g_main g)).
    { destruct l as [l| | | | | |]; cbn [gstep main_step] in *.
      - destruct (background g l); [|discriminate]. destruct (step _ _ _) as [[s x]|]; [|discriminate]. unfold after_connect in H.
        destruct (g_main g); try (injection H as <- <-; reflexivity). destruct (s_conn s); injection H as <- <-; cbn; lia.
      - destruct (g_main g) as [|[|[x|x|t] rest]| |e|e]; try discriminate; try (destruct (step _ _ _) as [[s y]|]; [|discriminate]); injection H as <- <-; cbn [g_main left_over length]; try lia.
        + unfold after_act. destruct (existsb is_panic y); [cbn; lia|]. destruct x; cbn; lia.
        + unfold after_act. destruct (existsb is_panic y); [cbn; lia|]. destruct (existsb is_lost y); cbn; lia.
      - destruct (g_main g) as [|[|[x|x|t] rest]| |e|e]; try discriminate. injection H as <- <-. cbn. lia.
      - destruct (g_main g) eqn:G; try discriminate. destruct (step _ _ _) as [[s y]|]; [|discriminate]. injection H as <- <-. cbn. lia.
      - destruct (g_main g) eqn:G; try discriminate. destruct (step _ _ _) as [[s y]|]; [|discriminate]. injection H as <- <-. cbn. lia.
      - destruct (s_phase _); try discriminate. destruct (g_body g) as [|[[t|]|] r]; try (destruct (step _ _ _) as [[s y]|]; [|discriminate]); injection H as <- <-; cbn; lia.
      - destruct (s_phase _); try discriminate. destruct (g_body g) as [|[t|] r]; try discriminate. destruct (step _ _ _) as [[s y]|]; [|discriminate]; injection H as <- <-; cbn; lia. }
    destruct (main_step l); cbn [length]; lia.
Qed.
Lemma few_main_steps p log ls g o : prog_run p log ls g o -> length (filter main_step ls) <= 9.
Proof. intros R. pose proof (main_steps _ _ _ _ _ R). assert (length (main_acts p) <= 7) by (destruct p as [|[ns|]]; cbn; lia). lia. Qed.

Definition to_do (g : prog) : nat := match s_phase (g_sys g) with PCalling _ _ => length (g_body g) + 1 | _ => 0 end.
Lemma body_short p c : length (body p c) <= 3.
Proof.
  destruct c as [f a ack|f a]; cbn; [|lia]. destruct p as [|[ns|]]; cbn; try lia. destruct (N.eqb f cb_types); cbn; [|lia]. destruct ack; cbn; lia.
Qed.
Lemma callback_steps p log ls g o : prog_run p log ls g o -> length (filter callback_step ls) + to_do g <= 4 * length (calls_made (sys o)).
Proof.
  revert ls g o. apply (prog_ind p log (fun ls g o => length (filter callback_step ls) + to_do g <= 4 * length (calls_made (sys o)))).
  - cbn. lia.
  - intros ls g o l g' o' R IH H. pose proof (prog_trace _ _ _ _ _ R) as Ht. rewrite filter_app, app_length, sys_app, calls_app, app_length. cbn [filter].
    destruct (gkinds _ _ _ _ _ _ _ _ R H) as [m -> E B L|x _ E Nb B L Cs|E S B L Ms|b c t r -> P B B' E ->|b c t r P B B' T E L Cs|b c r -> P B B' E L|b c -> P B B' E L].
    + cbn [callback_step length]. apply read_label in E as (b & P & _ & E). apply read_calls in E as (_ & [(pk & c & E1 & E2 & _ & _ & E3)|(E1 & E2 & _ & _)]).
      * assert (Z : to_do g = 0) by (unfold to_do; rewrite P; destruct b; reflexivity). rewrite E2. unfold to_do. rewrite E1, B, E3. pose proof (body_short p c). cbn [length]. lia.
      * assert (Z : to_do g' = 0). { unfold to_do. destruct (s_phase (g_sys g')) eqn:P'; try reflexivity. destruct (E1 ltac:(intros b0 c0 P0; rewrite P0 in P; destruct b; discriminate P) _ _ eq_refl). }
        rewrite Z. lia.
    + rewrite Cs. cbn [length]. destruct (off_body _ _ _ _ _ _ Ht E Nb) as (K0 & C & _ & _ & K1 & K2 & _).
      assert (Z : to_do g' <= to_do g).
      { unfold to_do. destruct (s_phase (g_sys g')) eqn:P'; try lia. rewrite B.
        destruct (s_phase (g_sys g)) eqn:P0; try lia; destruct (K2 ltac:(intros; discriminate) _ _ eq_refl). }
      lia.
    + assert (Z : to_do g' = to_do g) by (unfold to_do; rewrite E, B; reflexivity). destruct l; try discriminate Ms; cbn [callback_step length]; lia.
    + cbn [callback_step length]. assert (Z : to_do g' + 1 = to_do g) by (unfold to_do; rewrite E, P, B, B'; cbn; lia). lia.
    + rewrite Cs. cbn [length]. cbn [step] in E. rewrite P in E. injection E as E1 E2.
      assert (Z : to_do g' = 0) by (unfold to_do; rewrite <- E1; reflexivity). assert (Z2 : 1 <= to_do g) by (unfold to_do; rewrite P; lia). lia.
    + cbn [callback_step length]. apply ProgramProofs.ack_step in E as (ns & id & fs & _ & _ & _ & E1 & _).
      assert (Z : to_do g' + 1 = to_do g) by (unfold to_do; rewrite E1, P, B, B'; cbn; lia). lia.
    + cbn [callback_step length]. cbn [step] in E. rewrite P in E. injection E as E1 E2.
      assert (Z : to_do g' = 0) by (unfold to_do; rewrite <- E1; cbn; destruct b; reflexivity). assert (Z2 : 1 <= to_do g) by (unfold to_do; rewrite P; lia). lia.
Qed.
Lemma few_callback_steps p log ls g o : prog_run p log ls g o -> length (filter callback_step ls) <= 4 * length (calls_made (sys o)).
Proof. intros R. pose proof (callback_steps _ _ _ _ _ R). lia. Qed.

(** ** What the programs say to the server *)
Lemma acts_parts p d r (f : act -> list (list wsmsg)) : main_acts p = d ++ r -> flat_map f (main_acts p) = flat_map f d ++ flat_map f r.
Proof. intros ->. apply flat_map_app. Qed.
Lemma one_part {A} (x : list A) a y : x ++ y = [a] -> x = [] \/ x = [a].
Proof. destruct x as [|b x]; [auto|]. intros [= -> E]. right. apply app_eq_nil in E as [-> _]. reflexivity. Qed.
Lemma asks_once log ls g o : prog_run SocketioTest log ls g o -> asked_for (sys o) = [] \/ asked_for (sys o) = [the_question].
Proof.
  intros R. destruct (main_inv_holds _ _ _ _ _ R) as (d & r & D & [_ _ A _] & _). rewrite A.
  pose proof (f_equal (flat_map (fun a => match a with Api (LPush _) => [the_question] | _ => [] end)) D) as X. rewrite flat_map_app in X.
  symmetry in X. apply one_part in X. exact X.
Qed.
Lemma asks_nothing w log ls g o : prog_run (WsConnect w) log ls g o -> asked_for (sys o) = [].
Proof.
  intros R. destruct (main_inv_holds _ _ _ _ _ R) as (d & r & D & [_ _ A _] & _). rewrite A.
  pose proof (f_equal (flat_map (fun a => match a with Api (LPush _) => [the_question] | _ => [] end)) D) as X. rewrite flat_map_app in X.
  assert (E : flat_map (fun a => match a with Api (LPush _) => [the_question] | _ => [] end) (main_acts (WsConnect w)) = []) by (destruct w; reflexivity).
  rewrite E in X. symmetry in X. apply app_eq_nil in X as [X _]. exact X.
Qed.
Lemma raw_of p log ls g o : prog_run p log ls g o ->
  raw_sent (sys o) = [] \/ exists ns, p = WsConnect (Some ns) /\ raw_sent (sys o) = [join_frames ns].
Proof.
  intros R. destruct (main_inv_holds _ _ _ _ _ R) as (d & r & D & [_ _ _ A] & _). rewrite A.
  pose proof (f_equal (flat_map (fun a => match a with ApiTry (LRaw fs) => [fs] | _ => [] end)) D) as X. rewrite flat_map_app in X.
  destruct p as [|[ns|]]; cbn [main_acts flat_map app] in X; symmetry in X.
  - apply app_eq_nil in X as [X _]. auto.
  - apply one_part in X as [X|X]; [auto|]. right. exists ns. auto.
  - apply app_eq_nil in X as [X _]. auto.
Qed.
Lemma no_answers w log ls g o : prog_run (WsConnect w) log ls g o -> replies (sys o) = [].
Proof.
  revert ls g o. apply (prog_ind (WsConnect w) log (fun _ _ o => replies (sys o) = [])); [reflexivity|].
  intros ls g o l g' o' R IH H. pose proof (prog_trace _ _ _ _ _ R) as Ht. rewrite sys_app, replies_app, IH. cbn [app].
  destruct (gkinds _ _ _ _ _ _ _ _ R H) as [m -> E B L|x _ E Nb B L Cs|E S B L Ms|b c t r -> P B B' E ->|b c t r P B B' T E L Cs|b c r -> P B B' E L|b c -> P B B' E L].
  - apply read_label in E as (b & _ & _ & E). apply read_calls in E as (E & _). exact E.
  - destruct (off_body _ _ _ _ _ _ Ht E Nb) as (_ & _ & E1 & _). exact E1.
  - rewrite S. reflexivity.
  - reflexivity.
  - cbn [step] in E. rewrite P in E. injection E as _ <-. reflexivity.
  - exfalso. destruct (at_calls _ _ _ _ _ R) as [N _ _|cs b0 c0 d _ _ B0 _ _|cs c0 d t' r' _ Bo _ _ _ _ _]; [destruct (N _ _ P)| |congruence].
    apply (only_test_answers (WsConnect w) c0); [discriminate|]. rewrite B0, B. apply in_or_app. right. left. reflexivity.
  - cbn [step] in E. rewrite P in E. injection E as _ <-. reflexivity.
Qed.
Lemma queued_by by' fs o : In (OQueued by' fs) o \/ In (OLost by' fs) o ->
  match by' with
  | ByReceiver => True
  | ByEmit ns id => In (ns, id, fs) (asked_for o)
  | ByAck ns id => In (ns, id, fs) (replies o)
  | ByUser => In fs (raw_sent o)
  end.
Proof. intros [H|H]; destruct by'; try exact I; apply in_flat_map; eexists; (split; [exact H|left; reflexivity]). Qed.
Lemma receiver_pongs log s o fs : trace log s o -> In (OQueued ByReceiver fs) o -> fs = [WText (bs "3")].
Proof. intros Ht X. apply in_split in X as (o1 & o2 & ->). apply pong_for_ping in Ht as [E _]. exact E. Qed.
Lemma test_says log ls g o fs : prog_run SocketioTest log ls g o -> In fs (queued (sys o)) ->
  fs = [WText (bs "3")] \/ fs = snd the_question \/ exists q, In q (questions (sys o)) /\ fs = snd (answer_to q).
Proof.
  intros R X. unfold queued in X. apply in_flat_map in X as (x & X & Y). destruct x; try contradiction. destruct Y as [<-|[]].
  pose proof (queued_by _ _ _ (or_introl X)) as Q. destruct o0 as [|ns id|ns id|].
  - left. eapply receiver_pongs; [eapply prog_trace; exact R|exact X].
  - right. left. destruct (asks_once _ _ _ _ R) as [E|E]; rewrite E in Q; [contradiction|]. destruct Q as [Q|[]]. injection Q as _ _ <-. reflexivity.
  - right. right. destruct (answers_given _ _ _ _ R) as (qs & rest & E1 & E2 & _). rewrite E2 in Q. apply in_map_iff in Q as (q & Q1 & Q2).
    exists q. split; [rewrite E1; apply in_or_app; auto|]. unfold answer_to in Q1. injection Q1 as _ <-. reflexivity.
  - destruct (raw_of _ _ _ _ _ R) as [E|(ns & E & _)]; [rewrite E in Q; contradiction|discriminate E].
Qed.
Lemma connect_says w log ls g o fs : prog_run (WsConnect w) log ls g o -> In fs (queued (sys o)) ->
  fs = [WText (bs "3")] \/ exists ns, w = Some ns /\ fs = join_frames ns.
Proof.
  intros R X. unfold queued in X. apply in_flat_map in X as (x & X & Y). destruct x; try contradiction. destruct Y as [<-|[]].
  pose proof (queued_by _ _ _ (or_introl X)) as Q. destruct o0 as [|ns id|ns id|].
  - left. eapply receiver_pongs; [eapply prog_trace; exact R|exact X].
  - rewrite (asks_nothing _ _ _ _ _ R) in Q. contradiction.
  - rewrite (no_answers _ _ _ _ _ R) in Q. contradiction.
  - right. destruct (raw_of _ _ _ _ _ R) as [E|(ns & E & E2)]; [rewrite E in Q; contradiction|]. injection E as ->. rewrite E2 in Q. destruct Q as [<-|[]]. eauto.
Qed.

(** ** Joining *)
Lemma upto_stop ns t : ~ In ","%byte ns -> upto (Byte.eqb ",") (ns ++ ","%byte :: t) = (ns, ","%byte :: t).
Proof.
  induction ns as [|c ns IH]; intros N; [reflexivity|]. cbn [app upto]. destruct (Byte.eqb "," c) eqn:E.
  - apply Byte.byte_dec_bl in E. destruct N. left. symmetry. exact E.
  - rewrite IH; [reflexivity|]. intros X. apply N. right. exact X.
Qed.
Lemma upto_none P t a b : upto P t = (a, b) -> forall c, In c a -> P c = false.
Proof.
  revert a b. induction t as [|c t IH]; cbn; intros a b.
  - intros [= <- <-] c [].
  - destruct (P c) eqn:E; [intros [= <- <-] x []|]. destruct (upto P t) as [a' b'] eqn:U. intros [= <- <-] x [<-|X]; [exact E|]. eapply IH; [reflexivity|exact X].
Qed.
Lemma byte_comma c : Byte.eqb "," c = false <-> c <> ","%byte.
Proof.
  split.
  - intros E ->. discriminate E.
  - intros N. destruct (Byte.eqb "," c) eqn:E; [|reflexivity]. apply Byte.byte_dec_bl in E. congruence.
Qed.
Lemma joins_exactly ns : peer_joins ns (join_frames ns) <-> (exists t, ns = "/"%byte :: t) /\ ~ In ","%byte ns.
Proof.
  unfold peer_joins, join_frames. split.
  - intros (t & E & D). injection E as <-. change (sio_decode ("0"%byte :: ns ++ bs ",") = Some (Sio SConnect 0 ns None None)) in D.
    cbn [sio_decode] in D. change (read_type "0"%byte) with (Some SConnect) in D. cbv iota beta in D. change (read_count SConnect (ns ++ bs ",")) with (Some (0%N, ns ++ bs ",")) in D. cbv iota beta in D.
    destruct (read_nsp (ns ++ bs ",")) as [n t3] eqn:Rn. cbv iota beta zeta in D. destruct (read_id t3) as [[id t4]|]; cbv iota beta zeta in D; [|discriminate D]. destruct (read_data t4) as [da|]; cbv iota beta in D; [|discriminate D]. injection D as -> _ _.
    unfold read_nsp in Rn. destruct ns as [|c ns]; [discriminate Rn|]. cbn [app] in Rn. destruct (Byte.eqb c "/") eqn:C.
    + apply Byte.byte_dec_bl in C. subst c. destruct (upto (Byte.eqb ",") ("/"%byte :: ns ++ bs ",")) as [a b] eqn:U. injection Rn as -> _.
      split; [eauto|]. intros X. pose proof (upto_none _ _ _ _ U _ X) as Y. discriminate Y.
    + injection Rn as <- _ _. discriminate C.
  - intros [[t ->] N]. exists ("0"%byte :: ("/"%byte :: t) ++ bs ","). split; [reflexivity|].
    change (sio_decode ("0"%byte :: ("/"%byte :: t) ++ [","%byte]) = Some (Sio SConnect 0 ("/"%byte :: t) None None)).
    cbn [sio_decode]. change (read_type "0"%byte) with (Some SConnect). cbv iota beta.
    change (read_count SConnect (("/"%byte :: t) ++ [","%byte])) with (Some (0%N, ("/"%byte :: t) ++ [","%byte])). cbv iota beta.
    assert (Rn : read_nsp (("/"%byte :: t) ++ [","%byte]) = ("/"%byte :: t, [])).
    { unfold read_nsp. change (("/"%byte :: t) ++ [","%byte]) with ("/"%byte :: t ++ [","%byte]) at 1. cbv iota. change (Byte.eqb "/" "/") with true. cbv iota.
      rewrite upto_stop by exact N. reflexivity. }
    rewrite Rn. reflexivity.
Qed.

(** ** How the programs end *)
Lemma exited p log ls g o : prog_run p log ls g o -> forall e, In (GExit e) o -> g_main g = MExited e.
Proof.
  revert ls g o. apply (prog_ind p log (fun _ g o => forall e, In (GExit e) o -> g_main g = MExited e)); [intros e []|].
  intros ls g o l g' o' R IH H e X. apply in_app_or in X.
  assert (Ni : forall x, ~ In (GExit e) (map GSys x)) by (intros x Y; apply in_map_iff in Y as (y & Y & _); discriminate Y).
  destruct l as [l| | | | | |]; cbn [gstep] in H.
  - destruct (background g l); [|discriminate]. destruct (step _ _ _) as [[s x]|]; [|discriminate]. unfold after_connect in H.
    destruct (g_main g) eqn:M; try (injection H as <- <-; rewrite app_nil_r in X; destruct X as [X|X]; [|destruct (Ni _ X)]; cbn; apply IH in X; congruence).
    destruct (s_conn s); injection H as <- <-; rewrite ?in_app_iff in X; destruct X as [X|[X|X]]; try (destruct (Ni _ X)); try (apply IH in X; discriminate X); try contradiction X;
      destruct X as [X|[]]; injection X as <-; reflexivity.
  - destruct (g_main g) as [|[|[x|x|t] r]| |e0|e0] eqn:M; try discriminate; try (destruct (step _ _ _) as [[s y]|]; [|discriminate]); injection H as <- <-; rewrite ?in_app_iff in X;
      try (destruct X as [X|X]; [apply IH in X; discriminate X|]); try (destruct (Ni _ X)); try (destruct X as [X|[]]; discriminate X).
    destruct X as [X|[X|[]]]; [destruct (Ni _ X)|]. injection X as <-. reflexivity.
  - destruct (g_main g) as [|[|[x|x|t] r]| |e0|e0] eqn:M; try discriminate. injection H as <- <-. destruct X as [X|[X|[]]]; [apply IH in X|]; discriminate X.
  - destruct (g_main g) eqn:M; try discriminate. destruct (step _ _ _) as [[s y]|]; [|discriminate]. injection H as <- <-. destruct X as [X|X]; [apply IH in X; discriminate X|destruct (Ni _ X)].
  - destruct (g_main g) eqn:M; try discriminate. destruct (step _ _ _) as [[s y]|]; [|discriminate]. injection H as <- <-. destruct X as [X|X]; [apply IH in X; discriminate X|destruct (Ni _ X)].
  - destruct (s_phase _); try discriminate. destruct (g_body g) as [|[[t|]|] r]; try (destruct (step _ _ _) as [[s y]|]; [|discriminate]); injection H as <- <-; cbn [g_main]; (destruct X as [X|X]; [apply IH; exact X|]); try (destruct (Ni _ X)).
    destruct X as [X|[]]; discriminate X.
  - destruct (s_phase _); try discriminate. destruct (g_body g) as [|[t|] r]; try discriminate; (destruct (step _ _ _) as [[s y]|]; [|discriminate]); injection H as <- <-; cbn [g_main]; (destruct X as [X|[X|X]]; [apply IH; exact X|discriminate X|destruct (Ni _ X)]).
Qed.
Definition all_well (p : program) (g : prog) (o : list gobs) : Prop :=
  match g_main g with
  | MLeaving ExitOk | MExited ExitOk => In (OClose CloseOk) (sys o) /\ history (main_acts p) (sys o) /\ forall fs, ~ In (OLost ByUser fs) (sys o)
  | MLeaving _ | MExited _ => True
  | _ => forall fs, ~ In (OLost ByUser fs) (sys o)
  end.
Lemma mild_unlost o fs : forallb mild o = true -> ~ In (OLost ByUser fs) o.
Proof. intros M X. rewrite forallb_forall in M. specialize (M _ X). discriminate M. Qed.
Lemma well_aside p g o s b o' : all_well p g o -> forallb mild o' = true -> all_well p (Prog s (g_main g) b) (o ++ map GSys o').
Proof.
  unfold all_well. cbn [g_main]. rewrite sys_app, sys_map. intros W M.
  assert (N : (forall fs, ~ In (OLost ByUser fs) (sys o)) -> forall fs, ~ In (OLost ByUser fs) (sys o ++ o')).
  { intros Q fs X. apply in_app_or in X as [X|X]; [exact (Q _ X)|exact (mild_unlost _ _ M X)]. }
  assert (K : In (OClose CloseOk) (sys o) /\ history (main_acts p) (sys o) /\ (forall fs, ~ In (OLost ByUser fs) (sys o)) ->
    In (OClose CloseOk) (sys o ++ o') /\ history (main_acts p) (sys o ++ o') /\ (forall fs, ~ In (OLost ByUser fs) (sys o ++ o'))).
  { intros (A & B & C). split; [apply in_or_app; auto|]. split; [apply mild_history; assumption|auto]. }
  destruct (g_main g) as [| | |[]|[]]; auto.
Qed.
Lemma all_well_holds p log ls g o : prog_run p log ls g o -> all_well p g o.
Proof.
  revert ls g o. apply (prog_ind p log (fun _ g o => all_well p g o)); [intros fs []|].
  intros ls g o l g' o' R IH H. destruct (main_inv_holds _ _ _ _ _ R) as (d & r & D & Hi & M).
  assert (Add : forall x, (forall fs, ~ In (OLost ByUser fs) (sys o)) -> (forall fs, ~ In (OLost ByUser fs) x) -> forall fs, ~ In (OLost ByUser fs) (sys (o ++ map GSys x))).
  { intros x A B fs X. rewrite sys_app, sys_map in X. apply in_app_or in X as [X|X]; [exact (A _ X)|exact (B _ X)]. }
  assert (Same : all_well p (Prog (g_sys g) (g_main g) (g_body g)) o) by (destruct g; exact IH).
  destruct l as [l| | | | | |]; cbn [gstep] in H.
  - destruct (background g l) eqn:B; [|discriminate]. destruct (step log (g_sys g) l) as [[s x]|] eqn:E; [|discriminate].
    destruct (aside l) eqn:A.
    + destruct (aside_step _ _ _ _ _ E A) as (C1 & _ & _ & _ & _ & C6). unfold after_connect in H.
      destruct (g_main g) eqn:G; try (injection H as <- <-; rewrite app_nil_r, <- G; apply well_aside; assumption).
      unfold main_state in M. rewrite G in M. destruct M as (_ & C & _). rewrite C1 in H. destruct C as [C|C]; rewrite C in H; injection H as <- <-; rewrite app_nil_r, <- G; apply well_aside; assumption.
    + assert (G : g_main g = MConnecting) by (destruct l; try discriminate A; cbn in B; try discriminate B; destruct (g_main g); first [reflexivity|discriminate B]).
      assert (N : forall fs, ~ In (OLost ByUser fs) x).
      { intros fs X. destruct l as [e| | | | | | | | | | | | | | | | | | | | | | | | | | | | | | |]; try discriminate A; try discriminate B; cbn [step] in E.
        - destruct e as [[]|]; try discriminate E; (destruct (s_conn (g_sys g)); try discriminate E); injection E as _ <-; cbn in X; try contradiction X; destruct X as [X|[]]; discriminate X.
        - destruct (s_conn (g_sys g)); try discriminate E. destruct (s_open (g_sys g)); [|destruct (task_ended _); [|discriminate E]]; injection E as _ <-; destruct X as [X|[]]; discriminate X.
        - destruct (s_conn (g_sys g)); try discriminate E. injection E as _ <-; destruct X as [X|[]]; discriminate X. }
      unfold all_well in IH. rewrite G in IH. unfold after_connect in H. rewrite G in H.
      destruct (s_conn s); injection H as <- <-; try exact I; rewrite app_nil_r; unfold all_well; cbn [g_main]; apply Add; assumption.
  - destruct (g_main g) as [|[|a rest]| |e|e] eqn:G; try discriminate.
    + unfold main_state in M. rewrite G in M. destruct M as (-> & _ & [U1 U2] & Hh & _). unfold all_well in IH. rewrite G in IH. pose proof (shapes _ _ _ _ D) as Sh.
      assert (U : usable_client (g_sys g) = true) by (unfold usable_client; rewrite U1, U2; reflexivity).
      destruct a as [x|x|t].
      * destruct (step log (g_sys g) x) as [[s y]|] eqn:E; [|discriminate]. injection H as <- <-.
        assert (N : forall fs, ~ In (OLost ByUser fs) y).
        { intros fs X. destruct x; try contradiction Sh; cbn [step] in E; rewrite ?U in E.
          - destruct (s_poisoned _); [|destruct (locked _); [discriminate E|]]; injection E as _ <-; destruct X as [X|[]]; discriminate X.
          - destruct Sh as (-> & _). destruct (emission_builder _ _) as [n b]. destruct (event_packets _ _); [|injection E as _ <-; cbn in X; repeat (destruct X as [X|X]; [discriminate X|]); contradiction].
            destruct (eb_callback b) as [[f id]|]; [injection E as _ <-; cbn in X; repeat (destruct X as [X|X]; [discriminate X|]); contradiction|].
            unfold push in E. destruct (_ || _)%bool; injection E as _ <-; cbn in X; repeat (destruct X as [X|X]; [discriminate X|]); contradiction.
          - destruct (nth_error _ _) as [[ns id f [] fs0]|]; try discriminate E. destruct (s_poisoned _); [|destruct (locked _); [discriminate E|]]; injection E as _ <-; destruct X as [X|[]]; discriminate X.
          - destruct (nth_error _ _) as [[ns id f [] fs0]|]; try discriminate E. unfold push in E. destruct (_ || _)%bool; injection E as _ <-; destruct X as [X|[]]; discriminate X.
          - rewrite Hh in E. injection E as _ <-; destruct X as [X|[]]; discriminate X. }
        unfold all_well. cbn [g_main]. unfold after_act. destruct (existsb is_panic y); [exact I|]. destruct x; apply Add; assumption.
      * destruct (step log (g_sys g) x) as [[s y]|] eqn:E; [|discriminate]. injection H as <- <-.
        unfold all_well. cbn [g_main]. unfold after_act. destruct (existsb is_panic y); [exact I|]. destruct (existsb is_lost y) eqn:L; [exact I|]. apply Add; [assumption|].
        intros fs X. assert (Z : existsb is_lost y = true) by (apply existsb_exists; eexists; split; [exact X|reflexivity]). congruence.
      * injection H as <- <-. unfold all_well. cbn [g_main]. rewrite sys_app. cbn. rewrite app_nil_r. exact IH.
    + destruct (step log (g_sys g) LDropClient) as [[s x]|] eqn:E; [|discriminate]. injection H as <- <-. cbn [step] in E. destruct (usable_client _); [|discriminate]. injection E as _ <-.
      unfold all_well in *. cbn [g_main]. rewrite G in IH. rewrite sys_app. cbn. rewrite app_nil_r. exact IH.
  - destruct (g_main g) as [|[|[x|x|t] r']| |e|e]; try discriminate. injection H as <- <-. exact I.
  - destruct (g_main g) eqn:G; try discriminate. destruct (step log (g_sys g) LCloseReturn) as [[s x]|] eqn:E; [|discriminate]. injection H as <- <-.
    unfold main_state in M. rewrite G in M. destruct M as (-> & _). rewrite app_nil_r in D. unfold all_well in *. rewrite G in IH. cbn [g_main].
    cbn [step] in E. destruct (s_handle _); try discriminate E. destruct (s_phase _); try discriminate E. injection E as _ <-.
    destruct e; try exact I. cbn [close_exit exit_of]. split; [rewrite sys_app; apply in_or_app; right; left; reflexivity|]. split; [rewrite sys_app, D; apply mild_history; [exact Hi|reflexivity]|].
    apply Add; [exact IH|]. intros fs [X|[]]. discriminate X.
  - destruct (g_main g) eqn:G; try discriminate. destruct (step log (g_sys g) LCloseTimeout) as [[s x]|] eqn:E; [|discriminate]. injection H as <- <-.
    cbn [step] in E. destruct (s_handle _); try discriminate E. injection E as _ <-. exact I.
  - destruct (s_phase (g_sys g)) eqn:P; try discriminate. destruct (g_body g) as [|[[t|]|] r'] eqn:B; try (destruct (step _ _ _) as [[s x]|] eqn:E; [|discriminate]; injection H as <- <-; apply well_aside; [exact IH|]; refine (proj2 (proj2 (proj2 (proj2 (proj2 (aside_step _ _ _ _ _ E eq_refl))))))).
    injection H as <- <-. unfold all_well in *. cbn [g_main]. rewrite sys_app. cbn. rewrite app_nil_r. exact IH.
  - destruct (s_phase (g_sys g)) eqn:P; try discriminate. destruct (g_body g) as [|[t|] r'] eqn:B; try discriminate. destruct (step _ _ _) as [[s x]|] eqn:E; [|discriminate]; injection H as <- <-.
    assert (Q : all_well p (Prog s (g_main g) []) (o ++ map GSys x)) by (apply well_aside; [exact IH|]; refine (proj2 (proj2 (proj2 (proj2 (proj2 (aside_step _ _ _ _ _ E eq_refl))))))).
    unfold all_well in *. cbn [g_main] in *. rewrite sys_app in *. exact Q.
Qed.
Lemma ends_well p log ls g o : prog_run p log ls g o -> In (GExit ExitOk) o ->
  In (OEnd EndOk) (sys o) /\ (forall fs, ~ In (OLost ByUser fs) (sys o)) /\
  match p with
  | SocketioTest => asked_for (sys o) = [the_question]
  | WsConnect (Some ns) => In (OQueued ByUser (join_frames ns)) (sys o)
  | WsConnect None => True
  end.
Proof.
  intros R X. apply (exited _ _ _ _ _ R) in X. pose proof (all_well_holds _ _ _ _ _ R) as W. unfold all_well in W. rewrite X in W. destruct W as (W1 & [_ _ W2 W3] & W4).
  split; [|split; [exact W4|]].
  - apply in_split in W1 as (o1 & o2 & E). pose proof (prog_trace _ _ _ _ _ R) as Ht. rewrite E in Ht.
    pose proof (close_reports _ _ _ _ _ Ht) as Y. rewrite E. apply in_or_app. left. exact Y.
  - destruct p as [|[ns|]]; cbn in W2, W3; [exact W2| |exact I].
    assert (Y : In (join_frames ns) (raw_sent (sys o))) by (rewrite W3; left; reflexivity).
    apply in_flat_map in Y as (x & Y1 & Y2). destruct x as [| | | | |[]|[]| | | | | | | | | |]; try contradiction; destruct Y2 as [<-|[]]; [exact Y1|]. destruct (W4 _ Y1).
Qed.

(** ** The answer to the question *)
Lemma nth_unique {A B} (f : A -> list B) (l : list A) : length (flat_map f l) <= 1 -> forall i j x y, nth_error l i = Some x -> nth_error l j = Some y -> f x <> [] -> f y <> [] -> i = j.
Proof.
  induction l as [|z l IH]; intros L i j x y Hi Hj Fx Fy; [destruct i; discriminate|]. cbn [flat_map] in L. rewrite app_length in L.
  assert (P : forall k u, nth_error l k = Some u -> f u <> [] -> 1 <= length (flat_map f l)).
  { intros k u Hk Fu. destruct (f u) as [|b t] eqn:E; [congruence|]. assert (X : In b (flat_map f l)) by (apply in_flat_map; exists u; rewrite E; split; [eapply nth_error_In; exact Hk|left; reflexivity]).
    destruct (flat_map f l); [contradiction|cbn; lia]. }
  destruct i, j; cbn in Hi, Hj; auto.
  - injection Hi as ->. specialize (P _ _ Hj Fy). destruct (f x); [congruence|]. cbn in L. lia.
  - injection Hj as ->. specialize (P _ _ Hi Fx). destruct (f y); [congruence|]. cbn in L. lia.
  - f_equal. eapply (IH ltac:(lia)); eassumption.
Qed.
Lemma filter_unique {A} (f : A -> bool) (l : list A) : (forall i j x y, nth_error l i = Some x -> nth_error l j = Some y -> f x = true -> f y = true -> i = j) -> length (filter f l) <= 1.
Proof.
  induction l as [|z l IH]; intros H; [cbn; lia|]. cbn [filter]. destruct (f z) eqn:E.
  - assert (K : filter f l = []).
    { destruct (filter f l) as [|u t] eqn:F; [reflexivity|]. exfalso. assert (X : In u (filter f l)) by (rewrite F; left; reflexivity). apply filter_In in X as [X Y].
      apply In_nth_error in X as [n X]. specialize (H 0 (S n) z u eq_refl X E Y). discriminate H. }
    rewrite K. cbn. lia.
  - apply IH. intros i j x y Hi Hj Fx Fy. specialize (H (S i) (S j) x y Hi Hj Fx Fy). lia.
Qed.
Lemma registers_few p log ls g o : prog_run p log ls g o -> incl (registers (sys o)) [(bs "/", 0%N, cb_reply)] /\ length (registers (sys o)) <= 1 /\ (p <> SocketioTest -> registers (sys o) = []).
Proof.
  intros R. destruct (main_inv_holds _ _ _ _ _ R) as (d & r & D & [_ A _ _] & _). rewrite A.
  pose proof (f_equal (flat_map (fun a => match a with Api (LRegister _) => [(bs "/", 0%N, cb_reply)] | _ => [] end)) D) as X. rewrite flat_map_app in X.
  destruct p as [|[ns|]]; cbn [main_acts flat_map app] in X; symmetry in X.
  - apply one_part in X as [X|X]; rewrite X; repeat split; cbn; try lia; try congruence; intros y Y; try contradiction; exact Y.
  - apply app_eq_nil in X as [X _]. rewrite X. repeat split; cbn; try lia. intros y [].
  - apply app_eq_nil in X as [X _]. rewrite X. repeat split; cbn; try lia. intros y [].
Qed.
Lemma reply_calls p log ls g o : prog_run p log ls g o ->
  length (filter is_reply (sys o)) <= 1 /\
  forall pk f a, In (OCall pk (AckCall f a)) (sys o) -> p = SocketioTest /\ f = cb_reply /\ packet_namespace pk = Some (bs "/") /\ packet_data pk = Some (DataAck 0%N a).
Proof.
  intros R. pose proof (prog_trace _ _ _ _ _ R) as Ht. destruct (registers_few _ _ _ _ _ R) as (R1 & R2 & R3). split.
  - apply filter_unique. intros i j x y Hi Hj Fx Fy. destruct x as [|px [|fx ax]| | | | | | | | | | | | | | |]; try discriminate Fx. destruct y as [|py [|fy ay]| | | | | | | | | | | | | | |]; try discriminate Fy.
    destruct (fires_from _ _ _ _ _ _ _ Ht Hi) as [i0 Fi]. destruct (fires_from _ _ _ _ _ _ _ Ht Hj) as [j0 Fj].
    assert (E : i0 = j0).
    { destruct Fi as (n1 & d1 & f1 & _ & _ & Q1 & _). destruct Fj as (n2 & d2 & f2 & _ & _ & Q2 & _). eapply (nth_unique _ _ R2); [exact Q1|exact Q2|discriminate|discriminate]. }
    subst j0. eapply fires_once; eassumption.
  - intros pk f a X. apply In_nth_error in X as [j X]. destruct (fires_from _ _ _ _ _ _ _ Ht X) as [i (ns & id & f' & p' & a' & Q1 & Q2 & Q3 & Q4 & _)].
    rewrite X in Q2. injection Q2 as <- <- <-. assert (Y : In (ns, id, f) (registers (sys o))) by (apply in_flat_map; eexists; split; [eapply nth_error_In; exact Q1|left; reflexivity]).
    assert (P : p = SocketioTest) by (destruct p; [reflexivity|]; rewrite R3 in Y by discriminate; contradiction).
    apply R1 in Y. destruct Y as [Y|[]]. injection Y as <- <- <-. auto.
Qed.
(** Which callback of the programs an event goes to. *)
Lemma event_goes p log ls g o pk f a b : prog_run p log ls g o -> In (OCall pk (EventCall f a b)) (sys o) ->
  exists ns id name, packet_namespace pk = Some ns /\ packet_data pk = Some (DataEvent id a) /\ event_name pk (Ok name) /\ b = option_map (fun i => AckBuilder ns i false) id /\
    match p with
    | SocketioTest => ns = bs "/" /\ (f = cb_print \/ f = cb_types /\ name = bs "types")
    | WsConnect None => ns = bs "/" /\ f = cb_print
    | WsConnect (Some n) => (ns = bs "/" /\ f = cb_print) \/ (ns = n /\ f = cb_named)
    end.
Proof.
  intros R X. destruct (calls_set _ _ _ _ _ _ _ _ _ R X) as (ns & id & name & A & B & C & D & T). exists ns, id, name. repeat (split; [assumption|]).
  assert (In_cases : forall op, In (Api (LTable op)) (main_acts p) ->
    match p with
    | SocketioTest => op = SetFallback (bs "/") cb_print \/ op = SetEvent (bs "/") (bs "types") cb_types
    | WsConnect None => op = SetFallback (bs "/") cb_print
    | WsConnect (Some n) => op = SetFallback (bs "/") cb_print \/ op = SetFallback n cb_named
    end).
  { intros op Y. destruct p as [|[n|]]; cbn [main_acts] in Y;
      repeat (destruct Y as [Y|Y]; [first [discriminate Y|injection Y as <-; auto]|]); contradiction. }
  destruct T as [T|T]; apply In_cases in T; destruct p as [|[n|]]; try destruct T as [T|T]; try discriminate T; try (injection T; intros; subst; auto).
Qed.

(** ** Delivery *)
Definition cop_of (op : tableop) : cop :=
  match op with
  | SetEvent ns ev f => CSetEvent ns ev f
  | ClearEvent ns ev => CClearEvent ns ev
  | SetFallback ns f => CSetFallback ns f
  | ClearFallback ns => CClearFallback ns
  end.
Lemma flat_map_none {A B} (f : A -> list B) l : (forall x, In x l -> f x = []) -> flat_map f l = [].
Proof. induction l as [|x l IH]; intros H; [reflexivity|]. cbn. rewrite H, IH; auto with datatypes. Qed.
Definition of_table (x : cop) : bool := match x with CSetAck _ _ _ | CTakeAck _ _ => false | _ => true end.
Lemma table_filter o : filter of_table (table_history o) = map cop_of (tables o).
Proof.
  induction o as [|x o IH]; [reflexivity|]. unfold table_history, tables in *. cbn [flat_map]. rewrite filter_app, map_app, IH. f_equal.
  destruct x as [|p c|e| | | | |op| | | | | | | | |]; try reflexivity.
  - destruct c; [reflexivity|]. destruct (packet_namespace p); [|reflexivity]. destruct (packet_data p) as [[]|]; reflexivity.
  - destruct e as [|[]| | | |]; try reflexivity. destruct (packet_namespace _); [|reflexivity]. destruct (packet_data _) as [[]|]; reflexivity.
  - destruct op; reflexivity.
Qed.
Lemma filter_split {A} (b : A -> bool) x (h l1 l2 : list A) : filter b h = l1 ++ x :: l2 -> exists h1 h2, h = h1 ++ x :: h2 /\ filter b h1 = l1 /\ filter b h2 = l2.
Proof.
  revert l1. induction h as [|y h IH]; intros l1 E; [destruct l1; discriminate|]. cbn [filter] in E. destruct (b y) eqn:B.
  - destruct l1 as [|z l1]; cbn in E.
    + injection E as -> E. exists [], h. auto.
    + injection E as <- E. destruct (IH _ E) as (h1 & h2 & -> & <- & <-). exists (y :: h1), h2. cbn. rewrite B. auto.
  - destruct (IH _ E) as (h1 & h2 & -> & <- & <-). exists (y :: h1), h2. cbn. rewrite B. auto.
Qed.
Lemma last_of_filter (P : cop -> Prop) (b : cop -> bool) x h : (forall y, P y -> b y = true) -> (last_of P x (filter b h) <-> last_of P x h).
Proof.
  intros K. unfold last_of. split.
  - intros (h1 & h2 & E & Px & F). apply filter_split in E as (k1 & k2 & -> & <- & <-). exists k1, k2. repeat split; auto.
    rewrite Forall_forall in *. intros y Y Py. apply (F y); [|exact Py]. apply filter_In. auto.
  - intros (h1 & h2 & -> & Px & F). exists (filter b h1), (filter b h2). rewrite filter_app. cbn. rewrite (K _ Px). repeat split; auto.
    rewrite Forall_forall in *. intros y Y. apply filter_In in Y as [Y _]. auto.
Qed.
Lemma routed_tables o ns ev f : routed (table_history o) ns ev f <-> routed (map cop_of (tables o)) ns ev f.
Proof.
  rewrite <- table_filter. unfold routed, event_callback_of, fallback_of.
  assert (A : forall x, last_of (on_event ns ev) x (filter of_table (table_history o)) <-> last_of (on_event ns ev) x (table_history o)) by (intros x; apply last_of_filter; intros y [[g ->]| ->]; reflexivity).
  assert (B : forall x, last_of (on_fallback ns) x (filter of_table (table_history o)) <-> last_of (on_fallback ns) x (table_history o)) by (intros x; apply last_of_filter; intros y [[g ->]| ->]; reflexivity).
  rewrite A, B. split; (intros [X|[X Y]]; [auto|right; split; [intros g Z; apply (X g), A; exact Z|exact Y]]).
Qed.
Lemma tables_done p log ls g o : prog_run p log ls g o -> callbacks_set p (sys o) ->
  tables (sys o) = flat_map (fun a => match a with Api (LTable op) => [op] | _ => [] end) (main_acts p).
Proof.
  intros R C. destruct (main_inv_holds _ _ _ _ _ R) as (d & r & D & [A _ _ _] & _).
  assert (T : forall op, In (OTable op) (sys o) -> In (Api (LTable op)) d).
  { intros op X. assert (Y : In op (tables (sys o))) by (apply in_flat_map; eexists; split; [exact X|left; reflexivity]). rewrite A in Y. apply in_flat_map in Y as (y & Y1 & Y2).
    destruct y as [[]| |]; try contradiction. destruct Y2 as [<-|[]]. exact Y1. }
  rewrite A, D, flat_map_app.
  assert (L : flat_map (fun a => match a with Api (LTable op) => [op] | _ => [] end) r = []); [|rewrite L, app_nil_r; reflexivity].
  destruct p as [|[ns|]]; cbn [callbacks_set main_acts] in C, D; apply T in C.
  - destruct d as [|x d]; [contradiction|]. injection D as <- D. destruct d as [|x d]; [destruct C as [C|[]]; discriminate C|]. injection D as <- D.
    destruct r as [|y r]; [reflexivity|]. assert (Z : In y (d ++ y :: r)) by (apply in_or_app; right; left; reflexivity).
    assert (K : forall z, In z (y :: r) -> match z with Api (LTable op) => [op] | _ => [] end = []).
    { intros z Y. assert (W : In z (d ++ y :: r)) by (apply in_or_app; auto). rewrite <- D in W. cbn in W. repeat (destruct W as [<-|W]; [reflexivity|]). contradiction. }
    apply flat_map_none. exact K.
  - destruct d as [|x d]; [contradiction|]. injection D as <- D. destruct d as [|x d].
    + destruct C as [C|[]]. discriminate C.
    + injection D as <- D.
      assert (K : forall z, In z r -> match z with Api (LTable op) => [op] | _ => [] end = []).
      { intros z Y. assert (W : In z (d ++ r)) by (apply in_or_app; auto). rewrite <- D in W. cbn in W. repeat (destruct W as [<-|W]; [reflexivity|]). contradiction. }
      apply flat_map_none. exact K.
  - destruct d as [|x d]; [contradiction|]. injection D as <- D.
    assert (K : forall z, In z r -> match z with Api (LTable op) => [op] | _ => [] end = []).
    { intros z Y. assert (W : In z (d ++ r)) by (apply in_or_app; auto). rewrite <- D in W. cbn in W. repeat (destruct W as [<-|W]; [reflexivity|]). contradiction. }
    apply flat_map_none. exact K.
Qed.
Lemma goes_exactly p log ls g o ns name f : prog_run p log ls g o -> callbacks_set p (sys o) -> (routed (table_history (sys o)) ns name f <-> goes_to p ns name = Some f).
Proof.
  intros R C. rewrite routed_tables, (tables_done _ _ _ _ _ R C), <- routing_exact. 
  destruct p as [|[n|]]; cbn [main_acts flat_map app map cop_of goes_to]; unfold table_after; cbn [fold_left do_op fst]; unfold get_event, set_event, set_fallback; rewrite ?bget_insert.
  - destruct (bytes_eqb ns (bs "/")) eqn:E; [|cbn; reflexivity]. cbn [n_events n_fallback]. rewrite bget_insert. unfold get_or_create_namespace. rewrite bget_insert, bytes_eqb_refl. cbn [n_events n_fallback].
    destruct (bytes_eqb name (bs "types")); reflexivity.
  - destruct (bytes_eqb ns n) eqn:E.
    + cbn [n_events n_fallback]. unfold get_or_create_namespace. rewrite bget_insert. destruct (bytes_eqb n (bs "/")); cbn; reflexivity.
    + destruct (bytes_eqb ns (bs "/")); cbn; reflexivity.
  - destruct (bytes_eqb ns (bs "/")); cbn; reflexivity.
Qed.
Lemma event_given p log ls g o m g' o' pk ns id a name : prog_run p log ls g o -> callbacks_set p (sys o) -> gstep p log g (GTask (LRead m)) = Some (g', o') ->
  completes (sys o) m pk -> packet_namespace pk = Some ns -> packet_data pk = Some (DataEvent id a) -> event_name pk (Ok name) -> (log = true -> show_packet pk <> None) ->
  sys o' = ORead m :: match goes_to p ns name with Some f => [OCall pk (EventCall f a (option_map (fun i => AckBuilder ns i false) id))] | None => [] end.
Proof.
  intros R C H Co Hn Hd He Hs. pose proof (prog_trace _ _ _ _ _ R) as Ht. pose proof (sys_step _ _ _ _ _ _ H) as S. cbn [sys_label] in S.
  destruct (event_reaction _ _ _ _ _ _ _ _ _ _ _ Ht S Co Hn Hd He Hs) as [E1 E2]. destruct (goes_to p ns name) as [f|] eqn:G.
  - apply E1. apply (goes_exactly p log ls g o); assumption.
  - apply E2. intros f X. apply (goes_exactly p log ls g o) in X; [congruence|assumption|assumption].
Qed.

(** Without a slash no event reaches the callback for the namespace. *)
Lemma named_slash ns log ls g o pk a b : prog_run (WsConnect (Some ns)) log ls g o -> In (OCall pk (EventCall cb_named a b)) (sys o) -> exists t, ns = "/"%byte :: t.
Proof.
  intros R X. destruct (event_goes _ _ _ _ _ _ _ _ _ R X) as (n & id & name & A & _ & _ & _ & [[_ Q]|[-> _]]); [discriminate Q|].
  apply in_split in X as (o1 & o2 & X). pose proof (prog_trace _ _ _ _ _ R) as Ht. rewrite X in Ht.
  destruct (event_calls_routed _ _ _ _ _ _ _ _ Ht) as (o0 & m & n' & id' & name' & -> & Hc & _).
  rewrite <- app_assoc in Ht. cbn [app] in Ht. destruct (completed _ _ _ _ _ _ Ht Hc) as (ps & es & t & text & l & _ & _ & Htx & Hl & Hr).
  exact (proj1 (received_ns _ _ _ _ _ Htx Hl Hr A)).
Qed.
Lemma C100_refuted_lemma : ~ C100_full.
Proof. intros F. destruct (proj1 (joins_exactly (bs "chat")) (F (bs "chat"))) as [[t X] _]. discriminate X. Qed.
(** Everything written is part of something given to the channel. *)
Lemma written_queued log s o m : trace log s o -> In (OWrite m) o -> exists fs, In fs (queued o) /\ In m fs.
Proof.
  intros Ht X. destruct (frames_contiguous _ _ _ Ht) as [r E].
  assert (Y : In m (concat (queued o))) by (rewrite E; apply in_or_app; left; apply in_flat_map; eexists; split; [exact X|left; reflexivity]).
  apply in_concat in Y as (fs & Y1 & Y2). eauto.
Qed.
Lemma test_writes log ls g o m : prog_run SocketioTest log ls g o -> In (OWrite m) (sys o) ->
  m = WText (bs "3") \/ In m (snd the_question) \/ exists q, In q (questions (sys o)) /\ snd (answer_to q) = [m].
Proof.
  intros R X. destruct (written_queued _ _ _ _ (prog_trace _ _ _ _ _ R) X) as (fs & Q & Y). destruct (test_says _ _ _ _ _ R Q) as [->|[->|(q & Q1 & ->)]]; auto.
  - destruct Y as [<-|[]]. auto.
  - right. right. exists q. split; [exact Q1|]. destruct Y as [<-|[]]. reflexivity.
Qed.
Lemma connect_writes w log ls g o m : prog_run (WsConnect w) log ls g o -> In (OWrite m) (sys o) ->
  m = WText (bs "3") \/ exists ns, w = Some ns /\ join_frames ns = [m].
Proof.
  intros R X. destruct (written_queued _ _ _ _ (prog_trace _ _ _ _ _ R) X) as (fs & Q & Y). destruct (connect_says _ _ _ _ _ _ R Q) as [->|(ns & -> & ->)].
  - destruct Y as [<-|[]]. auto.
  - right. exists ns. split; [reflexivity|]. destruct Y as [<-|[]]. reflexivity.
Qed.
Lemma joins_once w log ls g o : prog_run (WsConnect w) log ls g o ->
  asked_for (sys o) = [] /\ replies (sys o) = [] /\ (raw_sent (sys o) = [] \/ exists ns, w = Some ns /\ raw_sent (sys o) = [join_frames ns]).
Proof.
  intros R. split; [eapply asks_nothing; exact R|]. split; [eapply no_answers; exact R|].
  destruct (raw_of _ _ _ _ _ R) as [E|(ns & E & E2)]; [auto|]. injection E as ->. right. eauto.
Qed.
Lemma panics_because p log ls g o : prog_run p log ls g o -> In (GExit ExitPanic) o -> crash log o.
Proof. intros R X. eapply exit_crash; [exact R|]. auto. Qed.
Lemma bounded_work p log ls g o : prog_run p log ls g o ->
  length (filter main_step ls) <= 9 /\ length (filter callback_step ls) <= 4 * length (calls_made (sys o)).
Proof. intros R. split; [eapply few_main_steps; exact R|eapply few_callback_steps; exact R]. Qed.
(** The callbacks are in place before the server is asked for anything. *)
Lemma ready_first p log ls g o : prog_run p log ls g o -> asked_for (sys o) <> [] \/ raw_sent (sys o) <> [] ->
  callbacks_set p (sys o) /\ (asked_for (sys o) <> [] -> In (ORegister (bs "/") 0%N cb_reply) (sys o)).
Proof.
  intros R C. destruct (main_inv_holds _ _ _ _ _ R) as (d & r & D & [A B E F] & _).
  assert (T : forall op, In op (tables (sys o)) -> In (OTable op) (sys o)).
  { intros op X. apply in_flat_map in X as (x & X & Y). destruct x; try contradiction. destruct Y as [<-|[]]. exact X. }
  assert (T' : forall n i f, In (n, i, f) (registers (sys o)) -> In (ORegister n i f) (sys o)).
  { intros n i f X. apply in_flat_map in X as (x & X & Y). destruct x; try contradiction. destruct Y as [Y|[]]. injection Y as <- <- <-. exact X. }
  rewrite A in T. rewrite B in T'. rewrite E, F in *. clear A B E F R.
  assert (Z : forall n, length d = n -> d = firstn n (main_acts p)).
  { intros n <-. rewrite D, firstn_app, Nat.sub_diag, firstn_all. cbn [firstn]. rewrite app_nil_r. reflexivity. }
  specialize (Z _ eq_refl). assert (L : length d <= length (main_acts p)) by (rewrite D, app_length; lia). rewrite Z in C, T, T' |- *. clear Z D r.
  destruct p as [|[ns|]]; cbn [main_acts length] in L; cbn [callbacks_set];
    (remember (length d) as n; clear Heqn d; do 8 (destruct n as [|n]; [cbn in C, T, T' |- *; first [solve [destruct C as [C|C]; exfalso; apply C; reflexivity]|split; [apply T; cbn; auto|intros X; first [solve [exfalso; apply X; reflexivity]|apply T'; cbn; auto]]]|]); lia).
Qed.
