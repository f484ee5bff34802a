(** The answers of socketio_test, and that the example programs go on (SpecProgram.v). *)
From Verif Require Import ProgramProofs ProgramMain TraceProofs EmitProofs ClientProofs SentProofs CloseProofs FlowProofs PanicProofs EndProofs EndingProofs SpecProgram.

Definition question_of (c : call) : list (bytes * N) := match c with EventCall 1%N _ (Some a) => [(ab_ns a, ab_id a)] | _ => [] end.
Lemma questions_calls o : questions o = flat_map question_of (calls_made o).
Proof.
  induction o as [|x o IH]; [reflexivity|]. unfold questions, calls_made in *. cbn [flat_map]. rewrite IH, flat_map_app. f_equal.
  destruct x as [|p c| | | | | | | | | | | | | | |]; try reflexivity. cbn [flat_map]. rewrite app_nil_r. reflexivity.
Qed.
Lemma body_answer c d r : body SocketioTest c = d ++ BAnswer :: r -> r = [] /\ (forall x, In x d -> x <> BAnswer) /\ question_of c <> [].
Proof.
  destruct c as [f a ack|f a]; cbn [body].
  - destruct (N.eqb f cb_types) eqn:F.
    + apply N.eqb_eq in F. subst f. destruct ack as [ab|].
      * destruct d as [|x1 d]; [discriminate|]. intros [= <- E]. destruct d as [|x2 d]; [discriminate E|]. injection E as <- E. destruct d as [|x3 d]; [injection E as <-|destruct d; discriminate E].
        repeat split; [|discriminate]. intros x [<-|[<-|[]]]; discriminate.
      * destruct d as [|x1 d]; [discriminate|]. intros [= <- E]. destruct d; discriminate E.
    + destruct d as [|x1 d]; [discriminate|]. intros [= <- E]. destruct d; discriminate E.
  - destruct d as [|x1 d]; [discriminate|]. intros [= <- E]. destruct d; discriminate E.
Qed.
Lemma body_question c : question_of c <> [] -> In BAnswer (body SocketioTest c) /\ exists q, question_of c = [q] /\ given c = [q].
Proof.
  destruct c as [[|[f|f|]] a [ab|]|f a]; cbn; intros H; try (destruct (H eq_refl)). split; [auto|]. eauto.
Qed.
Lemma body_no_question c : question_of c = [] -> ~ In BAnswer (body SocketioTest c).
Proof.
  intros Q X. apply in_split in X as (d & r & X). destruct (body_answer _ _ _ X) as (_ & _ & Y). auto.
Qed.

(** The namespaces of the calls are those of the callbacks set. *)
Lemma last_of_in P x h : last_of P x h -> In x h.
Proof. unfold last_of. intros H. decompose [ex and] H; subst. apply in_or_app. right. left. reflexivity. Qed.
Lemma table_history_tables o x : In x (table_history o) ->
  match x with
  | CSetEvent ns ev f => In (SetEvent ns ev f) (tables o)
  | CSetFallback ns f => In (SetFallback ns f) (tables o)
  | _ => True
  end.
Proof.
  unfold table_history, tables. rewrite in_flat_map. intros (y & Y & H).
  assert (K : match x with CSetEvent ns ev f => In y [OTable (SetEvent ns ev f)] | CSetFallback ns f => In y [OTable (SetFallback ns f)] | _ => True end).
  { destruct y as [|p c|e| | | | |op| | | | | | | | |]; try contradiction.
    - destruct c as [|f a]; [contradiction|]. destruct (packet_namespace p); [|contradiction]. destruct (packet_data p) as [[]|]; try contradiction. destruct H as [<-|[]]. exact I.
    - destruct e as [|[]| | | |]; try contradiction. destruct (packet_namespace _); [|contradiction]. destruct (packet_data _) as [[]|]; try contradiction. destruct H as [<-|[]]. exact I.
    - destruct op; destruct H as [<-|[]]; cbn; auto.
    - destruct H as [<-|[]]. exact I. }
  destruct x; try exact I; destruct K as [<-|[]]; apply in_flat_map; eexists; (split; [exact Y|left; reflexivity]).
Qed.
Lemma routed_set o ns ev f : routed (table_history o) ns ev f -> In (SetEvent ns ev f) (tables o) \/ In (SetFallback ns f) (tables o).
Proof.
  intros [H|[_ H]]; apply last_of_in, table_history_tables in H; auto.
Qed.
Lemma calls_set p log ls g o pk f a b : prog_run p log ls g o -> In (OCall pk (EventCall f a b)) (sys o) ->
  exists ns id name, packet_namespace pk = Some ns /\ packet_data pk = Some (DataEvent id a) /\ event_name pk (Ok name) /\
    b = option_map (fun i => AckBuilder ns i false) id /\ (In (Api (LTable (SetEvent ns name f))) (main_acts p) \/ In (Api (LTable (SetFallback ns f))) (main_acts p)).
Proof.
  intros R X. apply in_split in X as (o1 & o2 & X). pose proof (prog_trace _ _ _ _ _ R) as Ht. pose proof Ht as Ht'. rewrite X in Ht'.
  destruct (event_calls_routed _ _ _ _ _ _ _ _ Ht') as (o0 & m & ns & id & name & E & _ & K1 & K2 & K3 & K4 & K5).
  exists ns, id, name. repeat split; auto. destruct (main_inv_holds _ _ _ _ _ R) as (d & r & D & [Hi _ _ _] & _).
  assert (T : forall op, In op (tables o0) -> In (Api (LTable op)) (main_acts p)).
  { intros op Y. rewrite D. apply in_or_app. left. assert (Z : In op (tables (sys o))) by (rewrite X, E, <- app_assoc, tables_app; apply in_or_app; auto).
    rewrite Hi in Z. apply in_flat_map in Z as (y & Y1 & Y2). destruct y as [[]| |]; try contradiction. destruct Y2 as [<-|[]]. exact Y1. }
  destruct (routed_set _ _ _ _ K4); auto.
Qed.
Lemma socketio_root log ls g o pk f a b : prog_run SocketioTest log ls g o -> In (OCall pk (EventCall f a (Some b))) (sys o) -> ab_ns b = bs "/".
Proof.
  intros R X. destruct (calls_set _ _ _ _ _ _ _ _ _ R X) as (ns & id & name & _ & _ & _ & E & T). destruct id as [i|]; [|discriminate]. injection E as ->. cbn.
  cbn in T. destruct T as [T|T]; repeat (destruct T as [T|T]; [first [discriminate T|injection T as <-; first [reflexivity|intros; subst; reflexivity]|injection T as <- <-; reflexivity|injection T; intros; subst; reflexivity]|]); contradiction.
Qed.

Inductive ans (g : prog) (o : list gobs) : Prop :=
| an_all : replies (sys o) = map answer_to (questions (sys o)) -> ~ In BAnswer (g_body g) -> ans g o
| an_open qs q l : replies (sys o) = map answer_to qs -> questions (sys o) = qs ++ [q] -> fst q = bs "/" -> s_acks (g_sys g) = l ++ [q] -> In BAnswer (g_body g) -> ans g o
| an_crash qs q : replies (sys o) = map answer_to qs -> questions (sys o) = qs ++ [q] -> s_phase (g_sys g) = PEnded EndPanic -> ~ In BAnswer (g_body g) -> ans g o.
Lemma nth_last {A} (l : list A) q : nth_error (l ++ [q]) (length (l ++ [q]) - 1) = Some q.
Proof. rewrite app_length. cbn [length]. replace (length l + 1 - 1) with (length l) by lia. rewrite nth_error_app2, Nat.sub_diag by lia. reflexivity. Qed.
Lemma ans_holds log ls g o : prog_run SocketioTest log ls g o -> ans g o.
Proof.
  revert ls g o. apply (prog_ind SocketioTest log (fun _ g o => ans g o)).
  - apply an_all; [reflexivity|intros []].
  - intros ls g o l g' o' R IH H. pose proof (prog_trace _ _ _ _ _ R) as Ht. pose proof (at_calls _ _ _ _ _ R) as Ac.
    assert (R' : prog_run SocketioTest log (ls ++ [l]) g' (o ++ o')).
    { unfold prog_run in *. rewrite gexecute_app, R. cbn [gexecute]. rewrite H, app_nil_r. reflexivity. }
    destruct (gkinds _ _ _ _ _ _ _ _ R H) as [m -> E B L|x _ E Nb B L _|E S B L _|b c t r -> P B B' E ->|b c t r P B B' T E L _|b c r -> P B B' E L|b c -> P B B' E L].
    + apply read_label in E as (b & P & _ & E).
      destruct Ac as [N Bo Li|cs b0 c0 d P0 _ _ _ _|cs c0 d t r P0 _ _ _ _ _ _]; try (rewrite P0 in P; destruct b; discriminate P).
      destruct IH as [Re Nb|qs q l _ _ _ _ X|qs q _ _ P0 _]; [|rewrite Bo in X; contradiction|rewrite P0 in P; destruct b; discriminate P].
      apply read_calls in E as (Rr & [(pk & c & E1 & E2 & E4 & E5 & E3)|(E1 & E2 & _ & E3)]).
      * assert (Q : questions (sys (o ++ o')) = questions (sys o) ++ question_of c) by (rewrite !questions_calls, sys_app, calls_app, flat_map_app, E2; cbn; rewrite app_nil_r; reflexivity).
        assert (Rp : replies (sys (o ++ o')) = map answer_to (questions (sys o))) by (rewrite sys_app, replies_app, Rr, app_nil_r; exact Re).
        destruct (question_of c) as [|q0 qr] eqn:Qc.
        -- apply an_all; [rewrite Rp, Q, app_nil_r; reflexivity|]. rewrite B, E3. apply body_no_question. exact Qc.
        -- destruct (body_question c) as (Y1 & q & Y2 & Y3); [rewrite Qc; discriminate|]. rewrite Y2 in Qc. injection Qc as <- <-.
           apply (an_open g' (o ++ o') (questions (sys o)) q (s_acks (g_sys g))); [exact Rp|exact Q| |rewrite E4, Y3; reflexivity|rewrite B, E3; exact Y1].
           destruct c as [f a [ab|]|f a]; try discriminate Y3. injection Y3 as <-. cbn. eapply (socketio_root _ _ _ _ pk f a ab R'). rewrite sys_app. apply in_or_app. right. exact E5.
      * assert (Q : questions (sys (o ++ o')) = questions (sys o)) by (rewrite !questions_calls, sys_app, calls_app, flat_map_app, E2; cbn; rewrite app_nil_r; reflexivity).
        apply an_all; [rewrite sys_app, replies_app, Rr, app_nil_r, <- sys_app, Q; exact Re|]. rewrite B, E3. exact Nb.
    + destruct (off_body _ _ _ _ _ _ Ht E Nb) as (K0 & C & Rr & _ & _ & _ & K3).
      assert (Q : questions (sys (o ++ o')) = questions (sys o)) by (rewrite !questions_calls, sys_app, calls_app, flat_map_app, C; cbn; rewrite app_nil_r; reflexivity).
      assert (Rp : replies (sys (o ++ o')) = replies (sys o)) by (rewrite sys_app, replies_app, Rr, app_nil_r; reflexivity).
      destruct IH as [Re X|qs q l0 Re Qe F A X|qs q Re Qe P0 X].
      * apply an_all; congruence.
      * apply (an_open _ _ qs q l0); congruence.
      * apply (an_crash _ _ qs q); try congruence. auto.
    + assert (Q : sys (o ++ o') = sys o) by (rewrite sys_app, S, app_nil_r; reflexivity).
      destruct IH as [Re X|qs q l0 Re Qe F A X|qs q Re Qe P0 X]; [apply an_all|apply (an_open _ _ qs q l0)|apply (an_crash _ _ qs q)]; congruence.
    + assert (Q : sys (o ++ [GLine TheCallback t]) = sys o) by (rewrite sys_app; cbn; rewrite app_nil_r; reflexivity).
      destruct IH as [Re X|qs q l0 Re Qe F A X|qs q Re Qe P0 X]; [apply an_all|apply (an_open _ _ qs q l0)|congruence]; try congruence.
      * rewrite B', B in *. intros Y. apply X. right. exact Y.
      * rewrite B', B in *. destruct X as [X|X]; [discriminate X|exact X].
    + cbn [step] in E. rewrite P in E. injection E as E1 E2.
      assert (Q : questions (sys (o ++ o')) = questions (sys o)) by (rewrite sys_app, questions_app, <- E2; cbn; apply app_nil_r).
      assert (Rp : replies (sys (o ++ o')) = replies (sys o)) by (rewrite sys_app, replies_app, <- E2; cbn; apply app_nil_r).
      destruct IH as [Re X|qs q l0 Re Qe F A X|qs q Re Qe P0 X]; [apply an_all|apply (an_crash _ _ qs q)|congruence]; try congruence.
      * rewrite B'. intros [].
      * rewrite <- E1. reflexivity.
      * rewrite B'. intros [].
    + destruct Ac as [N Bo Li|cs b0 c0 d P0 C0 B0 W Li|cs c0 d t' r' P0 Bo C0 B0 W T Li]; [destruct (N _ _ P)| |congruence].
      rewrite B in B0. destruct (body_answer _ _ _ B0) as (-> & _ & _).
      destruct IH as [Re X|qs q l0 Re Qe F A X|qs q Re Qe P1 X]; [destruct X; rewrite B; left; reflexivity| |congruence].
      apply ProgramProofs.ack_step in E as (ns & id & fs & E1 & E2 & E3 & E4 & E5 & E6 & _). rewrite A, nth_last in E1. injection E1 as ->. cbn [fst] in F. subst ns.
      rewrite ack_text in E2. injection E2 as <-.
      apply an_all; [|rewrite B'; intros []].
      rewrite sys_app, replies_app, questions_app, (questions_calls (sys o')), E5, app_nil_r, Re, Qe, map_app. f_equal. destruct E6 as [->| ->]; reflexivity.
    + cbn [step] in E. rewrite P in E. injection E as E1 E2.
      assert (Q : sys (o ++ o') = sys o) by (rewrite sys_app, <- E2, app_nil_r; reflexivity).
      destruct IH as [Re X|qs q l0 Re Qe F A X|qs q Re Qe P0 X]; [apply an_all|rewrite B in X; contradiction|congruence]; congruence.
Qed.
Lemma answers_given log ls g o : prog_run SocketioTest log ls g o ->
  exists qs rest, questions (sys o) = qs ++ rest /\ replies (sys o) = map answer_to qs /\ (rest = [] \/ (exists q, rest = [q]) /\ unfinished g).
Proof.
  intros R. destruct (ans_holds _ _ _ _ R) as [Re X|qs q l0 Re Qe F A X|qs q Re Qe P0 X].
  - exists (questions (sys o)), []. rewrite app_nil_r. auto.
  - exists qs, [q]. repeat split; auto. right. split; [eauto|]. left.
    destruct (at_calls _ _ _ _ _ R) as [N Bo Li|cs b0 c0 d P0 C0 B0 W Li|cs c0 d t' r' P0 Bo C0 B0 W T Li]; [rewrite Bo in X; contradiction|eauto|rewrite Bo in X; contradiction].
  - exists qs, [q]. repeat split; auto. right. split; [eauto|]. right. exact P0.
Qed.
