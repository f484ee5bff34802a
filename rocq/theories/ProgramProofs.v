(** Proofs about the example programs (SpecProgram.v). *)
From Verif Require Import TraceProofs EmitProofs ClientProofs SentProofs CloseProofs FlowProofs PanicProofs EndProofs EndingProofs SpecProgram.

Lemma ack_text id : ack_packets (ack_binary false (ack_builder_new (bs "/") id)) [SStr (bs "message received")] = Some [WText (bs "43" ++ dec id ++ bs "[""message received""]")].
Proof.
  assert (E : bs "43" ++ dec id ++ bs "[""message received""]" = (((bs "43" ++ dec id) ++ bs "[") ++ bs """message received""") ++ bs "]").
  { rewrite <- !app_assoc. reflexivity. }
  rewrite E. reflexivity.
Qed.

(** ** Runs *)
Lemma gexecute_app p log ls : forall g ls', gexecute p log g (ls ++ ls') =
  match gexecute p log g ls with
  | Some (g1, o1) => match gexecute p log g1 ls' with Some (g2, o2) => Some (g2, o1 ++ o2) | None => None end
  | None => None
  end.
Proof.
  induction ls as [|l ls IH]; intros g ls'; cbn [gexecute app].
  - destruct (gexecute p log g ls') as [[g2 o2]|]; reflexivity.
  - destruct (gstep p log g l) as [[g1 o1]|]; [|reflexivity]. rewrite IH. destruct (gexecute p log g1 ls) as [[g2 o2]|]; [|reflexivity].
    destruct (gexecute p log g2 ls') as [[g3 o3]|]; [|reflexivity]. rewrite app_assoc. reflexivity.
Qed.
Lemma prog_ind p log (P : list glabel -> prog -> list gobs -> Prop) : P [] prog_init [] ->
  (forall ls g o l g' o', prog_run p log ls g o -> P ls g o -> gstep p log g l = Some (g', o') -> P (ls ++ [l]) g' (o ++ o')) ->
  forall ls g o, prog_run p log ls g o -> P ls g o.
Proof.
  intros H0 HS ls. induction ls as [|l ls IH] using rev_ind; intros g o H; unfold prog_run in *.
  - cbn in H. injection H as <- <-. exact H0.
  - rewrite gexecute_app in H. destruct (gexecute p log prog_init ls) as [[g1 o1]|] eqn:E; [|discriminate]. cbn [gexecute] in H.
    destruct (gstep p log g1 l) as [[g2 o2]|] eqn:Es; [|discriminate]. injection H as <- <-. rewrite app_nil_r.
    eapply HS; eauto.
Qed.

Lemma sys_app a b : sys (a ++ b) = sys a ++ sys b.
Proof. apply flat_map_app. Qed.
Lemma sys_map o : sys (map GSys o) = o.
Proof. induction o as [|x o IH]; [reflexivity|]. cbn. f_equal. exact IH. Qed.
Lemma lines_app w a b : lines w (a ++ b) = lines w a ++ lines w b.
Proof. apply flat_map_app. Qed.
Lemma lines_map w o : lines w (map GSys o) = [].
Proof. induction o as [|x o IH]; [reflexivity|]. exact IH. Qed.
Lemma calls_app a b : calls_made (a ++ b) = calls_made a ++ calls_made b.
Proof. apply flat_map_app. Qed.

(** What a step of the program is to the client. *)
Definition sys_label (g : prog) (l : glabel) : option label :=
  match l with
  | GTask l => Some l
  | GMain => match g_main g with MActs ((Api l | ApiTry l) :: _) => Some l | MLeaving _ => Some LDropClient | _ => None end
  | GMainMute => None
  | GCloseReturn => Some LCloseReturn
  | GCloseTimeout => Some LCloseTimeout
  | GBody => match g_body g with
             | BSay (Some _) :: _ => None | BSay None :: _ => Some LCbPanic
             | BAnswer :: _ => Some (LCbAck (length (s_acks (g_sys g)) - 1) false [SStr (bs "message received")])
             | [] => Some LCbReturn
             end
  | GBodyMute => Some LCbPanic
  end.
Ltac gcases H :=
  repeat match type of H with
         | context [match ?x with _ => _ end] => destruct x eqn:?; try discriminate H
         end.
Lemma after_connect_sys p m s : sys (snd (after_connect p m s)) = [].
Proof. unfold after_connect. destruct m; try reflexivity. destruct (s_conn s); reflexivity. Qed.
Lemma sys_step p log g l g' o' : gstep p log g l = Some (g', o') ->
  match sys_label g l with
  | Some x => step log (g_sys g) x = Some (g_sys g', sys o')
  | None => g_sys g' = g_sys g /\ sys o' = []
  end.
Proof.
  intros H. destruct l as [l| | | | | |]; cbn [gstep sys_label] in *.
  - destruct (background g l); [|discriminate]. destruct (step log (g_sys g) l) as [[s x]|]; [|discriminate].
    pose proof (after_connect_sys p (g_main g) s) as A. destruct (after_connect p (g_main g) s) as [m y]. injection H as <- <-.
    cbn [g_sys]. rewrite sys_app, sys_map. cbn [snd] in A. rewrite A, app_nil_r. reflexivity.
  - destruct (g_main g) as [|[|[l|l|t] r]| |e|e]; try discriminate.
    + destruct (step _ _ l) as [[s x]|]; [|discriminate]. injection H as <- <-. rewrite sys_map. reflexivity.
    + destruct (step _ _ l) as [[s x]|]; [|discriminate]. injection H as <- <-. rewrite sys_map. reflexivity.
    + injection H as <- <-. auto.
    + destruct (step _ _ _) as [[s x]|]; [|discriminate]. injection H as <- <-. rewrite sys_app, sys_map. cbn. rewrite app_nil_r. reflexivity.
  - destruct (g_main g) as [|[|[l|l|t] r]| |e|e]; try discriminate. injection H as <- <-. auto.
  - destruct (g_main g); try discriminate. destruct (step _ _ _) as [[s x]|]; [|discriminate]. injection H as <- <-. rewrite sys_map. reflexivity.
  - destruct (g_main g); try discriminate. destruct (step _ _ _) as [[s x]|]; [|discriminate]. injection H as <- <-. rewrite sys_map. reflexivity.
  - destruct (s_phase (g_sys g)); try discriminate. destruct (g_body g) as [|[[t|]|] r].
    + destruct (step _ _ _) as [[s x]|]; [|discriminate]. injection H as <- <-. rewrite sys_map. reflexivity.
    + injection H as <- <-. auto.
    + destruct (step _ _ _) as [[s x]|]; [|discriminate]. injection H as <- <-. rewrite sys_map. reflexivity.
    + destruct (step _ _ _) as [[s x]|]; [|discriminate]. injection H as <- <-. rewrite sys_map. reflexivity.
  - destruct (s_phase (g_sys g)); try discriminate. destruct (g_body g) as [|[t|] r]; try discriminate.
    destruct (step _ _ _) as [[s x]|]; [|discriminate]. injection H as <- <-. cbn. rewrite sys_map. reflexivity.
Qed.
Lemma prog_trace p log ls g o : prog_run p log ls g o -> trace log (g_sys g) (sys o).
Proof.
  revert ls g o. apply (prog_ind p log (fun _ g o => trace log (g_sys g) (sys o))).
  - exists []. reflexivity.
  - intros ls g o l g' o' _ IH H. apply sys_step in H. rewrite sys_app. destruct (sys_label g l) as [x|].
    + eapply trace_step; eauto.
    + destruct H as [-> ->]. rewrite app_nil_r. exact IH.
Qed.

(** ** What the steps of the client leave alone *)
Definition still (l : label) : Prop :=
  match l with
  | LEmit _ | LCbEmit _ | LBuild _ | LRegister _ | LPush _ | LRaw _ | LCbTable _ | LAck _ _ _ | LCloseChannel | LTable _ => False
  | _ => True
  end.
Definition mild (x : obs) : bool :=
  match x with
  | OQueued (ByEmit _ _) _ | OLost (ByEmit _ _) _ | OQueued ByUser _ | OLost ByUser _ | OUserPanic | OTable _ | ORegister _ _ _
  | OChannelClosed | OBlocked | ORequest _ => false
  | _ => true
  end.
Lemma read_mild log b m s : forallb mild (snd (read_step log b m s)) = true.
Proof.
  rewrite read_step_obs. cbv zeta. destruct (process_websocket_packet _ _ _ _ _) as [r c op q out]. cbn [pr_open pr_queue pr_outcome].
  destruct op; destruct q; try (destruct (s_chan_closed s || _)); destruct out as [[u|e|]|p k]; reflexivity.
Qed.
Lemma still_step log s l s' o' : step log s l = Some (s', o') -> still l ->
  s_inflight s' = s_inflight s /\ s_next_id s' = s_next_id s /\ s_chan_closed s' = s_chan_closed s /\ forallb mild o' = true.
Proof.
  intros H St. assert (Hl : (exists m, l = LRead m) \/ forall m, l <> LRead m) by (destruct l; eauto; right; discriminate).
  destruct Hl as [[m ->]|Hl].
  - apply read_label in H as (b & _ & _ & H). pose proof (read_step_fields _ _ _ _ _ _ H) as F. cbv zeta in F. destruct F as (_ & _ & _ & F1 & _ & F2 & _ & _ & F3 & _).
    pose proof (read_mild log b m s) as M. rewrite H in M. auto.
  - other_cases H Hl; try contradiction; try (cbn; auto).
Qed.
(** Calls and replies. *)
Lemma read_calls log b m s s' o' : read_step log b m s = (s', o') ->
  replies o' = [] /\
  ((exists p c, s_phase s' = PCalling b c /\ calls_made o' = [c] /\ s_acks s' = s_acks s ++ given c /\ In (OCall p c) o' /\
      (forall q b0, after_task q b0 o' = body q c)) \/
   ((forall b c, s_phase s = PCalling b c -> False) -> (forall b c, s_phase s' = PCalling b c -> False)) /\ calls_made o' = [] /\ s_acks s' = s_acks s /\
      (forall q b0, after_task q b0 o' = b0)).
Proof.
  unfold read_step. cbv zeta. destruct (process_websocket_packet _ _ _ _ _) as [r c op q out]. cbn [pr_receiver pr_callbacks pr_open pr_queue pr_outcome].
  destruct op; destruct q; unfold push; cbn [s_chan_closed task_ended s_phase set_open set_table set_receiver];
    try (destruct (s_chan_closed s || _)); destruct out as [[u|e|]|p k]; intros [= <- <-]; cbn; (split; [reflexivity|]);
    first [ left; exists p, k; cbn; solve [auto 10] | right; (split; [intros X; first [exact X | intros; discriminate]|]); auto ].
Qed.
Definition bodily (l : label) : Prop :=
  match l with LCbEmit _ | LCbTable _ | LCbAck _ _ _ | LAck _ _ _ | LCbReturn | LCbPanic | LRead _ => True | _ => False end.
Lemma requests_calls n l : calls_made (requests n l) = [].
Proof. revert n. induction l as [|[b|f] l IH]; intros n; cbn; auto. Qed.
Lemma requests_replies n l : replies (requests n l) = [].
Proof. revert n. induction l as [|[b|f] l IH]; intros n; cbn; auto. Qed.
Lemma requests_task p b n l : after_task p b (requests n l) = b.
Proof. revert n. induction l as [|[b'|f] l IH]; intros n; cbn [requests]; [reflexivity|apply IH|exact (IH _)]. Qed.
Lemma task_app p b o o' : after_task p b (o ++ o') = after_task p (after_task p b o) o'.
Proof. apply fold_left_app. Qed.
Lemma replies_app a b : replies (a ++ b) = replies a ++ replies b.
Proof. apply flat_map_app. Qed.
Lemma questions_app a b : questions (a ++ b) = questions a ++ questions b.
Proof. apply flat_map_app. Qed.
Lemma sending_calls b c r : sending r <> PCalling b c.
Proof. destruct r; discriminate. Qed.
Lemma off_body log s o l s' o' : trace log s o -> step log s l = Some (s', o') -> ~ bodily l ->
  s_acks s' = s_acks s /\ calls_made o' = [] /\ replies o' = [] /\ (forall q b0, after_task q b0 o' = b0) /\
  ((exists b c, s_phase s = PCalling b c) -> s_phase s' = s_phase s) /\
  ((forall b c, s_phase s = PCalling b c -> False) -> (forall b c, s_phase s' = PCalling b c -> False)) /\
  (s_phase s = PEnded EndPanic -> s_phase s' = PEnded EndPanic).
Proof.
  intros Ht H Nb. pose proof (unborn _ _ _ Ht) as U. assert (Hl : forall m, l <> LRead m) by (intros m ->; apply Nb; exact I).
  other_cases H Hl; try (destruct (Nb I)); (split; [first [reflexivity|idtac]|]); (split; [first [reflexivity | rewrite ?calls_app, ?requests_calls; reflexivity]|]);
    (split; [first [reflexivity | rewrite ?replies_app, ?requests_replies; reflexivity]|]);
    (split; [intros q b0; first [reflexivity | rewrite ?task_app, ?requests_task; reflexivity]|]);
    cbn; repeat split; try solve [reflexivity | intros (b' & c' & X); congruence | intros X; exact X | intros _ b' c' X; first [discriminate X | destruct (sending_calls _ _ _ X)] | congruence].
  all: rewrite (U eq_refl); try (intros (b' & c' & X)); try intros X; discriminate.
Qed.

(** ** The main thread *)
Lemma main_suffix p log ls g o : prog_run p log ls g o -> forall l, g_main g = MActs l -> exists d, main_acts p = d ++ l.
Proof.
  revert ls g o. apply (prog_ind p log (fun _ g _ => forall l, g_main g = MActs l -> exists d, main_acts p = d ++ l)).
  - discriminate.
  - intros ls g o l g' o' _ IH H r E. destruct l as [l| | | | | |]; cbn [gstep] in H.
    + destruct (background g l); [|discriminate]. destruct (step log (g_sys g) l) as [[s x]|]; [|discriminate]. unfold after_connect in H.
      destruct (g_main g) eqn:M; try (injection H as <- <-; cbn [g_main] in E; discriminate E || (apply IH; exact E)).
      destruct (s_conn s); injection H as <- <-; cbn [g_main] in E; try discriminate E. injection E as <-. exists []. reflexivity.
    + destruct (g_main g) as [|[|a r']| |e|e]; try discriminate.
      * destruct (IH _ eq_refl) as [d D]. assert (X : main_acts p = (d ++ [a]) ++ r') by (rewrite <- app_assoc; exact D).
        destruct a as [l|l|t]; [| |injection H as <- <-; injection E as <-; eauto];
          (destruct (step _ _ l) as [[s x]|]; [|discriminate]); injection H as <- <-; cbn [g_main] in E; unfold after_act in E; destruct (existsb is_panic x); try discriminate E.
        -- destruct l; try discriminate E; injection E as <-; eauto.
        -- destruct (existsb is_lost x); [discriminate E|]. injection E as <-. eauto.
      * destruct (step _ _ _) as [[s x]|]; [|discriminate]. injection H as <- <-. discriminate E.
    + destruct (g_main g) as [|[|[l|l|t] r']| |e|e]; try discriminate. injection H as <- <-. discriminate E.
    + destruct (g_main g); try discriminate. destruct (step _ _ _) as [[s x]|]; [|discriminate]. injection H as <- <-. discriminate E.
    + destruct (g_main g); try discriminate. destruct (step _ _ _) as [[s x]|]; [|discriminate]. injection H as <- <-. discriminate E.
    + apply IH. rewrite <- E. destruct (s_phase (g_sys g)); try discriminate. destruct (g_body g) as [|[[t|]|] r']; try (injection H as <- <-; reflexivity);
        (destruct (step _ _ _) as [[s x]|]; [|discriminate]); injection H as <- <-; reflexivity.
    + apply IH. rewrite <- E. destruct (s_phase (g_sys g)); try discriminate. destruct (g_body g) as [|[t|] r']; try discriminate;
        (destruct (step _ _ _) as [[s x]|]; [|discriminate]); injection H as <- <-; reflexivity.
Qed.
(** The calls into the library that the main thread makes. *)
Definition main_label (p : program) (l : label) : Prop := In (Api l) (main_acts p) \/ In (ApiTry l) (main_acts p).
Lemma main_not_bodily p l : main_label p l -> ~ bodily l.
Proof.
  unfold main_label. destruct p as [|[ns|]]; cbn; intros X Y; repeat (destruct X as [X|X]; try (injection X as <-; exact Y); try discriminate X; try contradiction).
Qed.
Lemma main_head p log ls g o l r : prog_run p log ls g o -> g_main g = MActs (Api l :: r) \/ g_main g = MActs (ApiTry l :: r) -> main_label p l.
Proof.
  intros R [E|E]; destruct (main_suffix _ _ _ _ _ R _ E) as [d D]; [left|right]; rewrite D; apply in_or_app; right; left; reflexivity.
Qed.

(** The kinds of steps. *)
Inductive gkind (p : program) (log : bool) (g : prog) (l : glabel) (g' : prog) (o' : list gobs) : Prop :=
| gk_read m : l = GTask (LRead m) -> step log (g_sys g) (LRead m) = Some (g_sys g', sys o') -> g_body g' = after_task p (g_body g) (sys o') ->
    lines TheCallback o' = [] -> gkind p log g l g' o'
| gk_off x : sys_label g l = Some x -> step log (g_sys g) x = Some (g_sys g', sys o') -> ~ bodily x -> g_body g' = g_body g ->
    lines TheCallback o' = [] -> callback_step l = false -> gkind p log g l g' o'
| gk_main : g_sys g' = g_sys g -> sys o' = [] -> g_body g' = g_body g -> lines TheCallback o' = [] -> main_step l = true -> gkind p log g l g' o'
| gk_say b c t r : l = GBody -> s_phase (g_sys g) = PCalling b c -> g_body g = BSay (Some t) :: r -> g_body g' = r -> g_sys g' = g_sys g ->
    o' = [GLine TheCallback t] -> gkind p log g l g' o'
| gk_panic b c t r : s_phase (g_sys g) = PCalling b c -> g_body g = BSay t :: r -> g_body g' = [] -> (t = None \/ In GNoOutput o') ->
    step log (g_sys g) LCbPanic = Some (g_sys g', sys o') -> lines TheCallback o' = [] -> callback_step l = true -> gkind p log g l g' o'
| gk_answer b c r : l = GBody -> s_phase (g_sys g) = PCalling b c -> g_body g = BAnswer :: r -> g_body g' = r ->
    step log (g_sys g) (LCbAck (length (s_acks (g_sys g)) - 1) false [SStr (bs "message received")]) = Some (g_sys g', sys o') ->
    lines TheCallback o' = [] -> gkind p log g l g' o'
| gk_return b c : l = GBody -> s_phase (g_sys g) = PCalling b c -> g_body g = [] -> g_body g' = [] ->
    step log (g_sys g) LCbReturn = Some (g_sys g', sys o') -> lines TheCallback o' = [] -> gkind p log g l g' o'.
Lemma after_connect_lines p m s : lines TheCallback (snd (after_connect p m s)) = [].
Proof. unfold after_connect. destruct m; try reflexivity. destruct (s_conn s); reflexivity. Qed.
Lemma gkinds p log ls g o l g' o' : prog_run p log ls g o -> gstep p log g l = Some (g', o') -> gkind p log g l g' o'.
Proof.
  intros R H. pose proof (sys_step _ _ _ _ _ _ H) as S. pose proof (prog_trace _ _ _ _ _ R) as Ht. destruct l as [l| | | | | |]; cbn [gstep sys_label] in H, S.
  - destruct (background g l) eqn:B; [|discriminate]. destruct (step log (g_sys g) l) as [[s x]|] eqn:E; [|discriminate].
    pose proof (after_connect_lines p (g_main g) s) as A. destruct (after_connect p (g_main g) s) as [m y] eqn:Ac. injection H as <- <-. cbn [snd] in A.
    assert (L : lines TheCallback (map GSys x ++ y) = []) by (rewrite lines_app, lines_map, A; reflexivity).
    injection S as S. cbn [g_sys] in *. 
    assert (Hl : (exists m, l = LRead m) \/ ~ bodily l) by (destruct l; cbn in *; eauto; discriminate).
    destruct Hl as [[m' ->]|Hl].
    + eapply gk_read; [reflexivity|rewrite E, S at 1; reflexivity| |exact L]. cbn [g_body]. rewrite <- S. reflexivity.
    + eapply gk_off with (x := l); [reflexivity|rewrite E; cbn; f_equal; f_equal; exact S|exact Hl| |exact L|reflexivity]. cbn.
      destruct (off_body _ _ _ _ _ _ Ht E Hl) as (_ & _ & _ & K & _). apply K.
  - destruct (g_main g) as [|[|[l|l|t] r]| |e|e] eqn:M; try discriminate.
    + destruct (step _ _ l) as [[s x]|] eqn:E; [|discriminate]. injection H as <- <-.
      eapply gk_off with (x := l); [cbn; rewrite M; reflexivity|rewrite E; exact S| |reflexivity|apply lines_map|reflexivity].
      apply (main_not_bodily p). eapply main_head; eauto.
    + destruct (step _ _ l) as [[s x]|] eqn:E; [|discriminate]. injection H as <- <-.
      eapply gk_off with (x := l); [cbn; rewrite M; reflexivity|rewrite E; exact S| |reflexivity|apply lines_map|reflexivity].
      apply (main_not_bodily p). eapply main_head; eauto.
    + injection H as <- <-. apply gk_main; reflexivity.
    + destruct (step _ _ _) as [[s x]|] eqn:E; [|discriminate]. injection H as <- <-.
      eapply gk_off with (x := LDropClient); [cbn; rewrite M; reflexivity|rewrite E; exact S|exact (fun z => z)|reflexivity|rewrite lines_app, lines_map; reflexivity|reflexivity].
  - destruct (g_main g) as [|[|[l|l|t] r]| |e|e]; try discriminate. injection H as <- <-. apply gk_main; reflexivity.
  - destruct (g_main g); try discriminate. destruct (step _ _ _) as [[s x]|] eqn:E; [|discriminate]. injection H as <- <-.
    eapply gk_off with (x := LCloseReturn); [reflexivity|rewrite E; exact S|exact (fun z => z)|reflexivity|apply lines_map|reflexivity].
  - destruct (g_main g); try discriminate. destruct (step _ _ _) as [[s x]|] eqn:E; [|discriminate]. injection H as <- <-.
    eapply gk_off with (x := LCloseTimeout); [reflexivity|rewrite E; exact S|exact (fun z => z)|reflexivity|apply lines_map|reflexivity].
  - destruct (s_phase (g_sys g)) eqn:P; try discriminate. destruct (g_body g) as [|[[t|]|] r] eqn:B.
    + destruct (step _ _ _) as [[s x]|] eqn:E; [|discriminate]. injection H as <- <-. eapply gk_return; eauto; try reflexivity. 1: rewrite E; exact S. apply lines_map.
    + injection H as <- <-. eapply gk_say; eauto.
    + destruct (step _ _ _) as [[s x]|] eqn:E; [|discriminate]. injection H as <- <-. eapply gk_panic; eauto; try reflexivity. 1: rewrite E; exact S. apply lines_map.
    + destruct (step _ _ _) as [[s x]|] eqn:E; [|discriminate]. injection H as <- <-. eapply gk_answer; eauto; try reflexivity. 1: rewrite E; exact S. apply lines_map.
  - destruct (s_phase (g_sys g)) eqn:P; try discriminate. destruct (g_body g) as [|[t|] r] eqn:B; try discriminate.
    destruct (step _ _ _) as [[s x]|] eqn:E; [|discriminate]. injection H as <- <-. eapply gk_panic; eauto; try reflexivity. 1: right; left; reflexivity. 1: rewrite E; exact S. exact (lines_map _ _).
Qed.

(** ** Calls, lines and answers *)
Definition texts (l : list bact) : list bytes := flat_map (fun x => match x with BSay (Some t) => [t] | _ => [] end) l.
Definition well (l : list bact) : Prop := forall x, In x l -> x <> BSay None.
Lemma texts_app a b : texts (a ++ b) = texts a ++ texts b.
Proof. apply flat_map_app. Qed.
Lemma args_line_well pre a : args_line pre a <> BSay None -> texts [args_line pre a] = [line pre a].
Proof. unfold args_line, line. destruct (show_args a); intros H; [reflexivity|destruct (H eq_refl)]. Qed.
Lemma body_lines p c : well (body p c) -> texts (body p c) = call_lines p c.
Proof.
  intros W. destruct c as [f a ack|f a]; cbn [body] in *; destruct p as [|[ns|]]; cbn [call_lines].
  - destruct (N.eqb f cb_types) eqn:F.
    + apply N.eqb_eq in F. subst f. pose proof (args_line_well _ _ (W _ (or_introl eq_refl))) as X. cbn [texts flat_map] in *. rewrite app_nil_r in X.
      change (flat_map _ ?l) with (texts l). destruct ack; cbn [cb_types]; rewrite X; reflexivity.
    + apply N.eqb_neq in F. rewrite (args_line_well _ _ (W _ (or_introl eq_refl))). destruct f as [|[q|q|]]; try reflexivity. destruct (F eq_refl).
  - rewrite (args_line_well _ _ (W _ (or_introl eq_refl))). destruct (N.eqb f cb_named) eqn:F.
    + apply N.eqb_eq in F. subst f. reflexivity.
    + apply N.eqb_neq in F. destruct f as [|[[q|q|]|q|]]; try reflexivity. destruct (F eq_refl).
  - rewrite (args_line_well _ _ (W _ (or_introl eq_refl))). reflexivity.
  - apply (args_line_well _ _ (W _ (or_introl eq_refl))).
  - apply (args_line_well _ _ (W _ (or_introl eq_refl))).
  - apply (args_line_well _ _ (W _ (or_introl eq_refl))).
Qed.
Lemma initial_texts p c d r : body p c = d ++ r -> well d -> initial_part (texts d) (call_lines p c).
Proof.
  intros E W. unfold initial_part. destruct c as [f a ack|f a]; cbn [body] in *; destruct p as [|[ns|]]; cbn [call_lines].
  - destruct (N.eqb f cb_types) eqn:F.
    + apply N.eqb_eq in F. subst f. destruct d as [|x d]; cbn [app] in E; [exists (call_lines SocketioTest (EventCall cb_types a ack)); reflexivity|].
      injection E as <- E. pose proof (args_line_well _ _ (W _ (or_introl eq_refl))) as X. cbn [texts flat_map] in X |- *. rewrite app_nil_r in X. rewrite X.
      change (flat_map _ ?l) with (texts l). destruct ack as [ab|]; cbn [cb_types].
      * destruct d as [|x d]; cbn [app] in E; [exists [bs "Emitting ack"]; reflexivity|]. injection E as <- E.
        destruct d as [|x d]; [exists []; reflexivity|]. injection E as <- E. destruct d; [|discriminate E]. exists []. reflexivity.
      * destruct d as [|x d]; [|discriminate E]. exists []. reflexivity.
    + apply N.eqb_neq in F. destruct d as [|x d]; cbn [app] in E; [eexists; reflexivity|]. injection E as <- E. destruct d; [|discriminate E].
      rewrite (args_line_well _ _ (W _ (or_introl eq_refl))). exists []. destruct f as [|[q|q|]]; try reflexivity. destruct (F eq_refl).
  - destruct d as [|x d]; cbn [app] in E; [eexists; reflexivity|]. injection E as <- E. destruct d; [|discriminate E].
    rewrite (args_line_well _ _ (W _ (or_introl eq_refl))). exists []. destruct (N.eqb f cb_named) eqn:F.
    + apply N.eqb_eq in F. subst f. reflexivity.
    + apply N.eqb_neq in F. destruct f as [|[[q|q|]|q|]]; try reflexivity. destruct (F eq_refl).
  - destruct d as [|x d]; cbn [app] in E; [eexists; reflexivity|]. injection E as <- E. destruct d; [|discriminate E].
    rewrite (args_line_well _ _ (W _ (or_introl eq_refl))). exists []. reflexivity.
  - destruct d as [|x d]; cbn [app] in E; [eexists; reflexivity|]. injection E as <- E. destruct d; [|discriminate E].
    rewrite (args_line_well _ _ (W _ (or_introl eq_refl))). exists []. reflexivity.
  - destruct d as [|x d]; cbn [app] in E; [eexists; reflexivity|]. injection E as <- E. destruct d; [|discriminate E].
    rewrite (args_line_well _ _ (W _ (or_introl eq_refl))). exists []. reflexivity.
  - destruct d as [|x d]; cbn [app] in E; [eexists; reflexivity|]. injection E as <- E. destruct d; [|discriminate E].
    rewrite (args_line_well _ _ (W _ (or_introl eq_refl))). exists []. reflexivity.
Qed.

Inductive at_call (p : program) (g : prog) (o : list gobs) : Prop :=
| ac_done : (forall b c, s_phase (g_sys g) = PCalling b c -> False) -> g_body g = [] ->
    lines TheCallback o = flat_map (call_lines p) (calls_made (sys o)) -> at_call p g o
| ac_run cs b c d : s_phase (g_sys g) = PCalling b c -> calls_made (sys o) = cs ++ [c] -> body p c = d ++ g_body g -> well d ->
    lines TheCallback o = flat_map (call_lines p) cs ++ texts d -> at_call p g o
| ac_crash cs c d t r : s_phase (g_sys g) = PEnded EndPanic -> g_body g = [] -> calls_made (sys o) = cs ++ [c] -> body p c = d ++ BSay t :: r -> well d ->
    (t = None \/ In GNoOutput o) -> lines TheCallback o = flat_map (call_lines p) cs ++ texts d -> at_call p g o.
Lemma ack_step log s i args s' o' : step log s (LCbAck i false args) = Some (s', o') ->
  exists ns id fs, nth_error (s_acks s) i = Some (ns, id) /\ ack_packets (ack_binary false (ack_builder_new ns id)) args = Some fs /\
    s_acks s' = list_delete i (s_acks s) /\ s_phase s' = s_phase s /\ calls_made o' = [] /\ (o' = [OQueued (ByAck ns id) fs] \/ o' = [OLost (ByAck ns id) fs]) /\
    s_inflight s' = s_inflight s.
Proof.
  intros H. cbn [step] in H. destruct (s_phase s) eqn:P; try discriminate. destruct (nth_error (s_acks s) i) as [[ns id]|] eqn:E; [|discriminate].
  destruct (ack_packets _ _) as [fs|] eqn:A.
  - exists ns, id, fs. unfold push in H. destruct (_ || _)%bool; injection H as <- <-; cbn; auto 10.
  - rewrite ack_packets_build in A. destruct (build_no_panic _ _ _ _ A).
Qed.
Lemma at_calls p log ls g o : prog_run p log ls g o -> at_call p g o.
Proof.
  revert ls g o. apply (prog_ind p log (fun _ g o => at_call p g o)).
  - apply ac_done; try reflexivity. discriminate.
  - intros ls g o l g' o' R IH H. pose proof (prog_trace _ _ _ _ _ R) as Ht.
    destruct (gkinds _ _ _ _ _ _ _ _ R H) as [m -> E B L|x _ E Nb B L _|E S B L _|b c t r -> P B B' E ->|b c t r P B B' T E L _|b c r -> P B B' E L|b c -> P B B' E L].
    + apply read_label in E as (b & P & _ & E). apply read_calls in E as (_ & [(q & c & E1 & E2 & _ & _ & E3)|(E1 & E2 & _ & E3)]).
      * destruct IH as [N Bo Li|cs b0 c0 d P0 _ _ _ _|cs c0 d t r P0 _ _ _ _ _ _]; try (rewrite P0 in P; destruct b; discriminate P).
        apply (ac_run p g' (o ++ o') (calls_made (sys o)) b c []); auto.
        -- rewrite sys_app, calls_app, E2. reflexivity.
        -- rewrite B, E3. reflexivity.
        -- intros x [].
        -- rewrite lines_app, L, Li. reflexivity.
      * destruct IH as [N Bo Li|cs b0 c0 d P0 _ _ _ _|cs c0 d t r P0 _ _ _ _ _ _]; try (rewrite P0 in P; destruct b; discriminate P).
        apply ac_done; [exact (E1 N)|rewrite B, E3; exact Bo|]. rewrite lines_app, L, Li, sys_app, calls_app, E2, !app_nil_r. reflexivity.
    + destruct (off_body _ _ _ _ _ _ Ht E Nb) as (_ & C & _ & _ & K1 & K2 & K3).
      destruct IH as [N Bo Li|cs b0 c0 d P0 C0 B0 W Li|cs c0 d t r P0 Bo C0 B0 W T Li].
      * apply ac_done; [exact (K2 N)|congruence|]. rewrite lines_app, L, Li, sys_app, calls_app, C, !app_nil_r. reflexivity.
      * apply (ac_run p g' (o ++ o') cs b0 c0 d); auto.
        -- rewrite K1 by eauto. exact P0.
        -- rewrite sys_app, calls_app, C, app_nil_r. exact C0.
        -- rewrite B. exact B0.
        -- rewrite lines_app, L, app_nil_r. exact Li.
      * apply (ac_crash p g' (o ++ o') cs c0 d t r); auto.
        -- congruence.
        -- rewrite sys_app, calls_app, C, app_nil_r. exact C0.
        -- destruct T; [auto|right; apply in_or_app; auto].
        -- rewrite lines_app, L, app_nil_r. exact Li.
    + destruct IH as [N Bo Li|cs b0 c0 d P0 C0 B0 W Li|cs c0 d t r P0 Bo C0 B0 W T Li].
      * apply ac_done; [rewrite E; exact N|congruence|]. rewrite lines_app, L, Li, sys_app, calls_app, S, !app_nil_r. reflexivity.
      * apply (ac_run p g' (o ++ o') cs b0 c0 d); auto; try congruence.
        -- rewrite sys_app, S, app_nil_r. exact C0.
        -- rewrite lines_app, L, app_nil_r. exact Li.
      * apply (ac_crash p g' (o ++ o') cs c0 d t r); auto; try congruence.
        -- rewrite sys_app, S, app_nil_r. exact C0.
        -- destruct T; [auto|right; apply in_or_app; auto].
        -- rewrite lines_app, L, app_nil_r. exact Li.
    + destruct IH as [N Bo Li|cs b0 c0 d P0 C0 B0 W Li|cs c0 d t' r' P0 Bo C0 B0 W T Li]; [destruct (N _ _ P)| |congruence].
      apply (ac_run p g' (o ++ [GLine TheCallback t]) cs b0 c0 (d ++ [BSay (Some t)])); auto; try congruence.
      * rewrite sys_app, app_nil_r. exact C0.
      * rewrite B0, B, B', <- app_assoc. reflexivity.
      * intros x X. apply in_app_iff in X as [X|[<-|[]]]; [exact (W _ X)|discriminate].
      * rewrite lines_app, texts_app, Li, <- app_assoc. reflexivity.
    + destruct IH as [N Bo Li|cs b0 c0 d P0 C0 B0 W Li|cs c0 d t' r' P0 Bo C0 B0 W T' Li]; [destruct (N _ _ P)| |congruence].
      rewrite B in B0. cbn [step] in E. rewrite P in E. injection E as E1 E2.
      apply (ac_crash p g' (o ++ o') cs c0 d t r); auto.
      * rewrite <- E1. reflexivity.
      * rewrite sys_app, calls_app, <- E2, app_nil_r. exact C0.
      * destruct T; [auto|right; apply in_or_app; auto].
      * rewrite lines_app, L, app_nil_r. exact Li.
    + destruct IH as [N Bo Li|cs b0 c0 d P0 C0 B0 W Li|cs c0 d t' r' P0 Bo C0 B0 W T Li]; [destruct (N _ _ P)| |congruence].
      apply ack_step in E as (ns & id & fs & _ & _ & _ & E1 & E2 & _).
      apply (ac_run p g' (o ++ o') cs b0 c0 (d ++ [BAnswer])); auto; try congruence.
      * rewrite sys_app, calls_app, E2, app_nil_r. exact C0.
      * rewrite B0, B, B', <- app_assoc. reflexivity.
      * intros x X. apply in_app_iff in X as [X|[<-|[]]]; [exact (W _ X)|discriminate].
      * rewrite lines_app, texts_app, L, Li, !app_nil_r. reflexivity.
    + destruct IH as [N Bo Li|cs b0 c0 d P0 C0 B0 W Li|cs c0 d t' r' P0 Bo C0 B0 W T Li]; [destruct (N _ _ P)| |congruence].
      cbn [step] in E. rewrite P in E. injection E as E1 E2. rewrite B, app_nil_r in B0. apply ac_done; auto.
      * rewrite <- E1. cbn. destruct b; discriminate.
      * rewrite lines_app, L, Li, sys_app, calls_app, <- E2, C0, !app_nil_r, flat_map_app. cbn. rewrite app_nil_r. f_equal. rewrite <- B0. apply body_lines. rewrite B0. exact W.
Qed.

Lemma lines_in_turn p log ls g o : prog_run p log ls g o ->
  exists cs rest part, calls_made (sys o) = cs ++ rest /\ (rest = [] \/ (exists c, rest = [c]) /\ unfinished g) /\
    lines TheCallback o = flat_map (call_lines p) cs ++ part /\ initial_part part (flat_map (call_lines p) rest).
Proof.
  intros R. destruct (at_calls _ _ _ _ _ R) as [N Bo Li|cs b0 c0 d P0 C0 B0 W Li|cs c0 d t r P0 Bo C0 B0 W T Li].
  - exists (calls_made (sys o)), [], []. rewrite !app_nil_r. repeat split; auto. exists []. reflexivity.
  - exists cs, [c0], (texts d). repeat split; auto.
    + right. split; [eauto|]. left. eauto.
    + cbn. rewrite app_nil_r. eapply initial_texts; eauto.
  - exists cs, [c0], (texts d). repeat split; auto.
    + right. split; [eauto|]. right. auto.
    + cbn. rewrite app_nil_r. eapply initial_texts; eauto.
Qed.

(** ** Panics *)
Definition used (p : program) (g : prog) (x : label) : Prop :=
  background g x = true \/ main_label p x \/ In x [LDropClient; LCloseReturn; LCloseTimeout; LCbPanic; LCbReturn] \/ exists i a, x = LCbAck i false a.
Lemma label_used p log ls g o l g' o' x : prog_run p log ls g o -> gstep p log g l = Some (g', o') -> sys_label g l = Some x -> used p g x.
Proof.
  intros R H E. unfold used. destruct l as [l| | | | | |]; cbn [sys_label gstep] in *.
  - injection E as <-. destruct (background g l); [left; reflexivity|discriminate].
  - destruct (g_main g) as [|[|[l|l|t] r]| |e|e] eqn:M; try discriminate; injection E as <-.
    + right. left. eapply main_head; eauto.
    + right. left. eapply main_head; eauto.
    + cbn. auto.
  - discriminate.
  - injection E as <-. cbn. auto 10.
  - injection E as <-. cbn. auto 10.
  - destruct (g_body g) as [|[[t|]|] r]; try discriminate; injection E as <-; cbn; eauto 10.
  - injection E as <-. cbn. auto 10.
Qed.
Definition harsh (x : obs) : bool := match x with OChannelClosed | OBlocked => true | _ => false end.
Lemma requests_harsh n l : existsb harsh (requests n l) = false.
Proof. revert n. induction l as [|[b|f] l IH]; intros n; cbn; auto. Qed.
Lemma harsh_step log s l s' o' : step log s l = Some (s', o') -> existsb harsh o' = true ->
  match l with LCloseChannel | LCbTable _ | LCbEmit _ => True | _ => False end.
Proof.
  intros H X. assert (Hl : (exists m, l = LRead m) \/ forall m, l <> LRead m) by (destruct l; eauto; right; discriminate).
  destruct Hl as [[m ->]|Hl].
  - apply read_label in H as (b & _ & _ & H). pose proof (read_mild log b m s) as M. rewrite H in M. cbn [snd] in M. apply existsb_exists in X as (x & X & Y).
    rewrite forallb_forall in M. specialize (M _ X). destruct x; discriminate.
  - other_cases H Hl; try exact I; try discriminate X; cbn in X; rewrite ?existsb_app, ?requests_harsh in X; discriminate X.
Qed.
Lemma not_harsh p log ls g o : prog_run p log ls g o -> existsb harsh (sys o) = false.
Proof.
  revert ls g o. apply (prog_ind p log (fun _ g o => existsb harsh (sys o) = false)); [reflexivity|].
  intros ls g o l g' o' R IH H. rewrite sys_app, existsb_app, IH. cbn [orb]. pose proof (sys_step _ _ _ _ _ _ H) as S.
  destruct (sys_label g l) as [x|] eqn:E; [|destruct S as [_ ->]; reflexivity].
  destruct (existsb harsh (sys o')) eqn:X; [|reflexivity]. exfalso. pose proof (harsh_step _ _ _ _ _ S X) as Y.
  destruct (label_used _ _ _ _ _ _ _ _ _ R H E) as [U|[U|[U|(i & a & ->)]]].
  - destruct x; try contradiction; discriminate U.
  - unfold main_label in U. destruct p as [|[ns|]]; cbn in U; repeat (destruct U as [U|U]; try (injection U as <-; exact Y); try discriminate U; try contradiction).
  - cbn in U. repeat (destruct U as [<-|U]; [exact Y|]). exact U.
  - exact Y.
Qed.
Lemma never_blocks p log ls g o : prog_run p log ls g o -> ~ In (OBlocked) (sys o).
Proof. intros R X. pose proof (not_harsh _ _ _ _ _ R) as N. assert (Y : existsb harsh (sys o) = true) by (apply existsb_exists; eexists; split; [exact X|reflexivity]). congruence. Qed.
Lemma never_closes_channel p log ls g o : prog_run p log ls g o -> ~ In (OChannelClosed) (sys o).
Proof. intros R X. pose proof (not_harsh _ _ _ _ _ R) as N. assert (Y : existsb harsh (sys o) = true) by (apply existsb_exists; eexists; split; [exact X|reflexivity]). congruence. Qed.

Lemma crash_app log o o' : crash log o -> crash log (o ++ o').
Proof.
  intros [H|c H D|o1 m o2 H D|H].
  - apply cr_output. apply in_or_app. auto.
  - apply (cr_display _ _ c); [|exact D]. rewrite sys_app, calls_app. apply in_or_app. auto.
  - apply (cr_task _ _ o1 m (o2 ++ sys o')); [|exact D]. rewrite sys_app, H, <- app_assoc. reflexivity.
  - apply cr_connect. rewrite sys_app. apply in_or_app. auto.
Qed.
Lemma line_none pre a : args_line pre a = BSay None -> show_args a = None.
Proof. unfold args_line. destruct (show_args a); [discriminate|reflexivity]. Qed.
Lemma body_none p c : In (BSay None) (body p c) -> show_args (call_args c) = None.
Proof.
  destruct c as [f a ack|f a]; cbn [body call_args]; [destruct p as [|[ns|]]; [destruct (N.eqb f cb_types); [destruct ack|]| |]|];
    cbn [In]; intros X; repeat (destruct X as [X|X]; [first [exact (line_none _ _ X)|discriminate X]|]); contradiction.
Qed.
Lemma poisoned_ended log s o : trace log s o -> s_poisoned s = true -> In (OEnd EndPanic) o.
Proof.
  revert s o. apply (trace_ind2 log (fun s o => s_poisoned s = true -> In (OEnd EndPanic) o)); [discriminate| |].
  - intros s o m s' o' _ IH H X. apply read_label in H as (b & _ & _ & H). apply read_step_fields in H. cbv zeta in H. destruct H as (_ & _ & P & _).
    rewrite P in X. apply in_or_app. auto.
  - intros s o l s' o' _ IH Hl H X. apply in_or_app. other_cases H Hl; cbn in X;
      first [left; apply IH; first [exact X|assumption|reflexivity|congruence] | right; left; reflexivity | right; apply in_or_app; right; left; reflexivity].
Qed.
Lemma end_crash p log ls g o : prog_run p log ls g o -> In (OEnd EndPanic) (sys o) -> crash log o.
Proof.
  revert ls g o. apply (prog_ind p log (fun _ g o => In (OEnd EndPanic) (sys o) -> crash log o)); [intros []|].
  intros ls g o l g' o' R IH H X. rewrite sys_app in X. apply in_app_iff in X as [X|X]; [apply crash_app; auto|].
  pose proof (sys_step _ _ _ _ _ _ H) as S. pose proof (prog_trace _ _ _ _ _ R) as Ht.
  destruct (sys_label g l) as [x|] eqn:E; [|destruct S as [_ S]; rewrite S in X; contradiction].
  destruct (proj1 (panics_exactly _ _ _ _ _ _ Ht S) X) as [(m & Ex & D)|[(_ & Y & _)|E']]; [subst x| |].
  - apply read_label in S as (b & _ & _ & S). pose proof (read_step_obs log b m (g_sys g)) as O. rewrite S in O. cbn [snd] in O.
    eapply (cr_task _ _ (sys o) m _); [|exact D]. rewrite sys_app, O. reflexivity.
  - destruct (never_closes_channel _ _ _ _ _ R Y).
  - subst x. destruct (gkinds _ _ _ _ _ _ _ _ R H) as [m -> _ _ _|x E2 S2 Nb _ _ _|_ S2 _ _ _|b c t r -> P B B' _ ->|b c t r P B B' T _ _ _|b c r -> P B B' _ _|b c -> P B B' _ _].
    + discriminate E.
    + rewrite E in E2. injection E2 as <-. destruct (Nb I).
    + rewrite S2 in X. contradiction.
    + contradiction X.
    + destruct T as [->|T]; [|apply cr_output; apply in_or_app; auto].
      destruct (at_calls _ _ _ _ _ R) as [N Bo Li|cs b0 c0 d P0 C0 B0 W Li|cs c0 d t r0 P0 Bo C0 B0 W T Li]; [destruct (N _ _ P)| |congruence].
      apply (cr_display _ _ c0).
      * rewrite sys_app, calls_app, C0. apply in_or_app. left. apply in_or_app. right. left. reflexivity.
      * apply (body_none p). rewrite B0, B. apply in_or_app. right. left. reflexivity.
    + cbn [sys_label] in E. rewrite B in E. discriminate E.
    + cbn [sys_label] in E. rewrite B in E. discriminate E.
Qed.
Lemma conn_panicked log s o : trace log s o -> s_conn s = CPanicked -> In (OConnect CPanicked) o.
Proof.
  revert s o. apply (trace_ind2 log (fun s o => s_conn s = CPanicked -> In (OConnect CPanicked) o)); [discriminate| |].
  - intros s o m s' o' _ IH H X. apply read_label in H as (b & _ & _ & H). apply read_step_fields in H. cbv zeta in H. destruct H as (_ & _ & _ & _ & C & _).
    rewrite C in X. apply in_or_app. auto.
  - intros s o l s' o' _ IH Hl H X. apply in_or_app. other_cases H Hl; cbn in X; try discriminate X;
      first [left; apply IH; first [exact X|assumption|reflexivity|congruence] | right; left; reflexivity | discriminate].
Qed.
Lemma emission_packets n : exists fs, event_packets (snd (builder_calls n (event_builder_new (em_event test_emission) (em_ns test_emission)) (em_calls test_emission))) (em_args test_emission) = Some fs.
Proof.
  destruct (event_packets _ _) as [fs|] eqn:E; [eauto|]. exfalso. rewrite event_packets_build in E. destruct (build_no_panic _ _ _ _ E).
Qed.
Lemma main_panics p log s x s' o' : main_label p x -> step log s x = Some (s', o') -> existsb is_panic o' = true -> s_poisoned s = true.
Proof.
  intros M H X.
  assert (K : (exists o, x = LTable o) \/ x = LEmit test_emission \/ x = LRegister 0 \/ x = LPush 0 \/ x = LCloseCall \/ exists fs, x = LRaw fs).
  { unfold main_label in M. destruct p as [|[ns|]]; cbn in M; repeat (destruct M as [M|M]; try discriminate M; try (injection M as <-; eauto 10; fail)); contradiction. }
  destruct K as [[op ->]|[->|[->|[->|[->|[fs ->]]]]]]; cbn [step] in H.
  - destruct (usable_client s); [|discriminate]. destruct (s_poisoned s); [reflexivity|]. destruct (locked s); [discriminate|]. injection H as <- <-. discriminate X.
  - destruct (usable_client s); [|discriminate]. unfold emission_builder in H. destruct (emission_packets (s_next_id s)) as [fs F].
    destruct (builder_calls _ _ _) as [n b] eqn:B. cbn [snd] in F. rewrite F in H. destruct (eb_callback b) as [[f id]|].
    + injection H as <- <-. discriminate X.
    + unfold push in H. destruct (_ || _)%bool; injection H as <- <-; discriminate X.
  - destruct (nth_error (s_inflight s) 0) as [[ns id f [|] fs]|]; try discriminate. destruct (s_poisoned s); [reflexivity|]. destruct (locked s); [discriminate|]. injection H as <- <-. discriminate X.
  - destruct (nth_error (s_inflight s) 0) as [[ns id f [|] fs]|]; try discriminate. unfold push in H. destruct (_ || _)%bool; injection H as <- <-; discriminate X.
  - destruct (usable_client s); [|discriminate]. destruct (s_handle s); injection H as <- <-; discriminate X.
  - destruct (is_connected s); [|discriminate]. unfold push in H. destruct (_ || _)%bool; injection H as <- <-; discriminate X.
Qed.
Lemma poisoned_crash p log ls g o : prog_run p log ls g o -> s_poisoned (g_sys g) = true -> crash log o.
Proof. intros R X. eapply end_crash; [exact R|]. eapply poisoned_ended; [eapply prog_trace; exact R|exact X]. Qed.
Lemma aborted_late p log ls g o : prog_run p log ls g o -> s_phase (g_sys g) = PEnded EndAborted -> has_ended g.
Proof.
  revert ls g o. apply (prog_ind p log (fun _ g _ => s_phase (g_sys g) = PEnded EndAborted -> has_ended g)); [discriminate|].
  intros ls g o l g' o' R IH H X. pose proof (prog_trace _ _ _ _ _ R) as Ht. pose proof (sys_step _ _ _ _ _ _ H) as S.
  assert (K : has_ended g -> has_ended g').
  { intros [e E]. exists e. destruct l as [l| | | | | |]; cbn [gstep] in H; rewrite ?E in H; try discriminate H.
    - destruct (background g l); [|discriminate]. destruct (step _ _ _) as [[s x]|]; [|discriminate]. cbn in H. injection H as <- <-. reflexivity.
    - destruct (s_phase (g_sys g)); try discriminate. destruct (g_body g) as [|[[t|]|] r]; try (injection H as <- <-; first [reflexivity|exact E]);
        (destruct (step _ _ _) as [[s x]|]; [|discriminate]); injection H as <- <-; first [reflexivity|exact E].
    - destruct (s_phase (g_sys g)); try discriminate. destruct (g_body g) as [|[t|] r]; try discriminate;
        (destruct (step _ _ _) as [[s x]|]; [|discriminate]); injection H as <- <-; first [reflexivity|exact E]. }
  apply (trace_ended log _ (sys o ++ sys o')) in X.
  2:{ destruct (sys_label g l) as [x|]; [eapply trace_step; eauto|]. destruct S as [-> ->]. rewrite app_nil_r. exact Ht. }
  apply in_app_iff in X as [X|X]; [apply K, IH; apply (trace_ended _ _ _ Ht); exact X|].
  destruct (sys_label g l) as [x|] eqn:E; [|destruct S as [_ S]; rewrite S in X; contradiction].
  pose proof (cause_of_end _ _ _ _ _ _ _ Ht S X) as C.
  assert (x = LAbort) as ->.
  { inversion C. reflexivity. }
  destruct (label_used _ _ _ _ _ _ _ _ _ R H E) as [U|[U|[U|(i & a & U)]]].
  - cbn in U. destruct (g_main g) eqn:M; try discriminate U. apply K. eexists. exact M.
  - unfold main_label in U. destruct p as [|[ns|]]; cbn in U; repeat (destruct U as [U|U]; try discriminate U; try contradiction).
  - cbn in U. repeat (destruct U as [U|U]; [discriminate U|]). contradiction.
  - discriminate U.
Qed.

Lemma exit_crash p log ls g o : prog_run p log ls g o ->
  (g_main g = MLeaving ExitPanic \/ g_main g = MExited ExitPanic \/ In (GExit ExitPanic) o) -> crash log o.
Proof.
  revert ls g o. apply (prog_ind p log (fun _ g o => (g_main g = MLeaving ExitPanic \/ g_main g = MExited ExitPanic \/ In (GExit ExitPanic) o) -> crash log o)).
  - intros [X|[X|[]]]; discriminate.
  - intros ls g o l g' o' R IH H X. rewrite in_app_iff in X.
    assert (Ni : forall x, ~ In (GExit ExitPanic) (map GSys x)) by (intros x Y; apply in_map_iff in Y as (y & Y & _); discriminate Y).
    assert (R' : prog_run p log (ls ++ [l]) g' (o ++ o')).
    { unfold prog_run in *. rewrite gexecute_app, R. cbn [gexecute]. rewrite H, app_nil_r. reflexivity. }
    destruct l as [l| | | | | |]; cbn [gstep] in H.
    + destruct (background g l); [|discriminate]. destruct (step log (g_sys g) l) as [[s x]|]; [|discriminate]. unfold after_connect in H.
      destruct (g_main g) eqn:M;
        try (injection H as <- <-; cbn [g_main] in X; rewrite app_nil_r in X; destruct X as [X|[X|[X|X]]]; [| | |destruct (Ni _ X)]; apply crash_app, IH; auto).
      destruct (s_conn s) eqn:C; injection H as <- <-; cbn [g_main] in X; rewrite ?in_app_iff in X;
        try (destruct X as [X|[X|[X|[X|X]]]]; try discriminate X; try (destruct (Ni _ X)); try (destruct X as [X|[]]; discriminate X); try contradiction X; apply crash_app, IH; auto; fail).
      apply cr_connect. eapply conn_panicked; [eapply prog_trace; exact R'|exact C].
    + destruct (g_main g) as [|[|[l|l|t] r]| |e|e] eqn:M; try discriminate.
      * destruct (step _ _ l) as [[s x]|] eqn:E; [|discriminate]. injection H as <- <-. cbn [g_main] in X. unfold after_act in X.
        destruct (existsb is_panic x) eqn:Pa.
        -- apply crash_app. eapply poisoned_crash; [exact R|]. eapply (main_panics p); [eapply (main_head p log ls g o); [exact R|first [left; exact M|right; exact M]]|exact E|exact Pa].
        -- destruct X as [X|[X|[X|X]]]; [destruct l; discriminate X|destruct l; discriminate X|apply crash_app, IH; auto|destruct (Ni _ X)].
      * destruct (step _ _ l) as [[s x]|] eqn:E; [|discriminate]. injection H as <- <-. cbn [g_main] in X. unfold after_act in X.
        destruct (existsb is_panic x) eqn:Pa.
        -- apply crash_app. eapply poisoned_crash; [exact R|]. eapply (main_panics p); [eapply (main_head p log ls g o); [exact R|first [left; exact M|right; exact M]]|exact E|exact Pa].
        -- destruct X as [X|[X|[X|X]]]; [destruct (existsb is_lost x); discriminate X|destruct (existsb is_lost x); discriminate X|apply crash_app, IH; auto|destruct (Ni _ X)].
      * injection H as <- <-. cbn [g_main] in X. destruct X as [X|[X|[X|[X|[]]]]]; try discriminate X. apply crash_app, IH. auto.
      * destruct (step _ _ _) as [[s x]|]; [|discriminate]. injection H as <- <-. cbn [g_main] in X. rewrite in_app_iff in X.
        destruct X as [X|[X|[X|[X|[X|[]]]]]]; [discriminate X| | |destruct (Ni _ X)|]; apply crash_app, IH; auto.
        -- injection X as ->. left. reflexivity.
        -- injection X as ->. left. reflexivity.
    + destruct (g_main g) as [|[|[l|l|t] r]| |e|e]; try discriminate. injection H as <- <-. apply cr_output. apply in_or_app. right. left. reflexivity.
    + destruct (g_main g) eqn:M; try discriminate. destruct (step _ _ _) as [[s x]|] eqn:E; [|discriminate]. injection H as <- <-. cbn [g_main] in X.
      destruct X as [X|[X|[X|X]]]; [|discriminate X|apply crash_app, IH; auto|destruct (Ni _ X)].
      cbn [step] in E. destruct (s_handle (g_sys g)); try discriminate. destruct (s_phase (g_sys g)) eqn:P; try discriminate. injection E as <- <-.
      injection X as X. destruct e; try discriminate X.
      * apply crash_app. eapply end_crash; [exact R|]. apply (trace_ended _ _ _ (prog_trace _ _ _ _ _ R)). exact P.
      * destruct (aborted_late _ _ _ _ _ R P) as [e M']. congruence.
    + destruct (g_main g) eqn:M; try discriminate. destruct (step _ _ _) as [[s x]|] eqn:E; [|discriminate]. injection H as <- <-. cbn [g_main] in X.
      destruct X as [X|[X|[X|X]]]; [|discriminate X|apply crash_app, IH; auto|destruct (Ni _ X)].
      cbn [step] in E. destruct (s_handle (g_sys g)); try discriminate. injection E as <- <-. discriminate X.
    + destruct (s_phase (g_sys g)); try discriminate. destruct (g_body g) as [|[[t|]|] r]; try (destruct (step _ _ _) as [[s x]|]; [|discriminate]); injection H as <- <-; cbn [g_main] in X;
        destruct X as [X|[X|[X|X]]]; try (apply crash_app, IH; auto; fail); try (destruct (Ni _ X)). destruct X as [X|[]]; discriminate X.
    + destruct (s_phase (g_sys g)); try discriminate. destruct (g_body g) as [|[t|] r]; try discriminate; (destruct (step _ _ _) as [[s x]|]; [|discriminate]); injection H as <- <-; cbn [g_main] in X;
        destruct X as [X|[X|[X|[X|X]]]]; try (apply crash_app, IH; auto; fail); try discriminate X; destruct (Ni _ X).
Qed.
