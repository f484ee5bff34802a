(** The main threads of the example programs (SpecProgram.v): what they have done, what remains. *)
From Verif Require Import ProgramProofs TraceProofs EmitProofs ClientProofs SentProofs CloseProofs FlowProofs PanicProofs EndProofs EndingProofs SpecProgram.

Definition tables (o : list obs) : list tableop := flat_map (fun x => match x with OTable op => [op] | _ => [] end) o.
Definition registers (o : list obs) : list (bytes * N * cb) := flat_map (fun x => match x with ORegister ns id f => [(ns, id, f)] | _ => [] end) o.
Lemma tables_app a b : tables (a ++ b) = tables a ++ tables b. Proof. apply flat_map_app. Qed.
Lemma registers_app a b : registers (a ++ b) = registers a ++ registers b. Proof. apply flat_map_app. Qed.
Lemma asked_app a b : asked_for (a ++ b) = asked_for a ++ asked_for b. Proof. apply flat_map_app. Qed.
Lemma raw_app a b : raw_sent (a ++ b) = raw_sent a ++ raw_sent b. Proof. apply flat_map_app. Qed.

(** What the statements [d] of the main thread leave in the history. *)
Record history (d : list act) (o : list obs) : Prop := History {
  h_tables : tables o = flat_map (fun a => match a with Api (LTable op) => [op] | _ => [] end) d;
  h_registers : registers o = flat_map (fun a => match a with Api (LRegister _) => [(bs "/", 0%N, cb_reply)] | _ => [] end) d;
  h_asked : asked_for o = flat_map (fun a => match a with Api (LPush _) => [the_question] | _ => [] end) d;
  h_raw : raw_sent o = flat_map (fun a => match a with ApiTry (LRaw fs) => [fs] | _ => [] end) d }.
Lemma mild_history d o o' : history d o -> forallb mild o' = true -> history d (o ++ o').
Proof.
  intros [A B C D] M.
  assert (K : tables o' = [] /\ registers o' = [] /\ asked_for o' = [] /\ raw_sent o' = []).
  { clear -M. induction o' as [|x o' IH]; [repeat split|]. cbn [forallb] in M. apply andb_true_iff in M as [X M]. destruct (IH M) as (A & B & C & D).
    unfold tables, registers, asked_for, raw_sent in *. cbn [flat_map]. rewrite A, B, C, D. destruct x as [| | | | |[]|[]| | | | | | | | | |]; try discriminate X; repeat split. }
  destruct K as (K1 & K2 & K3 & K4).
  constructor; rewrite ?tables_app, ?registers_app, ?asked_app, ?raw_app, ?K1, ?K2, ?K3, ?K4, app_nil_r; assumption.
Qed.

Definition flight (reg : bool) : inflight := Inflight (bs "/") 0%N cb_reply reg (snd the_question).
Definition inflight_after (p : program) (d : list act) : list inflight :=
  match p with SocketioTest => match length d with 4 => [flight false] | 5 => [flight true] | _ => [] end | _ => [] end.
Definition next_after (p : program) (d : list act) : N :=
  match p with SocketioTest => match length d with 0 | 1 | 2 | 3 => 0%N | _ => 1%N end | _ => 0%N end.
Definition usable_now (s : state) : Prop := is_connected s = true /\ s_client s = true.
Definition main_state (p : program) (d r : list act) (g : prog) : Prop :=
  match g_main g with
  | MConnecting => d = [] /\ (s_conn (g_sys g) = CHandshake \/ s_conn (g_sys g) = COpening) /\ s_handle (g_sys g) = HHeld /\
      s_inflight (g_sys g) = [] /\ s_next_id (g_sys g) = 0%N
  | MActs l => r = l /\ l <> [] /\ usable_now (g_sys g) /\ s_handle (g_sys g) = HHeld /\ s_inflight (g_sys g) = inflight_after p d /\ s_next_id (g_sys g) = next_after p d
  | MClosing => r = [] /\ usable_now (g_sys g) /\ s_handle (g_sys g) = HClosing
  | MLeaving _ => usable_now (g_sys g)
  | MExited _ => True
  end.
Definition main_inv (p : program) (g : prog) (o : list gobs) : Prop :=
  exists d r, main_acts p = d ++ r /\ history d (sys o) /\ main_state p d r g.

(** Steps that are none of the main thread's. *)
Definition aside (l : label) : bool :=
  match l with
  | LRead _ | LReadErr | LReadEnd | LTake | LWrite | LWriteErr | LClosed | LCloseFrame _ | LCancel | LAbort | LCbAck _ _ _ | LCbReturn | LCbPanic => true
  | _ => false
  end.
Lemma aside_step log s l s' o' : step log s l = Some (s', o') -> aside l = true ->
  s_conn s' = s_conn s /\ s_client s' = s_client s /\ s_handle s' = s_handle s /\ s_inflight s' = s_inflight s /\ s_next_id s' = s_next_id s /\ forallb mild o' = true.
Proof.
  intros H A. assert (St : still l) by (destruct l; try discriminate A; exact I). destruct (still_step _ _ _ _ _ H St) as (K1 & K2 & _ & K3).
  cut (s_conn s' = s_conn s /\ s_client s' = s_client s /\ s_handle s' = s_handle s); [intros (X & Y & Z); auto 10|]. clear K1 K2 K3 St.
  assert (Hl : (exists m, l = LRead m) \/ forall m, l <> LRead m) by (destruct l; eauto; right; discriminate).
  destruct Hl as [[m ->]|Hl].
  - apply read_label in H as (b & _ & _ & H). pose proof (read_step_fields _ _ _ _ _ _ H) as F. cbv zeta in F. destruct F as (_ & _ & _ & _ & F1 & _ & F2 & _ & _ & F3 & _). auto.
  - other_cases H Hl; try discriminate A; cbn; auto.
Qed.
Lemma main_state_aside p d r g s b : main_state p d r g -> s_conn s = s_conn (g_sys g) -> s_client s = s_client (g_sys g) -> s_handle s = s_handle (g_sys g) ->
  s_inflight s = s_inflight (g_sys g) -> s_next_id s = s_next_id (g_sys g) -> main_state p d r (Prog s (g_main g) b).
Proof.
  unfold main_state, usable_now, is_connected. cbn [g_main g_sys]. intros M -> -> -> -> ->. exact M.
Qed.
Lemma suffix_last p d a : main_acts p = d ++ [a] -> a = Api LCloseCall.
Proof.
  assert (X : exists e, main_acts p = e ++ [Api LCloseCall]).
  { destruct p as [|[ns|]]; cbn.
    - eexists [_; _; _; _; _; _]. reflexivity.
    - eexists [_; _; _]. reflexivity.
    - eexists [_]. reflexivity. }
  destruct X as [e ->]. intros X. apply app_inj_tail in X as [_ <-]. reflexivity.
Qed.
(** A call into the library. *)
Lemma history_nil_act d o a : history d o -> match a with Api (LTable _) | Api (LRegister _) | Api (LPush _) | ApiTry (LRaw _) => False | _ => True end ->
  forall o', tables o' = [] -> registers o' = [] -> asked_for o' = [] -> raw_sent o' = [] -> history (d ++ [a]) (o ++ o').
Proof.
  intros [A B C D] K o' E1 E2 E3 E4. constructor; rewrite ?tables_app, ?registers_app, ?asked_app, ?raw_app, ?E1, ?E2, ?E3, ?E4, ?flat_map_app, app_nil_r, ?A, ?B, ?C, ?D; destruct a as [[]|[]|]; cbn; rewrite ?app_nil_r; try reflexivity; contradiction.
Qed.
Lemma shapes p d a rest : main_acts p = d ++ a :: rest ->
  match a with
  | Say _ | Api (LTable _) | ApiTry (LRaw _) =>
      inflight_after p d = [] /\ inflight_after p (d ++ [a]) = [] /\ next_after p (d ++ [a]) = next_after p d /\ rest <> []
  | Api (LEmit e) => e = test_emission /\ inflight_after p d = [] /\ inflight_after p (d ++ [a]) = [flight false] /\ next_after p d = 0%N /\ next_after p (d ++ [a]) = 1%N /\ rest <> []
  | Api (LRegister i) => i = 0 /\ inflight_after p d = [flight false] /\ inflight_after p (d ++ [a]) = [flight true] /\ next_after p (d ++ [a]) = next_after p d /\ rest <> []
  | Api (LPush i) => i = 0 /\ inflight_after p d = [flight true] /\ inflight_after p (d ++ [a]) = [] /\ next_after p (d ++ [a]) = next_after p d /\ rest <> []
  | Api LCloseCall => rest = []
  | _ => False
  end.
Proof.
  destruct p as [|[ns|]]; cbn [main_acts]; intros D;
    repeat (destruct d as [|? d]; cbn [app] in D; [injection D as <- <-; cbn; repeat split; discriminate|injection D as _ D]);
    destruct d; discriminate D.
Qed.
Lemma history_panic d o : history d o -> history d (o ++ [OUserPanic]).
Proof. intros [A B C E]. constructor; rewrite ?tables_app, ?registers_app, ?asked_app, ?raw_app; cbn; rewrite app_nil_r; assumption. Qed.
Lemma main_act p log g o a rest d s x : main_acts p = d ++ a :: rest -> history d o -> usable_now (g_sys g) -> s_handle (g_sys g) = HHeld ->
  s_inflight (g_sys g) = inflight_after p d -> s_next_id (g_sys g) = next_after p d ->
  match a with Api l | ApiTry l => step log (g_sys g) l = Some (s, x) | Say _ => s = g_sys g /\ x = [] end ->
  exists d' r', main_acts p = d' ++ r' /\ history d' (o ++ x) /\ main_state p d' r' (Prog s (after_act a rest x) (g_body g)).
Proof.
  intros D Hi [U1 U2] Hh I0 Ne E. pose proof (shapes _ _ _ _ D) as Sh.
  assert (U : usable_client (g_sys g) = true) by (unfold usable_client; rewrite U1, U2; reflexivity).
  assert (D' : main_acts p = (d ++ [a]) ++ rest) by (rewrite <- app_assoc; exact D).
  destruct a as [l|l|t].
  - destruct l as [| | | | | | | | | | | | | | | | | | |op| |em|i|i| | | | | | | |]; try contradiction; cbn [step] in E; rewrite ?U in E.
    + destruct Sh as (S1 & S2 & S3 & S4). destruct (s_poisoned (g_sys g)); [|destruct (locked (g_sys g)); [discriminate|]]; injection E as <- <-.
      * exists d, (Api (LTable op) :: rest). split; [exact D|]. split; [apply history_panic; exact Hi|]. split; assumption.
      * exists (d ++ [Api (LTable op)]), rest. split; [exact D'|]. split.
        -- destruct Hi as [A B C F]. constructor; rewrite ?tables_app, ?registers_app, ?asked_app, ?raw_app, ?flat_map_app, ?A, ?B, ?C, ?F; cbn; rewrite ?app_nil_r; reflexivity.
        -- cbn. split; [reflexivity|]. split; [exact S4|]. split; [split; assumption|]. rewrite S2, S3, I0, Ne. auto.
    + destruct Sh as (-> & S1 & S2 & S3 & S4 & S5). rewrite S3 in Ne. unfold emission_builder in E. rewrite Ne in E.
      set (bl := builder_calls 0 (event_builder_new (em_event test_emission) (em_ns test_emission)) (em_calls test_emission)) in E.
      assert (X : bl = (1%N, EventBuilder (bs "event") (bs "/") true (Some (cb_reply, 0%N)))) by reflexivity. rewrite X in E.
      assert (Y : event_packets (EventBuilder (bs "event") (bs "/") true (Some (cb_reply, 0%N))) (em_args test_emission) = Some (snd the_question)) by (vm_compute; reflexivity).
      rewrite Y in E. cbn [eb_callback] in E. injection E as <- <-. rewrite S1 in I0.
      exists (d ++ [Api (LEmit test_emission)]), rest. split; [exact D'|]. split; [apply history_nil_act; [exact Hi|exact I|reflexivity..]|].
      cbn. split; [reflexivity|]. split; [exact S5|]. split; [split; assumption|]. rewrite S2, S4, I0. auto.
    + destruct Sh as (-> & S1 & S2 & S3 & S4). rewrite S1 in I0. rewrite I0 in E. cbn [nth_error flight] in E. destruct (s_poisoned (g_sys g)); [|destruct (locked (g_sys g)); [discriminate|]]; injection E as <- <-.
      * exists d, (Api (LRegister 0) :: rest). split; [exact D|]. split; [apply history_panic; exact Hi|]. split; assumption.
      * exists (d ++ [Api (LRegister 0)]), rest. split; [exact D'|]. split.
        -- destruct Hi as [A B C F]. constructor; rewrite ?tables_app, ?registers_app, ?asked_app, ?raw_app, ?flat_map_app, ?A, ?B, ?C, ?F; cbn; rewrite ?app_nil_r; reflexivity.
        -- cbn. split; [reflexivity|]. split; [exact S4|]. split; [split; assumption|]. rewrite S2, S3, Ne. auto.
    + destruct Sh as (-> & S1 & S2 & S3 & S4). rewrite S1 in I0. rewrite I0 in E. cbn [nth_error flight list_delete] in E. unfold push in E.
      destruct (_ || _)%bool in E; injection E as <- <-;
        (exists (d ++ [Api (LPush 0)]), rest; split; [exact D'|]; split;
         [destruct Hi as [A B C F]; constructor; rewrite ?tables_app, ?registers_app, ?asked_app, ?raw_app, ?flat_map_app, ?A, ?B, ?C, ?F; cbn; rewrite ?app_nil_r; reflexivity|]);
        cbn; (split; [reflexivity|]); (split; [exact S4|]); (split; [split; assumption|]); rewrite S2, S3, Ne; auto.
    + subst rest. rewrite Hh in E. injection E as <- <-. exists (d ++ [Api LCloseCall]), []. split; [exact D'|]. split; [apply history_nil_act; [exact Hi|exact I|reflexivity..]|].
      cbn. split; [reflexivity|]. split; [split; assumption|reflexivity].
  - destruct l; try contradiction; cbn [step] in E. destruct Sh as (S1 & S2 & S3 & S4). rewrite U1 in E. unfold push in E.
    destruct (_ || _)%bool in E; injection E as <- <-;
        (exists (d ++ [ApiTry (LRaw fs)]), rest; split; [exact D'|]; split;
         [destruct Hi as [A B C F]; constructor; rewrite ?tables_app, ?registers_app, ?asked_app, ?raw_app, ?flat_map_app, ?A, ?B, ?C, ?F; cbn; rewrite ?app_nil_r; reflexivity|]);
        cbn.
    + split; assumption.
    + split; [reflexivity|]. split; [exact S4|]. split; [split; assumption|]. rewrite S2, S3, Ne, I0. auto.
  - destruct E as [-> ->]. destruct Sh as (S1 & S2 & S3 & S4). exists (d ++ [Say t]), rest. split; [exact D'|]. split; [apply history_nil_act; [exact Hi|exact I|reflexivity..]|].
    cbn. split; [reflexivity|]. split; [exact S4|]. split; [split; assumption|]. rewrite S2, S3, I0, Ne. auto.
Qed.
Lemma main_inv_holds p log ls g o : prog_run p log ls g o -> main_inv p g o.
Proof.
  revert ls g o. apply (prog_ind p log (fun _ g o => main_inv p g o)).
  - exists [], (main_acts p). split; [reflexivity|]. split; [constructor; reflexivity|]. cbn. auto.
  - intros ls g o l g' o' R (d & r & D & Hi & M) H. pose proof (sys_step _ _ _ _ _ _ H) as S.
    assert (Keep : forall x, sys_label g l = Some x -> aside x = true -> g_main g' = g_main g -> main_inv p g' (o ++ o')).
    { intros x E A G. rewrite E in S. destruct (aside_step _ _ _ _ _ S A) as (C1 & C2 & C3 & C4 & C5 & C6).
      exists d, r. split; [exact D|]. split; [rewrite sys_app; apply mild_history; assumption|].
      destruct g' as [s' m' b']. cbn in *. subst m'. apply main_state_aside; assumption. }
    destruct l as [l| | | | | |]; cbn [gstep sys_label] in H, S, Keep.
    + destruct (background g l) eqn:B; [|discriminate]. destruct (step log (g_sys g) l) as [[s x]|] eqn:E; [|discriminate].
      destruct (aside l) eqn:A.
      * apply (Keep l eq_refl A). unfold after_connect in H. destruct (g_main g) eqn:G; try (injection H as <- <-; reflexivity).
        destruct (aside_step _ _ _ _ _ E A) as (C1 & _). unfold main_state in M. rewrite G in M. destruct M as (_ & C & _). rewrite C1 in H.
        destruct C as [C|C]; rewrite C in H; injection H as <- <-; reflexivity.
      * assert (G : g_main g = MConnecting) by (destruct l; try discriminate A; cbn in B; try discriminate B; destruct (g_main g); first [reflexivity|discriminate B]).
        unfold main_state in M. rewrite G in M. destruct M as (-> & C & Hh & In0 & Ne). cbn [app] in D. subst r.
        destruct l as [e| | | | | | | | | | | | | | | | | | | | | | | | | | | | | | |]; try discriminate A; try discriminate B; unfold after_connect in H; rewrite G in H.
        -- cbn [step] in E. destruct e as [[]|]; try discriminate E; (destruct (s_conn (g_sys g)); try discriminate E); injection E as <- <-; cbn [s_conn set_conn set_phase drop_handle set_signal set_handle set_client] in H; injection H as <- <-;
             (exists [], (main_acts p); split; [reflexivity|]; split; [rewrite sys_app; apply mild_history; [exact Hi|reflexivity]|]); cbn; auto 10.
        -- cbn [step] in E. destruct C as [C|C]; rewrite C in E; [discriminate E|]. destruct (s_open (g_sys g)).
           ++ injection E as <- <-. cbn in H. injection H as <- <-. exists [], (main_acts p). split; [reflexivity|]. split; [rewrite sys_app; apply mild_history; [exact Hi|reflexivity]|].
              cbn. split; [reflexivity|]. split; [destruct p as [|[ns|]]; discriminate|]. split; [split; reflexivity|]. rewrite In0, Ne. repeat split; auto; destruct p as [|[ns|]]; reflexivity.
           ++ destruct (task_ended _); [|discriminate]. injection E as <- <-. cbn in H. injection H as <- <-. exists [], (main_acts p). split; [reflexivity|]. split; [rewrite sys_app; apply mild_history; [exact Hi|reflexivity]|exact I].
        -- cbn [step] in E. destruct C as [C|C]; rewrite C in E; [discriminate E|]. injection E as <- <-. cbn in H. injection H as <- <-. exists [], (main_acts p). split; [reflexivity|]. split; [rewrite sys_app; apply mild_history; [exact Hi|reflexivity]|exact I].
    + destruct (g_main g) as [|[|a rest]| |e|e] eqn:G; try discriminate.
      * unfold main_state in M. rewrite G in M. destruct M as (-> & _ & U & Hh & In0 & Ne).
        destruct a as [x|x|t].
        -- destruct (step log (g_sys g) x) as [[s y]|] eqn:E; [|discriminate]. injection H as <- <-. unfold main_inv. rewrite sys_app, sys_map.
           eapply (main_act p log g (sys o) (Api x) rest d s y); eauto.
        -- destruct (step log (g_sys g) x) as [[s y]|] eqn:E; [|discriminate]. injection H as <- <-. unfold main_inv. rewrite sys_app, sys_map.
           eapply (main_act p log g (sys o) (ApiTry x) rest d s y); eauto.
        -- injection H as <- <-. unfold main_inv. rewrite sys_app. cbn [sys flat_map].
           apply (main_act p log g (sys o) (Say t) rest d (g_sys g) []); auto.
      * unfold main_state in M. rewrite G in M. destruct (step log (g_sys g) LDropClient) as [[s x]|] eqn:E; [|discriminate]. injection H as <- <-.
        exists d, r. split; [exact D|]. split; [|exact I]. cbn [step] in E. destruct (usable_client (g_sys g)); [|discriminate]. injection E as <- <-. cbn. rewrite sys_app. cbn. rewrite app_nil_r. exact Hi.
    + destruct (g_main g) as [|[|[l|l|t] r']| |e|e] eqn:G; try discriminate. injection H as <- <-. unfold main_state in M. rewrite G in M. destruct M as (_ & _ & U & _).
      exists d, r. split; [exact D|]. split; [rewrite sys_app; cbn; rewrite app_nil_r; exact Hi|exact U].
    + destruct (g_main g) eqn:G; try discriminate. destruct (step log (g_sys g) LCloseReturn) as [[s x]|] eqn:E; [|discriminate]. injection H as <- <-. unfold main_state in M. rewrite G in M. destruct M as (_ & U & _).
      cbn [step] in E. destruct (s_handle (g_sys g)); try discriminate. destruct (s_phase (g_sys g)); try discriminate. injection E as <- <-.
      exists d, r. split; [exact D|]. split; [rewrite sys_app; apply mild_history; [exact Hi|reflexivity]|exact U].
    + destruct (g_main g) eqn:G; try discriminate. destruct (step log (g_sys g) LCloseTimeout) as [[s x]|] eqn:E; [|discriminate]. injection H as <- <-. unfold main_state in M. rewrite G in M. destruct M as (_ & U & _).
      cbn [step] in E. destruct (s_handle (g_sys g)); try discriminate. injection E as <- <-.
      exists d, r. split; [exact D|]. split; [rewrite sys_app; apply mild_history; [exact Hi|reflexivity]|exact U].
    + destruct (s_phase (g_sys g)); try discriminate. destruct (g_body g) as [|[[t|]|] r']; try (destruct (step _ _ _) as [[s x]|] eqn:E; [|discriminate]; injection H as <- <-; eapply Keep; [reflexivity|reflexivity|reflexivity]).
      injection H as <- <-. exists d, r. split; [exact D|]. split; [rewrite sys_app; cbn; rewrite app_nil_r; exact Hi|exact M].
    + destruct (s_phase (g_sys g)); try discriminate. destruct (g_body g) as [|[t|] r']; try discriminate. destruct (step _ _ _) as [[s x]|] eqn:E; [|discriminate]; injection H as <- <-; eapply Keep; [reflexivity|reflexivity|reflexivity].
Qed.
