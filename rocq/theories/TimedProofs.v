(** Proofs about time (C91, C92). *)
From Verif Require Export SpecTimed EndingProofs UrlProofs.
From Coq Require Import Lia.

(** ** Observations with times *)
Lemma in_stamp a x t l : In (a, x) (stamp t l) <-> a = t /\ In x l.
Proof.
  unfold stamp. rewrite in_map_iff. split.
  - intros (y & [= <- <-] & H). auto.
  - intros [-> H]. eauto.
Qed.
Lemma sys_app o o' : sys_obs (o ++ o') = sys_obs o ++ sys_obs o'.
Proof. apply flat_map_app. Qed.
Lemma sys_stamp t l o : sys_obs (stamp t (letting_go l ++ map TSys o)) = o.
Proof.
  assert (E : forall o, sys_obs (stamp t (map TSys o)) = o) by (intros p; induction p as [|x p IH]; [reflexivity|cbn; f_equal; exact IH]).
  unfold letting_go. destruct l; cbn; apply E.
Qed.
Lemma in_sys x o : In x (sys_obs o) <-> exists a, In (a, TSys x) o.
Proof.
  unfold sys_obs. rewrite in_flat_map. split.
  - intros ((a & y) & H & Hx). cbn in Hx. destruct y; cbn in Hx; try contradiction. destruct Hx as [<-|[]]. eauto.
  - intros (a & H). exists (a, TSys x). split; [exact H|left; reflexivity].
Qed.
Lemma in_new a x t l o' : In (a, TSys x) (stamp t (letting_go l ++ map TSys o')) <-> a = t /\ In x o'.
Proof.
  rewrite in_stamp, in_app_iff, in_map_iff. split.
  - intros [-> [H|(y & [= ->] & H)]]; [|auto]. destruct l; cbn in H; intuition discriminate.
  - intros [-> H]. split; [reflexivity|]. right. eauto.
Qed.
Lemma in_letting x l o' : In x (letting_go l ++ map TSys o') -> x = TLetGo \/ exists y, x = TSys y.
Proof.
  rewrite in_app_iff, in_map_iff. intros [H|(y & <- & H)]; [|eauto].
  destruct l; cbn in H; intuition auto.
Qed.

(** ** Steps of the client *)
Lemma read_or l : (exists m, l = LRead m) \/ forall m, l <> LRead m.
Proof. destruct l; eauto; right; discriminate. Qed.
Lemma conn_any log s o l s' o' : trace log s o -> step log s l = Some (s', o') ->
  (s_conn s' = s_conn s /\ forall c, ~ In (OConnect c) o') \/
  (s_conn s = CHandshake /\ s_conn s' = COpening /\ o' = []) \/
  ((s_conn s = CHandshake \/ s_conn s = COpening) /\ o' = [OConnect (s_conn s')] /\ s_conn s' <> CHandshake /\ s_conn s' <> COpening).
Proof.
  intros Ht H. destruct (read_or l) as [[m ->]|Hl].
  - destruct (step_read _ _ _ _ _ _ Ht H) as (Hx & _ & _ & _ & _ & Hc & _). left. split; [exact Hc|]. intros c Hi. apply Hx in Hi as [[]|[=]].
  - destruct (conn_step _ _ _ _ _ _ Ht Hl H) as (_ & _ & [A|[A|(A & B & C & D & _)]]); [auto|auto|]. right; right. auto.
Qed.
Lemma timeout_label log s o l s' o' e : trace log s o -> step log s l = Some (s', o') -> In (OConnect (CFailed e)) o' ->
  match e with CHandshakeTimeout => l = LHandshake (Some CHandshakeTimeout) | COpenTimeout => l = LOpenTimeout /\ s_conn s = COpening | _ => True end.
Proof.
  intros Ht H Hi. destruct (read_or l) as [[m ->]|Hl].
  - destruct (step_read _ _ _ _ _ _ Ht H) as (Hx & _). apply Hx in Hi as [[]|[=]].
  - clear Ht. other_cases H Hl; cbn in Hi; in_cases Hi; try (injection Hi as <-); auto.
Qed.
Lemma call_label log s o l s' o' : trace log s o -> step log s l = Some (s', o') -> In OCloseCalled o' -> l = LCloseCall /\ s_handle s = HHeld.
Proof.
  intros Ht H Hi. destruct (read_or l) as [[m ->]|Hl].
  - destruct (step_read _ _ _ _ _ _ Ht H) as (Hx & _). apply Hx in Hi as [[]|[=]].
  - clear Ht. other_cases H Hl; cbn in Hi; in_cases Hi; auto.
Qed.
Lemma call_held log s s' o' : step log s LCloseCall = Some (s', o') -> s_handle s = HHeld -> o' = [OCloseCalled] /\ s_handle s' = HClosing.
Proof. cbn [step]. intros H E. rewrite E in H. destruct (usable_client s); [|discriminate]. injection H as <- <-. auto. Qed.
Lemma closing_connected log s o : trace log s o -> s_handle s = HClosing -> is_connected s = true.
Proof.
  revert s o. apply (trace_ind log (fun s _ => s_handle s = HClosing -> is_connected s = true)); [discriminate|].
  intros s o l s' o' Ht IH H Hc. destruct (handle_step _ _ _ _ _ _ Ht H) as (_ & _ & _ & S4). destruct (S4 Hc) as [E|E].
  - specialize (IH E). unfold is_connected in *. destruct (conn_any _ _ _ _ _ _ Ht H) as [(-> & _)|[(E' & _)|([E'|E'] & _)]]; try (rewrite E' in IH; discriminate). exact IH.
  - destruct (call_label _ _ _ _ _ _ Ht H) as [-> Hh]; [rewrite E; cbn; auto|]. cbn [step] in H.
    destruct (usable_client s) eqn:U; [|discriminate]. rewrite Hh in H. injection H as <- <-.
    unfold usable_client in U. apply andb_prop in U as [U _]. exact U.
Qed.
(** An awaited [close()] ends with a result, or because the user lets go. *)
Lemma closing_step log s o l s' o' : trace log s o -> step log s l = Some (s', o') -> s_handle s = HClosing ->
  s_handle s' = HClosing \/ letting_go l = [TLetGo] \/ exists r, o' = [OClose r] /\ r <> CloseAlready.
Proof.
  intros Ht H Hc. pose proof (closing_connected _ _ _ Ht Hc) as Hi. unfold is_connected in Hi. destruct (read_or l) as [[m ->]|Hl].
  - destruct (step_read _ _ _ _ _ _ Ht H) as (_ & _ & _ & E & _). left. congruence.
  - other_cases H Hl; cbn; auto; try congruence; try (rewrite Hc in *; discriminate); try (match goal with E : s_conn _ = _ |- _ => rewrite E in Hi; discriminate end); right; right; eexists; (split; [reflexivity|]); try discriminate; destruct e; discriminate.
Qed.
Lemma handshake_quiet log s o : trace log s o -> s_conn s = CHandshake -> s_phase s = PUnborn /\ s_open s = None.
Proof.
  revert s o. apply (trace_ind log (fun s _ => s_conn s = CHandshake -> s_phase s = PUnborn /\ s_open s = None)); [auto|].
  intros s o l s' o' Ht IH H Hc. destruct (read_or l) as [[m ->]|Hl].
  - destruct (step_read _ _ _ _ _ _ Ht H) as (_ & _ & _ & _ & _ & E & _). rewrite E in Hc. destruct (IH Hc) as [A _].
    cbn [step] in H. destruct (ws_valid m); cbn in H; [rewrite A in H|]; discriminate.
  - assert (E : s_conn s = CHandshake) by (destruct (conn_any _ _ _ _ _ _ Ht H) as [(E & _)|[(E & _)|(_ & _ & N & _)]]; [congruence|assumption|contradiction]).
    destruct (IH E) as [A B]. clear IH Ht. other_cases H Hl; cbn in *; try discriminate; auto; try congruence.
Qed.
Lemma quiet log s o a x : trace log s (sys_obs o) -> s_conn s = CHandshake -> In (a, x) o -> ~ opens_or_ends x.
Proof.
  intros Ht Hc Hi Hx. destruct (handshake_quiet _ _ _ Ht Hc) as [A B]. destruct Hx as [[y ->]|[e ->]].
  - apply (p_none _ _ (trace_opening _ _ _ Ht) B y). apply in_sys. eauto.
  - assert (E : task_ended s = true) by (apply (ended_iff _ _ _ Ht); exists e; apply in_sys; eauto). unfold task_ended in E. rewrite A in E. discriminate.
Qed.

(** ** The invariant *)
Record ontime (log : bool) (d since : N) (closing : option N) (s : state) (t : N) (o : stamped) : Prop := OnTime {
  ot_trace : trace log s (sys_obs o);
  ot_stamps : forall a x, In (a, x) o -> (a <= t)%N;
  ot_since : (exists u, In (since, TRequest u) o) /\ (forall a u, In (a, TRequest u) o -> a = since);
  ot_prompt : prompt d o (TConn since closing s) t;
  ot_conn : s_conn s <> CHandshake -> s_conn s <> COpening ->
    exists b, In (b, TSys (OConnect (s_conn s))) o /\ (since <= b <= since + limit + d)%N /\ forall a x, In (a, x) o -> opens_or_ends x -> (b <= a + d)%N;
  ot_late : forall b e, In (b, TSys (OConnect (CFailed e))) o -> e = CHandshakeTimeout \/ e = COpenTimeout -> (since + limit <= b)%N;
  ot_open : forall b, In (b, TSys (OConnect (CFailed COpenTimeout))) o -> forall a x, In (a, x) o -> opens_or_ends x -> (b <= a + d)%N;
  ot_called : forall c, closing = Some c <-> In (c, TSys OCloseCalled) o;
  ot_held : s_handle s = HHeld -> closing = None;
  ot_close : forall c, closing = Some c ->
    s_handle s = HClosing \/ exists b x, In (b, x) o /\ close_ended x /\ (c <= b <= c + limit + d)%N /\
      forall a e, In (a, TSys (OEnd e)) o -> (b <= N.max a c + d)%N;
  ot_close_late : forall b, In (b, TSys (OClose CloseTimeout)) o ->
    exists c, closing = Some c /\ (c + limit <= b)%N /\ forall a e, In (a, TSys (OEnd e)) o -> (b <= N.max a c + d)%N
}.
Lemma ontime_begin log d t o u : (forall a x, In (a, x) o -> (a <= t)%N) -> sys_obs o = [] -> (forall a x, In (a, TRequest x) o -> False) ->
  ontime log d t None init t (o ++ [(t, TRequest u)]).
Proof.
  intros Hs He Hr. assert (Hy : forall b y, ~ In (b, TSys y) (o ++ [(t, TRequest u)])).
  { intros b y H. apply in_app_iff in H as [H|[H|[]]]; [|discriminate]. assert (X : In y (sys_obs o)) by (apply in_sys; eauto). rewrite He in X. destruct X. }
  constructor.
  - rewrite sys_app, He. exists []. reflexivity.
  - intros a x H. apply in_app_iff in H as [H|[[= <- _]|[]]]; [eauto|lia].
  - split; [exists u; apply in_app_iff; right; left; reflexivity|]. intros a v H. apply in_app_iff in H as [H|[[= <- _]|[]]]; [destruct (Hr _ _ H)|reflexivity].
  - split; [intros _; unfold limit; lia|]. split; [discriminate|discriminate].
  - intros N. destruct N. reflexivity.
  - intros b e H. destruct (Hy _ _ H).
  - intros b H. destruct (Hy _ _ H).
  - intros c. split; [discriminate|]. intros H. destruct (Hy _ _ H).
  - reflexivity.
  - discriminate.
  - intros b H. destruct (Hy _ _ H).
Qed.
Lemma since_le log d since closing s t o : ontime log d since closing s t o -> (since <= t)%N.
Proof. intros H. destruct (proj1 (ot_since _ _ _ _ _ _ _ H)) as [u Hu]. exact (ot_stamps _ _ _ _ _ _ _ H _ _ Hu). Qed.
Lemma ontime_wait log d since closing s t o t' : ontime log d since closing s t o -> (t <= t')%N -> prompt d o (TConn since closing s) t' ->
  ontime log d since closing s t' o.
Proof. intros [H1 H2 H3 H4 H5 H6 H7 H8 H9 H10 H11] L P. constructor; auto. intros a x H. specialize (H2 _ _ H). lia. Qed.
Lemma closing_kept closing t s l c : closing = Some c -> (s_handle s = HHeld -> closing = None) -> closing_since closing t s l = Some c.
Proof. intros -> H. unfold closing_since. destruct l; try reflexivity. destruct (s_handle s); try reflexivity. discriminate (H eq_refl). Qed.
Lemma ontime_step log d since closing s t o l s' o' : ontime log d since closing s t o -> timer_allows since closing t l = true ->
  step log s l = Some (s', o') -> ontime log d since (closing_since closing t s l) s' t (o ++ stamp t (letting_go l ++ map TSys o')).
Proof.
  intros I Ha H. pose proof (since_le _ _ _ _ _ _ _ I) as Le. destruct I as [H1 H2 H3 H4 H5 H6 H7 H8 H9 H10 H11].
  set (n := stamp t (letting_go l ++ map TSys o')).
  assert (Sn : forall a x, In (a, TSys x) (o ++ n) <-> In (a, TSys x) o \/ (a = t /\ In x o')) by (intros a x; rewrite in_app_iff; unfold n; rewrite in_new; reflexivity).
  pose proof (conn_any _ _ _ _ _ _ H1 H) as Cn. pose proof (handle_step _ _ _ _ _ _ H1 H) as (S1 & S2 & S3 & S4).
  destruct H4 as (P1 & P2 & P3).
  assert (Tk : forall b x, In (b, x) n -> b = t) by (intros b x Hi; apply in_stamp in Hi; tauto).
  assert (CC : forall c, closing = Some c -> closing_since closing t s l = Some c) by (intros c Ec; eapply closing_kept; eauto).
  assert (Nw : In OCloseCalled o' -> closing_since closing t s l = Some t).
  { intros Hi. destruct (call_label _ _ _ _ _ _ H1 H Hi) as [-> Hh]. cbn. rewrite Hh. reflexivity. }
  assert (Wn : forall c, closing_since closing t s l = Some c -> closing = Some c \/ (c = t /\ In OCloseCalled o' /\ s_handle s' = HClosing)).
  { intros c Hc. unfold closing_since in Hc. destruct l; auto. destruct (s_handle s) eqn:Eh; auto. injection Hc as <-.
    destruct (call_held _ _ _ _ H Eh) as [-> Hh]. right. cbn. auto. }
  constructor.
  - rewrite sys_app. unfold n. rewrite sys_stamp. eapply trace_step; eauto.
  - intros a x Hi. apply in_app_iff in Hi as [Hi|Hi]; [eauto|]. rewrite (Tk _ _ Hi). lia.
  - destruct H3 as [[u Hu] Hv]. split; [exists u; apply in_app_iff; auto|]. intros a v Hi. apply in_app_iff in Hi as [Hi|Hi]; [eauto|].
    apply in_stamp in Hi as [_ Hi]. apply in_letting in Hi as [Hi|[y Hi]]; discriminate.
  - split; [|split].
    + intros Q. apply P1. destruct Cn as [(E & _)|[(E & _)|(_ & _ & N1 & N2)]]; [rewrite E in Q; exact Q|auto|]. destruct Q; contradiction.
    + intros Q a x Hi Hx. apply in_app_iff in Hi as [Hi|Hi]; [|rewrite (Tk _ _ Hi); lia].
      destruct Cn as [(E & _)|[(E & _)|(_ & _ & _ & N2)]]; [apply (P2 (eq_trans (eq_sym E) Q) _ _ Hi Hx)| |contradiction].
      destruct (quiet _ _ _ _ _ H1 E Hi Hx).
    + intros Q c Hc. destruct (Wn _ Hc) as [Ec|(-> & _ & _)].
      * destruct (S4 Q) as [Q'|E].
        -- destruct (P3 Q' _ Ec) as [A B]. split; [exact A|]. intros a e Hi. apply Sn in Hi as [Hi|[-> _]]; [eauto|lia].
        -- rewrite (Nw ltac:(rewrite E; cbn; auto)) in Hc. rewrite (CC _ Ec) in Nw. injection Hc as <-. split; [unfold limit; lia|]. intros; lia.
      * split; [unfold limit; lia|]. intros; lia.
  - intros N1 N2. destruct Cn as [(E & _)|[(_ & E & _)|(E & Eo & _)]]; [|contradiction|].
    + rewrite E in N1, N2. destruct (H5 N1 N2) as (b & Hb & L & M). exists b. rewrite E. split; [apply in_app_iff; auto|]. split; [exact L|].
      intros a x Hi Hx. apply in_app_iff in Hi as [Hi|Hi]; [eauto|]. rewrite (Tk _ _ Hi). specialize (H2 _ _ Hb). lia.
    + exists t. split; [apply Sn; right; split; [reflexivity|]; rewrite Eo; left; reflexivity|]. specialize (P1 E). split; [lia|].
      intros a x Hi Hx. apply in_app_iff in Hi as [Hi|Hi]; [|rewrite (Tk _ _ Hi); lia]. destruct E as [E|E]; [destruct (quiet _ _ _ _ _ H1 E Hi Hx)|exact (P2 E _ _ Hi Hx)].
  - intros b e Hi He. apply Sn in Hi as [Hi|[-> Hi]]; [eauto|]. pose proof (timeout_label _ _ _ _ _ _ _ H1 H Hi) as L.
    destruct He as [-> | ->]; [|destruct L as [L _]]; rewrite L in Ha; cbn in Ha; unfold run_out in Ha; apply N.leb_le in Ha; exact Ha.
  - intros b Hi a x Hx Ho. apply Sn in Hi as [Hi|[-> Hi]].
    + apply in_app_iff in Hx as [Hx|Hx]; [exact (H7 _ Hi _ _ Hx Ho)|]. rewrite (Tk _ _ Hx). specialize (H2 _ _ Hi). lia.
    + apply in_app_iff in Hx as [Hx|Hx]; [|rewrite (Tk _ _ Hx); lia]. destruct (timeout_label _ _ _ _ _ _ _ H1 H Hi) as [_ L]. exact (P2 L _ _ Hx Ho).
  - intros c. rewrite Sn. split.
    + intros Hc. destruct (Wn _ Hc) as [Ec|(-> & Hi & _)]; [left; apply H8; exact Ec|right; auto].
    + intros [Hi|[-> Hi]]; [apply CC, H8, Hi|apply Nw, Hi].
  - intros Q. specialize (S3 Q). specialize (H9 S3). unfold closing_since. rewrite S3. destruct l; auto.
    destruct (call_held _ _ _ _ H S3) as [_ X]. congruence.
  - intros c Hc. destruct (Wn _ Hc) as [Ec|(-> & _ & Q)]; [|auto]. destruct (H10 _ Ec) as [Q|(b & x & Hb & Hx & L)].
    + destruct (closing_step _ _ _ _ _ _ H1 H Q) as [Q'|X]; [auto|]. right. destruct (P3 Q _ Ec) as [A B].
      assert (Be : forall a e, In (a, TSys (OEnd e)) (o ++ n) -> (t <= N.max a c + d)%N) by (intros a e He; apply Sn in He as [He|[-> _]]; [eauto|lia]).
      assert (Lc : (c <= t)%N) by (apply H8 in Ec; eauto). destruct X as [X|(r & -> & Nr)].
      * exists t, TLetGo. split; [apply in_app_iff; right; apply in_stamp; split; [reflexivity|]; rewrite X; left; reflexivity|]. split; [left; reflexivity|]. split; [lia|exact Be].
      * exists t, (TSys (OClose r)). split; [apply Sn; right; split; [reflexivity|left; reflexivity]|]. split; [right; eauto|]. split; [lia|exact Be].
    + right. exists b, x. split; [apply in_app_iff; auto|]. split; [exact Hx|]. destruct L as [L M]. split; [exact L|].
      intros a e He. apply Sn in He as [He|[-> _]]; [eauto|]. specialize (H2 _ _ Hb). lia.
  - intros b Hi. apply Sn in Hi as [Hi|[-> Hi]].
    + destruct (H11 _ Hi) as (c & Ec & A & B). exists c. split; [auto|]. split; [exact A|]. intros a e He. apply Sn in He as [He|[-> _]]; [eauto|]. specialize (H2 _ _ Hi). lia.
    + pose proof (close_label _ _ _ _ _ _ _ H1 H Hi) as L. cbn in L. rewrite L in Ha. cbn in Ha. destruct closing as [c|]; [|discriminate].
      unfold run_out in Ha. apply N.leb_le in Ha. exists c. split; [auto|]. split; [exact Ha|].
      assert (Q : s_handle s = HClosing) by (destruct (S2 _ Hi) as (_ & [(X & _)|(_ & X & _)]); [discriminate|exact X]).
      destruct (P3 Q c eq_refl) as [_ B]. intros a e He. apply Sn in He as [He|[-> _]]; [eauto|lia].
Qed.

(** What connecting and [close()] ended with. *)
Definition verdict (s : state) : Prop :=
  match s_conn s with
  | CFailed COpenTimeout => True
  | CFailed _ => s_phase s = PUnborn /\ s_open s = None
  | CPanicked => task_ended s = true /\ s_open s = None
  | _ => True
  end.
Lemma trace_verdict log s o : trace log s o -> verdict s.
Proof.
  revert s o. apply (trace_ind log (fun s _ => verdict s)); [exact I|].
  intros s o l s' o' Ht IH H. unfold verdict in *. destruct (read_or l) as [[m ->]|Hl].
  - destruct (step_read _ _ _ _ _ _ Ht H) as (_ & _ & _ & _ & _ & E & _). rewrite E.
    destruct (s_conn s) as [| | |[]| |]; auto; exfalso; cbn [step] in H; destruct (ws_valid m); try discriminate; cbn in H.
    1-3: rewrite (proj1 IH) in H; discriminate.
    destruct IH as [A _]. unfold task_ended in A. destruct (s_phase s); discriminate.
  - destruct (conn_step _ _ _ _ _ _ Ht Hl H) as (Eo & _ & [(E & _)|[(_ & -> & _)|(E & _ & N1 & N2 & P & _)]]); [|exact I|].
    + rewrite E. destruct (s_conn s) as [| | |[]| |] eqn:Ec; auto; (split; [|rewrite Eo; apply IH]); destruct IH as [A _].
      1-3: clear - H Hl A Ec E; other_cases H Hl; cbn in *; try congruence; auto.
      destruct (step_after_end _ _ _ _ _ _ Ht A H) as [X _]. unfold task_ended in *. congruence.
    + clear - H Hl E Ht P. destruct (s_conn s') as [| | |[]| |] eqn:Ec; auto.
      4:{ destruct (P eq_refl) as (_ & A & B). clear P. split; [|other_cases H Hl; cbn in *; congruence]. exact (proj1 (step_after_end _ _ _ _ _ _ Ht B H)). }
      all: clear P; other_cases H Hl; cbn in *; try discriminate; try (exfalso; destruct E; congruence); eapply handshake_quiet; eauto.
Qed.

(** ** Runs *)
Definition stage_ok (log : bool) (d : N) (w : entry) (parsed : option url) (t0 : N) (st : stage) (t : N) (o : stamped) : Prop :=
  match st with
  | TDialing u => w = ByConnect /\ exists h p, connect_to parsed = Ok (h, p, u) /\ o = [(t0, TDial h p)]
  | TConn since c s => ontime log d since c s t o /\ (t0 <= since)%N /\ (w = FromStream -> since = t0)
  | TOver => (exists b x, In (b, x) o /\ connect_ended x /\ (w = FromStream -> b = t0)) /\ (forall a u, ~ In (a, TRequest u) o) /\ sys_obs o = []
  end.
Lemma begin_ok log d w given parsed t0 st o : begin w given parsed t0 = (st, o) -> stage_ok log d w parsed t0 st t0 (stamp t0 o).
Proof.
  unfold begin. intros H.
  assert (F : forall x, connect_ended x -> (forall u, x <> TRequest u) -> (forall y, x <> TSys y) -> stage_ok log d w parsed t0 TOver t0 (stamp t0 [x])).
  { intros x Hx Hr Hy. cbn. split; [exists t0, x; split; [left; reflexivity|auto]|]. split; [intros a u [[= _ E]|[]]; destruct (Hr u E)|].
    destruct x; try reflexivity. destruct (Hy x eq_refl). }
  destruct w.
  - destruct (connect_to parsed) as [[[h p] u]|e|] eqn:E; injection H as <- <-.
    + cbn. split; [reflexivity|]. exists h, p. auto.
    + apply F; [left; eauto|discriminate|discriminate].
    + apply F; [right; left; reflexivity|discriminate|discriminate].
  - destruct (from_stream_url parsed) as [u|e|]; injection H as <- <-.
    + cbn. split; [|split; [lia|auto]]. apply (ontime_begin log d t0 [] u); cbn; tauto.
    + apply F; [left; eauto|discriminate|discriminate].
    + apply F; [right; left; reflexivity|discriminate|discriminate].
Qed.
Lemma timed_ok log d w given parsed t0 st t o : timed log d w given parsed t0 st t o -> (t0 <= t)%N /\ stage_ok log d w parsed t0 st t o.
Proof.
  induction 1 as [st o H|st t o t' H [L IH] Le P|st t o l st' o' H [L IH] Hs].
  - split; [lia|]. eapply begin_ok; eauto.
  - split; [lia|]. destruct st; cbn in *; auto. destruct IH as (A & B & C). split; [|auto]. eapply ontime_wait; eauto.
  - split; [exact L|]. destruct st as [u|since c s|]; destruct l as [[e|]| |l]; cbn [tstep] in Hs; try discriminate.
    + injection Hs as <- <-. destruct IH as (-> & h & p & E & ->). cbn. split; [exists t; eexists; split; [right; right; left; reflexivity|split; [left; eauto|discriminate]]|].
      split; [|reflexivity]. intros a v [[=]|[[=]|[[=]|[]]]].
    + injection Hs as <- <-. destruct IH as (-> & h & p & E & ->). cbn. split; [|split; [exact L|discriminate]].
      apply (ontime_begin log d t [(t0, TDial h p); (t, TStream None)] u); [|reflexivity|].
      * intros a x [[= <- _]|[[= <- _]|[]]]; [exact L|lia].
      * intros a x [[=]|[[=]|[]]].
    + injection Hs as <- <-. destruct IH as (-> & h & p & E & ->). cbn. split; [exists t; eexists; split; [right; left; reflexivity|split; [right; right; left; reflexivity|discriminate]]|].
      split; [|reflexivity]. intros a v [[=]|[[=]|[]]].
    + destruct (timer_allows since c t l) eqn:Ha; [|discriminate]. destruct (step log s l) as [[s' o1]|] eqn:E; [|discriminate]. injection Hs as <- <-.
      destruct IH as (A & B & C). split; [|auto]. apply ontime_step; auto.
Qed.
(** The task and the client behave as in the model without time. *)
Lemma timed_trace log d w given parsed t0 since c s t o : timed log d w given parsed t0 (TConn since c s) t o -> trace log s (sys_obs o).
Proof. intros H. destruct (timed_ok _ _ _ _ _ _ _ _ _ H) as (_ & A & _). exact (ot_trace _ _ _ _ _ _ _ A). Qed.
Lemma timed_request log d w given parsed t0 st t o a u : timed log d w given parsed t0 st t o -> In (a, TRequest u) o ->
  exists c s, st = TConn a c s /\ ontime log d a c s t o.
Proof.
  intros H Hi. destruct (timed_ok _ _ _ _ _ _ _ _ _ H) as (_ & A). destruct st as [v|since c s|]; cbn in A.
  - destruct A as (_ & h & p & _ & ->). destruct Hi as [[=]|[]].
  - destruct A as (A & _). pose proof (proj2 (ot_since _ _ _ _ _ _ _ A) _ _ Hi) as ->. eauto.
  - destruct A as (_ & A & _). destruct (A _ _ Hi).
Qed.
Lemma timed_sys log d w given parsed t0 st t o a x : timed log d w given parsed t0 st t o -> In (a, TSys x) o ->
  exists since c s u, st = TConn since c s /\ ontime log d since c s t o /\ In (since, TRequest u) o.
Proof.
  intros H Hi. destruct (timed_ok _ _ _ _ _ _ _ _ _ H) as (_ & A). destruct st as [v|since c s|]; cbn in A.
  - destruct A as (_ & h & p & _ & ->). destruct Hi as [[=]|[]].
  - destruct A as (A & _). destruct (proj1 (ot_since _ _ _ _ _ _ _ A)) as [u Hu]. exists since, c, s, u. auto.
  - destruct A as (_ & _ & A). assert (X : In x (sys_obs o)) by (apply in_sys; eauto). rewrite A in X. destruct X.
Qed.

(** ** C91 *)
Lemma conn_cases c : c = CHandshake \/ c = COpening \/ (c <> CHandshake /\ c <> COpening).
Proof. destruct c; auto; right; right; split; discriminate. Qed.
Lemma connect_in_time log d w given parsed t0 st t o a u : timed log d w given parsed t0 st t o -> In (a, TRequest u) o -> (a + limit + d < t)%N ->
  exists b c, In (b, TSys (OConnect c)) o /\ (a <= b <= a + limit + d)%N.
Proof.
  intros H Hi Lt. destruct (timed_request _ _ _ _ _ _ _ _ _ _ _ H Hi) as (c & s & -> & A).
  destruct (ot_prompt _ _ _ _ _ _ _ A) as (P1 & _). destruct (conn_cases (s_conn s)) as [E|[E|[N1 N2]]]; [specialize (P1 (or_introl E)); lia|specialize (P1 (or_intror E)); lia|].
  destruct (ot_conn _ _ _ _ _ _ _ A N1 N2) as (b & Hb & L & _). eauto.
Qed.
Lemma from_stream_in_time log d given parsed t0 st t o : timed log d FromStream given parsed t0 st t o -> (t0 + limit + d < t)%N ->
  exists b x, In (b, x) o /\ connect_ended x /\ (b <= t0 + limit + d)%N.
Proof.
  intros H Lt. destruct (timed_ok _ _ _ _ _ _ _ _ _ H) as (_ & A). destruct st as [v|since c s|]; cbn in A.
  - destruct A as (A & _). discriminate.
  - destruct A as (A & _ & E). rewrite (E eq_refl) in A. destruct (proj1 (ot_since _ _ _ _ _ _ _ A)) as [u Hu].
    destruct (connect_in_time _ _ _ _ _ _ _ _ _ _ _ H Hu Lt) as (b & x & Hb & L). exists b. eexists. split; [exact Hb|]. split; [right; right; right; eauto|lia].
  - destruct A as ((b & x & Hb & Hx & E) & _). rewrite (E eq_refl) in Hb. exists t0, x. split; [exact Hb|]. split; [exact Hx|lia].
Qed.
Lemma not_early log d w given parsed t0 st t o b e : timed log d w given parsed t0 st t o -> In (b, TSys (OConnect (CFailed e))) o ->
  e = CHandshakeTimeout \/ e = COpenTimeout -> exists a u, In (a, TRequest u) o /\ (a + limit <= b)%N.
Proof.
  intros H Hi He. destruct (timed_sys _ _ _ _ _ _ _ _ _ _ _ H Hi) as (a & c & s & u & -> & A & Hu). exists a, u. split; [exact Hu|].
  exact (ot_late _ _ _ _ _ _ _ A _ _ Hi He).
Qed.
Lemma opened_in_time log d w given parsed t0 st t o r u a y : timed log d w given parsed t0 st t o ->
  In (r, TRequest u) o -> In (a, TSys (OOpened y)) o -> (a + d < r + limit)%N -> (a + d < t)%N ->
  exists b c, In (b, TSys (OConnect c)) o /\ (b <= a + d)%N /\ (c = CAbandoned \/ exists sid, c = CConnected sid).
Proof.
  intros H Hr Ha L1 L2. destruct (timed_request _ _ _ _ _ _ _ _ _ _ _ H Hr) as (c & s & -> & A).
  pose proof (ot_trace _ _ _ _ _ _ _ A) as Ht. destruct (ot_prompt _ _ _ _ _ _ _ A) as (P1 & P2 & _).
  assert (Ho : opens_or_ends (TSys (OOpened y))) by (left; eauto).
  destruct (conn_cases (s_conn s)) as [E|[E|[N1 N2]]].
  - destruct (quiet _ _ _ _ _ Ht E Ha Ho).
  - specialize (P2 E _ _ Ha Ho). lia.
  - destruct (ot_conn _ _ _ _ _ _ _ A N1 N2) as (b & Hb & L & M). exists b, (s_conn s). split; [exact Hb|]. split; [exact (M _ _ Ha Ho)|].
    assert (No : s_open s <> None) by (intros X; apply (p_none _ _ (trace_opening _ _ _ Ht) X y); apply in_sys; eauto).
    pose proof (trace_verdict _ _ _ Ht) as V. unfold verdict in V.
    destruct (s_conn s) as [| |sid|e| |] eqn:Ec; try contradiction; eauto.
    + destruct e; try (destruct V; contradiction). pose proof (ot_late _ _ _ _ _ _ _ A _ _ Hb (or_intror eq_refl)). specialize (M _ _ Ha Ho). lia.
    + destruct V; contradiction.
Qed.
(** ** C92 *)
Lemma close_in_time log d w given parsed t0 st t o a : timed log d w given parsed t0 st t o -> In (a, TSys OCloseCalled) o -> (a + limit + d < t)%N ->
  exists b x, In (b, x) o /\ close_ended x /\ (a <= b <= a + limit + d)%N.
Proof.
  intros H Hi Lt. destruct (timed_sys _ _ _ _ _ _ _ _ _ _ _ H Hi) as (r & c & s & u & -> & A & _).
  apply (ot_called _ _ _ _ _ _ _ A) in Hi. destruct (ot_close _ _ _ _ _ _ _ A _ Hi) as [Q|(b & x & Hb & Hx & L & _)]; [|eauto].
  destruct (ot_prompt _ _ _ _ _ _ _ A) as (_ & _ & P3). destruct (P3 Q _ Hi) as [P _]. lia.
Qed.
Lemma close_when_ended log d w given parsed t0 st t o a b e : timed log d w given parsed t0 st t o -> In (a, TSys OCloseCalled) o ->
  In (b, TSys (OEnd e)) o -> (N.max a b + d < t)%N -> exists b' x, In (b', x) o /\ close_ended x /\ (a <= b' <= N.max a b + d)%N.
Proof.
  intros H Hi He Lt. destruct (timed_sys _ _ _ _ _ _ _ _ _ _ _ H Hi) as (r & c & s & u & -> & A & _).
  apply (ot_called _ _ _ _ _ _ _ A) in Hi. destruct (ot_close _ _ _ _ _ _ _ A _ Hi) as [Q|(b' & x & Hb & Hx & L & M)].
  - destruct (ot_prompt _ _ _ _ _ _ _ A) as (_ & _ & P3). destruct (P3 Q _ Hi) as [_ P]. specialize (P _ _ He). lia.
  - specialize (M _ _ He). exists b', x. split; [exact Hb|]. split; [exact Hx|]. lia.
Qed.
Lemma close_not_early log d w given parsed t0 st t o b : timed log d w given parsed t0 st t o -> In (b, TSys (OClose CloseTimeout)) o ->
  exists a, In (a, TSys OCloseCalled) o /\ (a + limit <= b)%N /\ forall b' e, In (b', TSys (OEnd e)) o -> (b <= N.max a b' + d)%N.
Proof.
  intros H Hi. destruct (timed_sys _ _ _ _ _ _ _ _ _ _ _ H Hi) as (r & c & s & u & -> & A & _).
  destruct (ot_close_late _ _ _ _ _ _ _ A _ Hi) as (a & Ea & L & M). exists a. split; [apply (ot_called _ _ _ _ _ _ _ A), Ea|]. split; [exact L|].
  intros b' e He. specialize (M _ _ He). lia.
Qed.

(** ** Time goes on *)
Definition patient (o : stamped) : Prop := forall a x, In (a, x) o -> x <> TLetGo /\ x <> TGiveUp /\ x <> TSys (OConnect CAbandoned).
Lemma calm d o since c s t : s_conn s <> CHandshake -> s_conn s <> COpening -> s_handle s <> HClosing -> prompt d o (TConn since c s) t.
Proof. intros N1 N2 N3. split; [intros [E|E]; contradiction|]. split; [intros E; contradiction|intros E; contradiction]. Qed.
Lemma one_more log d w given parsed t0 since c s t o l s' o' t1 t' : timed log d w given parsed t0 (TConn since c s) t o ->
  (t <= t1)%N -> (t1 <= t')%N -> prompt d o (TConn since c s) t1 -> timer_allows since c t1 l = true -> step log s l = Some (s', o') ->
  letting_go l = [] -> (forall x, In x o' -> x <> OConnect CAbandoned) ->
  s_conn s' <> CHandshake -> s_conn s' <> COpening -> s_handle s' <> HClosing ->
  exists st' o2, timed log d w given parsed t0 st' t' (o ++ o2) /\ patient o2.
Proof.
  intros H L1 L2 P A Hs Hl Ho N1 N2 N3. exists (TConn since (closing_since c t1 s l) s'), (stamp t1 (map TSys o')). split.
  - assert (Tm : timed log d w given parsed t0 (TConn since (closing_since c t1 s l) s') t1 (o ++ stamp t1 (map TSys o'))).
    { eapply tm_step; [eapply tm_wait; eauto|]. instantiate (1 := KStep l). cbn [tstep]. rewrite A, Hs, Hl. reflexivity. }
    eapply tm_wait; [exact Tm|exact L2|]. apply calm; auto.
  - intros a x Hi. apply in_stamp in Hi as [_ Hi]. apply in_map_iff in Hi as (y & <- & Hi). split; [discriminate|]. split; [discriminate|]. intros [= ->]. eapply Ho; eauto.
Qed.
Lemma goes_on log d w given parsed t0 st t o t' : timed log d w given parsed t0 st t o -> (t <= t')%N ->
  exists st' o2, timed log d w given parsed t0 st' t' (o ++ o2) /\ patient o2.
Proof.
  intros H L. destruct (timed_ok _ _ _ _ _ _ _ _ _ H) as (_ & A).
  assert (W : prompt d o st t' -> exists st' o2, timed log d w given parsed t0 st' t' (o ++ o2) /\ patient o2).
  { intros P. exists st, []. rewrite app_nil_r. split; [eapply tm_wait; eauto|intros ? ? []]. }
  destruct st as [u|since c s|]; try (apply W; exact I). destruct A as (A & _).
  pose proof (ot_trace _ _ _ _ _ _ _ A) as Ht. pose proof (ot_prompt _ _ _ _ _ _ _ A) as P.
  assert (Nc : s_conn s = CHandshake \/ s_conn s = COpening -> s_handle s <> HClosing).
  { intros Hc Hh. pose proof (closing_connected _ _ _ Ht Hh) as X. unfold is_connected in X. destruct Hc as [E|E]; rewrite E in X; discriminate. }
  assert (Tm : forall l s' o', s_conn s = CHandshake \/ s_conn s = COpening -> (forall a x, In (a, x) o -> ~ opens_or_ends x) ->
    (forall t1, timer_allows since c t1 l = run_out since t1) -> step log s l = Some (s', o') -> letting_go l = [] ->
    (forall x, In x o' -> x <> OConnect CAbandoned) -> s_conn s' <> CHandshake -> s_conn s' <> COpening -> s_handle s' <> HClosing ->
    exists st' o2, timed log d w given parsed t0 st' t' (o ++ o2) /\ patient o2).
  { intros l s' o' Hc Hn Ha Hs Hl Ho N1 N2 N3. specialize (Nc Hc). destruct P as (P1 & _). specialize (P1 Hc).
    assert (Pm : forall x, (x <= since + limit + d)%N -> prompt d o (TConn since c s) x).
    { intros x Hx. split; [auto|]. split; [intros _ a y Hi Hy; destruct (Hn _ _ Hi Hy)|contradiction]. }
    destruct (N.le_gt_cases t' (since + limit + d)) as [Q|Q]; [apply W, Pm, Q|].
    eapply (one_more _ _ _ _ _ _ _ _ _ _ _ l _ _ (N.max t (since + limit))); [exact H|lia|lia|apply Pm; lia| |exact Hs|exact Hl|exact Ho|exact N1|exact N2|exact N3].
    rewrite Ha. unfold run_out. apply N.leb_le. lia. }
  destruct (conn_cases (s_conn s)) as [E|[E|[N1 N2]]].
  - eapply (Tm (LHandshake (Some CHandshakeTimeout))); [auto| |reflexivity|cbn [step]; rewrite E; reflexivity|reflexivity| | | |].
    + intros a x Hi. exact (quiet _ _ _ _ _ Ht E Hi).
    + intros x [<-|[]]. discriminate.
    + discriminate.
    + discriminate.
    + cbn. apply Nc. auto.
  - destruct (s_open s) as [y|] eqn:Eo; [|destruct (task_ended s) eqn:Ee].
    + eapply (one_more _ _ _ _ _ _ _ _ _ _ _ LOpenSeen _ _ t); [exact H|lia|exact L|exact P|reflexivity|cbn [step]; rewrite E, Eo; reflexivity|reflexivity| | | |].
      * intros x [<-|[]]. discriminate.
      * discriminate.
      * discriminate.
      * cbn. apply Nc. auto.
    + eapply (one_more _ _ _ _ _ _ _ _ _ _ _ LOpenSeen _ _ t); [exact H|lia|exact L|exact P|reflexivity|cbn [step]; rewrite E, Eo, Ee; reflexivity|reflexivity| | | |].
      * intros x [<-|[]]. discriminate.
      * discriminate.
      * discriminate.
      * discriminate.
    + eapply (Tm LOpenTimeout); [auto| |reflexivity|cbn [step]; rewrite E; reflexivity|reflexivity| | | |].
      * intros a x Hi [[y ->]|[e ->]].
        -- apply (p_none _ _ (trace_opening _ _ _ Ht) Eo y). apply in_sys. eauto.
        -- assert (X : task_ended s = true) by (apply (ended_iff _ _ _ Ht); exists e; apply in_sys; eauto). congruence.
      * intros x [<-|[]]. discriminate.
      * discriminate.
      * discriminate.
      * discriminate.
  - destruct (s_handle s) eqn:Eh; try (apply W, calm; auto; congruence).
    destruct (h_closing _ _ (trace_handled _ _ _ Ht) Eh) as [Hc _]. apply in_sys in Hc as [c0 Hc]. apply (ot_called _ _ _ _ _ _ _ A) in Hc.
    destruct (s_phase s) as [| | | | | | |e] eqn:Ep.
    8:{ eapply (one_more _ _ _ _ _ _ _ _ _ _ _ LCloseReturn _ _ t); [exact H|lia|exact L|exact P|reflexivity|cbn [step]; rewrite Eh, Ep; reflexivity|reflexivity| |exact N1|exact N2|discriminate].
        intros x [<-|[]]. discriminate. }
    all: assert (Hn : forall a e, ~ In (a, TSys (OEnd e)) o) by
      (intros a e Hi; assert (X : task_ended s = true) by (apply (ended_iff _ _ _ Ht); exists e; apply in_sys; eauto); unfold task_ended in X; rewrite Ep in X; discriminate).
    all: assert (Pm : forall x, (x <= c0 + limit + d)%N -> prompt d o (TConn since c s) x) by
      (intros x Hx; split; [intros [E|E]; contradiction|]; split; [intros E; contradiction|]; intros _ cz Hcz; rewrite Hc in Hcz; injection Hcz as <-; split; [exact Hx|]; intros a e Hi; destruct (Hn _ _ Hi)).
    all: destruct P as (_ & _ & P3); destruct (P3 Eh _ Hc) as [P4 _].
    all: destruct (N.le_gt_cases t' (c0 + limit + d)) as [Q|Q]; [apply W, Pm, Q|].
    all: eapply (one_more _ _ _ _ _ _ _ _ _ _ _ LCloseTimeout _ _ (N.max t (c0 + limit))); [exact H|lia|lia|apply Pm; lia| |cbn [step]; rewrite Eh; reflexivity|reflexivity| |exact N1|exact N2|discriminate];
      [rewrite Hc; cbn; unfold run_out; apply N.leb_le; lia|intros x [<-|[]]; discriminate].
Qed.
