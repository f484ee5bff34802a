(** Proofs for C73. *)
From Verif Require Export SpecText SpecError ReadProofs ErrorProofs ClientProofs EndProofs SentProofs TraceProofs ShowProofs PeerReadProofs WriterProofs.

Lemma split_no_newline a b : no_newline (a ++ b) -> no_newline a /\ no_newline b.
Proof. intros H. split; intros X; apply H; apply in_app_iff; auto. Qed.
Lemma one_line_no_newline s : one_line s -> no_newline s.
Proof. intros H X. unfold one_line in H. rewrite Forall_forall in H. specialize (H _ X). vm_compute in H. apply H. reflexivity. Qed.
Ltac fixed := apply no_newline_forallb; vm_compute; reflexivity.
Ltac pieces := repeat match goal with
  | |- no_newline (_ ++ _) => apply no_newline_app
  | |- no_newline (dec _) => apply dec_no_newline
  | |- no_newline [] => apply no_newline_nil
  | |- no_newline (bs _) => fixed
  | |- no_newline [_] => fixed
  end; try assumption.

(** ** Debug output has no line breaks *)
Lemma hex_lower_no_newline n : (n < 16)%N -> (hex_lower n =b x0a) = false.
Proof.
  intros H. destruct n as [|p]; [reflexivity|]. do 4 (try (destruct p as [p|p|]; try reflexivity)); lia.
Qed.
Lemma hex_fuel_no_newline k : forall n acc, no_newline acc -> no_newline (hex_fuel k n acc).
Proof.
  induction k as [|k IH]; intros n acc H; cbn [hex_fuel]; [exact H|].
  assert (X : no_newline (hex_lower (n mod 16) :: acc)) by (apply no_newline_cons; [apply hex_lower_no_newline, N.mod_lt; discriminate|exact H]).
  destruct (n / 16 =? 0)%N; auto.
Qed.
Lemma unicode_escape_no_newline n : no_newline (unicode_escape n).
Proof. unfold unicode_escape, hex. pieces. apply hex_fuel_no_newline, no_newline_nil. Qed.
Lemma debug_ascii_no_newline c : no_newline (debug_ascii c).
Proof.
  unfold debug_ascii. repeat match goal with |- no_newline (if ?b then _ else _) => destruct b eqn:?; [first [fixed|apply unicode_escape_no_newline]|] end.
  apply no_newline_cons; [assumption|apply no_newline_nil].
Qed.
Lemma high_not_newline lo hi c : in_rng lo hi c = true -> (128 <= lo)%N -> (c =b x0a) = false.
Proof.
  unfold in_rng. intros H L. destruct (c =b x0a) eqn:E; [|reflexivity]. apply byte_eqb_eq in E. subst c.
  apply andb_prop in H as [H _]. apply N.leb_le in H. change (bN x0a) with 10%N in H. lia.
Qed.
(** The characters of a valid text, one at a time. *)
Lemma valid_char c r : utf8_valid (c :: r) = true -> (bN c <? 128)%N = false ->
  no_newline (firstn (char_width c) (c :: r)) /\ utf8_valid (skipn (char_width c) (c :: r)) = true.
Proof.
  intros V H. apply N.ltb_ge in H. cbn [utf8_valid] in V. unfold char_width.
  replace (bN c <? 128)%N with false by (symmetry; apply N.ltb_ge; exact H).
  assert (Hc : (c =b x0a) = false).
  { destruct (c =b x0a) eqn:E; [|reflexivity]. apply byte_eqb_eq in E. subst c. vm_compute in H. exfalso. apply H. reflexivity. }
  destruct (in_rng 0 127 c) eqn:R1. { unfold in_rng in R1. apply andb_prop in R1 as [_ R1]. apply N.leb_le in R1. lia. }
  destruct (in_rng 194 223 c) eqn:R2.
  { unfold in_rng in R2. apply andb_prop in R2 as [_ R2]. apply N.leb_le in R2. replace (bN c <? 224)%N with true by (symmetry; apply N.ltb_lt; lia).
    destruct r as [|b r]; [discriminate|]. apply andb_prop in V as [Hb V]. cbn [firstn skipn]. split; [|exact V].
    apply no_newline_cons; [exact Hc|]. apply no_newline_cons; [eapply high_not_newline; [exact Hb|lia]|apply no_newline_nil]. }
  destruct (in_rng 224 239 c) eqn:R3.
  { unfold in_rng in R3. apply andb_prop in R3 as [R3 R3']. apply N.leb_le in R3, R3'. replace (bN c <? 224)%N with false by (symmetry; apply N.ltb_ge; lia).
    replace (bN c <? 240)%N with true by (symmetry; apply N.ltb_lt; lia).
    destruct r as [|b [|d r]]; try discriminate. apply andb_prop in V as [V Hv]. apply andb_prop in V as [Hb Hd]. cbn [firstn skipn]. split; [|exact Hv].
    apply no_newline_cons; [exact Hc|]. apply no_newline_cons; [|apply no_newline_cons; [eapply high_not_newline; [exact Hd|lia]|apply no_newline_nil]].
    destruct (c =b xe0); [|destruct (c =b xed)]; (eapply high_not_newline; [exact Hb|lia]). }
  destruct (in_rng 240 244 c) eqn:R4; [|discriminate].
  unfold in_rng in R4. apply andb_prop in R4 as [R4 R4']. apply N.leb_le in R4, R4'. replace (bN c <? 224)%N with false by (symmetry; apply N.ltb_ge; lia).
  replace (bN c <? 240)%N with false by (symmetry; apply N.ltb_ge; lia).
  destruct r as [|b [|d [|e r]]]; try discriminate. apply andb_prop in V as [V Hv]. apply andb_prop in V as [V He]. apply andb_prop in V as [Hb Hd].
  cbn [firstn skipn]. split; [|exact Hv].
  apply no_newline_cons; [exact Hc|]. apply no_newline_cons; [|apply no_newline_cons; [eapply high_not_newline; [exact Hd|lia]|apply no_newline_cons; [eapply high_not_newline; [exact He|lia]|apply no_newline_nil]]].
  destruct (c =b xf0); [|destruct (c =b xf4)]; (eapply high_not_newline; [exact Hb|lia]).
Qed.
Lemma ascii_tail c r : utf8_valid (c :: r) = true -> (bN c <? 128)%N = true -> utf8_valid r = true.
Proof.
  intros V H. cbn [utf8_valid] in V. apply N.ltb_lt in H. replace (in_rng 0 127 c) with true in V; [exact V|].
  unfold in_rng. symmetry. apply andb_true_intro. split; apply N.leb_le; lia.
Qed.
Lemma debug_chars_no_newline fm k : forall s, utf8_valid s = true \/ no_newline s -> no_newline (debug_chars fm k s).
Proof.
  induction k as [|k IH]; intros [|c r] H; try apply no_newline_nil. cbn [debug_chars]. destruct (bN c <? 128)%N eqn:E.
  - apply no_newline_app; [apply debug_ascii_no_newline|]. apply IH. destruct H as [H|H]; [left; exact (ascii_tail _ _ H E)|right].
    exact (proj2 (split_no_newline [c] r H)).
  - assert (X : no_newline (firstn (char_width c) (c :: r)) /\ (utf8_valid (skipn (char_width c) (c :: r)) = true \/ no_newline (skipn (char_width c) (c :: r)))).
    { destruct H as [H|H]; [destruct (valid_char c r H E); auto|]. rewrite <- (firstn_skipn (char_width c) (c :: r)) in H.
      apply split_no_newline in H as [H1 H2]. auto. }
    destruct X as [X Y]. apply no_newline_app; [destruct (fm_escaped fm _); [apply unicode_escape_no_newline|exact X]|apply IH; exact Y].
Qed.
Lemma debug_str_no_newline fm s : utf8_valid s = true \/ no_newline s -> no_newline (debug_str fm s).
Proof. intros H. unfold debug_str. apply no_newline_cons; [reflexivity|]. pieces. apply debug_chars_no_newline, H. Qed.
Lemma debug_list_no_newline {A} (f : A -> bytes) l : (forall x, In x l -> no_newline (f x)) -> no_newline (debug_list f l).
Proof.
  intros H. unfold debug_list. pieces. assert (G : forall b, no_newline (debug_elems f b l)); [|apply G].
  induction l as [|x l IH]; intros b; [apply no_newline_nil|]. cbn [debug_elems].
  apply no_newline_app; [destruct b; fixed|]. apply no_newline_app; [apply H; left; reflexivity|]. apply IH. intros y Hy. apply H. right. exact Hy.
Qed.
Lemma debug_bytes_no_newline d : no_newline (debug_bytes d).
Proof. apply debug_list_no_newline. intros. apply dec_no_newline. Qed.
Lemma debug_option_no_newline {A} (f : A -> bytes) o : (forall x, no_newline (f x)) -> no_newline (debug_option f o).
Proof. intros H. destruct o; cbn [debug_option]; pieces. apply H. Qed.
Lemma debug_range_no_newline r : no_newline (debug_range r).
Proof. unfold debug_range. pieces. Qed.
Lemma debug_wsmsg_no_newline fm m : tame fm -> ws_valid m = true -> no_newline (debug_wsmsg fm m).
Proof.
  intros (_ & _ & _ & T) V. destruct m as [t|d|d|d|f]; cbn [debug_wsmsg]; pieces; try apply debug_bytes_no_newline.
  - apply debug_str_no_newline. left. exact V.
  - apply one_line_no_newline, T.
Qed.
Lemma all_slices_some l : all_slices l = all_some (map sub_deref_vec l).
Proof. induction l as [|x l IH]; cbn [all_slices map all_some]; [reflexivity|]. destruct (sub_deref_vec x); [|reflexivity]. rewrite IH. destruct (all_some _); reflexivity. Qed.
(** A packet whose text has no line break is shown on one line, without a panic. *)
Lemma debug_packet_no_newline fm p t atts : sub_deref_str (p_message p) = Some t -> all_some (map sub_deref_vec (p_attachments p)) = Some atts ->
  no_newline t -> exists x, debug_packet fm p = Some x /\ no_newline x.
Proof.
  intros Ht Ha Hn. unfold debug_packet. rewrite Ht, all_slices_some, Ha. eexists. split; [reflexivity|].
  pieces; try match goal with |- context [p_kind p] => destruct (p_kind p); fixed end.
  - apply debug_str_no_newline. auto.
  - apply debug_option_no_newline, debug_range_no_newline.
  - apply debug_option_no_newline, dec_no_newline.
  - apply debug_list_no_newline. intros; apply debug_range_no_newline.
  - apply debug_list_no_newline. intros; apply debug_bytes_no_newline.
Qed.

(** ** Texts of packets *)
Lemma wire_text_no_newline w : wire_ok w -> no_newline (wire_text w).
Proof.
  intros [Hn Ha]. unfold wire_text. apply no_newline_cons; [destruct (w_kind w); reflexivity|]. pieces.
  - destruct (w_count w); cbn [opt_text]; pieces.
  - destruct (w_ns w) as [x|] eqn:E; cbn [opt_text]; pieces. apply (Hn x eq_refl).
  - destruct (w_id w); cbn [opt_text]; pieces.
  - destruct (w_args w) as [x|] eqn:E; cbn [opt_text]; pieces. apply (Ha x eq_refl).
Qed.
Lemma reads_as_no_newline t w : reads_as t w -> no_newline t.
Proof. intros (-> & H & _). apply wire_text_no_newline, H. Qed.
Lemma items_no_newline ts s : jitems ts s -> no_newline s -> Forall no_newline ts.
Proof.
  induction 1 as [v t w1 w2 H1 H2 _|v t w1 w2 l t' H1 H2 _ _ IH]; intros V; apply split_no_newline in V as [_ V]; apply split_no_newline in V as [V V'].
  - constructor; [exact V|constructor].
  - constructor; [exact V|]. apply split_no_newline in V' as [_ V']. apply (split_no_newline [","%byte]) in V' as [_ V']. auto.
Qed.
Lemma array_no_newline ts s : jarray ts s -> no_newline s -> Forall no_newline ts.
Proof.
  intros (wa & body & wb & _ & _ & -> & D) V. destruct D as [[-> _]|D]; [constructor|].
  apply split_no_newline in V as [_ V]. apply (split_no_newline ["["%byte]) in V as [_ V]. apply split_no_newline in V as [V _]. exact (items_no_newline _ _ D V).
Qed.
Lemma argument_no_newline m t l g : sub_deref_str m = Some t -> Forall emsg_ok l -> argument_of m l g -> no_newline (g_text g).
Proof.
  intros Hm Hl (p & d & a & i & Hr & Hd & Ha & Hg).
  destruct (arguments_are_elements m t l p d a Hm Hl Hr Hd Ha) as (w & ts & (Et & Hw & _) & Hel & _ & Hget & _ & _ & _).
  rewrite Hget in Hg. destruct (nth_error ts i) as [x|] eqn:E; [|discriminate]. injection Hg as <-. cbn [g_text].
  apply nth_error_In in E. destruct (w_args w) as [u|] eqn:Eu; cbn [elements] in Hel; [|subst; destruct E].
  pose proof (array_no_newline _ _ Hel (proj2 (proj2 Hw u Eu))) as F. rewrite Forall_forall in F. exact (F x E).
Qed.
Lemma parse_text_message m q : parse_text m = Ok q -> pa_message q = m.
Proof.
  unfold parse_text, rbind. intros H. repeat (match type of H with context [match ?x with _ => _ end] => destruct x end; try discriminate).
  all: injection H as <-; reflexivity.
Qed.
Lemma event_message q k name atts p : deserialize_event q k name atts = Ok p -> p_message p = pa_message q.
Proof.
  unfold deserialize_event. intros H. repeat (match type of H with (if ?x then _ else _) = _ => destruct x end; try discriminate). injection H as <-. reflexivity.
Qed.
Lemma dataless_message q k name p : deserialize_dataless q k name = Ok p -> p_message p = pa_message q.
Proof.
  unfold deserialize_dataless. intros H. repeat (match type of H with (match ?x with _ => _ end) = _ => destruct x end; try discriminate). injection H as <-. reflexivity.
Qed.
Lemma received_message m l p : received m l p -> p_message p = m.
Proof.
  assert (G : forall r, deserialize (MText m) = Ok r -> match r with DPacket p => p_message p | DDataNeeded q => pa_message q end = m).
  { intros r. cbn [deserialize]. unfold deserialize_text. destruct (parse_text m) as [q| |] eqn:E; cbn [rbind]; try discriminate.
    apply parse_text_message in E. subst m. unfold deserialize_binary, rmap. intros H.
    repeat (match type of H with (match ?x with _ => _ end) = _ => destruct x eqn:? end; try discriminate); injection H as <-;
      eauto using event_message, dataless_message. }
  intros [[E _]|(q & E & H)]; apply G in E; [exact E|]. unfold deserialize_partial in H. destruct (collect_binary l) as [atts| |]; cbn [rbind] in H; try discriminate.
  destruct (pa_kind q); try discriminate; apply event_message in H; congruence.
Qed.
Lemma received_shown fm m t l p id a : sub_deref_str m = Some t -> Forall emsg_ok l -> received m l p -> packet_data p = Some (DataAck id a) ->
  exists x, debug_packet fm p = Some x /\ no_newline x.
Proof.
  intros Hm Hl Hr Hd. pose proof (received_message m l p Hr) as Ep.
  destruct (arguments_are_elements m t l p _ a Hm Hl Hr Hd eq_refl) as (w & ts & Hw & _ & _ & _ & _ & Hat & _).
  destruct (received_view m t l p Hm Hl Hr) as (k & ns & id' & ts' & vs & _ & Hb & _). rewrite Hb in Hat.
  apply (debug_packet_no_newline fm p t vs); [rewrite Ep; exact Hm| |exact (reads_as_no_newline _ _ Hw)].
  unfold packet_data in Hd. destruct (p_kind p); try discriminate; [destruct (packet_args p); discriminate|].
  destruct (p_id p); [|discriminate]. unfold packet_args in Hd. destruct (sub_deref_str (p_message p)); [|discriminate]. injection Hd as _ <-. symmetry. exact Hat.
Qed.

(** ** Which errors quote the server verbatim *)
Definition clean (e : serror) : Prop :=
  match e with
  | SInvalidExtraData n x | SMissingData n x => no_newline n /\ no_newline x
  | SInvalidDataJson x => no_newline x
  | _ => True
  end.
Lemma type_name_no_newline k : no_newline (type_name k).
Proof. destruct k; fixed. Qed.
Lemma wrong_clean t w ts e : no_newline t -> wrong t w ts e -> clean e.
Proof.
  intros Hn. unfold wrong. destruct (w_kind w); intros H.
  1,2: destruct H as [_ ->]; split; [apply type_name_no_newline|exact Hn].
  1,2: destruct H as [[_ ->]|(_ & n & _ & _ & ->)]; [split; [apply type_name_no_newline|exact Hn]|exact I].
  all: destruct H as [_ ->]; split; [apply type_name_no_newline|exact Hn].
Qed.
Lemma rejects_clean t e : rejects t e -> clean e.
Proof.
  intros [[_ ->]|(w & Hw & _ & _ & [(a & Ha & _ & ->)|(ts & _ & H)])]; [exact I| |].
  - destruct Hw as (_ & [_ Hw] & _). exact (proj2 (Hw a Ha)).
  - exact (wrong_clean _ _ _ _ (reads_as_no_newline _ _ Hw) H).
Qed.
Lemma attachments_clean t l e : attachments_rejected t l e -> clean e.
Proof.
  intros [(l1 & s & x & l2 & _ & _ & _ & ->)|(_ & w & ts & Hw & _ & [[_ ->]|(_ & n & _ & _ & ->)])]; try exact I.
  split; [apply type_name_no_newline|exact (reads_as_no_newline _ _ Hw)].
Qed.
Lemma with_prefix a x : no_newline a -> (In x0a (a ++ x) <-> In x0a x).
Proof. intros H. rewrite in_app_iff. split; [intros [X|X]; [destruct (H X)|exact X]|auto]. Qed.
Lemma no_lines s (Q : Prop) : no_newline s -> ~ Q -> (In x0a s <-> Q).
Proof. intros H1 H2. split; [intros X; destruct (H1 X)|intros X; destruct (H2 X)]. Qed.
Lemma socket_text fm e : tame fm -> clean e -> exists t, error_text fm (RSocket e) = Some t /\
  (In x0a t <-> exists x, quotes_text (RSocket e) x /\ In x0a x).
Proof.
  intros (T & _) C. exists (bs "Error processing packet: " ++ bs "Error deserializing socket.io protocol: " ++ socket_error_text fm e). split; [reflexivity|].
  destruct e as [d|x|x|n x|n x|x|g w]; cbn [socket_error_text clean] in *;
    try (apply no_lines; [|intros (y & [Q|Q] & _); discriminate Q]).
  - pieces. apply debug_bytes_no_newline.
  - rewrite !with_prefix by fixed. split; [intros H; exists x; split; [right; reflexivity|exact H]|intros (y & [Q|Q] & H); [discriminate Q|injection Q as <-; exact H]].
  - rewrite !with_prefix by fixed. split; [intros H; exists x; split; [left; reflexivity|exact H]|intros (y & [Q|Q] & H); [injection Q as <-; exact H|discriminate Q]].
  - destruct C. pieces.
  - destruct C. pieces.
  - pieces. apply one_line_no_newline, T.
  - pieces.
Qed.
Lemma engine_text fm h m e : tame fm -> ws_valid m = true -> engine_rejects h m e -> no_newline (engine_error_text fm e).
Proof.
  intros T V H. assert (M : no_newline (debug_wsmsg fm m)) by (apply debug_wsmsg_no_newline; assumption).
  assert (G : e = EInvalidMessage m \/ e = EWrongMessageType m \/ e = EMessageBeforeOpen \/ e = EMessageAfterClose \/ e = ESecondOpen \/ e = EJsonError).
  { destruct H as [[_ H]|[_ H]]; [auto|]. destruct m as [[|c t]|d|d|d|d]; try tauto; intuition. }
  destruct T as (T & _). apply one_line_no_newline in T.
  destruct G as [->|[->|[->|[->|[->| ->]]]]]; cbn [engine_error_text]; pieces.
Qed.
Lemma error_lines fm log s o m s' o' e : tame fm -> trace log s o -> step log s (LRead m) = Some (s', o') ->
  In (OEnd (EndErr e)) o' ->
  exists t, error_text fm e = Some t /\ (In x0a t <-> exists x, quotes_text e x /\ In x0a x).
Proof.
  intros T Ht H Hin. destruct (reaction_exact _ _ _ _ _ _ Ht H) as (out & -> & Hr). destruct Hin as [[=]|Hin].
  destruct (read_label _ _ _ _ _ H) as (b & _ & V & _).
  pose proof (trace_invariant _ _ _ (trace_step _ _ _ _ _ _ Ht H)) as Inv.
  assert (Ok : Forall emsg_ok (messages (reads o))).
  { apply messages_ok. intros t Hx. apply (v_valid _ _ Inv). rewrite reads_app. apply in_app_iff. auto. }
  assert (N : forall u, no_newline u -> (forall x, ~ quotes_text e x) -> In x0a u <-> exists x, quotes_text e x /\ In x0a x).
  { intros u Hu Q. apply no_lines; [exact Hu|]. intros (x & X & _). exact (Q x X). }
  destruct Hr as [D|e0 D A|x D A|D A|D A|D A C|D A C|x out D A Hm]; try solve [destruct Hin]; try (destruct Hin as [Hin|[]]; try discriminate Hin).
  - injection Hin as <-. eexists. split; [reflexivity|]. apply N; [|intros x [[=]|[=]]]. pieces.
    apply (engine_text fm (data_frames (reads o)) m e0 T V). apply engine_error_exact.
    unfold engine_answer in A. unfold answer_at, history_answers in *. rewrite A. rewrite nth_error_app2; rewrite answers_length; [rewrite Nat.sub_diag; reflexivity|lia].
  - assert (Okx : emsg_ok x).
    { assert (X : Forall emsg_ok (messages (reads (o ++ [ORead m])))).
      { apply messages_ok. intros t Hx. apply (v_valid _ _ Inv). rewrite reads_app in *. apply in_app_iff in Hx. apply in_app_iff. destruct Hx as [Hx|[Hx|[]]]; [auto|].
        right. left. exact Hx. }
      rewrite reads_app in X. cbn [reads flat_map app] in X. rewrite messages_snoc, D in X. apply engine_answer_decode in A. rewrite A in X.
      apply Forall_app in X as [_ X]. inversion X; assumption. }
    destruct Hm as [ps p out Hb Ha Hp|ps rest Hb Ha Hne|ps e0 Ha Hd|ps Ha Hd|ps m0 l q e0 Ha Hd Hq Hd'].
    + destruct (assembled_last _ _ _ Ha) as (es & m0 & l & E & _ & Hrec).
      assert (Okl : Forall emsg_ok (es ++ MText m0 :: l)) by (rewrite <- E; apply Forall_app; auto).
      apply Forall_app in Okl as [_ Okl]. inversion Okl as [|? ? Ok0 Okl']; subst. cbn in Ok0. destruct (sub_deref_str m0) as [t|] eqn:Et; [|congruence].
      destruct Hp as [L S|ns L Hv|ns L Hv|ns id a name f L Hn Hd Hev Hro|ns id a name L Hn Hd Hev Hro|e0 L Hev|ns id a f L Hn Hd Haw|ns id a L Hn Hd Haw];
        try solve [destruct Hin]; destruct Hin as [Hin|[]]; try discriminate Hin.
      * injection Hin as <-. destruct Hev as (id & a & g & Hd & Hg & He). unfold arg_deserialize in He. 
        destruct (match g_attachments g with [] => _ | _ => _ end); [discriminate|]. injection He as <-.
        eexists. split; [reflexivity|]. apply N; [|intros y [[=]|[=]]]. destruct T as (_ & T & _). cbn [args_error_text]. pieces.
        -- eapply argument_no_newline; [exact Et|exact Okl'|]. exists p, (DataEvent id a), a, 0. auto.
        -- apply one_line_no_newline, T.
      * injection Hin as <-. destruct (received_shown fm m0 t l p id a Et Okl' Hrec Hd) as (u & Eu & Hu).
        eexists. split; [unfold error_text; cbn [receiver_error_text]; rewrite Eu; reflexivity|]. apply N; [|intros y [[=]|[=]]]. pieces.
    + destruct Hin.
    + destruct Hin as [Hin|[]]. injection Hin as <-. apply socket_text; [exact T|]. destruct x as [u|d].
      * cbn in Okx. destruct (sub_deref_str u) as [t|] eqn:Et; [|congruence]. apply (parse_error_exact _ _ _ Et) in Hd. exact (rejects_clean _ _ Hd).
      * cbn in Hd. destruct (sub_deref_vec d); [|discriminate]. injection Hd as <-. exact I.
    + destruct Hin as [[=]|[]].
    + destruct Hin as [Hin|[]]. injection Hin as <-. apply socket_text; [exact T|].
      destruct (assembled_split _ _ _ Ha) as (es & E & _). rewrite E in Ok. apply Forall_app in Ok as [_ Ok]. inversion Ok as [|? ? Ok0 Okl]; subst.
      cbn in Ok0. destruct (sub_deref_str m0) as [t|] eqn:Et; [|congruence].
      apply (attachments_error_exact _ _ _ _ _ Et Hd) in Hd'; [exact (attachments_clean _ _ _ Hd')|apply Forall_app; auto].
Qed.

(** ** The server writes into the error *)
Lemma newline_rejected u : In x0a u -> rejects u (SInvalidMessage u).
Proof. intros H. left. split; [|reflexivity]. intros w Hw. exact (reads_as_no_newline _ _ Hw H). Qed.
Lemma forged fm log s o u s' o' : trace log s o -> live o -> between_packets o -> In x0a u ->
  step log s (LRead (WText ("4"%byte :: u))) = Some (s', o') ->
  s_phase s' = PEnded (EndErr (RSocket (SInvalidMessage u))) /\
  error_text fm (RSocket (SInvalidMessage u)) = Some (bs "Error processing packet: Error deserializing socket.io protocol: Invalid message: " ++ u).
Proof.
  intros Ht Hl [ps Hb] Hu H. split; [|reflexivity].
  destruct (read_label _ _ _ _ _ H) as (b & _ & V & _). cbn [ws_valid] in V.
  assert (V' : utf8_valid u = true) by (apply (ascii_tail "4"%byte); [exact V|reflexivity]).
  apply (rejected_ends log s o (WText ("4"%byte :: u)) (RSocket (SInvalidMessage u)) s' o' Ht H).
  assert (D : sub_deref_str (tsub u) = Some u) by (apply (sub_tail_str "4"%byte); exact V').
  apply re_message with (MText (tsub u)); [reflexivity|apply live_answer; auto|].
  eapply mr_not_a_packet; [exact Hb|]. apply (parse_error_exact _ _ _ D). apply newline_rejected, Hu.
Qed.

(** ** Examples *)
Definition plain : formats := Formats (fun _ => false) [] [] (fun _ => []) (fun _ => []).
Lemma plain_tame : tame plain.
Proof. repeat split; intros; apply one_line_check; reflexivity. Qed.
Definition forgery : bytes := bs "x" ++ x0a :: bs "2026-01-01 INFO login root".
Lemma forgery_read : exists s o s' o', trace false s o /\ live o /\ between_packets o /\
  step false s (LRead (WText ("4"%byte :: forgery))) = Some (s', o') /\ In (OEnd (EndErr (RSocket (SInvalidMessage forgery)))) o'.
Proof.
  destruct (execute false init opened_run) as [[s o]|] eqn:E; [|vm_compute in E; discriminate].
  pose proof (run_trace _ _ _ _ E) as Ht. exists s, o. vm_compute in E. injection E as <- <-.
  eexists _, _. split; [exact Ht|]. split; [|split; [exists []; vm_compute; apply as_nothing|split; [vm_compute; reflexivity|vm_compute; auto]]].
  apply state_active. vm_compute. reflexivity.
Qed.
Lemma C73_refuted_lemma : ~ C73_full.
Proof.
  intros F. destruct forgery_read as (s & o & s' & o' & Ht & _ & _ & H & He).
  destruct (F plain _ _ _ _ _ _ _ plain_tame Ht H He) as (t & E & N). apply N. vm_compute in E. injection E as <-. vm_compute. tauto.
Qed.
(** An ack that nobody waits for is quoted too, escaped. *)
Definition stray : bytes := bs "43/" ++ x0d :: bs ",7[""a\n"",true]".
Lemma stray_read : exists s o s' o' e, trace false s o /\ step false s (LRead (WText stray)) = Some (s', o') /\
  In (OEnd (EndErr e)) o' /\ error_text plain e =
    Some (bs "Error processing packet: Unexpected ack received: Packet { message: ""3/\r,7[\""a\\n\"",true]"", kind: Ack, namespace: Some(1..3), id: Some(7), args: [6..11, 12..16], attachments: [] }").
Proof.
  destruct (execute false init opened_run) as [[s o]|] eqn:E; [|vm_compute in E; discriminate].
  pose proof (run_trace _ _ _ _ E) as Ht. exists s, o. vm_compute in E. injection E as <- <-.
  eexists _, _, _. split; [exact Ht|]. split; [vm_compute; reflexivity|]. split; [right; left; reflexivity|]. vm_compute. reflexivity.
Qed.
