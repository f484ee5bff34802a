(** What arrives when a built packet is decoded and parsed. *)
From Verif Require Export BuilderProofs.

(** ** The engine layer *)
Definition tsub (t : bytes) : subslice_t := sub_new ("4"%byte :: t) (1, length ("4"%byte :: t)).
Definition bsub (b : bytes) : subslice_t := sub_new (x04 :: b) (1, length (x04 :: b)).
Lemma tsub_text c t : is_cont c = false -> sub_deref_str (tsub (c :: t)) = Some (c :: t).
Proof.
  intros H. unfold tsub, sub_deref_str, sub_new, str_slice. cbn [sub_data sub_range fst snd].
  assert (H1 : is_boundary ("4"%byte :: c :: t) 1 = true).
  { unfold is_boundary. cbn [nth_error]. rewrite H. reflexivity. }
  assert (H2 : is_boundary ("4"%byte :: c :: t) (length ("4"%byte :: c :: t)) = true).
  { unfold is_boundary. rewrite (proj2 (nth_error_None _ _)) by lia. apply Nat.eqb_refl. }
  rewrite H1, H2. cbn [length]. replace (1 <=? S (S (length t))) with true by lia.
  rewrite Nat.leb_refl. cbn [andb]. unfold slice. cbn [skipn].
  replace (S (S (length t)) - 1) with (length (c :: t)) by (cbn; lia). rewrite firstn_all. reflexivity.
Qed.
Lemma type_digit_ascii k : is_cont (type_digit k) = false.
Proof. destruct k; reflexivity. Qed.
Lemma tsub_wire w : sub_deref_str (tsub (wire_text w)) = Some (wire_text w).
Proof. apply tsub_text. apply type_digit_ascii. Qed.
Lemma answers_frames bl : answers DActive (map frame bl) = map (fun b => Ok (PktMessage (MBinary (bsub b)))) bl.
Proof.
  induction bl as [|b bl IH]; [reflexivity|]. cbn [map answers]. unfold frame at 1. cbn [decode].
  rewrite <- IH. reflexivity.
Qed.
Lemma decode_frames h t bl : opened h -> ~ closed h ->
  history_answers (h ++ WText ("4"%byte :: t) :: map frame bl) =
  history_answers h ++ map (fun x => Ok (PktMessage x)) (MText (tsub t) :: map (fun b => MBinary (bsub b)) bl).
Proof.
  intros Ho Hc. unfold history_answers, decoder_new. rewrite answers_app.
  assert (E : state_after DInitial h = DActive) by (apply state_active; auto). rewrite E.
  f_equal. cbn [map]. rewrite map_map, <- answers_frames. reflexivity.
Qed.
Lemma map_msg_inj a b : map (fun x => Ok (E := eerror) (PktMessage x)) a = map (fun x => Ok (PktMessage x)) b -> a = b.
Proof.
  revert b. induction a as [|x a IH]; intros [|y b] H; try discriminate; [reflexivity|].
  injection H as -> H. f_equal. auto.
Qed.
Definition bmsgs (bl : list bytes) : list emsg := map (fun b => MBinary (bsub b)) bl.
Lemma arrives_received h t bl p : opened h -> ~ closed h ->
  (arrives h (WText ("4"%byte :: t) :: map frame bl) p <-> received (tsub t) (bmsgs bl) p).
Proof.
  intros Ho Hc. unfold arrives. rewrite decode_frames by assumption. split.
  - intros (m & l & E & Hr). apply app_inv_head, map_msg_inj in E. injection E as <- <-. exact Hr.
  - intros Hr. exists (tsub t), (bmsgs bl). auto.
Qed.
Lemma bmsgs_ok bl : Forall emsg_ok (bmsgs bl).
Proof. apply Forall_map, Forall_forall. intros b _. cbn. unfold bsub. rewrite sub_tail_vec. discriminate. Qed.
Lemma all_some_map {A B} (f : A -> option B) g l : (forall x, f x = Some (g x)) -> all_some (map f l) = Some (map g l).
Proof. intros H. induction l as [|x l IH]; [reflexivity|]. cbn [map all_some]. rewrite H, IH. reflexivity. Qed.
Lemma bmsgs_content bl : all_some (map binary_content (bmsgs bl)) = Some bl.
Proof.
  unfold bmsgs. rewrite map_map. rewrite (all_some_map _ (fun b => b)); [rewrite map_id; reflexivity|].
  intros b. cbn. unfold bsub. apply sub_tail_vec.
Qed.

(** ** Argument texts *)
Lemma jitems_seps rs ts : Forall2 jvalue rs ts -> ts <> [] -> jitems ts (seps true ts).
Proof.
  induction 1 as [|r t rs ts H1 H IH]; [congruence|intros _]. cbn [seps comma_unless app].
  destruct H as [|r' t' rs ts H2 H].
  - cbn [seps]. apply (ji_one r t [] []); auto using ws_nil.
  - assert (X := IH ltac:(discriminate)). cbn [seps comma_unless app] in *.
    apply (ji_cons r t [] []); auto using ws_nil.
Qed.
Lemma jarray_seps rs ts : Forall2 jvalue rs ts -> jarray ts ("["%byte :: seps true ts ++ ["]"%byte]).
Proof.
  intros H. exists [], (seps true ts), []. split; [apply ws_nil|]. split; [apply ws_nil|].
  split; [reflexivity|]. destruct ts as [|t ts]; [left; split; [reflexivity|apply ws_nil]|right].
  eapply jitems_seps; [exact H|discriminate].
Qed.
Definition read_ok (l : list sval) : Prop := allP val_ok l /\ list_max (map nesting l) < 128.
Definition pvals (bin : bool) (l : list sval) : list value :=
  json_values (if bin then map sent l else l).
(** The attachments a packet with byte strings [bl] comes with. *)
Definition atts_of (bl : list bytes) (A : list subslice_t) : Prop := all_some (map sub_deref_vec A) = Some bl.

Lemma jvalue_from_str r t y : jvalue r t -> (forall rp, val_of rp 128 r = Some y) -> from_str_value t = Some y.
Proof.
  intros Hj Hv. unfold from_str_value. cbn [from_str_value_n].
  rewrite (proj2 (scan_doc_exact t r)); [apply Hv|].
  exists [], t, []. split; [apply ws_nil|]. split; [apply ws_nil|]. split; [exact Hj|]. rewrite app_nil_r. reflexivity.
Qed.
Lemma atts_nth bl A : atts_of bl A -> forall i b, nth_error bl i = Some b -> att A i b.
Proof.
  unfold atts_of. revert bl. induction A as [|s A IH]; intros bl H i b Hb.
  - injection H as <-. destruct i; discriminate.
  - cbn [map all_some] in H. destruct (sub_deref_vec s) as [d|] eqn:Es; [|discriminate].
    destruct (all_some (map sub_deref_vec A)) as [bl'|] eqn:E; [|discriminate]. injection H as <-.
    destruct i; cbn in Hb.
    + injection Hb as <-. exists s. auto.
    + destruct (IH bl' eq_refl i b Hb) as (s' & ? & ?). exists s'. auto.
Qed.
Lemma atts_nil A : atts_of [] A -> A = [].
Proof.
  unfold atts_of. destruct A as [|s A]; [reflexivity|]. cbn [map all_some]. destruct (sub_deref_vec s); [|discriminate].
  destruct (all_some (map sub_deref_vec A)); discriminate.
Qed.
Lemma atts_nonnil b bl A : atts_of (b :: bl) A -> A <> [].
Proof. intros H ->. discriminate. Qed.

Lemma text_values l ts : Forall2 (fun v t => wr v t OOk) l ts -> read_ok l ->
  map (fun t => to_json_value (Arg t [])) ts = map Ok (json_values l).
Proof.
  induction 1 as [|v t l ts Hv H IH]; intros [Ha Hn]; [reflexivity|].
  cbn [allP] in Ha. destruct Ha as [Ha1 Ha2]. cbn [map list_max fold_right] in Hn. fold (list_max (map nesting l)) in Hn.
  destruct Hv as (_ & _ & _ & _ & H5). destruct (H5 eq_refl Ha1) as (_ & r & x & E & J & V).
  cbn [map json_values flat_map]. rewrite E. cbn [app map]. f_equal.
  - unfold to_json_value. cbn [g_text g_attachments]. rewrite (jvalue_from_str r t x J); [reflexivity|].
    intros rp. apply V. lia.
  - apply IH. split; [exact Ha2|lia].
Qed.
Lemma binary_values A all n l ts : blist n l ts -> read_ok l -> allP no_pkey l ->
  atts_of all A -> (forall i b, nth_error (flat_map blobs l) i = Some b -> nth_error all (n + i) = Some b) ->
  (N.of_nat (n + length (flat_map blobs l)) <= u64_max)%N ->
  map (fun t => to_json_value (Arg t A)) ts = map Ok (json_values (map sent l)).
Proof.
  intros H. revert A all. induction H as [n|n v l t ts Hv H IH]; intros A all [Ha Hn] Hp HA Hall Hc; [reflexivity|].
  cbn [allP] in Ha, Hp. destruct Ha as [Ha1 Ha2]. destruct Hp as [Hp1 Hp2].
  cbn [map list_max fold_right] in Hn. fold (list_max (map nesting l)) in Hn. cbn [flat_map] in Hall, Hc.
  rewrite app_length in Hc.
  destruct Hv as (_ & _ & _ & _ & _ & H5). destruct (H5 eq_refl Ha1) as (_ & r & y & E & J & V).
  destruct (V Hp1 ltac:(lia)) as [_ V'].
  assert (HB : holds A n (blobs v)).
  { intros i b Hb. apply (atts_nth all A HA). apply Hall. rewrite nth_error_app1; [exact Hb|].
    apply nth_error_Some. congruence. }
  cbn [map json_values flat_map]. rewrite E. cbn [app map]. f_equal.
  - destruct (V' (from_str_value_n (length t)) 128 ltac:(lia)) as (x & Vx & F1 & F2 & _).
    unfold to_json_value. cbn [g_text g_attachments].
    assert (Ex : from_str_value t = Some x).
    { unfold from_str_value. cbn [from_str_value_n]. rewrite (proj2 (scan_doc_exact t r)); [exact Vx|].
      exists [], t, []. split; [apply ws_nil|]. split; [apply ws_nil|]. split; [exact J|]. rewrite app_nil_r. reflexivity. }
    rewrite Ex. destruct A as [|s A]; [|apply F1; exact HB].
    rewrite F2; [reflexivity|]. destruct (blobs v) as [|b bl]; [reflexivity|].
    destruct (HB 0 b eq_refl) as (s' & Hs & _). destruct (n + 0); discriminate.
  - apply (IH A all); [split; [exact Ha2|lia]|exact Hp2|exact HA| |lia].
    intros i b Hb. rewrite <- Nat.add_assoc. apply Hall. rewrite nth_error_app2 by lia.
    replace (length (blobs v) + i - length (blobs v)) with i by lia. exact Hb.
Qed.

(** ** Conditions on the arguments *)
Lemma usable_kept l : usable l -> read_ok (kept l).
Proof.
  unfold usable, kept, read_ok. induction 1 as [|v l H _ [I1 I2]]; [cbn; split; [trivial|lia]|].
  cbn [filter]. destruct (serialises v); [|auto]. destruct (H eq_refl) as [Ha Hb].
  cbn [allP map list_max fold_right]. fold (list_max (map nesting (filter serialises l))). split; [auto|lia].
Qed.
Lemma pkey_kept l : Forall (fun v => serialises v = true -> no_pkey v) l -> allP no_pkey (kept l).
Proof.
  unfold kept. induction 1 as [|v l H _ I]; [exact Logic.I|]. cbn [filter]. destruct (serialises v) eqn:E; [|exact I].
  cbn [allP]. auto.
Qed.
Lemma json_values_kept l : json_values (kept l) = json_values l.
Proof.
  unfold kept, json_values. induction l as [|v l IH]; [reflexivity|]. cbn [filter flat_map].
  destruct (serialises v) eqn:E; cbn [flat_map]; rewrite IH; [reflexivity|].
  unfold serialises in E. destruct (json_of v); [discriminate|reflexivity].
Qed.
Lemma written_facts bin l ts : written bin l ts ->
  (allP strs_ok l -> Forall (fun t => utf8_valid t = true) ts) /\
  (allP val_ok l -> Forall no_newline ts /\ exists rs, Forall2 jvalue rs ts) /\ length ts = length l.
Proof.
  destruct bin; cbn [written]; intros H.
  - pose proof (blist_ok _ _ _ H) as [H1 H2]. split; [exact H1|]. split.
    + intros Hv. destruct (H2 Hv) as (N & rs & ys & J & _). split; [exact N|]. exists rs. exact J.
    + clear H1 H2. induction H; cbn; congruence.
  - pose proof (wr_list _ _ H) as [H1 H2]. split; [exact H1|]. split.
    + intros Hv. destruct (H2 Hv) as (N & rs & ys & J & _). split; [exact N|]. exists rs. exact J.
    + symmetry. eapply Forall2_len. exact H.
Qed.
Lemma starts_first s args : starts s args -> exists v l, all_args s args = v :: l /\ serialises v = true.
Proof.
  destruct s as [e i|i]; cbn; intros H; [eauto|]. destruct args as [|v l]; [contradiction|eauto].
Qed.
Lemma first_text l ts v l' : l = v :: l' -> serialises v = true -> arg_text l ts = Some ("["%byte :: seps true ts ++ ["]"%byte]).
Proof. intros -> H. unfold arg_text, opening. rewrite H. reflexivity. Qed.
Lemma ns_opt_ok ns x : ns_ok ns -> ns_opt ns = Some x -> (exists c r, x = "/"%byte :: c :: r) /\ no_newline x.
Proof.
  intros [[r ->] Hn]. unfold ns_opt. destruct (bytes_eqb _ _) eqn:E; [discriminate|]. intros [= <-].
  split; [|exact Hn]. destruct r as [|c r]; [discriminate E|eauto].
Qed.
Lemma ns_opt_back ns : match ns_opt ns with Some x => x | None => bs "/" end = ns.
Proof. unfold ns_opt. destruct (bytes_eqb ns (bs "/")) eqn:E; [apply bytes_eqb_eq in E; auto|reflexivity]. Qed.
Lemma brackets_no_newline ts : Forall no_newline ts -> no_newline ("["%byte :: seps true ts ++ ["]"%byte]).
Proof.
  intros H. apply WriterProofs.no_newline_cons; [reflexivity|]. apply no_newline_app; [apply seps_no_newline; exact H|].
  apply no_newline_forallb. reflexivity.
Qed.
Lemma out_wire_ok s ns bin args ts : ns_ok ns -> starts s args -> Forall no_newline ts ->
  wire_ok (out_wire s ns bin (all_args s args) ts).
Proof.
  intros Hns Hs Ht. destruct (starts_first s args Hs) as (v & l & El & Ev). split.
  - cbn [out_wire w_ns]. intros x Hx. eapply ns_opt_ok; eauto.
  - cbn [out_wire w_args]. rewrite (first_text _ ts v l El Ev). intros a [= <-]. split; [eauto|].
    apply brackets_no_newline. exact Ht.
Qed.

(** ** When the text is read as intended *)
Lemma wire_eq_dec (w w' : wire) : {w = w'} + {w <> w'}.
Proof.
  decide equality.
  1,3: decide equality; apply list_eq_dec; intros x y; destruct (x =b y) eqn:E;
    [left; apply byte_eqb_eq; exact E|right; apply byte_eqb_neq; exact E].
  1,2: decide equality; apply N.eq_dec.
  decide equality.
Qed.
Lemma reads_intended w u : wire_ok w -> w_args w = Some ("["%byte :: u ++ ["]"%byte]) ->
  (reads_as (wire_text w) w <-> w_ns w = None \/ ~ misreadable ("["%byte :: u ++ ["]"%byte])).
Proof.
  intros Hok Ea. split.
  - intros (_ & _ & Hmax). destruct (w_ns w) as [ns|] eqn:En; [right|left; reflexivity].
    intros (x & o & y & E).
    destruct (proj1 Hok ns En) as [(c & r & Ens) Nns]. destruct (proj2 Hok _ Ea) as [_ Na].
    (* the longer reading *)
    set (w' := Wire (w_kind w) (w_count w) (Some (ns ++ ","%byte :: opt_text dec (w_id w) ++ x)) o (Some ("["%byte :: y))).
    assert (Et : wire_text w = wire_text w').
    { unfold wire_text, w'. cbn [w_kind w_count w_ns w_id w_args opt_text]. rewrite En, Ea. cbn [opt_text].
      rewrite E. do 2 f_equal. rewrite <- !app_assoc. cbn [app]. rewrite <- !app_assoc. reflexivity. }
    assert (Hlast : exists y', y = y' ++ ["]"%byte]).
    { destruct y as [|c0 y0] eqn:Ey.
      - exfalso. assert (X : "["%byte :: u ++ ["]"%byte] = (x ++ ","%byte :: opt_text dec o) ++ ["["%byte])
          by (rewrite E, <- app_assoc; reflexivity).
        rewrite app_comm_cons in X. apply app_inj_tail in X as [_ X]. discriminate.
      - rewrite <- Ey in *. assert (Hy : y <> []) by congruence.
        destruct (exists_last Hy) as (y' & z & ->). exists y'. f_equal.
        assert (X : "["%byte :: u ++ ["]"%byte] = (x ++ ","%byte :: opt_text dec o ++ "["%byte :: y') ++ [z]).
        { rewrite E. rewrite <- !app_assoc. cbn [app]. rewrite <- !app_assoc. reflexivity. }
        rewrite app_comm_cons in X. apply app_inj_tail in X as [_ X]. congruence. }
    assert (Hok' : wire_ok w').
    { split.
      - cbn [w' w_ns]. intros z [= <-]. subst ns. split; [exists c; eexists; reflexivity|].
        apply no_newline_app; [exact Nns|]. apply WriterProofs.no_newline_cons; [reflexivity|].
        apply no_newline_app; [destruct (w_id w); cbn [opt_text]; [apply dec_no_newline|apply no_newline_nil]|].
        intros Hin. apply Na. rewrite E. apply in_or_app. auto.
      - cbn [w' w_args]. intros z [= <-]. destruct Hlast as [y' ->]. split; [eauto|].
        intros Hin. apply Na. rewrite E. apply in_or_app. right. right. apply in_or_app. auto. }
    specialize (Hmax w' Et Hok'). unfold ns_length in Hmax. rewrite En in Hmax. cbn [w' w_ns opt_text] in Hmax.
    rewrite app_length in Hmax. cbn [length] in Hmax. lia.
  - intros H. destruct (reads_as_some (wire_text w)) as [[w' Hr]|[_ Hno]]; [|exfalso; eapply Hno; eauto].
    destruct (wire_eq_dec w' w) as [->|Hne]; [exact Hr|].
    exfalso. destruct (misread w w' _ Hok Ea Hr Hne) as (x & a' & ns' & Hn & _ & E & _ & _ & _ & q & ->).
    destruct H as [H|H]; [congruence|]. apply H. exists q, (w_id w'), a'. rewrite E, <- app_assoc. reflexivity.
Qed.
Lemma accepts_intended w u k ns id ts n : wire_ok w -> w_args w = Some ("["%byte :: u ++ ["]"%byte]) -> safe 1 u ->
  accepts (wire_text w) k ns id ts n -> reads_as (wire_text w) w.
Proof.
  intros Hok Ea Hs (w' & Hr & _ & _ & Hel & _).
  destruct (wire_eq_dec w' w) as [->|Hne]; [exact Hr|].
  exfalso. destruct (misread w w' _ Hok Ea Hr Hne) as (x & a' & ns' & Hn & Ea' & E & Hx & _).
  rewrite Ea' in Hel. cbn [elements] in Hel. apply Hx. eapply no_array_suffix; eauto.
Qed.

(** ** The packet that arrives *)
Section Packet.
Variables (h : list wsmsg) (src : source) (ns : bytes) (bin : bool) (args : list sval) (ts : list bytes).
Let l := all_args src args.
Let w := out_wire src ns bin l ts.
Let bl := out_blobs bin l.
Hypothesis Hopen : opened h.
Hypothesis Hclosed : ~ closed h.
Hypothesis Hns : ns_ok ns.
Hypothesis Hid : fits (src_id src).
Hypothesis Hst : starts src args.
Hypothesis Hcount : (N.of_nat (length bl) <= u64_max)%N.
Hypothesis Htrees : Forall no_newline ts /\ exists rs, Forall2 jvalue rs ts.
Hypothesis Hw : written bin (kept l) ts.

Lemma packet_ts : ts <> [].
Proof.
  destruct (starts_first src args Hst) as (v & l' & El & Ev). pose proof (written_facts _ _ _ Hw) as (_ & _ & E).
  unfold l in E. rewrite El, kept_cons, Ev in E. destruct ts; [discriminate|discriminate].
Qed.
Lemma packet_args : w_args w = Some ("["%byte :: seps true ts ++ ["]"%byte]).
Proof.
  destruct (starts_first src args Hst) as (v & l' & El & Ev). unfold w. cbn [out_wire w_args]. eapply first_text; eauto.
Qed.
Lemma packet_wire_ok : wire_ok w.
Proof. apply out_wire_ok; auto. apply Htrees. Qed.

Lemma packet_accepts : reads_as (wire_text w) w ->
  accepts (wire_text w) (src_kind src) ns (src_id src) ts (N.of_nat (length bl)).
Proof.
  intros Hr. exists w. split; [exact Hr|]. pose proof packet_ts as Hne.
  split.
  { unfold w, too_big. cbn [out_wire w_count]. fold bl. destruct bin; intros (n & E & Hn); [|discriminate].
    injection E as <-. unfold bl in *. lia. }
  split.
  { unfold w, too_big. cbn [out_wire w_id]. intros (n & E & Hn). rewrite E in Hid. cbn in Hid. lia. }
  split.
  { rewrite packet_args. cbn [elements]. destruct Htrees as [_ [rs Hj]]. eapply jarray_seps; eauto. }
  split; [unfold w; cbn [out_wire w_ns]; rewrite ns_opt_back; reflexivity|]. split; [reflexivity|].
  unfold w, bl. cbn [out_wire w_kind w_count w_id out_kind]. destruct src as [e i|i], bin; cbn [src_kind src_id out_kind w_kind]; conj; auto; try discriminate;
  try (split; [exact Hne|discriminate]).
Qed.
Lemma packet_arrives : reads_as (wire_text w) w ->
  exists p, received (tsub (wire_text w)) (bmsgs bl) p /\ view p = Some (PView (src_kind src) ns (src_id src) ts bl).
Proof.
  intros Hr. apply (received_exact _ (wire_text w)); [apply tsub_wire|apply bmsgs_ok|].
  unfold bmsgs at 1. rewrite map_length. split; [apply packet_accepts; exact Hr|]. split; [apply bmsgs_content|].
  intros _. split; [apply packet_ts|]. destruct src; [discriminate|]. cbn. discriminate.
Qed.
Lemma packet_only p : received (tsub (wire_text w)) (bmsgs bl) p ->
  reads_as (wire_text w) w /\ view p = Some (PView (src_kind src) ns (src_id src) ts bl).
Proof.
  intros Hr. destruct (received_view _ _ _ _ (tsub_wire w) (bmsgs_ok bl) Hr) as (k & ns' & id & ts' & vs & Ha & Hb & Hv).
  assert (R : reads_as (wire_text w) w).
  { eapply accepts_intended; [apply packet_wire_ok|apply packet_args| |exact Ha].
    destruct Htrees as [_ [rs Hj]]. eapply seps_safe; eauto. }
  split; [exact R|]. pose proof (packet_accepts R) as Ha'.
  destruct (accepts_unique _ _ _ _ _ _ _ _ _ _ _ Ha Ha') as (-> & -> & -> & -> & _).
  rewrite bmsgs_content in Hb. injection Hb as <-. exact Hv.
Qed.
End Packet.
Lemma packet_trees src bin args ts : allP val_ok (kept (all_args src args)) -> written bin (kept (all_args src args)) ts ->
  Forall no_newline ts /\ exists rs, Forall2 jvalue rs ts.
Proof. intros Hval Hw. pose proof (written_facts _ _ _ Hw) as (_ & H & _). exact (H Hval). Qed.

(** ** From what a packet shows to the values of its arguments *)
Lemma view_carries p src ns ts bl vs : view p = Some (PView (src_kind src) ns (src_id src) ts bl) ->
  (forall A, atts_of bl A -> map (fun t => to_json_value (Arg t A)) ts = map Ok vs) ->
  carries p (src_kind src) ns (src_id src) vs.
Proof.
  intros Hv H. destruct (view_data _ _ Hv) as (Hn & d & Hd & Hm). cbn [v_ns v_kind v_id v_args v_atts] in *.
  split; [exact Hn|]. destruct src as [e i|i]; cbn [src_kind src_id] in *.
  - destruct d as [| |i' a|i' a]; try discriminate; try (destruct Hm as [Hm0 _]; discriminate).
    destruct Hm as (_ & <- & Ha). destruct (args_view_accessors _ _ _ Ha) as (_ & _ & Hi & HA).
    exists a, (map (fun x => Arg x (a_attachments a)) ts). split; [exact Hd|]. split; [exact Hi|].
    rewrite map_map. apply H. exact HA.
  - destruct d as [| |i' a|i' a]; try discriminate; try (destruct Hm as [Hm0 _]; discriminate).
    destruct Hm as (_ & E & Ha). injection E as <-. destruct (args_view_accessors _ _ _ Ha) as (_ & _ & Hi & HA).
    exists a, (map (fun x => Arg x (a_attachments a)) ts). split; [exact Hd|]. split; [exact Hi|].
    rewrite map_map. apply H. exact HA.
Qed.
Lemma written_values bin l ts A : written bin (kept l) ts -> usable l -> (bin = true -> usable_binary l) ->
  atts_of (out_blobs bin l) A ->
  map (fun t => to_json_value (Arg t A)) ts = map Ok (if bin then json_values (map sent (kept l)) else json_values l).
Proof.
  intros Hw Hu Hb HA. apply usable_kept in Hu. destruct bin; cbn [written out_blobs] in *.
  - destruct (Hb eq_refl) as [Hp Hc]. apply pkey_kept in Hp.
    apply (binary_values A (flat_map blobs (kept l)) 0 (kept l) ts Hw Hu Hp HA); [auto|exact Hc].
  - apply atts_nil in HA. subst A. rewrite <- json_values_kept. apply text_values; assumption.
Qed.
