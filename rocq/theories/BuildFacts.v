(** The statements about building packets, derived from the builder and arrival lemmas. *)
From Verif Require Export ArriveProofs.

(** ** C07 *)
Lemma string_scan s r : scan_str (escape s ++ x22 :: r) = Some (escape s, r) /\ unescape (escape s) = Some s.
Proof. split; [apply scan_str_app, escape_body|apply unescape_escape]. Qed.
Lemma json_str_scan s r : scan_value (value_fuel (json_str s ++ r)) (json_str s ++ r) = Some (RStr (escape s), r).
Proof.
  unfold value_fuel. set (n := 2 * length (json_str s ++ r) + 2). assert (E : exists n', n = S n') by (unfold n; eexists; rewrite Nat.add_comm; reflexivity).
  destruct E as [n' ->]. unfold json_str. cbn [app]. rewrite <- app_assoc. cbn [app].
  assert (X : forall z, scan_value (S n') (x22 :: z) = match scan_str z with Some (b, r) => Some (RStr b, r) | None => None end)
    by (intros z; reflexivity).
  change quote with x22. rewrite X, scan_str_app by apply escape_body. reflexivity.
Qed.
Lemma string_value s : from_str_value (json_str s) = Some (VStr s).
Proof.
  apply (jvalue_from_str (RStr (escape s))); [apply json_str_value|]. intros rp. cbn [val_of].
  rewrite unescape_escape. reflexivity.
Qed.
Lemma string_typed s A : arg_deserialize TyString (Arg (json_str s) A) = Ok (XStr s).
Proof.
  unfold arg_deserialize. cbn [g_attachments g_text].
  assert (D : scan_doc (json_str s) = Some (RStr (escape s))).
  { apply scan_doc_exact. exists [], (json_str s), []. split; [apply ws_nil|]. split; [apply ws_nil|].
    split; [apply json_str_value|]. rewrite app_nil_r. reflexivity. }
  assert (V : scan_value (value_fuel (json_str s)) (json_str s) = Some (RStr (escape s), [])).
  { pose proof (json_str_scan s []) as X. rewrite app_nil_r in X. exact X. }
  destruct A as [|a A].
  - unfold from_str_typed. rewrite D. cbn [de_plain]. rewrite unescape_escape. reflexivity.
  - unfold deserialize_with. rewrite V. cbn [de_wrap de_plain]. rewrite unescape_escape. reflexivity.
Qed.
Lemma string_json_value s A : to_json_value (Arg (json_str s) A) = Ok (VStr s).
Proof. unfold to_json_value. cbn [g_text g_attachments]. rewrite string_value. destruct A; reflexivity. Qed.

(** ** C08-C11, C15 *)
Definition arrival_ok (bin : bool) (l : list sval) : Prop := usable l /\ (bin = true -> usable_binary l).
Lemma count_ok bin l : (bin = true -> usable_binary l) -> (N.of_nat (length (out_blobs bin l)) <= u64_max)%N.
Proof. destruct bin; intros H; [destruct (H eq_refl) as [_ Hc]; exact Hc|cbn; unfold u64_max; lia]. Qed.

Lemma arrives_exact h src ns bin args fs : opened h -> ~ closed h -> ns_ok ns -> fits (src_id src) -> starts src args ->
  usable (all_args src args) -> (bin = true -> usable_binary (all_args src args)) ->
  build src ns bin args = Some fs ->
  exists a, hd_error fs = Some (WText ("4"%byte :: wire_text (Wire (out_kind src bin)
      (if bin then Some (N.of_nat (length (tl fs))) else None) (ns_opt ns) (src_id src) (Some a)))) /\
    ((exists p, arrives h fs p) <-> ns = bs "/" \/ ~ misreadable a) /\
    (forall p, arrives h fs p -> carries p (src_kind src) ns (src_id src) (pkt_values bin (all_args src args))) /\
    (ns <> bs "/" -> misreadable a ->
       forall m, history_answers (h ++ firstn 1 fs) = history_answers h ++ [Ok (PktMessage (MText m))] ->
         deserialize (MText m) = Panic \/ exists x, deserialize (MText m) = Err (SInvalidDataJson x)).
Proof.
  intros Ho Hc Hns Hid Hst Hu Hb Hbuild.
  destruct (build_shape src ns bin args) as (ts & E & W). rewrite E in Hbuild. injection Hbuild as <-.
  pose proof (usable_kept _ Hu) as [Hval _]. pose proof (count_ok bin _ Hb) as Hcount.
  set (l := all_args src args) in *. set (w := out_wire src ns bin l ts) in *. set (bl := out_blobs bin l) in *.
  pose proof (packet_args src ns bin args ts Hst) as Ea. fold l in Ea. fold w in Ea.
  pose proof (packet_wire_ok src ns bin args ts Hns Hst (packet_trees src bin args ts Hval W)) as Hok. fold l in Hok. fold w in Hok.
  pose proof (reads_intended w _ Hok Ea) as Hreads.
  assert (Hnone : w_ns w = None <-> ns = bs "/").
  { unfold w. cbn [out_wire w_ns]. unfold ns_opt. destruct (bytes_eqb ns (bs "/")) eqn:En.
    - apply bytes_eqb_eq in En. split; auto.
    - apply bytes_eqb_neq in En. split; [discriminate|contradiction]. }
  rewrite Hnone in Hreads.
  assert (Hp : forall p, arrives h (WText ("4"%byte :: wire_text w) :: map frame bl) p -> reads_as (wire_text w) w /\
    carries p (src_kind src) ns (src_id src) (pkt_values bin l)).
  { intros p Hp. apply arrives_received in Hp; try assumption.
    destruct (packet_only src ns bin args ts Hns Hid Hst Hcount (packet_trees src bin args ts Hval W) W p Hp) as [R V].
    split; [exact R|]. apply (view_carries p src ns ts bl); [exact V|]. intros A HA. apply written_values; auto. }
  exists ("["%byte :: seps true ts ++ ["]"%byte]).
  assert (Ew : w = Wire (out_kind src bin) (if bin then Some (N.of_nat (length (map frame bl))) else None) (ns_opt ns) (src_id src)
    (Some ("["%byte :: seps true ts ++ ["]"%byte]))).
  { rewrite <- Ea, map_length. reflexivity. }
  split; [exact (f_equal (fun z => Some (WText ("4"%byte :: wire_text z))) Ew)|]. split; [|split].
  - rewrite <- Hreads. split.
    + intros [p Hp']. apply (Hp p Hp').
    + intros R. destruct (packet_arrives src ns bin args ts Hid Hst Hcount (packet_trees src bin args ts Hval W) W R) as (p & Hr & _).
      exists p. apply arrives_received; assumption.
  - intros p Hp'. apply (Hp p Hp').
  - intros Hne Hmis m Hm. cbn [firstn] in Hm.
    pose proof (decode_frames h (wire_text w) [] Ho Hc) as Hd. cbn [map] in Hd. rewrite Hd in Hm.
    apply app_inv_head in Hm. injection Hm as <-.
    destruct (deserialize_cases _ _ (tsub_wire w)) as
      [[Hn _]|[(w' & Hw & Hbig & D)|[(w' & a & Hw & H1 & H2 & Ha & Hj & D)|(w' & ts' & q & Hw & H1 & H2 & Hel & Hq & D)]]].
    + exfalso. destruct (reads_as_some (wire_text w)) as [[w' Hw]|[_ Hno]]; [|eapply Hno; eauto].
      apply reads_as_header in Hw. congruence.
    + left. exact D.
    + right. eauto.
    + exfalso. destruct (wire_eq_dec w' w) as [->|Hdif].
      * apply Hreads in Hw as [Hw|Hw]; contradiction.
      * destruct (misread w w' _ Hok Ea Hw Hdif) as (x & a' & ns' & _ & Ea' & Ex & Hx & _).
        rewrite Ea' in Hel. cbn [elements] in Hel. apply Hx. destruct (packet_trees src bin args ts Hval W) as [_ [rs Hj]].
        eapply no_array_suffix; [|exact Ex|exact Hel]. eapply seps_safe; eauto.
Qed.

Lemma root_arrives h src bin args fs : opened h -> ~ closed h -> fits (src_id src) -> starts src args ->
  usable (all_args src args) -> (bin = true -> usable_binary (all_args src args)) ->
  build src (bs "/") bin args = Some fs ->
  exists p, arrives h fs p /\ carries p (src_kind src) (bs "/") (src_id src) (pkt_values bin (all_args src args)).
Proof.
  intros Ho Hc Hid Hst Hu Hb Hbuild.
  assert (Hns : ns_ok (bs "/")).
  { split; [exists []; reflexivity|]. apply no_newline_forallb. reflexivity. }
  destruct (arrives_exact h src (bs "/") bin args fs Ho Hc Hns Hid Hst Hu Hb Hbuild) as (a & _ & H1 & H2 & _).
  destruct (proj2 H1 (or_introl eq_refl)) as [p Hp]. exists p. auto.
Qed.
Lemma no_mixed_values l : Forall (fun v => serialises v = true -> no_mixed v) l -> pkt_values true l = json_values l.
Proof.
  intros H. unfold pkt_values. rewrite <- (json_values_kept l). f_equal. unfold kept.
  induction H as [|v l Hv H IH]; [reflexivity|]. cbn [filter]. destruct (serialises v); [|exact IH].
  cbn [map]. rewrite sent_id by auto. f_equal. exact IH.
Qed.
Lemma text_root h src args fs : opened h -> ~ closed h -> fits (src_id src) -> starts src args ->
  usable (all_args src args) -> build src (bs "/") false args = Some fs ->
  (exists t, fs = [WText t]) /\
  exists p, arrives h fs p /\ carries p (src_kind src) (bs "/") (src_id src) (json_values (all_args src args)).
Proof.
  intros Ho Hc Hid Hst Hu Hb. split.
  - destruct (build_shape src (bs "/") false args) as (ts & E & _). rewrite E in Hb. injection Hb as <-. cbn. eauto.
  - apply (root_arrives h src false args fs); auto. discriminate.
Qed.
Lemma binary_root h src args fs : opened h -> ~ closed h -> fits (src_id src) -> starts src args ->
  usable (all_args src args) -> usable_binary (all_args src args) ->
  Forall (fun v => serialises v = true -> no_mixed v) (all_args src args) ->
  build src (bs "/") true args = Some fs ->
  exists p, arrives h fs p /\ carries p (src_kind src) (bs "/") (src_id src) (json_values (all_args src args)).
Proof.
  intros Ho Hc Hid Hst Hu Hb Hm Hbuild. rewrite <- no_mixed_values by exact Hm.
  apply (root_arrives h src true args fs); auto.
Qed.
Lemma binary_root_exact h src args fs : opened h -> ~ closed h -> fits (src_id src) -> starts src args ->
  usable (all_args src args) -> usable_binary (all_args src args) ->
  build src (bs "/") true args = Some fs ->
  exists p, arrives h fs p /\
    carries p (src_kind src) (bs "/") (src_id src) (json_values (map sent (kept (all_args src args)))).
Proof. intros Ho Hc Hid Hst Hu Hb Hbuild. apply (root_arrives h src true args fs); auto. Qed.

(** *** No silent corruption *)
Lemma noargs_read w w' i : w_args w = None -> w_id w = Some i -> reads_as (wire_text w) w' -> w_args w' = None.
Proof.
  intros Ea Ei (Et & [_ Hok] & _). destruct (w_args w') as [a'|] eqn:Ea'; [exfalso|reflexivity].
  destruct (Hok a' eq_refl) as [[b ->] _].
  assert (L : exists x c, wire_text w = x ++ [c] /\ is_digit c = true).
  { unfold wire_text. rewrite Ei, Ea. cbn [opt_text]. rewrite app_nil_r. pose proof (dec_nonempty i) as Hne.
    pose proof (dec_digits i) as Hd. destruct (exists_last Hne) as (d & c & E). rewrite E in *. exists (type_digit (w_kind w) :: opt_text (fun n => dec n ++ bs "-") (w_count w) ++ opt_text (fun x => x ++ bs ",") (w_ns w) ++ d), c.
    rewrite forallb_app in Hd. cbn in Hd. split; [cbn [app]; rewrite <- !app_assoc; reflexivity|].
    destruct (is_digit c); [reflexivity|]. rewrite andb_false_r in Hd. discriminate. }
  destruct L as (x & c & Ex & Hdc). rewrite Ex in Et. unfold wire_text in Et. rewrite Ea' in Et. cbn [opt_text] in Et.
  assert (X : x ++ [c] = (type_digit (w_kind w') :: opt_text (fun n => dec n ++ bs "-") (w_count w') ++ opt_text (fun x => x ++ bs ",") (w_ns w') ++ opt_text dec (w_id w') ++ "["%byte :: b) ++ ["]"%byte]).
  { rewrite Et. cbn [app]. rewrite <- !app_assoc. reflexivity. }
  apply app_inj_tail in X as [_ ->]. discriminate.
Qed.
Lemma no_corruption h src ns bin args fs p : opened h -> ~ closed h -> ns_ok ns -> fits (src_id src) -> first_ok src args ->
  usable (all_args src args) -> (bin = true -> usable_binary (all_args src args)) ->
  build src ns bin args = Some fs -> arrives h fs p ->
  carries p (src_kind src) ns (src_id src) (pkt_values bin (all_args src args)).
Proof.
  intros Ho Hc Hns Hid Hf Hu Hb Hbuild Hp.
  assert (D : starts src args \/ exists i, src = OfAck i /\ args = []).
  { destruct src as [e i|i]; [left; exact I|]. destruct args; [right; eauto|left; exact Hf]. }
  destruct D as [Hst|(i & -> & ->)].
  - destruct (arrives_exact h src ns bin args fs Ho Hc Hns Hid Hst Hu Hb Hbuild) as (a & _ & _ & H & _). auto.
  - exfalso. destruct (build_shape (OfAck i) ns bin []) as (ts & E & W). rewrite E in Hbuild. injection Hbuild as <-.
    apply arrives_received in Hp; try assumption.
    destruct (received_view _ _ _ _ (tsub_wire _) (bmsgs_ok _) Hp) as (k & ns' & id & ts' & vs & Ha & _ & _).
    destruct Ha as (w' & Hr & _ & _ & Hel & _ & _ & Hk).
    rewrite (noargs_read (out_wire (OfAck i) ns bin [] ts) w' i eq_refl eq_refl Hr) in Hel. cbn [elements] in Hel. subst ts'.
    assert (X : out_blobs bin [] = []) by (destruct bin; reflexivity). rewrite X in Hk. cbn in Hk.
    assert (Kw : w_kind w' = out_kind (OfAck i) bin).
    { destruct Hr as (Et & _). unfold wire_text in Et. injection Et as Et _. destruct (w_kind w'), bin; cbn in Et |- *; congruence. }
    rewrite Kw in Hk. destruct bin; cbn in Hk; destruct Hk as (_ & Hk); destruct Hk as (Hk & Hk'); [|congruence].
    destruct (Hk' eq_refl). congruence.
Qed.

(** ** C12 *)
Lemma no_corruption_values h src ns bin args fs p : opened h -> ~ closed h -> ns_ok ns -> fits (src_id src) -> first_ok src args ->
  usable (all_args src args) ->
  (bin = true -> usable_binary (all_args src args) /\ Forall (fun v => serialises v = true -> no_mixed v) (all_args src args)) ->
  build src ns bin args = Some fs -> arrives h fs p ->
  carries p (src_kind src) ns (src_id src) (json_values (all_args src args)).
Proof.
  intros Ho Hc Hns Hid Hf Hu Hb Hbuild Hp.
  pose proof (no_corruption h src ns bin args fs p Ho Hc Hns Hid Hf Hu (fun e => proj1 (Hb e)) Hbuild Hp) as H.
  destruct bin; [|exact H]. rewrite no_mixed_values in H by (apply Hb; reflexivity). exact H.
Qed.
Lemma count_read k n rest w : reads_as (type_digit k :: dec n ++ "-"%byte :: rest) w -> w_count w = Some n.
Proof.
  intros H. apply reads_as_header in H. unfold parse_header in H. replace (existsb (fun d => type_digit k =b d) (bs "012356")) with true in H by (destruct k; reflexivity).
  assert (C : canon_dec (dec n) = true) by (apply canon_dec_dec).
  rewrite take_att_some in H by exact C. destruct (parse_ns rest) as [[x [i a]]|]; [|discriminate].
  injection H as _ E _ _ _. destruct (w_count w) as [m|]; [|discriminate]. injection E as E. apply dec_inj in E. congruence.
Qed.
Lemma count_truthful src ns args : exists t bl,
  build src ns true args = Some (WText t :: map (fun b => WBinary (x04 :: b)) bl) /\
  (exists k rest, t = "4"%byte :: type_digit k :: dec (N.of_nat (length bl)) ++ "-"%byte :: rest) /\
  (forall w, reads_as (tl t) w -> w_count w = Some (N.of_nat (length bl))) /\
  (forall h m, opened h -> ~ closed h ->
     history_answers (h ++ [WText t]) = history_answers h ++ [Ok (PktMessage (MText m))] ->
     (forall q, deserialize (MText m) = Ok (DDataNeeded q) -> partial_attachments q = Some (N.of_nat (length bl)) /\ bl <> []) /\
     (forall p, deserialize (MText m) = Ok (DPacket p) -> bl = [])).
Proof.
  destruct (build_shape src ns true args) as (ts & E & W). rewrite E.
  set (w := out_wire src ns true (all_args src args) ts). set (bl := out_blobs true (all_args src args)).
  exists ("4"%byte :: wire_text w), bl. split; [reflexivity|].
  assert (X : exists rest, wire_text w = type_digit (w_kind w) :: dec (N.of_nat (length bl)) ++ "-"%byte :: rest).
  { unfold wire_text, w. cbn [out_wire w_count opt_text]. rewrite <- app_assoc. eexists. reflexivity. }
  destruct X as [rest X]. split; [exists (w_kind w), rest; rewrite X; reflexivity|].
  assert (R : forall w', reads_as (wire_text w) w' -> w_count w' = Some (N.of_nat (length bl))).
  { intros w' Hr. rewrite X in Hr. eapply count_read; eauto. }
  split; [exact R|]. intros h m Ho Hc Hm.
  pose proof (decode_frames h (wire_text w) [] Ho Hc) as Hd. cbn [map] in Hd. rewrite Hd in Hm.
  apply app_inv_head in Hm. injection Hm as <-. split.
  - intros q Hq. pose proof Hq as Hq'. apply (deserialize_ok_sound _ _ _ (tsub_wire w)) in Hq as (k & ns' & id & ts' & n & Ha & Hv).
    destruct (partial_exact _ _ _ (tsub_wire w) Hq') as (k' & ns2 & id2 & ts2 & n' & Ha2 & Hn & Hp & _).
    destruct Ha2 as (w' & Hr & _ & _ & _ & _ & _ & Hk). pose proof (R w' Hr) as Rw.
    assert (En : n' = N.of_nat (length bl)).
    { destruct (w_kind w'); intuition congruence. }
    rewrite Hp, En. split; [reflexivity|]. intros ->. cbn in En. lia.
  - intros p Hp. apply (deserialize_ok_sound _ _ _ (tsub_wire w)) in Hp as (k & ns' & id & ts' & n & Ha & Hv).
    destruct Hv as [-> _]. destruct Ha as (w' & Hr & _ & _ & _ & _ & _ & Hk). pose proof (R w' Hr) as Rw.
    assert (En : N.of_nat (length bl) = 0%N).
    { destruct (w_kind w'); destruct Hk as (_ & Hk); try (destruct Hk as (Hk & _); congruence).
      - destruct Hk as (_ & [Hk|Hk] & _); congruence.
      - destruct Hk as (_ & _ & [Hk|Hk] & _); congruence. }
    destruct bl; [reflexivity|cbn in En; lia].
Qed.

(** ** C13 *)
Lemma placeholders_consecutive src ns args : starts src args -> usable (all_args src args) -> usable_binary (all_args src args) ->
  exists a r, let bl := flat_map blobs (kept (all_args src args)) in
    build src ns true args =
      Some (WText ("4"%byte :: wire_text (Wire (out_kind src true) (Some (N.of_nat (length bl))) (ns_opt ns) (src_id src) (Some a)))
            :: map (fun b => WBinary (x04 :: b)) bl) /\
    jvalue r a /\ placeholders r = map N.of_nat (seq 0 (length bl)).
Proof.
  intros Hst Hu [Hp Hc]. destruct (build_shape src ns true args) as (ts & E & W). cbn [written] in W.
  pose proof (usable_kept _ Hu) as [Hval _]. pose proof (pkey_kept _ Hp) as Hpk.
  destruct (proj2 (blist_ok _ _ _ W) Hval) as (_ & rs & ys & J & _ & H). destruct (H Hpk Hc) as [Hpl _].
  exists ("["%byte :: seps true ts ++ ["]"%byte]), (RArr rs). cbn zeta.
  split; [|split; [apply jarr_seps; exact J|exact Hpl]].
  rewrite E. pose proof (packet_args src ns true args ts Hst) as Ea.
  unfold out_wire, out_blobs in *. cbn [w_args] in Ea. rewrite Ea. reflexivity.
Qed.

(** ** C14 *)
Lemma reachable_first src ns bin before : match src, before with OfAck _, [] => False | _, _ => True end ->
  forall b, fresh src ns bin = Some b -> b_first (serialize_args b before) = false.
Proof.
  intros H b Hb. destruct (fresh_start src ns bin) as (b' & E & Eb). rewrite Hb in E. injection E as <-. rewrite Eb.
  assert (Hne : all_args src before <> []) by (destruct src; [discriminate|destruct before; [contradiction|discriminate]]).
  unfold start, builder_new. destruct bin; cbn [negb].
  - destruct (binary_history (match src_skind src with SKEvent => PKBinaryEvent | SKAck => PKBinaryAck end) ns (src_id src) (all_args src before)) as (ts & E & _).
    rewrite E. cbn [b_first]. destruct (all_args src before); [congruence|reflexivity].
  - match goal with |- context [Builder ?B ANormal true] => destruct (normal_history (all_args src before) B) as (ts & E & _) end.
    rewrite E. cbn [b_first]. destruct (all_args src before); [congruence|reflexivity].
Qed.
(** On failure everything but the [first] flag is restored. *)
Lemma failed_arg b v b' : serialize_arg b v = (b', Err JsonSerError) ->
  b' = Builder (b_buffer b) (b_approach b) false.
Proof.
  destruct b as [B [|k ns id A] f]; cbn [b_buffer b_approach]; intros H.
  - destruct (normal_step B f v) as (t & E & _). rewrite E in H. destruct (serialises v); congruence.
  - destruct (binary_step B k ns id A f v) as (t & E & _). rewrite E in H. destruct (serialises v); congruence.
Qed.
Lemma failed_arg_unchanged src ns bin before v b b' :
  match src, before with OfAck _, [] => False | _, _ => True end ->
  fresh src ns bin = Some b -> serialize_arg (serialize_args b before) v = (b', Err JsonSerError) ->
  b' = serialize_args b before.
Proof.
  intros H Hb Hf. apply failed_arg in Hf. rewrite Hf, <- (reachable_first src ns bin before H b Hb).
  destruct (serialize_args b before); reflexivity.
Qed.
Lemma serialize_args_app b l l' : serialize_args b (l ++ l') = serialize_args (serialize_args b l) l'.
Proof. unfold serialize_args. apply fold_left_app. Qed.
Lemma failed_arg_packet src ns bin before v after b b' :
  match src, before with OfAck _, [] => False | _, _ => True end ->
  fresh src ns bin = Some b -> serialize_arg (serialize_args b before) v = (b', Err JsonSerError) ->
  finish (serialize_args b' after) = finish (serialize_args b (before ++ after)).
Proof. intros H Hb Hf. rewrite serialize_args_app, (failed_arg_unchanged src ns bin before v b b' H Hb Hf). reflexivity. Qed.
(** When an argument fails. *)
Lemma serialize_arg_fails b v : (exists b', serialize_arg b v = (b', Err JsonSerError)) <-> json_of v = None.
Proof.
  assert (S : serialises v = false <-> json_of v = None) by (unfold serialises; destruct (json_of v); split; congruence).
  rewrite <- S. destruct b as [B [|k ns id A] f].
  - destruct (normal_step B f v) as (t & E & _). rewrite E. destruct (serialises v); split; try discriminate; try eauto.
    intros [b' X]. discriminate.
  - destruct (binary_step B k ns id A f v) as (t & E & _). rewrite E. destruct (serialises v); split; try discriminate; try eauto.
    intros [b' X]. discriminate.
Qed.

(** ** C42 *)
Lemma header_utf8 k c ns id : utf8_valid ns = true -> utf8_valid (serialize_header k c ns id) = true.
Proof.
  intros Hn. unfold serialize_header.
  change ("4"%byte :: kind_char k :: ?x) with (["4"%byte; kind_char k] ++ x).
  match goal with |- utf8_valid (MESSAGE_HEADER :: kind_char k :: ?x) = true =>
    change (MESSAGE_HEADER :: kind_char k :: x) with ([MESSAGE_HEADER; kind_char k] ++ x) end.
  apply utf8_app_true; [destruct k; reflexivity|].
  apply utf8_app_true; [destruct c; [apply utf8_app_true; [apply dec_utf8|reflexivity]|reflexivity]|].
  apply utf8_app_true; [|destruct id; [apply dec_utf8|reflexivity]].
  destruct (bytes_eqb ns (bs "/")); [reflexivity|]. apply utf8_app_true; [exact Hn|reflexivity].
Qed.
Lemma strs_kept l : Forall strs_ok l -> allP strs_ok (kept l).
Proof.
  unfold kept. induction 1 as [|v l H _ I]; [exact Logic.I|]. cbn [filter]. destruct (serialises v); [|exact I].
  cbn [allP]. auto.
Qed.
Lemma opening_utf8 l ts : Forall (fun t => utf8_valid t = true) ts -> utf8_valid (opening l ts) = true.
Proof.
  intros H. unfold opening. destruct l as [|v l]; [reflexivity|]. destruct (serialises v).
  - apply (utf8_app_true ["["%byte]); [reflexivity|]. apply seps_utf8. exact H.
  - apply seps_utf8. exact H.
Qed.
Lemma buffer_utf8 src ns bin args b : Forall strs_ok (all_args src args) -> utf8_valid ns = true ->
  fresh src ns bin = Some b -> utf8_valid (b_buffer (serialize_args b args)) = true.
Proof.
  intros Hs Hn Hb. destruct (fresh_start src ns bin) as (b' & E & Eb). rewrite Hb in E. injection E as <-. rewrite Eb.
  apply strs_kept in Hs. unfold start, builder_new. destruct bin; cbn [negb].
  - destruct (binary_history (match src_skind src with SKEvent => PKBinaryEvent | SKAck => PKBinaryAck end) ns (src_id src) (all_args src args)) as (ts & E & W).
    rewrite E. cbn [b_buffer]. apply opening_utf8. apply (written_facts true _ _ W). exact Hs.
  - match goal with |- context [Builder ?B ANormal true] => destruct (normal_history (all_args src args) B) as (ts & E & W) end.
    rewrite E. cbn [b_buffer]. apply utf8_app_true; [apply header_utf8; exact Hn|].
    apply opening_utf8. apply (written_facts false _ _ W). exact Hs.
Qed.
Lemma frames_utf8 src ns bin args fs t : Forall strs_ok (all_args src args) -> utf8_valid ns = true ->
  build src ns bin args = Some fs -> In (WText t) fs -> utf8_valid t = true.
Proof.
  intros Hs Hn Hb Hin. destruct (build_shape src ns bin args) as (ts & E & W). rewrite E in Hb. injection Hb as <-.
  destruct Hin as [Hin|Hin].
  - injection Hin as <-. unfold out_wire. rewrite <- header_text. apply utf8_app_true; [apply header_utf8; exact Hn|].
    unfold arg_text. destruct (all_args src args) as [|v l] eqn:El; [reflexivity|]. cbn [opt_text].
    apply utf8_app_true; [|reflexivity]. apply opening_utf8. apply (written_facts _ _ _ W). rewrite <- El. apply strs_kept. rewrite El. exact Hs.
  - apply in_map_iff in Hin as (b & X & _). discriminate.
Qed.

(** ** Building never panics *)
Lemma serialize_arg_no_panic b v : snd (serialize_arg b v) <> Panic.
Proof.
  destruct b as [B [|k ns id A] f].
  - destruct (normal_step B f v) as (t & E & _). rewrite E. destruct (serialises v); discriminate.
  - destruct (binary_step B k ns id A f v) as (t & E & _). rewrite E. destruct (serialises v); discriminate.
Qed.
Lemma build_no_panic src ns bin args : build src ns bin args <> None.
Proof. destruct (build_shape src ns bin args) as (ts & E & _). rewrite E. discriminate. Qed.

(** ** Witnesses *)
Lemma sample_opened : opened [sample_open] /\ ~ closed [sample_open].
Proof. apply state_active. vm_compute. reflexivity. Qed.
Lemma ns_ok_check ns : match ns with c :: _ => c =b "/" | [] => false end = true ->
  forallb (fun d => negb (d =b x0a)) ns = true -> ns_ok ns.
Proof.
  intros H1 H2. split; [|apply no_newline_forallb; exact H2]. destruct ns as [|c r]; [discriminate|].
  apply byte_eqb_eq in H1. subst. eauto.
Qed.
Definition nested_args : list sval := [SSeq [SU8 x01]].
(** A text that does not parse never arrives. *)
Lemma not_arrives h t bl : opened h -> ~ closed h -> (forall r, deserialize (MText (tsub t)) <> Ok r) ->
  forall p, ~ arrives h (WText ("4"%byte :: t) :: map frame bl) p.
Proof.
  intros Ho Hc H p Hp. apply arrives_received in Hp; try assumption.
  destruct Hp as [[E _]|(q & E & _)]; eapply H; eauto.
Qed.
Lemma C09_refuted_lemma : ~ C09_full.
Proof.
  intros H. destruct sample_opened as [Ho Hc].
  destruct (H [sample_open] (OfEvent (bs "a") None) (bs "/nsp") nested_args
    [WText (bs "42/nsp,[""a"",[1]]")] Ho Hc) as (p & Hp & _).
  - apply ns_ok_check; reflexivity.
  - exact I.
  - exact I.
  - repeat constructor; cbn; lia.
  - vm_compute. reflexivity.
  - revert Hp. apply (not_arrives [sample_open] (bs "2/nsp,[""a"",[1]]") []); auto.
    intros r. vm_compute. discriminate.
Qed.
(** An ack for namespace [/a,9[7] whose first argument fails. *)
Definition corrupt_ns : bytes := bs "/a,9[7".
Definition corrupt_args : list sval := [SFail; SU8 x01].
Lemma corrupt_frame : build (OfAck 5) corrupt_ns false corrupt_args = Some [WText (bs "43/a,9[7,5,1]")].
Proof. vm_compute. reflexivity. Qed.
Lemma corrupt_packet : exists p, arrives [sample_open] [WText (bs "43/a,9[7,5,1]")] p /\ carries p KAck (bs "/a") (Some 9%N) [VNum (NPos 7); VNum (NPos 5); VNum (NPos 1)].
Proof.
  destruct sample_opened as [Ho Hc].
  destruct (deserialize (MText (tsub (bs "3/a,9[7,5,1]")))) as [[p|q]| |] eqn:E; try (vm_compute in E; discriminate).
  exists p. split.
  - apply (arrives_received [sample_open] (bs "3/a,9[7,5,1]") [] p Ho Hc). left. split; [exact E|reflexivity].
  - vm_compute in E. injection E as <-. split; [vm_compute; reflexivity|].
    match goal with |- context [packet_data ?p] => set (pk := p) end.
    destruct (packet_data pk) as [[| |i a|i a]|] eqn:Ed; try (vm_compute in Ed; discriminate).
    exists a. destruct (args_iter a) as [gs| |] eqn:Eg; cycle 1;
      try (vm_compute in Ed; injection Ed as <- <-; vm_compute in Eg; discriminate).
    exists gs. vm_compute in Ed. injection Ed as <- <-. vm_compute in Eg. injection Eg as <-.
    split; [reflexivity|]. split; vm_compute; reflexivity.
Qed.
Lemma C10_refuted_lemma : ~ C10_full.
Proof.
  intros H. destruct corrupt_packet as (p & Hp & Hpc). destruct sample_opened as [Ho Hc].
  destruct (H [sample_open] (OfAck 5) corrupt_ns false corrupt_args [WText (bs "43/a,9[7,5,1]")] p Ho Hc) as [Hns _]; auto.
  - apply ns_ok_check; reflexivity.
  - vm_compute. discriminate.
  - repeat constructor; cbn; try lia; discriminate.
  - destruct Hpc as [Hns' _]. rewrite Hns' in Hns. discriminate.
Qed.
Lemma C14_refuted_lemma : ~ C14_full.
Proof.
  intros H. specialize (H (OfAck 0) (bs "/") false [] SFail [] (new_ack (bs "/") 0 false)).
  specialize (H (fst (serialize_arg (new_ack (bs "/") 0 false) SFail)) eq_refl ltac:(vm_compute; reflexivity)). vm_compute in H. discriminate.
Qed.
(** The mixed sequence [[1, true]]. *)
Definition mixed_args : list sval := [SSeq [SU8 x01; SBool true]].
Lemma carries_unique p k ns id vs vs' : carries p k ns id vs -> carries p k ns id vs' -> vs = vs'.
Proof.
  intros (_ & a & gs & Hd & Hi & Hv) (_ & a' & gs' & Hd' & Hi' & Hv').
  assert (a = a') by (destruct k, id; try contradiction; congruence). subst a'.
  rewrite Hi in Hi'. injection Hi' as <-. rewrite Hv in Hv'. clear - Hv'.
  revert vs' Hv'. induction vs as [|v vs IH]; intros [|v' vs'] H; try discriminate; [reflexivity|].
  injection H as -> H. f_equal. auto.
Qed.
Lemma arrives_unique h fs p p' : arrives h fs p -> arrives h fs p' -> p = p'.
Proof.
  intros (m & l & E & H) (m' & l' & E' & H'). rewrite E in E'. apply app_inv_head, map_msg_inj in E'.
  injection E' as <- <-. destruct H as [[H H0]|(q & H & H0)], H' as [[H' H0']|(q' & H' & H0')]; congruence.
Qed.
Lemma mixed_usable : usable (all_args (OfEvent (bs "a") None) mixed_args) /\ usable_binary (all_args (OfEvent (bs "a") None) mixed_args).
Proof. split; [repeat constructor; cbn; lia|]. split; [repeat constructor|]. cbn. unfold u64_max. lia. Qed.
Lemma C15_refuted_lemma : ~ C15_full.
Proof.
  intros H. destruct sample_opened as [Ho Hc]. destruct mixed_usable as [Hu Hb].
  destruct (build (OfEvent (bs "a") None) (bs "/") true mixed_args) as [fs|] eqn:E; [|vm_compute in E; discriminate].
  destruct (H [sample_open] (OfEvent (bs "a") None) mixed_args fs Ho Hc I I Hu Hb E) as (p & Hp & Hv).
  destruct (binary_root_exact [sample_open] (OfEvent (bs "a") None) mixed_args fs Ho Hc I I Hu Hb E) as (p' & Hp' & Hv').
  rewrite (arrives_unique _ _ _ _ Hp' Hp) in Hv'.
  pose proof (carries_unique _ _ _ _ _ _ Hv Hv') as X. vm_compute in X. discriminate.
Qed.

(** ** Forms used in the property file *)
Lemma string_reads_back s A : to_json_value (Arg (json_str s) A) = Ok (VStr s) /\ arg_deserialize TyString (Arg (json_str s) A) = Ok (XStr s).
Proof. split; [apply string_json_value|apply string_typed]. Qed.
Lemma failed_arg_both src ns bin before v after b b' :
  match src, before with OfAck _, [] => False | _, _ => True end ->
  fresh src ns bin = Some b -> serialize_arg (serialize_args b before) v = (b', Err JsonSerError) ->
  b' = serialize_args b before /\
  finish (serialize_args b' after) = finish (serialize_args b (before ++ after)).
Proof. intros H1 H2 H3. split; [eapply failed_arg_unchanged; eauto|eapply failed_arg_packet; eauto]. Qed.
Lemma building_total src ns bin args : exists b fs, fresh src ns bin = Some b /\ finish (serialize_args b args) = Some fs /\
  (forall before v after, args = before ++ v :: after -> snd (serialize_arg (serialize_args b before) v) <> Panic).
Proof.
  pose proof (build_no_panic src ns bin args) as H. unfold build in H. destruct (fresh src ns bin) as [b|]; [|contradiction].
  destruct (finish (serialize_args b args)) as [fs|] eqn:E; [|contradiction]. exists b, fs. repeat split; auto.
  intros. apply serialize_arg_no_panic.
Qed.
Lemma string_written b s : serialize_arg b (SStr s) =
  (Builder (b_buffer b ++ (if b_first b then ["["%byte] else [","%byte]) ++ json_str s) (b_approach b) false, Ok tt).
Proof. destruct b as [B [|k ns id A] f]; unfold serialize_arg; cbn; rewrite <- app_assoc; reflexivity. Qed.
