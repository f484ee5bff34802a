(** Typed arguments from the builder to the callback (C52). *)
From Verif Require Export TripProofs DeliverProofs.

(** ** What has an encoding is serialised *)
Lemma all_some_all {A B} (f : A -> option B) l : Forall (fun x => f x <> None) l -> all_some (map f l) <> None.
Proof.
  induction 1 as [|x l H1 H2 IH]; [discriminate|]. cbn [map all_some]. destruct (f x); [|congruence].
  destruct (all_some (map f l)); [discriminate|congruence].
Qed.
Lemma encodes_json t : forall x v, encodes t x v -> json_of v <> None.
Proof.
  assert (L : forall ts xs vs, Forall (fun t => forall x v, encodes t x v -> json_of v <> None) ts -> Forall3 encodes ts xs vs -> Forall (fun v => json_of v <> None) vs).
  { intros ts xs vs H H3. induction H3; [constructor|]. inversion H; subst. constructor; eauto. }
  induction t as [|lo hi| | | | | | |u IH|u IH|u IH|ts IH|u IH|fs IH|es IH| | | |lo hi u IH] using ty_ind'; intros x v He.
  all: inversion He; subst; try discriminate; cbn [json_of]; rewrite ?opt_map_none.
  all: try (eauto; fail).
  - rewrite map_map. apply all_some_all. apply Forall_forall. discriminate.
  - apply all_some_all. match goal with H : Forall2 _ _ _ |- _ => clear - IH H; induction H; constructor; eauto end.
  - apply all_some_all. eauto.
  - apply all_some_all. eauto.
  - apply all_some_all. match goal with H : Forall2 _ _ _ |- _ => clear - IH H; rename H into HF end.
    induction HF as [|[k y] [k' w] m1 vs1 [H1 H2] H3 I]; constructor; [|exact I].
    cbn [fst snd] in *. subst. cbn [key_of pair_opt]. apply IH in H2. destruct (json_of w); [discriminate|congruence].
  - apply all_some_all. match goal with H : Forall3 _ _ _ _ |- _ => clear - IH H; rename H into HF end.
    induction HF as [|[k t] y [k' w] fs xs1 vs1 [H1 H2] H3 I]; constructor.
    + inversion IH; subst. cbn [fst snd] in *. cbn [pair_opt]. assert (json_of w <> None) by eauto. destruct (json_of w); [discriminate|congruence].
    + apply I. inversion IH; assumption.
  - match goal with H : In _ es, H' : encodes ?u _ _ |- _ => rewrite Forall_forall in IH; exact (IH _ H _ _ H') end.
  - match goal with H : In (_, (VtTuple, ?u)) es, H' : encodes ?u _ _ |- _ => rewrite Forall_forall in IH; specialize (IH _ H _ _ H') end.
    cbn [json_of] in IH. rewrite opt_map_none in IH. exact IH.
  - match goal with H : In (_, (VtStruct, ?u)) es, H' : encodes ?u _ _ |- _ => rewrite Forall_forall in IH; specialize (IH _ H _ _ H') end.
    cbn [json_of] in IH. rewrite opt_map_none in IH. exact IH.
  - rewrite value_json by assumption. discriminate.
  - apply all_some_all. match goal with H : Forall2 _ _ _ |- _ => clear - IH H; rename H into HF end.
    induction HF as [|[k y] [k' w] m1 vs1 [H1 H2] H3 I]; constructor; [|exact I].
    cbn [fst snd] in *. apply IH in H2. destruct H1 as [_ [[_ (c & _ & ->)]|[_ ->]]]; cbn [key_of pair_opt]; (destruct (json_of w); [discriminate|congruence]).
Qed.
Lemma encodes_kept ts xs vs : Forall3 encodes ts xs vs -> kept vs = vs.
Proof.
  induction 1 as [|t x v ts xs vs H1 H2 IH]; [reflexivity|]. unfold kept in *. cbn [filter]. unfold serialises at 1.
  pose proof (encodes_json _ _ _ H1). destruct (json_of v); [|congruence]. rewrite IH. reflexivity.
Qed.

(** ** One argument of a list *)
Lemma args_trip bin rd ts : forall xs vs, Forall ty_ok ts -> Forall3 encodes ts xs vs -> Forall2 (recoverable bin) ts xs ->
  allP val_ok vs -> Forall (fun v => nesting v < 128) vs -> forall n texts, Wlist bin n vs texts -> fit bin rd n (flat_map blobs vs) ->
  (bin = true -> N.of_nat (n + length (flat_map blobs vs)) <= u64_max)%N ->
  forall i t x, nth_error ts i = Some t -> nth_error xs i = Some x ->
    exists text, nth_error texts i = Some text /\ forall rp, exists r, jvalue r text /\ reader rp rd t 128 r = Some x.
Proof.
  induction ts as [|t0 ts IH]; intros xs vs Ht He Hr Hv Hd n texts Hw Hf Hn i t x Ei Ex; [destruct i; discriminate|].
  inversion He as [|? x0 v ? xs' vs' He1 He2]; subst. inversion Hw as [|? ? ? text texts' Hw1 Hw2]; subst.
  inversion Ht as [|? ? Ht1 Ht2]; subst. inversion Hr as [|? ? ? ? Hr1 Hr2]; subst. cbn [allP] in Hv. destruct Hv as [Hv1 Hv2].
  inversion Hd as [|? ? Hd1 Hd2]; subst. cbn [flat_map] in Hf, Hn. apply fit_app in Hf as [Hf1 Hf2]. rewrite app_length in Hn.
  destruct i as [|i]; cbn [nth_error] in *.
  - injection Ei as <-. injection Ex as <-. exists text. split; [reflexivity|]. intros rp.
    destruct (round_all rp bin rd t0 Ht1 _ _ He1 Hr1 Hv1 _ _ Hw1 Hf1 ltac:(intros e; specialize (Hn e); lia)) as (r & J & V & _). exists r. split; [exact J|]. apply V. exact Hd1.
  - eapply IH; eauto. intros e. specialize (Hn e). rewrite <- Nat.add_assoc. lia.
Qed.
Lemma typed_reads bin l A ts xs n texts i t x : Forall ty_ok ts -> Forall3 encodes ts xs l -> Forall2 (recoverable bin) ts xs ->
  allP val_ok l -> Forall (fun v => nesting v < 128) l -> Wlist bin n l texts -> n = 0 -> atts_of (if bin then flat_map blobs l else []) A ->
  (bin = true -> N.of_nat (length (flat_map blobs l)) <= u64_max)%N ->
  nth_error ts i = Some t -> nth_error xs i = Some x ->
  exists text, nth_error texts i = Some text /\ arg_deserialize t (Arg text A) = Ok x.
Proof.
  intros Ht He Hr Hv Hd Hw -> HA Hn Ei Ex. destruct A as [|s A].
  - assert (Hf : fit bin None 0 (flat_map blobs l)).
    { intros Hb. rewrite Hb in HA. unfold atts_of in HA. cbn in HA. injection HA as <-. reflexivity. }
    destruct (args_trip bin None ts xs l Ht He Hr Hv Hd 0 texts Hw Hf Hn i t x Ei Ex) as (text & Et & H). exists text. split; [exact Et|].
    destruct (H from_str_value) as (r & J & V). rewrite (arg_none t text r J). cbn [reader] in V. rewrite V. reflexivity.
  - assert (Hb : bin = true).
    { destruct bin; [reflexivity|]. apply atts_nil in HA. discriminate. }
    rewrite Hb in HA. assert (Hf : fit bin (Some (s :: A)) 0 (flat_map blobs l)).
    { split; [exact Hb|]. intros j b Hj. eapply atts_nth; eauto. }
    destruct (args_trip bin (Some (s :: A)) ts xs l Ht He Hr Hv Hd 0 texts Hw Hf Hn i t x Ei Ex) as (text & Et & H). exists text. split; [exact Et|].
    destruct (H (from_str_value_n (S (length text)))) as (r & J & V). rewrite (arg_some t text r (s :: A) J) by discriminate.
    cbn [reader] in V. rewrite V. reflexivity.
Qed.

(** ** The packet that arrives *)
Lemma typed_view p src ns bin args ts xs texts :
  view p = Some (PView (src_kind src) ns (src_id src) texts (out_blobs bin (all_args src args))) -> written bin (kept (all_args src args)) texts ->
  usable (all_args src args) -> (bin = true -> usable_binary (all_args src args)) ->
  Forall ty_ok ts -> Forall3 encodes ts xs args -> Forall2 (recoverable bin) ts xs ->
  forall d a, packet_data p = Some d -> data_args d = Some a -> typed_args (args_from src) a ts xs.
Proof.
  intros V W Hu Hb Ht He Hr d a Hd Hda i t x Ei Ex.
  destruct (view_data _ _ V) as (_ & d' & Hd' & Hm). rewrite Hd in Hd'. injection Hd' as <-. cbn [v_kind v_id v_args v_atts] in Hm.
  assert (Hv : args_view a = Some (texts, out_blobs bin (all_args src args))).
  { destruct src as [e j|j], d as [| |j' a'|j' a']; cbn in Hda; try discriminate; injection Hda as ->; cbn [src_kind] in Hm; try discriminate;
      try (destruct Hm as [Hm0 _]; discriminate); apply Hm. }
  destruct (args_view_accessors _ _ _ Hv) as (_ & Hget & _ & HA).
  pose proof (encodes_kept _ _ _ He) as Hk.
  assert (Hka : kept (all_args src args) = all_args src args).
  { destruct src; [|exact Hk]. cbn [all_args]. unfold kept in *. cbn [filter serialises json_of]. rewrite Hk. reflexivity. }
  assert (U : Forall (fun v => val_ok v /\ nesting v < 128) (all_args src args)).
  { unfold usable in Hu. rewrite Forall_forall in *. intros v Hin. apply (Hu v Hin). rewrite <- Hka in Hin. apply filter_In in Hin. tauto. }
  assert (Hbl : out_blobs bin (all_args src args) = if bin then flat_map blobs args else []).
  { unfold out_blobs. rewrite Hka. destruct src; reflexivity. }
  rewrite Hbl in *. rewrite Hka in *. apply written_list in W.
  assert (Hc : (bin = true -> N.of_nat (length (flat_map blobs args)) <= u64_max)%N).
  { intros e. destruct (Hb e) as [_ Hc]. rewrite Hka in Hc. destruct src; exact Hc. }
  assert (exists rest, (forall j, nth_error texts (args_from src + j) = nth_error rest j) /\ Wlist bin 0 args rest /\ allP val_ok args /\ Forall (fun v => nesting v < 128) args)
    as (rest & En & W' & Hv' & Hd').
  { destruct src as [e j|j]; cbn [all_args args_from] in *.
    - inversion W as [|? ? ? t0 rest W1 W2]; subst. exists rest. split; [reflexivity|]. split; [exact W2|]. inversion U as [|? ? _ U2]; subst. rewrite allP_Forall. split; (eapply Forall_impl; [|exact U2]; cbn; tauto).
    - exists texts. split; [reflexivity|]. split; [exact W|]. rewrite allP_Forall. split; (eapply Forall_impl; [|exact U]; cbn; tauto). }
  destruct (typed_reads bin args (a_attachments a) ts xs 0 rest i t x Ht He Hr Hv' Hd' W' eq_refl HA Hc Ei Ex) as (text & Et & Hread).
  exists (Arg text (a_attachments a)). split; [|exact Hread]. rewrite Hget, En, Et. reflexivity.
Qed.
Lemma arrives_view h src ns bin args fs p : opened h -> ~ closed h -> deliverable src ns bin args -> build src ns bin args = Some fs ->
  arrives h fs p -> exists texts, view p = Some (PView (src_kind src) ns (src_id src) texts (out_blobs bin (all_args src args))) /\
    written bin (kept (all_args src args)) texts.
Proof.
  intros Ho Hc (Hns & _ & Hid & Hst & _ & Hu & Hb & _) Hbuild Hp.
  destruct (build_shape src ns bin args) as (ts & E & W). rewrite E in Hbuild. injection Hbuild as <-.
  pose proof (usable_kept _ Hu) as [Hval _]. pose proof (count_ok bin _ Hb) as Hcount.
  apply arrives_received in Hp; [|assumption|assumption].
  destruct (packet_only src ns bin args ts Hns Hid Hst Hcount (packet_trees src bin args ts Hval W) W p Hp) as [_ V]. eauto.
Qed.
Lemma arrives_some h src ns bin args fs : opened h -> ~ closed h -> deliverable src ns bin args -> build src ns bin args = Some fs ->
  exists p d a, arrives h fs p /\ packet_data p = Some d /\ data_args d = Some a.
Proof.
  intros Ho Hc (Hns & _ & Hid & Hst & _ & Hu & Hb & Hread) Hbuild.
  assert (exists p, arrives h fs p /\ carries p (src_kind src) ns (src_id src) (pkt_values bin (all_args src args))) as (p & Hp & _ & a & gs & Hd & _).
  { destruct Hread as [-> |[-> Hpl]].
    - apply (root_arrives h); assumption.
    - destruct (plain_arrives _ _ _ _ _ Ho Hc Hns Hid Hst Hu Hpl Hbuild) as (p & Hp & _). exists p. split; [exact Hp|].
      destruct (arrives_exact _ _ _ _ _ _ Ho Hc Hns Hid Hst Hu Hb Hbuild) as (_ & _ & _ & Hcar & _). auto. }
  exists p. destruct src as [e i|i]; cbn [src_kind src_id] in Hd; eexists _, a; (split; [exact Hp|]; split; [exact Hd|reflexivity]).
Qed.
Lemma typed_packet h src ns bin ts xs args fs : opened h -> ~ closed h -> deliverable src ns bin args -> build src ns bin args = Some fs ->
  Forall ty_ok ts -> Forall3 encodes ts xs args -> Forall2 (recoverable bin) ts xs ->
  (exists p, arrives h fs p) /\
  forall p, arrives h fs p -> exists d a, packet_data p = Some d /\ data_args d = Some a /\ typed_args (args_from src) a ts xs.
Proof.
  intros Ho Hc Hd Hb Ht He Hr. destruct (arrives_some h _ _ _ _ _ Ho Hc Hd Hb) as (p0 & d0 & a0 & Hp0 & _). split; [eauto|].
  intros p Hp. destruct (arrives_view h _ _ _ _ _ _ Ho Hc Hd Hb Hp) as (texts & V & W).
  pose proof Hd as (_ & _ & _ & _ & _ & Hu & Hbu & _).
  assert (exists d a, packet_data p = Some d /\ data_args d = Some a) as (d & a & E1 & E2).
  { destruct (view_data _ _ V) as (_ & d & Hdd & Hm). cbn [v_kind v_id v_args v_atts] in Hm.
    destruct src as [e j|j], d as [| |j' a'|j' a']; cbn [src_kind] in Hm; try discriminate; try (destruct Hm as [Hm0 _]; discriminate); eexists _, a'; split; [exact Hdd|reflexivity|exact Hdd|reflexivity]. }
  exists d, a. split; [exact E1|]. split; [exact E2|]. eapply typed_view; eauto.
Qed.

(** ** The callback *)
Lemma typed_event log s o e fs f ts xs : trace log s o -> reading s -> between_packets o -> live o ->
  event_deliverable e -> event_frames e = Some fs -> routed (table_history o) (e_ns e) (e_name e) f ->
  Forall ty_ok ts -> Forall3 encodes ts xs (e_args e) -> Forall2 (recoverable (e_binary e)) ts xs ->
  exists s' p a ack, execute log s (map LRead fs) = Some (s', map ORead fs ++ [OCall p (EventCall f a ack)]) /\ sees p a ack e /\ typed_args 1 a ts xs.
Proof.
  intros Ht Hs Hps Hl Hd Hb Hf Hty He Hr.
  destruct (one_event log s o e fs f Ht Hs Hps Hl Hd Hb Hf) as (s' & p & a & ack & Ex & Hsee). exists s', p, a, ack. split; [exact Ex|]. split; [exact Hsee|].
  destruct Hps as [ps Hps]. destruct (built _ _ _ _ _ Hd Hb) as (m & l & p0 & texts & Ha & Hre & Hst & Hv & V & W & Hcar & Hshow).
  rewrite <- (proj1 (live_active o) Hl) in Ha.
  destruct (deliver log s o fs m l p0 ps Ht Hs Hps Hv Ha Hre) as (s1 & out & Ex1 & _ & Hp & _).
  rewrite Ex in Ex1. injection Ex1 as _ Eo. apply app_inv_head in Eo. subst out.
  assert (p = p0) as <- by (inversion Hp; subst; reflexivity).
  destruct Hsee as (Hdata & _). pose proof Hd as (_ & _ & _ & _ & _ & Hu & Hbu & _).
  exact (typed_view p _ _ _ _ ts xs texts V W Hu Hbu Hty He Hr _ a Hdata eq_refl).
Qed.
Lemma typed_ack log s o id ns bin args fs f ts xs : trace log s o -> reading s -> between_packets o -> live o ->
  deliverable (OfAck id) ns bin args -> build (OfAck id) ns bin args = Some fs -> awaiting (table_history o) ns id f ->
  Forall ty_ok ts -> Forall3 encodes ts xs args -> Forall2 (recoverable bin) ts xs ->
  exists s' p a, execute log s (map LRead fs) = Some (s', map ORead fs ++ [OCall p (AckCall f a)]) /\
    packet_data p = Some (DataAck id a) /\ typed_args 0 a ts xs.
Proof.
  intros Ht Hs Hps Hl Hd Hb Hf Hty He Hr.
  destruct (ack_delivered log s o id ns bin args fs f Ht Hs Hps Hl Hd Hb Hf) as (s' & p & a & Ex & Hdata & _). exists s', p, a. split; [exact Ex|]. split; [exact Hdata|].
  destruct Hps as [ps Hps]. destruct (built _ _ _ _ _ Hd Hb) as (m & l & p0 & texts & Ha & Hre & Hst & Hv & V & W & Hcar & Hshow).
  rewrite <- (proj1 (live_active o) Hl) in Ha.
  destruct (deliver log s o fs m l p0 ps Ht Hs Hps Hv Ha Hre) as (s1 & out & Ex1 & _ & Hp & _).
  rewrite Ex in Ex1. injection Ex1 as _ Eo. apply app_inv_head in Eo. subst out.
  assert (p = p0) as <- by (inversion Hp; subst; reflexivity).
  pose proof Hd as (_ & _ & _ & _ & _ & Hu & Hbu & _).
  exact (typed_view p _ _ _ _ ts xs texts V W Hu Hbu Hty He Hr _ a Hdata eq_refl).
Qed.

(** ** Cases *)
(** A struct with a byte vector, a map, an enum and an option, and a plain value. *)
Definition case_ty : ty := TyStruct
  [(bs "file", TySeq (TyInt 0 255)); (bs "tags", TyMap TyString);
   (bs "kind", TyEnum [(bs "Plain", (VtUnit, TyUnit)); (bs "Sized", (VtTuple, TyTuple [TyInt 0 65535; TyOption TyBool]))]);
   (bs "note", TyOption TyStr); (bs "any", TyValue); (bs "mark", TyChar); (bs "data", TyByteBuf)].
Definition case_value : dval := XStruct
  [DeModel.XSeq [XInt 1; XInt 255]; XMap [(bs "a", XStr [x22]); (bs "b", XStr [])];
   XVariant (bs "Sized") (XTuple [XInt 640; XNone]); XSome (XStr (bs "x")); XValue (VObj [(bs "k", VArr [VNull; VNum (NNeg (-3))])]);
   XStr [xc3; xa9]; XBytes [x00; xff]].
Definition case_sent : sval := SStruct
  [(bs "file", SSeq [SU8 x01; SU8 xff]); (bs "tags", SMap [(SStr (bs "b"), SStr []); (SStr (bs "a"), SStr [x22])]);
   (bs "kind", STupleVariant (bs "Sized") [SInt 640; SNone]); (bs "note", SSome (SStr (bs "x")));
   (bs "any", SMap [(SStr (bs "k"), SSeq [SUnit; SInt (-3)])]); (bs "mark", SChar [xc3; xa9]); (bs "data", SBytes [x00; xff])].
Lemma nodup_names l : (fix go (l : list bytes) := match l with [] => true | x :: l' => negb (existsb (bytes_eqb x) l') && go l' end) l = true -> NoDup l.
Proof.
  induction l as [|x l IH]; intros H; [constructor|]. apply andb_prop in H as [H1 H2]. constructor; [|auto].
  intros Hin. apply negb_true_iff in H1. assert (existsb (bytes_eqb x) l = true) by (apply existsb_exists; exists x; split; [exact Hin|apply bytes_eqb_refl]). congruence.
Qed.
Lemma case_ty_ok : ty_ok case_ty.
Proof. cbn [case_ty ty_ok allP]. repeat split; apply nodup_names; reflexivity. Qed.
Lemma case_encodes : encodes case_ty case_value case_sent.
Proof.
  apply en_struct. repeat (apply F3_cons; [split; [reflexivity|]; cbn [fst snd]|]).
  - apply en_seq. repeat constructor. + exact (en_u8 x01). + exact (en_u8 xff).
  - apply (en_map TyString _ [(bs "b", XStr []); (bs "a", XStr [x22])]).
    + repeat constructor.
    + apply perm_swap.
    + repeat constructor.
  - eapply en_tuple_variant; [right; left; reflexivity|]. apply en_tuple. repeat constructor; lia.
  - apply en_some, en_str.
  - change (SMap _) with (value_writes (VObj [(bs "k", VArr [VNull; VNum (NNeg (-3))])])). apply en_value. cbn. repeat split; repeat constructor.
  - apply (en_char 233). apply (u8_2 233 xc3 xa9 3 41); reflexivity || (vm_compute; intuition discriminate).
  - apply en_byte_buf.
  - constructor.
Qed.
Lemma unescaped_check s : forallb (fun c => (32 <=? bN c)%N && negb (c =b x22) && negb (c =b x5c)) s = true -> unescaped s.
Proof.
  intros H. apply Forall_forall. intros c Hc. rewrite forallb_forall in H. specialize (H c Hc).
  apply andb_prop in H as [H H3]. apply andb_prop in H as [H1 H2]. apply N.leb_le in H1. apply negb_true_iff, byte_eqb_neq in H2, H3. auto.
Qed.
Lemma case_recoverable bin : recoverable bin case_ty case_value.
Proof.
  assert (P : forall k, forallb (fun c => (32 <=? bN c)%N && negb (c =b x22) && negb (c =b x5c)) k && negb (bytes_eqb k key_placeholder) = true -> plain_key k).
  { intros k H. apply andb_prop in H as [H1 H2]. split; [apply unescaped_check; exact H1|]. apply negb_true_iff, bytes_eqb_neq in H2. exact H2. }
  apply rc_struct; [intros _; apply P; reflexivity|]. repeat (apply Forall2_cons; cbn [snd]).
  - repeat constructor.
  - apply rc_map; [intros _; constructor; [apply P; reflexivity|constructor; [apply P; reflexivity|constructor]]|repeat constructor].
  - eapply rc_variant; [right; left; reflexivity|discriminate|]. repeat constructor.
  - apply rc_some; [reflexivity|]. apply rc_str. apply unescaped_check. reflexivity.
  - apply rc_value. intros _. cbn. split; [apply P; reflexivity|]. repeat split.
  - apply rc_char.
  - apply rc_byte_buf.
  - constructor.
Qed.
Definition case_event (bin : bool) : event := Event (bs "news") (Some 3%N) (bs "/") bin [case_sent; SInt 7].
Lemma typed_case : exists s o, trace true s o /\ reading s /\ between_packets o /\ live o /\ routed (table_history o) (bs "/") (bs "news") 7%N /\
  forall bin, event_deliverable (case_event bin) /\ event_frames (case_event bin) <> None /\
    Forall ty_ok [case_ty; TyInt 0 65535] /\ Forall3 encodes [case_ty; TyInt 0 65535] [case_value; XInt 7] (e_args (case_event bin)) /\
    Forall2 (recoverable bin) [case_ty; TyInt 0 65535] [case_value; XInt 7].
Proof.
  destruct (execute true init deliver_run) as [[s o]|] eqn:E; [|vm_compute in E; discriminate].
  exists s, o. split; [eapply run_trace; exact E|]. vm_compute in E. injection E as <- <-.
  split; [left; reflexivity|]. split; [exists []; apply as_nothing|]. split; [apply live_active; reflexivity|].
  split; [apply routing_exact; reflexivity|]. intros bin. split; [|split; [apply build_no_panic|]].
  - assert (N1 : ns_ok (bs "/")) by (apply ns_ok_check; reflexivity).
    unfold event_deliverable, deliverable; cbn [case_event e_name e_id e_ns e_binary e_args src_id starts all_args fits].
    split; [exact N1|]. split; [reflexivity|]. split; [unfold u64_max; lia|]. split; [exact I|].
    split; [repeat constructor|]. split; [repeat constructor; cbn; unfold u64_max; try lia; try discriminate; repeat split; try lia; try discriminate|].
    split; [|left; reflexivity]. intros _. split; [repeat constructor; cbn; repeat split; try discriminate|vm_compute; discriminate].
  - split; [constructor; [apply case_ty_ok|constructor; [exact I|constructor]]|]. split.
    + constructor; [apply case_encodes|]. constructor; [apply en_int; lia|constructor].
    + constructor; [apply case_recoverable|]. repeat constructor.
Qed.

(** ** The restriction is needed *)
Lemma typed_refuted : ~ C52_full.
Proof.
  intros H. destruct sample_opened as [Ho Hc].
  assert (N1 : ns_ok (bs "/")) by (apply ns_ok_check; reflexivity).
  assert (D : deliverable (OfEvent (bs "e") None) (bs "/") false [SSome SNone]).
  { split; [exact N1|]. split; [reflexivity|]. split; [exact I|]. split; [exact I|]. split; [repeat constructor|].
    split; [repeat constructor; cbn; lia|]. split; [discriminate|]. left. reflexivity. }
  destruct (build (OfEvent (bs "e") None) (bs "/") false [SSome SNone]) as [fs|] eqn:Hb; [|exfalso; exact (build_no_panic _ _ _ _ Hb)].
  destruct (H _ _ _ [TyOption (TyOption TyBool)] [XSome XNone] _ fs Ho Hc D Hb) as (p & d & a & Hp & Hd & Hda & Ht).
  { repeat constructor. } { repeat constructor. }
  destruct (arrives_view _ _ _ _ _ _ _ Ho Hc D Hb Hp) as (texts & V & W).
  destruct (Ht 0 _ _ eq_refl eq_refl) as (g & Hg & Hread). cbn [args_from Nat.add] in Hg.
  destruct (view_data _ _ V) as (_ & d' & Hd' & Hm). rewrite Hd in Hd'. injection Hd' as <-. cbn [v_kind v_id v_args v_atts src_kind] in Hm.
  destruct d as [| |j a'|j a']; try discriminate; try (destruct Hm as [Hm0 _]; discriminate). cbn in Hda. injection Hda as ->. destruct Hm as (_ & _ & Hv).
  destruct (args_view_accessors _ _ _ Hv) as (_ & Hget & _ & HA). cbn [out_blobs] in HA. apply atts_nil in HA. rewrite HA in Hget.
  apply written_list in W. cbn [kept filter serialises json_of all_args option_map] in W.
  inversion W as [|? ? ? t1 ts1 W1 W2]; subst. inversion W2 as [|? ? ? t2 ts2 W3 W4]; subst.
  apply (W_leaf _ _ _ _ (bs "null")) in W3; try reflexivity. subst t2.
  rewrite (Hget 1) in Hg. cbn [nth_error option_map] in Hg. injection Hg as <-. vm_compute in Hread. discriminate.
Qed.
