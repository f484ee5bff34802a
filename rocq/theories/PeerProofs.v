(** The reference implementation and the client: what each understands of the other (C68, C69). *)
From Verif Require Export SpecPeer ValueProofs LostProofs PlainProofs AgreeProofs.

(** ** Reading a header *)
Lemma upto_all P s : forallb (fun c => negb (P c)) s = true -> upto P s = (s, []).
Proof.
  induction s as [|c s IH]; [reflexivity|]. cbn [forallb upto]. intros H. apply andb_true_iff in H as [Hc H].
  apply negb_true_iff in Hc. rewrite Hc, (IH H). reflexivity.
Qed.
Lemma upto_stop P s c r : forallb (fun c => negb (P c)) s = true -> P c = true -> upto P (s ++ c :: r) = (s, c :: r).
Proof.
  induction s as [|x s IH]; cbn [forallb upto app]; intros H Hc; [rewrite Hc; reflexivity|].
  apply andb_true_iff in H as [Hx H]. apply negb_true_iff in Hx. rewrite Hx, (IH H Hc). reflexivity.
Qed.
Lemma decimal_digit c : decimal c = is_digit c. Proof. reflexivity. Qed.
Lemma dec_not (P : byte -> bool) n : (forall c, is_digit c = true -> P c = false) -> forallb (fun c => negb (P c)) (dec n) = true.
Proof.
  intros H. pose proof (dec_digits n) as D. rewrite forallb_forall in *. intros c Hc. rewrite (H c (D c Hc)). reflexivity.
Qed.
Lemma js_number_dec n : (n < exact_max)%N -> js_number (dec n) = Some n.
Proof.
  intros H. unfold js_number. destruct (dec n) as [|c d] eqn:E; [destruct (dec_nonempty n E)|]. rewrite <- E.
  rewrite magnitude_undec by apply dec_digits. rewrite N2Z.id, undec_dec. change decimal with is_digit. rewrite dec_digits.
  apply N.ltb_lt in H. cbn [andb]. rewrite H. reflexivity.
Qed.
Lemma digit_not_dash c : is_digit c = true -> Byte.eqb "-" c = false.
Proof. destruct c; (reflexivity || discriminate). Qed.
Lemma digit_not_slash c : is_digit c = true -> Byte.eqb c "/" = false.
Proof. destruct c; (reflexivity || discriminate). Qed.
Lemma digit_dec c : is_digit c = true -> negb (decimal c) = false.
Proof. change decimal with is_digit. intros ->. reflexivity. Qed.
Lemma no_comma_forallb s : ~ In ","%byte s -> forallb (fun c => negb (Byte.eqb "," c)) s = true.
Proof.
  intros H. apply forallb_forall. intros c Hc. apply negb_true_iff. destruct (Byte.eqb "," c) eqn:E; [|reflexivity].
  apply Byte.byte_dec_bl in E. subst c. contradiction.
Qed.
Lemma read_type_digit ty : read_type (sio_digit ty) = Some ty.
Proof. destruct ty; reflexivity. Qed.

(** The first byte of a payload. *)
Definition payload_head (a : bytes) : Prop := exists c r, a = c :: r /\ In c (bs "[{""").
Lemma head_facts a : payload_head a -> read_data a = Some (Some a) /\ (exists c r, a = c :: r /\ decimal c = false /\ Byte.eqb c "/" = false).
Proof.
  intros (c & r & -> & Hc). split.
  - unfold read_data. repeat destruct Hc as [<-|Hc]; try reflexivity. destruct Hc.
  - exists c, r. split; [reflexivity|]. repeat destruct Hc as [<-|Hc]; try (split; reflexivity). destruct Hc.
Qed.
Lemma read_id_text id a : payload_head a -> (forall i, id = Some i -> (i < exact_max)%N) -> read_id (opt_text dec id ++ a) = Some (id, a).
Proof.
  intros Ha Hi. destruct (head_facts a Ha) as (_ & c & r & -> & Hd & _). unfold read_id. destruct id as [i|]; cbn [opt_text app].
  - rewrite upto_stop; [|apply dec_not; exact digit_dec|rewrite Hd; reflexivity].
    destruct (dec i) as [|x d] eqn:E; [destruct (dec_nonempty i E)|]. rewrite <- E, js_number_dec by auto. reflexivity.
  - cbn [upto]. rewrite Hd. reflexivity.
Qed.
Lemma read_nsp_text ns rest : nsp_ok ns -> (exists c r, rest = c :: r /\ Byte.eqb c "/" = false) ->
  read_nsp ((if bytes_eqb ns (bs "/") then [] else ns ++ bs ",") ++ rest) = (ns, rest).
Proof.
  intros [[[r E] _] Hc] (c & r' & -> & Hs). destruct (bytes_eqb ns (bs "/")) eqn:B.
  - apply bytes_eqb_eq in B. rewrite B. cbn [app read_nsp]. rewrite Hs. reflexivity.
  - rewrite <- app_assoc. cbn [bs app]. change (bs "," ++ ?x) with (","%byte :: x). subst ns. cbn [app read_nsp].
    change (Byte.eqb "/" "/") with true. cbn iota.
    change ("/"%byte :: r ++ ?x) with (("/"%byte :: r) ++ x). rewrite upto_stop; [reflexivity|apply no_comma_forallb; exact Hc|reflexivity].
Qed.
Lemma rest_head id a : payload_head a -> exists c r, opt_text dec id ++ a = c :: r /\ Byte.eqb c "/" = false.
Proof.
  intros Ha. destruct id as [i|]; cbn [opt_text app].
  - destruct (digit_head i) as (c & d & -> & Hd). exists c, (d ++ a). split; [reflexivity|apply digit_not_slash; exact Hd].
  - destruct (head_facts a Ha) as (_ & c & r & E & _ & Hs). eauto.
Qed.
Lemma read_count_text ty n rest : (n < exact_max)%N -> (counted ty = false -> n = 0%N) ->
  read_count ty ((if counted ty then dec n ++ bs "-" else []) ++ rest) = Some (n, rest).
Proof.
  intros Hn H0. unfold read_count. destruct (counted ty) eqn:E; [|rewrite H0 by reflexivity; reflexivity].
  rewrite <- app_assoc. change (bs "-" ++ rest) with ("-"%byte :: rest).
  rewrite upto_stop; [|apply dec_not; exact digit_not_dash|reflexivity]. rewrite js_number_dec by exact Hn. reflexivity.
Qed.
Lemma decode_encode ty n ns id a : nsp_ok ns -> payload_head a -> (n < exact_max)%N -> (counted ty = false -> n = 0%N) ->
  (forall i, id = Some i -> (i < exact_max)%N) -> sio_decode (sio_encode (Sio ty n ns id (Some a))) = Some (Sio ty n ns id (Some a)).
Proof.
  intros Hns Ha Hn H0 Hi. unfold sio_encode. cbn [o_type o_count o_nsp o_id o_data]. change (opt_text (fun a => a) (Some a)) with a.
  unfold sio_decode. rewrite read_type_digit, read_count_text by assumption. rewrite read_nsp_text by (assumption || apply rest_head; assumption).
  rewrite read_id_text by assumption. destruct (head_facts a Ha) as (-> & _). reflexivity.
Qed.

(** What the client writes is of that form. *)
Definition out_type (src : source) (bin : bool) : sio_type :=
  match src, bin with
  | OfEvent _ _, false => SEvent | OfEvent _ _, true => SBinaryEvent
  | OfAck _, false => SAck | OfAck _, true => SBinaryAck
  end.
Lemma out_counted src bin : counted (out_type src bin) = bin.
Proof. destruct src, bin; reflexivity. Qed.
Lemma out_text src ns bin l ts a : arg_text l ts = Some a ->
  wire_text (out_wire src ns bin l ts) = sio_encode (Sio (out_type src bin) (N.of_nat (length (out_blobs bin l))) ns (src_id src) (Some a)).
Proof.
  intros Ha. unfold wire_text, sio_encode, out_wire. cbn [w_kind w_count w_ns w_id w_args o_type o_count o_nsp o_id o_data]. rewrite Ha, out_counted.
  f_equal; [destruct src, bin; reflexivity|]. f_equal; [destruct bin; reflexivity|]. f_equal. unfold ns_opt. destruct (bytes_eqb ns (bs "/")); reflexivity.
Qed.

(** ** Values *)
Definition no_private : bytes -> option value := fun _ => None.
Lemma val_js r : well r -> forall d x, val_of no_private d r = Some x -> js_means r x.
Proof.
  induction r as [|b|x|s|l IH|l IH] using raw_ind'; cbn [well]; intros Hw d v Hv.
  - cbn in Hv. injection Hv as <-. constructor.
  - cbn in Hv. injection Hv as <-. constructor.
  - cbn [val_of] in Hv. destruct (num_of x) as [y|] eqn:E; [|discriminate]. injection Hv as <-. constructor. apply num_exact; assumption.
  - cbn [val_of] in Hv. destruct (unescape s) as [y|] eqn:E; [|discriminate]. injection Hv as <-. constructor. apply unescape_exact; assumption.
  - destruct d as [|[|d]]; [discriminate|discriminate|]. rewrite val_of_arr in Hv.
    destruct (all_some (map (val_of no_private (S d)) l)) as [vs|] eqn:E; [|discriminate]. injection Hv as <-. constructor.
    apply all_some_map_F2 in E. revert Hw IH. clear -E. induction E as [|a b l vs Ha E IHE]; cbn [allP]; intros Hw IH; constructor.
    + inversion IH; subst. destruct Hw as [Hw _]. eauto.
    + apply IHE; [apply Hw|inversion IH; assumption].
  - destruct d as [|[|d]]; [discriminate|discriminate|]. destruct (private_dec l) as [(k & x & l' & -> & Hk)|Hk].
    + rewrite val_of_private in Hv by exact Hk. destruct x as [| | |b| |]; try discriminate. destruct l'; [|discriminate].
      destruct (unescape b); discriminate.
    + rewrite val_of_obj' in Hv by exact Hk. destruct (all_some (map (val_member no_private (S d)) l)) as [ms|] eqn:E; [|discriminate].
      injection Hv as <-. apply (jm_obj l ms); [|apply obj_of_members].
      apply all_some_map_F2 in E. revert Hw IH. clear -E. induction E as [|[k a] [k' b] l vs Ha E IHE]; cbn [allP]; intros Hw IH; constructor.
      * inversion IH; subst. destruct Hw as [[Hk Hw] _]. unfold val_member in Ha. cbn [fst snd] in *.
        destruct (unescape k) as [k0|] eqn:Ek; [|discriminate]. destruct (val_of no_private (S d) a) as [y|] eqn:Ey; [|discriminate].
        injection Ha as -> ->. split; [apply unescape_exact; assumption|eauto].
      * apply IHE; [apply Hw|inversion IH; assumption].
Qed.
Lemma filled_rebuilt bl : forall v v', filled bl v v' -> tidy v -> rebuilt bl v v'.
Proof.
  induction v as [|b|n|s|l IH|m IH] using value_ind'; intros v' H Ht; inversion H as [| | | |? ? Hl|? ? Hp Hl|? k b0 Hp Hk Hb]; subst; try constructor.
  - cbn [tidy] in Ht. revert IH Ht. clear -Hl. induction Hl as [|x y l l' Hx Hl IHl]; cbn [allP]; intros IH Ht; constructor.
    + inversion IH; subst. apply H1; [exact Hx|apply Ht].
    + apply IHl; [inversion IH; assumption|apply Ht].
  - intros E. apply Hp. apply obj_get_in in E. apply (in_map fst) in E. exact E.
  - destruct Ht as [_ Ht]. revert IH Ht. clear -Hl. induction Hl as [|[k x] [k' y] l l' [Hk Hx] Hl IHl]; cbn [allP]; intros IH Ht; constructor.
    + cbn [fst snd] in *. inversion IH; subst. split; [reflexivity|]. apply H1; [exact Hx|apply Ht].
    + apply IHl; [inversion IH; assumption|apply Ht].
  - destruct Ht as [[Ht|Ht] _]; [|econstructor; eauto]. exfalso. destruct (obj_get_some _ _ Hp) as (v & E). congruence.
Qed.

(** The arguments as the peer reads them. *)
Lemma peer_text_values l ts : Forall2 (fun v t => wr v t OOk) l ts -> read_ok l ->
  exists rs, Forall2 jvalue rs ts /\ Forall2 js_means rs (json_values l).
Proof.
  induction 1 as [|v t l ts Hv H IH]; intros [Ha Hn]; [exists []; split; constructor|].
  cbn [allP] in Ha. destruct Ha as [Ha1 Ha2]. cbn [map SpecSer.list_max fold_right] in Hn. fold (SpecSer.list_max (map nesting l)) in Hn.
  destruct Hv as (_ & _ & _ & _ & H5). destruct (H5 eq_refl Ha1) as (_ & r & x & E & J & V).
  destruct IH as (rs & R1 & R2); [split; [exact Ha2|lia]|]. exists (r :: rs). split; [constructor; assumption|].
  cbn [json_values flat_map]. rewrite E. cbn [app]. constructor; [|exact R2].
  apply (val_js r (proj1 jvalue_well _ _ J) 128). apply V. lia.
Qed.
Lemma sub_contents bl : contents (map sub_from bl) = Some bl.
Proof. unfold contents. rewrite map_map. rewrite (all_some_map _ (fun b => b)); [rewrite map_id; reflexivity|]. intros b. apply (proj1 (deref_whole b)). Qed.
Lemma peer_binary_values all n l ts : blist n l ts -> read_ok l -> allP no_pkey l ->
  (forall i b, nth_error (flat_map blobs l) i = Some b -> nth_error all (n + i) = Some b) ->
  (N.of_nat (n + length (flat_map blobs l)) <= u64_max)%N ->
  exists rs xs, Forall2 jvalue rs ts /\ Forall2 js_means rs xs /\
    Forall2 (rebuilt all) xs (json_values (map sent l)) /\ (flat_map blobs l = [] -> json_values (map sent l) = xs).
Proof.
  intros H. induction H as [n|n v l t ts Hv H IH]; intros [Ha Hn] Hp Hall Hc.
  { exists [], []. repeat split; constructor. }
  cbn [allP] in Ha, Hp. destruct Ha as [Ha1 Ha2]. destruct Hp as [Hp1 Hp2].
  cbn [map SpecSer.list_max fold_right] in Hn. fold (SpecSer.list_max (map nesting l)) in Hn. cbn [flat_map] in Hall, Hc.
  rewrite app_length in Hc.
  destruct Hv as (_ & _ & _ & _ & _ & H5). destruct (H5 eq_refl Ha1) as (_ & r & y & E & J & V).
  destruct (V Hp1 ltac:(lia)) as [_ V']. destruct (V' no_private 128 ltac:(lia)) as (x & Vx & F1 & F2 & F3).
  destruct IH as (rs & xs & R1 & R2 & R3 & R4); [split; [exact Ha2|lia]|exact Hp2| |lia|].
  { intros i b Hb. rewrite <- Nat.add_assoc. apply Hall. rewrite nth_error_app2 by lia.
    replace (length (blobs v) + i - length (blobs v)) with i by lia. exact Hb. }
  exists (r :: rs), (x :: xs). cbn [map json_values flat_map]. rewrite E. cbn [app].
  split; [constructor; assumption|]. split; [constructor; [apply (val_js r (proj1 jvalue_well _ _ J) 128); exact Vx|exact R2]|]. split.
  - constructor; [|exact R3]. apply filled_rebuilt; [|exact F3].
    assert (HB : holds (map sub_from all) n (blobs v)).
    { intros i b Hb. apply (atts_nth all); [apply sub_contents|]. apply Hall. rewrite nth_error_app1; [exact Hb|]. apply nth_error_Some. congruence. }
    apply (proj1 (fill_exact (map sub_from all) all (sub_contents all) x)). apply F1. exact HB.
  - intros X. apply app_eq_nil in X as [X1 X2]. rewrite F2 by exact X1. f_equal. apply R4. exact X2.
Qed.

(** The first argument of an event is its name. *)
Lemma js_string r s : js_means r (VStr s) -> exists b, r = RStr b /\ string_means b s.
Proof. intros H. inversion H; subst; eauto. Qed.
Lemma name_payload b rs e : jbody b -> string_means b e -> (event_payload (RArr (RStr b :: rs)) <-> ~ In e reserved).
Proof.
  intros Hb Hm. cbn [event_payload]. split; [auto|]. intros H e' He'. apply unescape_exact in Hm; [|exact Hb]. apply unescape_exact in He'; [|exact Hb]. congruence.
Qed.

Section Peer.
Variables (src : source) (ns : bytes) (bin : bool) (args : list sval) (ts : list bytes).
Let l := all_args src args.
Hypothesis Hst : starts src args.
Hypothesis Hu : usable l.
Hypothesis Hb : bin = true -> usable_binary l.
Hypothesis Hw : written bin (kept l) ts.
Let a := "["%byte :: seps true ts ++ ["]"%byte].
Lemma peer_args : arg_text l ts = Some a.
Proof. destruct (starts_first src args Hst) as (v & l' & El & Ev). eapply first_text; eauto. Qed.
Lemma peer_values : exists rs xs, Forall2 jvalue rs ts /\ Forall2 js_means rs xs /\
  match out_blobs bin l with [] => pkt_values bin l = xs | _ => Forall2 (rebuilt (out_blobs bin l)) xs (pkt_values bin l) end.
Proof.
  pose proof (usable_kept _ Hu) as Hk. destruct bin; cbn [written out_blobs pkt_values] in *.
  - destruct (Hb eq_refl) as [Hp Hc]. apply pkey_kept in Hp.
    destruct (peer_binary_values (flat_map blobs (kept l)) 0 (kept l) ts Hw Hk Hp ltac:(auto) Hc) as (rs & xs & R1 & R2 & R3 & R4).
    exists rs, xs. split; [exact R1|]. split; [exact R2|]. destruct (flat_map blobs (kept l)); [auto|exact R3].
  - destruct (peer_text_values (kept l) ts Hw Hk) as (rs & R1 & R2). exists rs, (json_values (kept l)). rewrite json_values_kept in *. auto.
Qed.
(** The values begin with the name. *)
Lemma peer_name e i : src = OfEvent e i -> forall rs, Forall2 jvalue rs ts -> exists b rs', rs = RStr b :: rs' /\ jbody b /\ string_means b e.
Proof.
  intros Es rs Hrs. destruct peer_values as (rs' & xs & R1 & R2 & R3).
  assert (rs = rs') as ->.
  { clear - Hrs R1. revert rs' R1. induction Hrs as [|r t rs ts Hr Hrs IH]; intros rs' R1; inversion R1; subst; [reflexivity|].
    f_equal; [eapply jvalue_unique; eauto|auto]. }
  assert (exists vs, pkt_values bin l = VStr e :: vs) as [vs Ev].
  { unfold l. rewrite Es. cbn [all_args]. unfold pkt_values. destruct bin; [rewrite kept_cons|]; cbn; eauto. }
  assert (exists xs', xs = VStr e :: xs') as [xs' ->].
  { rewrite Ev in R3. destruct (out_blobs bin l); [eauto|]. inversion R3 as [|x ? xs' ? Hx]; subst. inversion Hx; subst; eauto. }
  inversion R2 as [|r ? rs0 ? Hr]; subst. destruct (js_string _ _ Hr) as (b & -> & Hs). exists b, rs0. split; [reflexivity|]. split; [|exact Hs].
  inversion R1 as [|? t ? ? J]; subst. apply (proj1 jvalue_well) in J. exact J.
Qed.
Lemma peer_payload rs : Forall2 jvalue rs ts -> (payload_valid (out_type src bin) (RArr rs) <-> free_name src).
Proof.
  intros Hrs. assert (D : (exists e i, src = OfEvent e i) \/ exists i, src = OfAck i) by (destruct src; eauto).
  destruct D as [(e & i & Es)|(i & Es)].
  - destruct (peer_name e i Es rs Hrs) as (b & rs' & -> & Hj & Hm). rewrite Es. cbn [free_name]. rewrite <- (name_payload b rs' e Hj Hm). destruct bin; reflexivity.
  - rewrite Es. cbn [free_name]. destruct bin; cbn; split; eauto.
Qed.
Lemma peer_head : payload_head a.
Proof. exists "["%byte. eexists. split; [reflexivity|]. cbn. auto. Qed.
Lemma peer_sees v : nsp_ok ns -> readable_ids src -> (N.of_nat (length (out_blobs bin l)) < exact_max)%N -> free_name src ->
  v = Third \/ out_blobs bin l = [] ->
  peer_gets v (WText ("4"%byte :: wire_text (out_wire src ns bin l ts)) :: map frame (out_blobs bin l))
    (src_kind src) ns (src_id src) (pkt_values bin l).
Proof.
  intros Hns Hid Hn Hf Hv. destruct peer_values as (rs & xs & R1 & R2 & R3).
  exists (wire_text (out_wire src ns bin l ts)), (out_type src bin), a, rs, (out_blobs bin l), xs.
  split; [f_equal; destruct Hv as [->|E]; [reflexivity|rewrite E; reflexivity]|].
  split. { rewrite (out_text src ns bin l ts a peer_args). apply decode_encode; auto using peer_head. rewrite out_counted. intros ->. reflexivity. }
  split; [destruct src, bin; cbn; auto|]. split; [apply jvalue_doc, jarr_seps; exact R1|]. split; [apply peer_payload; assumption|].
  split; assumption.
Qed.
End Peer.

(** ** Each text has one meaning *)
Lemma js_unique r : well r -> forall x y, js_means r x -> js_means r y -> x = y.
Proof.
  induction r as [|b|n|s|l IH|l IH] using raw_ind'; cbn [well]; intros Hw x y Hx Hy; inversion Hx; inversion Hy; subst; try reflexivity.
  - apply num_exact in H0; [|exact Hw]. apply num_exact in H3; [|exact Hw]. congruence.
  - apply unescape_exact in H0; [|exact Hw]. apply unescape_exact in H3; [|exact Hw]. congruence.
  - f_equal. rename H0 into F, H3 into G. clear Hx Hy. revert vs0 G. induction F as [|r x l vs Hr F IHF]; intros vs0 G; inversion G; subst; [reflexivity|].
    inversion IH; subst. cbn [allP] in Hw. destruct Hw as [W1 W2]. f_equal; [eauto|]. apply IHF; assumption.
  - f_equal. assert (ms = ms0) as ->; [|eapply members_unique; eauto].
    rename H0 into F, H4 into G. clear Hx Hy H1 H5. revert ms0 G. induction F as [|[k r] [k1 x] l vs [Hk Hr] F IHF]; intros vs0 G; inversion G as [|? [k2 y] ? ? [Hk2 Hr2] G2]; subst; [reflexivity|].
    cbn [fst snd] in *. inversion IH; subst. cbn [allP] in Hw. destruct Hw as [[W0 W1] W2]. cbn [snd] in *. f_equal; [|apply IHF; assumption].
    apply unescape_exact in Hk; [|exact W0]. apply unescape_exact in Hk2; [|exact W0]. f_equal; [congruence|eauto].
Qed.

(** ** The peer's namespace ends at the first comma *)
Lemma first_comma ns : In ","%byte ns -> exists p q, ns = p ++ ","%byte :: q /\ ~ In ","%byte p.
Proof.
  induction ns as [|c ns IH]; intros H; [destruct H|]. destruct (Byte.eqb c ",") eqn:E.
  - apply Byte.byte_dec_bl in E. subst c. exists [], ns. split; [reflexivity|]. intros [].
  - destruct H as [->|H]; [discriminate|]. destruct (IH H) as (p & q & -> & Hp). exists (c :: p), q. split; [reflexivity|].
    intros [->|X]; [discriminate|contradiction].
Qed.
Lemma comma_dec ns : {In ","%byte ns} + {~ In ","%byte ns}.
Proof. apply in_dec. intros x y. destruct (Byte.eqb x y) eqn:E; [left; apply Byte.byte_dec_bl; exact E|right; intros ->; rewrite Byte.byte_dec_lb in E; [discriminate|reflexivity]]. Qed.
Lemma decode_comma ty n ns id a p : ns_ok ns -> In ","%byte ns -> (n < exact_max)%N -> (counted ty = false -> n = 0%N) ->
  sio_decode (sio_encode (Sio ty n ns id a)) = Some p -> o_nsp p <> ns.
Proof.
  intros [[r E] _] Hc Hn H0. destruct (first_comma ns Hc) as (s & q & Es & Hs).
  unfold sio_encode. cbn [o_type o_count o_nsp o_id o_data]. unfold sio_decode. rewrite read_type_digit, read_count_text by assumption.
  destruct (bytes_eqb ns (bs "/")) eqn:B. { apply bytes_eqb_eq in B. rewrite B in Hc. cbn in Hc. intuition discriminate. }
  assert (R : forall rest, read_nsp ((ns ++ bs ",") ++ rest) = (s, q ++ bs "," ++ rest)).
  { intros rest. rewrite <- app_assoc. assert (exists s', s = "/"%byte :: s') as [s' ->].
    { destruct s as [|c s]; [rewrite Es in E; discriminate|]. rewrite Es in E. injection E as -> _. eauto. }
    rewrite Es, <- app_assoc. cbn [app read_nsp]. change (Byte.eqb "/" "/") with true. cbn iota.
    change ("/"%byte :: s' ++ ?x) with (("/"%byte :: s') ++ x). rewrite upto_stop; [reflexivity|apply no_comma_forallb; exact Hs|reflexivity]. }
  rewrite R. destruct (read_id _) as [[i t4]|]; [|discriminate]. destruct (read_data t4); [|discriminate]. intros X. injection X as <-.
  cbn [o_nsp]. intros ->. apply (f_equal (@length _)) in Es. rewrite app_length in Es. cbn [length] in Es. lia.
Qed.

Lemma peer_exactly v src ns bin args fs : ns_ok ns -> readable_ids src -> starts src args ->
  usable (all_args src args) -> (bin = true -> usable_binary (all_args src args)) ->
  (N.of_nat (length (attachments src bin args)) < exact_max)%N -> v = Third \/ attachments src bin args = [] ->
  build src ns bin args = Some fs ->
  (peer_gets v fs (src_kind src) ns (src_id src) (pkt_values bin (all_args src args)) <-> ~ In ","%byte ns /\ free_name src).
Proof.
  intros Hns Hid Hst Hu Hb Hn Hv Hbuild. destruct (build_shape src ns bin args) as (ts & E & W). rewrite E in Hbuild. injection Hbuild as <-.
  change (attachments src bin args) with (out_blobs bin (all_args src args)) in *.
  pose proof (peer_args src args ts Hst) as Ea. set (a := "["%byte :: seps true ts ++ ["]"%byte]) in *.
  assert (Hcount : counted (out_type src bin) = false -> N.of_nat (length (out_blobs bin (all_args src args))) = 0%N).
  { rewrite out_counted. intros ->. reflexivity. }
  split.
  - intros (t & ty & a' & rs & bl & xs & Ef & Hd & Hk & Hj & Hp & _). injection Ef as <- Ebl.
    rewrite (out_text src ns bin _ ts a Ea) in Hd.
    destruct (comma_dec ns) as [Hc|Hc].
    { exfalso. apply (decode_comma _ _ _ _ _ _ Hns Hc Hn Hcount Hd). reflexivity. }
    split; [exact Hc|]. rewrite decode_encode in Hd; [|split; assumption|apply peer_head|exact Hn|exact Hcount|exact Hid].
    injection Hd as <- Hlen <-.
    destruct (peer_values src bin args ts Hu Hb W) as (rs' & xs' & R1 & R2 & R3).
    assert (J' : jdoc (RArr rs') a) by (apply jvalue_doc, jarr_seps; exact R1).
    pose proof (jdoc_unique _ _ _ Hj J') as X. injection X as ->. apply (peer_payload src bin args ts Hst Hu Hb W rs' R1). exact Hp.
  - intros [Hc Hf]. apply peer_sees; auto. split; assumption.
Qed.
Lemma extra_byte src ns bin args fs : build src ns bin args = Some fs ->
  exists t, fs = WText t :: map (attachment_frame Third) (attachments src bin args) /\
            fs = WText t :: map (attachment_frame Fourth) (map (cons x04) (attachments src bin args)).
Proof.
  intros Hbuild. destruct (build_shape src ns bin args) as (ts & E & W). rewrite E in Hbuild. injection Hbuild as <-.
  eexists. split; [reflexivity|]. rewrite map_map. reflexivity.
Qed.
Lemma C68_refuted_lemma : ~ C68_full.
Proof.
  intros H. specialize (H (OfEvent (bs "x") None) (bs "/") true [SBytes (bs "a")]
    [WText (bs "451-[""x"",{""_placeholder"":true,""num"":0}]"); WBinary [x04; "a"%byte]]).
  destruct H as (t & ty & a & rs & bl & xs & Ef & Hd & _ & Hj & _ & Hm & Hr).
  - split; [exists []; reflexivity|]. intros [X|[]]. discriminate.
  - intros i X. discriminate.
  - exact I.
  - repeat constructor.
  - intros _. split; [repeat constructor|]. vm_compute. discriminate.
  - vm_compute. reflexivity.
  - injection Ef as <- Ebl. destruct bl as [|b [|b' bl]]; try discriminate. injection Ebl as <-.
    vm_compute in Hd. injection Hd as <- <-. cbn [pkt_values] in Hr.
    assert (J : jdoc (RArr [RStr (bs "x"); RObj [(key_placeholder, RBool true); (key_num, RNum (NumLit false (bs "0") None None))]])
      (bs "[""x"",{""_placeholder"":true,""num"":0}]")) by (apply scan_doc_exact; vm_compute; reflexivity).
    pose proof (jdoc_unique _ _ _ Hj J) as X. injection X as ->.
    inversion Hm as [|? ? ? xs' _ Hm']; subst. inversion Hm' as [|? x ? ? Hx Hm'']; subst. inversion Hm''; subst.
    change (json_values _) with [VStr (bs "x"); byte_array (bs "a")] in Hr. inversion Hr as [|? ? ? ? _ Hr']; subst. inversion Hr' as [|? ? ? ? Hy _]; subst.
    inversion Hx; subst. inversion Hy as [| | | | | |? k b Hp Hk Hb]; subst.
    destruct (N.to_nat k) as [|[|k']]; cbn in Hb; try discriminate. injection Hb as <-. discriminate.
Qed.
