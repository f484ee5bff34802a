(** What a packet is displayed as (C63). *)
From Verif Require Export SpecShow ShapeProofs TripProofs.

(** ** Numbers of a value that was read *)
Fixpoint numbers (v : value) : Prop :=
  match v with
  | VNum y => exists x, numlit_ok x /\ number_means x y
  | VArr l => allP numbers l
  | VObj m => allP (fun '(_, x) => numbers x) m
  | _ => True
  end.
Lemma means_numbers : forall n r v, means n r v -> well r -> numbers v.
Proof.
  fix IH 4. intros n r v H. destruct H as [n|n b|n x y Hy|n b s Hs|n l vs Hl|n l ms m Hf Hl Hm|n k b t r v Hk Hb Hd Hv]; cbn [well numbers]; intros B; try exact I.
  - exists x. auto.
  - revert B. induction Hl as [|x y l vs Hx Hl IHl]; cbn [allP]; [trivial|]. intros [B1 B2]. split; [exact (IH _ _ _ Hx B1)|exact (IHl B2)].
  - assert (P : allP (fun '(k, x) => numbers x) ms).
    { clear Hf Hm m. revert B. induction Hl as [|[k x] [k' y] l ms Hx Hl IHl]; cbn [allP]; [trivial|]. intros [[Bk B1] B2]. cbn [fst snd] in Hx. destruct Hx as [Hk Hx].
      split; [exact (IH _ _ _ Hx B1)|exact (IHl B2)]. }
    rewrite allP_Forall, Forall_forall in P. rewrite allP_Forall, Forall_forall. intros [k x] Hin. destruct Hm as [_ Hm]. apply Hm in Hin as (pre & post & -> & _).
    apply (P (k, x)). apply in_elt.
  - apply (IH _ _ _ Hv). exact (jdoc_well r t Hd).
Qed.
Lemma byte_number c : exists x, numlit_ok x /\ number_means x (NPos (bN c)).
Proof.
  exists (int_lit false (bN c)). split; [apply int_lit_ok|]. apply num_exact; [apply int_lit_ok|]. apply u8_num.
Qed.
Lemma filled_numbers bl : forall v v', filled bl v v' -> numbers v -> numbers v'.
Proof.
  fix IH 3. intros v v' H. destruct H as [|b|n|s|l l' Hl|m m' Hn Hl|m k b Hk Hg Hb]; cbn [numbers]; auto.
  - induction Hl as [|x y l l' Hx Hl IHl]; cbn [allP]; [trivial|]. intros [B1 B2]. split; [exact (IH _ _ Hx B1)|exact (IHl B2)].
  - clear Hn. induction Hl as [|[k x] [k' y] l l' Hx Hl IHl]; cbn [allP]; [trivial|]. intros [B1 B2]. cbn [fst snd] in Hx. destruct Hx as [-> Hx].
    split; [exact (IH _ _ Hx B1)|exact (IHl B2)].
  - intros _. unfold byte_array. cbn [numbers]. rewrite allP_Forall. apply Forall_map. apply Forall_forall. intros c _. exact (byte_number c).
Qed.
Lemma argument_numbers m t l g v : sub_deref_str m = Some t -> Forall emsg_ok l -> argument_of m l g -> to_json_value g = Ok v -> numbers v.
Proof.
  intros Hm Hl Hg H. destruct (argument_value_exact m t l g Hm Hl Hg) as (r & bl & Hr & _ & _ & E). destruct (proj1 (E v) H) as (v0 & Hv & D).
  pose proof (means_numbers _ _ _ Hv (proj1 jvalue_well _ _ Hr)) as S.
  destruct D as [[_ ->]|[_ F]]; [exact S|]. exact (filled_numbers _ _ _ F S).
Qed.

(** ** The text of a value *)
Lemma one_line_app a b : one_line a -> one_line b -> one_line (a ++ b).
Proof. intros; apply Forall_app; auto. Qed.
Lemma one_line_check s : forallb (fun c => (32 <=? bN c)%N) s = true -> one_line s.
Proof. intros H. apply Forall_forall. intros c Hc. rewrite forallb_forall in H. apply N.leb_le. auto. Qed.
Lemma digit_line c : is_digit c = true -> (32 <= bN c)%N.
Proof.
  intros H. assert (X : (negb (is_digit c) || (32 <=? bN c)%N) = true) by (apply (byte_forall (fun c => negb (is_digit c) || (32 <=? bN c)%N)); vm_compute; reflexivity).
  rewrite H in X. apply N.leb_le. exact X.
Qed.
Lemma digits_line ds : digits ds -> one_line ds.
Proof. intros [_ H]. apply (Forall_impl _ digit_line H). Qed.
Lemma int_line ds : int_part ds -> one_line ds.
Proof. intros [->|[H _]]; [apply one_line_check; reflexivity|apply digits_line; exact H]. Qed.
Lemma numlit_line x : numlit_ok x -> one_line (numlit_text x).
Proof.
  intros (H1 & H2 & H3). rewrite numlit_text_eq. destruct x as [ng i f e]. cbn [nl_neg nl_int nl_frac nl_exp] in *.
  apply one_line_app; [destruct ng; apply one_line_check; reflexivity|]. apply one_line_app; [apply int_line; exact H1|].
  apply one_line_app.
  - destruct f as [f|]; [|constructor]. constructor; [vm_compute; discriminate|]. apply digits_line. exact H2.
  - destruct e as [[[c sg] d]|]; [|constructor]. destruct H3 as (Hc & Hs & Hd). constructor.
    + destruct Hc as [<-|[<-|[]]]; vm_compute; discriminate.
    + apply one_line_app; [|apply digits_line; exact Hd]. destruct Hs as [<-|[<-|[<-|[]]]]; apply one_line_check; reflexivity.
Qed.
Lemma hex_line h : is_hex h = true -> (32 <= bN h)%N.
Proof.
  intros H. assert (X : (negb (is_hex h) || (32 <=? bN h)%N) = true) by (apply (byte_forall (fun c => negb (is_hex c) || (32 <=? bN c)%N)); vm_compute; reflexivity).
  rewrite H in X. apply N.leb_le. exact X.
Qed.
Lemma body_line b : jbody b -> one_line b.
Proof.
  induction 1 as [|c b H1 H2 H3 _ IH|e b He _ IH|h1 h2 h3 h4 b Hh _ IH]; [constructor|constructor; assumption|..].
  - constructor; [vm_compute; discriminate|]. constructor; [|exact IH].
    repeat (destruct He as [<-|He]; [vm_compute; discriminate|]). destruct He.
  - constructor; [vm_compute; discriminate|]. constructor; [vm_compute; discriminate|].
    do 4 (constructor; [apply hex_line; exact (Forall_inv Hh)|apply Forall_inv_tail in Hh]). exact IH.
Qed.
Lemma str_line s : one_line (json_str s).
Proof.
  constructor; [vm_compute; discriminate|]. apply one_line_app; [apply body_line, escape_body|apply one_line_check; reflexivity].
Qed.
Lemma seps_line ts : Forall one_line ts -> forall first, one_line (seps first ts).
Proof.
  induction 1 as [|t ts H _ IH]; intros first; [constructor|]. cbn [seps]. apply one_line_app; [destruct first; apply one_line_check; reflexivity|].
  apply one_line_app; [exact H|apply IH].
Qed.
Lemma text_arr l : value_text (VArr l) = "["%byte :: seps true (map value_text l) ++ ["]"%byte].
Proof.
  cbn [value_text]. f_equal. f_equal. generalize true. induction l as [|x l IH]; intros f; [reflexivity|]. cbn [map seps]. rewrite IH. destruct f; reflexivity.
Qed.
Lemma text_obj m : value_text (VObj m) = "{"%byte :: seps true (map (fun kx => json_str (fst kx) ++ ":"%byte :: value_text (snd kx)) m) ++ ["}"%byte].
Proof.
  cbn [value_text]. f_equal. f_equal. generalize true. induction m as [|[k x] l IH]; intros f; [reflexivity|]. cbn [map seps fst snd]. rewrite IH.
  destruct f; cbn [comma_unless app]; rewrite <- !app_assoc; reflexivity.
Qed.
Lemma escape_means s : string_means (escape s) s.
Proof. apply unescape_exact; [apply escape_body|apply unescape_escape]. Qed.
Lemma numlit_spelled x y : numlit_ok x -> number_means x y -> exists i, jvalue (RNum i) (num_text y) /\ number_means i y.
Proof.
  intros Hx Hy. destruct Hy as [x Hu|x Hi|x H1 H2 H3]; cbn [num_text].
  - exists (int_lit false (Z.to_N (magnitude (nl_int x)))). split; [rewrite <- int_lit_text; apply jv_num, int_lit_ok|].
    apply num_exact; [apply int_lit_ok|]. apply num_of_nat. destruct Hu as (_ & _ & Hu). unfold u64_max. lia.
  - destruct Hi as (_ & _ & Hi). set (z := magnitude (nl_int x)) in *. clearbody z.
    exists (int_lit true (Z.to_N z)). split.
    + replace (decZ (- z)) with (numlit_text (int_lit true (Z.to_N z))); [apply jv_num, int_lit_ok|].
      rewrite decZ_text. replace (- z <? 0)%Z with true by (symmetry; apply Z.ltb_lt; lia). rewrite Z.abs_opp, Z.abs_eq by lia. reflexivity.
    + apply num_exact; [apply int_lit_ok|]. rewrite num_of_neg by lia. rewrite Z2N.id by lia. reflexivity.
  - exists x. split; [apply jv_num; exact Hx|]. apply nm_double; assumption.
Qed.
Lemma value_spelled v : numbers v -> spells v (value_text v) /\ one_line (value_text v).
Proof.
  unfold spells. induction v as [|b|y|s|l IH|m IH] using value_ind'; intros Hn.
  - split; [exists RNull; split; constructor|apply one_line_check; reflexivity].
  - split; [exists (RBool b); split; [destruct b|]; constructor|destruct b; apply one_line_check; reflexivity].
  - destruct Hn as (x & Hx & Hy). destruct (numlit_spelled x y Hx Hy) as (i & J & E). split.
    + exists (RNum i). split; [exact J|constructor; exact E].
    + cbn [value_text]. inversion J as [| | |n Hn Hi Ht| | | | |]; subst. apply numlit_line. exact Hn.
  - split; [|apply str_line]. exists (RStr (escape s)). split; [apply json_str_value|]. constructor. apply escape_means.
  - rewrite text_arr.
    assert (exists rs, Forall2 jvalue rs (map value_text l) /\ Forall2 denotes rs l /\ Forall one_line (map value_text l)) as (rs & J & D & O).
    { cbn [numbers] in Hn. induction IH as [|x l H1 _ IH']; [exists []; repeat split; constructor|]. destruct Hn as [N1 N2].
      destruct (H1 N1) as [(r & J & D) O]. destruct (IH' N2) as (rs & J' & D' & O'). exists (r :: rs). cbn [map]. repeat split; constructor; assumption. }
    split; [exists (RArr rs); split; [apply jarr_seps; exact J|constructor; exact D]|].
    constructor; [vm_compute; discriminate|]. apply one_line_app; [apply seps_line; exact O|apply one_line_check; reflexivity].
  - rewrite text_obj.
    assert (exists rs, Forall2 jmember rs (map (fun kx => json_str (fst kx) ++ ":"%byte :: value_text (snd kx)) m) /\
      Forall2 (fun a b => string_means (fst a) (fst b) /\ denotes (snd a) (snd b)) rs m /\
      Forall one_line (map (fun kx => json_str (fst kx) ++ ":"%byte :: value_text (snd kx)) m)) as (rs & J & D & O).
    { cbn [numbers] in Hn. induction IH as [|[k x] m H1 _ IH']; [exists []; repeat split; constructor|]. destruct Hn as [N1 N2]. cbn [snd] in H1.
      destruct (H1 N1) as [(r & J & D) O]. destruct (IH' N2) as (rs & J' & D' & O'). exists ((escape k, r) :: rs). cbn [map fst snd].
      repeat split; constructor; try assumption.
      - exists (value_text x). cbn [fst snd]. split; [unfold json_str; cbn [app]; rewrite <- app_assoc; reflexivity|]. split; [apply escape_body|exact J].
      - cbn [fst snd]. split; [apply escape_means|exact D].
      - apply one_line_app; [apply str_line|]. constructor; [vm_compute; discriminate|exact O]. }
    split; [exists (RObj rs); split; [apply jobj_seps; exact J|constructor; exact D]|].
    constructor; [vm_compute; discriminate|]. apply one_line_app; [apply seps_line; exact O|apply one_line_check; reflexivity].
Qed.

(** ** The arguments *)
Lemma shown_list l : forall first s, show_arg_list first l = Some s -> (forall g v, In g l -> to_json_value g = Ok v -> numbers v) ->
  exists vs rs, Forall2 (fun g v => to_json_value g = Ok v) l vs /\ Forall2 denotes rs vs /\ one_line s /\
    (rs = [] /\ s = [] \/ exists t, s = (if first then [] else [","%byte]) ++ t /\ jelems rs t).
Proof.
  induction l as [|g l IH]; intros first s; cbn [show_arg_list].
  - intros [= <-] _. exists [], []. repeat split; try constructor. auto.
  - unfold show_arg. destruct (to_json_value g) as [v| |] eqn:E; try discriminate. destruct (show_arg_list false l) as [q|] eqn:Eq; [|discriminate].
    intros [= <-] Hn. destruct (IH false q Eq (fun g' v' Hi => Hn g' v' (or_intror Hi))) as (vs & rs & V & D & O & T).
    destruct (value_spelled v (Hn g v (or_introl eq_refl) E)) as [(r & J & Dv) Ov].
    exists (v :: vs), (r :: rs). split; [constructor; assumption|]. split; [constructor; assumption|]. split.
    + apply one_line_app; [destruct first; apply one_line_check; reflexivity|]. apply one_line_app; assumption.
    + right. exists ((if first then [] else [x20]) ++ value_text v ++ q). split; [destruct first; reflexivity|].
      assert (W : ws (if first then [] else [x20])) by (destruct first; repeat constructor; cbn; auto).
      destruct T as [(-> & ->)|(t & -> & Ht)].
      * apply je_one; auto using ws_nil.
      * apply (je_cons r (value_text v) _ [] rs t); auto using ws_nil.
Qed.
Lemma shown_args a s l : args_iter a = Ok l -> show_args a = Some s -> (forall g v, In g l -> to_json_value g = Ok v -> numbers v) ->
  exists vs, Forall2 (fun g v => to_json_value g = Ok v) l vs /\ spells (VArr vs) s /\ one_line s.
Proof.
  intros Hl. unfold show_args. rewrite Hl. destruct (show_arg_list true l) as [u|] eqn:E; [|discriminate]. intros [= <-] Hn.
  destruct (shown_list l true u E Hn) as (vs & rs & V & D & O & T). exists vs. split; [exact V|]. split.
  - exists (RArr rs). split; [|constructor; exact D]. destruct T as [(-> & ->)|(t & -> & Ht)]; [apply (jv_arr0 []), ws_nil|apply jv_arr; exact Ht].
  - constructor; [vm_compute; discriminate|]. apply one_line_app; [exact O|apply one_line_check; reflexivity].
Qed.
Lemma F2_nth {A B} (P : A -> B -> Prop) l l' : Forall2 P l l' -> forall i y, nth_error l' i = Some y -> exists x, nth_error l i = Some x /\ P x y.
Proof. induction 1 as [|x y l l' H _ IH]; intros [|i] z; cbn [nth_error]; try discriminate; [intros [= <-]; eauto|apply IH]. Qed.
Lemma dec_decimal n : in_decimal n (dec n).
Proof. split; [apply dec_int_part|]. rewrite magnitude_undec, undec_dec by apply dec_digits. reflexivity. Qed.
Lemma some_same {A} (x y : A) : Some x = Some y -> y = x.
Proof. congruence. Qed.
Ltac lines := repeat match goal with |- one_line (_ ++ _) => apply one_line_app end; try assumption; try (apply one_line_check; reflexivity).
Lemma display_says m t l p s : sub_deref_str m = Some t -> Forall emsg_ok l -> received m l p -> show_packet p = Some s ->
  exists d vs, packet_data p = Some d /\ argument_values d vs /\ shown d vs s /\ one_line s.
Proof.
  intros Hm Hl Hr Hs. destruct (accessors_ok m t l p Hm Hl Hr) as (_ & d & Hd & Hacc). exists d.
  unfold show_packet in Hs. rewrite Hd in Hs.
  assert (K : forall a u, data_args d = Some a -> show_args a = Some u ->
    exists vs, argument_values d vs /\ spells (VArr vs) u /\ one_line u).
  { intros a u Ha Hu. destruct (Hacc a Ha) as (Hlen & (gs & Hgs) & _). pose proof (args_iter_get a gs Hgs) as Hget.
    assert (El : forall i, args_len a <= i <-> length gs <= i).
    { intros i. destruct (Hlen i) as (o & Ho & E). rewrite Hget in Ho. injection Ho as <-. rewrite <- E. apply nth_error_None. }
    destruct (shown_args a u gs Hgs Hu) as (vs & V & S & O).
    - intros g v Hin Hv. apply In_nth_error in Hin as (i & Hi). apply (argument_numbers m t l g v Hm Hl); [|exact Hv].
      exists p, d, a, i. rewrite Hget, Hi. auto.
    - exists vs. split; [|auto]. unfold argument_values. rewrite Ha. split.
      + rewrite <- (Forall2_len _ _ _ V). pose proof (El (length gs)). pose proof (El (args_len a)). lia.
      + intros i v Hi. destruct (F2_nth _ _ _ V i v Hi) as (g & Hg & Hv). exists g. rewrite Hget, Hg. auto. }
  destruct d as [| |id a|id a].
  - injection Hs as <-. exists []. split; [exact Hd|]. split; [reflexivity|]. split; [constructor|apply one_line_check; reflexivity].
  - injection Hs as <-. exists []. split; [exact Hd|]. split; [reflexivity|]. split; [constructor|apply one_line_check; reflexivity].
  - destruct (show_args a) as [u|] eqn:Eu; [|discriminate]. apply some_same in Hs. subst s. destruct (K a u eq_refl Eu) as (vs & V & S & O). exists vs.
    split; [exact Hd|]. split; [exact V|]. destruct id as [n|].
    + pose proof (dec_decimal n) as Hn. split; [|unfold show_opt_id; lines; apply int_line, Hn].
      unfold show_opt_id. rewrite <- !app_assoc. exact (sh_event_id n (dec n) a vs u Hn S).
    + split; [|unfold show_opt_id; lines]. exact (sh_event a vs u S).
  - destruct (show_args a) as [u|] eqn:Eu; [|discriminate]. apply some_same in Hs. subst s. destruct (K a u eq_refl Eu) as (vs & V & S & O). exists vs.
    split; [exact Hd|]. split; [exact V|]. pose proof (dec_decimal id) as Hn.
    split; [exact (sh_ack id (dec id) a vs u Hn S)|]. lines. apply int_line, Hn.
Qed.

(** ** The text tells the packets apart *)
Lemma denotes_unique : forall r v, denotes r v -> well r -> forall v', denotes r v' -> v = v'.
Proof.
  fix IH 3. intros r v H. destruct H as [|b|x y Hy|b s Hs|l vs Hl|l m Hl]; cbn [well]; intros W v' H'; inversion H' as [|? |? ? Hy'|? ? Hs'|? ? Hl'|? ? Hl']; subst; try reflexivity.
  - apply num_exact in Hy, Hy'; [congruence|assumption..].
  - apply means_unescape in Hs, Hs'. congruence.
  - f_equal. clear H'. revert W l0 Hl' || revert W vs0 Hl'. induction Hl as [|x y l vs Hx Hl IHl]; intros W vs' Hl'; inversion Hl' as [|? y' ? vs'' Hx' Hl'']; subst; [reflexivity|].
    destruct W as [W1 W2]. f_equal; [exact (IH _ _ Hx W1 _ Hx')|exact (IHl W2 _ Hl'')].
  - f_equal. clear H'. revert W m0 Hl'. induction Hl as [|[k x] [k1 y] l m Hx Hl IHl]; intros W m' Hl'; inversion Hl' as [|? [k2 y'] ? m'' Hx' Hl'']; subst; [reflexivity|].
    destruct W as [[_ W1] W2]. cbn [fst snd] in *. destruct Hx as [Hk Hx]. destruct Hx' as [Hk' Hx']. f_equal; [|exact (IHl W2 _ Hl'')].
    f_equal; [apply means_unescape in Hk, Hk'; congruence|exact (IH _ _ Hx W1 _ Hx')].
Qed.
Lemma spells_unique v v' t : spells v t -> spells v' t -> v = v'.
Proof.
  intros (r & J & D) (r' & J' & D'). assert (r' = r) as -> by (apply (jdoc_unique t); apply jvalue_doc; assumption).
  apply (denotes_unique r); [exact D|exact (proj1 jvalue_well _ _ J)|exact D'].
Qed.
Lemma digits_split ds ds' c c' a a' : forallb is_digit ds = true -> forallb is_digit ds' = true -> is_digit c = false -> is_digit c' = false ->
  ds ++ c :: a = ds' ++ c' :: a' -> ds = ds' /\ c = c' /\ a = a'.
Proof.
  revert ds'. induction ds as [|x ds IH]; intros [|y ds'] H H' Hc Hc' E; cbn [app] in E; injection E.
  - auto.
  - intros _ ->. cbn in H'. rewrite Hc in H'. discriminate.
  - intros _ <-. cbn in H. rewrite Hc' in H. discriminate.
  - intros E' ->. cbn [forallb] in H, H'. apply andb_true_iff in H as [_ H]. apply andb_true_iff in H' as [_ H'].
    destruct (IH ds' H H' Hc Hc' E') as (-> & -> & ->). auto.
Qed.
Lemma decimal_digits n ds : in_decimal n ds -> forallb is_digit ds = true.
Proof. intros [H _]. apply int_digits. exact H. Qed.
Lemma decimal_unique n n' ds : in_decimal n ds -> in_decimal n' ds -> n = n'.
Proof. intros [_ H] [_ H']. lia. Qed.
Lemma shown_injective d vs s d' vs' : shown d vs s -> shown d' vs' s -> heading d = heading d' /\ vs = vs'.
Proof.
  intros H H'. destruct H as [| |a vs u S|n ds a vs u Hn S|n ds a vs u Hn S]; inversion H' as [E|E|a' w u' S' E1 E2 E|n' ds' a' w u' Hn' S' E1 E2 E|n' ds' a' w u' Hn' S' E1 E2 E]; subst; clear H'; try (split; reflexivity);
    try discriminate E; try discriminate; cbn [heading].
  - apply app_inv_tail in E. subst u'. split; [reflexivity|]. pose proof (spells_unique _ _ _ S S') as X. congruence.
  - apply digits_split in E as (-> & _ & E); [|eapply decimal_digits; eassumption..|reflexivity|reflexivity].
    rewrite (decimal_unique _ _ _ Hn Hn'). split; [reflexivity|]. apply (app_inv_head (bs ", args: ") (u' ++ bs " }") (u ++ bs " }")) in E. apply app_inv_tail in E. subst u'.
    pose proof (spells_unique _ _ _ S S') as X. congruence.
  - apply digits_split in E as (-> & _ & E); [|eapply decimal_digits; eassumption..|reflexivity|reflexivity].
    rewrite (decimal_unique _ _ _ Hn Hn'). split; [reflexivity|]. apply (app_inv_head (bs " args: ") (u' ++ bs " }") (u ++ bs " }")) in E. apply app_inv_tail in E. subst u'.
    pose proof (spells_unique _ _ _ S S') as X. congruence.
Qed.
Lemma display_tells m t l p m' t' l' p' s :
  sub_deref_str m = Some t -> Forall emsg_ok l -> received m l p ->
  sub_deref_str m' = Some t' -> Forall emsg_ok l' -> received m' l' p' ->
  show_packet p = Some s -> show_packet p' = Some s ->
  exists d d' vs, packet_data p = Some d /\ packet_data p' = Some d' /\ heading d = heading d' /\
    argument_values d vs /\ argument_values d' vs.
Proof.
  intros H1 H2 H3 H1' H2' H3' Hs Hs'. destruct (display_says _ _ _ _ _ H1 H2 H3 Hs) as (d & vs & Hd & V & S & _).
  destruct (display_says _ _ _ _ _ H1' H2' H3' Hs') as (d' & vs' & Hd' & V' & S' & _).
  destruct (shown_injective _ _ _ _ _ S S') as [E ->]. exists d, d', vs'. auto.
Qed.
