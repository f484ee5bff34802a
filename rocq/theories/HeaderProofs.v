(** [parse_header] (what the regular expression captures) is exactly [reads_as]. *)
From Verif Require Export RegexProofs JsonProofs EngineProofs SpecSocket.

Definition otext (o : option bytes) : bytes := opt_text (fun x => x) o.
Lemma no_nl_spec s : no_nl s = true <-> no_newline s.
Proof.
  unfold no_nl, no_newline. rewrite forallb_forall. split.
  - intros H Hin. apply H in Hin. discriminate.
  - intros H c Hc. unfold any_no_nl. destruct (c =b x0a) eqn:E; [|reflexivity].
    apply byte_eqb_eq in E. subst. contradiction.
Qed.
Lemma bracketed_spec s : bracketed s = true <-> (exists b, s = "["%byte :: b ++ ["]"%byte]) /\ no_newline s.
Proof.
  unfold bracketed. destruct s as [|c r].
  - split; [discriminate|]. intros [[b H] _]. discriminate.
  - split.
    + intros H. apply andb_true_iff in H as [H H3]. apply andb_true_iff in H as [H1 H2].
      apply byte_eqb_eq in H1, H3. subst c. split.
      * destruct r as [|d r] using rev_ind; [discriminate|]. rewrite last_last in H3. subst. eauto.
      * intros [?|Hin]; [discriminate|]. apply no_nl_spec in H2. contradiction.
    + intros [[b [= -> ->]] Hn]. rewrite byte_eqb_refl. cbn [andb].
      rewrite last_last, byte_eqb_refl, andb_true_r. apply no_nl_spec. intros Hin. apply Hn. right. exact Hin.
Qed.
Lemma bracketed_head s : bracketed s = true -> exists r, s = "["%byte :: r.
Proof. intros H. apply bracketed_spec in H as [[b ->] _]. eauto. Qed.

Lemma take_num_app d r : canon_dec d = true -> match r with c :: _ => is_digit c = false | [] => True end ->
  take_num (d ++ r) = Some (d, r).
Proof.
  intros Hd Hr. unfold take_num. rewrite span_make by (try apply canon_dec_digits; assumption).
  rewrite Hd. reflexivity.
Qed.
Lemma take_num_nodigit s : match s with c :: _ => is_digit c = false | [] => True end -> take_num s = None.
Proof.
  intros H. unfold take_num. destruct s as [|c s]; [reflexivity|]. cbn [span]. rewrite H. reflexivity.
Qed.
Definition canon_o (o : option bytes) : Prop := forall d, o = Some d -> canon_dec d = true.
Definition args_o (o : option bytes) : Prop := forall d, o = Some d -> bracketed d = true.

Lemma args_head_nodigit args : args_o args -> match otext args with c :: _ => is_digit c = false | [] => True end.
Proof.
  intros Ha. destruct args as [a|]; cbn; [|exact I].
  destruct (bracketed_head a (Ha a eq_refl)) as [r ->]. reflexivity.
Qed.
Lemma parse_tail_spec s id args : parse_tail s = Some (id, args) <->
  s = otext id ++ otext args /\ canon_o id /\ args_o args.
Proof.
  unfold parse_tail. split.
  - destruct (take_num s) as [[d r]|] eqn:E; cbn [fst snd].
    + apply take_num_some in E as (-> & Hd & _).
      assert (C : canon_o (Some d)) by (intros d' [= <-]; exact Hd).
      destruct r as [|c r].
      * intros [= <- <-]. repeat split; [exact C | intros d' [=]].
      * destruct (bracketed (c :: r)) eqn:Eb; [|discriminate]. intros [= <- <-].
        repeat split; [exact C | intros d' [= <-]; exact Eb].
    + destruct s as [|c r].
      * intros [= <- <-]. repeat split; intros d' [=].
      * destruct (bracketed (c :: r)) eqn:Eb; [|discriminate]. intros [= <- <-].
        repeat split; [intros d' [=] | intros d' [= <-]; exact Eb].
  - intros (-> & Hc & Ha). pose proof (args_head_nodigit args Ha) as Hh.
    assert (R : match otext args with [] => Some (id, None)
                | _ => if bracketed (otext args) then Some (id, Some (otext args)) else None end = Some (id, args)).
    { destruct args as [a|]; cbn; [|reflexivity]. pose proof (Ha a eq_refl) as H.
      destruct (bracketed_head a H) as [r ->]. rewrite H. reflexivity. }
    destruct id as [d|]; cbn [otext opt_text app].
    + rewrite take_num_app by (auto; exact Hh). cbn [fst snd].
      destruct (otext args); exact R.
    + rewrite take_num_nodigit by exact Hh. cbn [fst snd]. destruct (otext args); exact R.
Qed.

(** Candidates for the namespace inside [s]. *)
Definition ns_cand (s x : bytes) (t : option bytes * option bytes) : Prop :=
  exists r, s = x ++ ","%byte :: r /\ no_newline x /\ parse_tail r = Some t.
Lemma no_newline_cons c s : any_no_nl c = true -> no_newline s -> no_newline (c :: s).
Proof. intros Hc Hs [->|H]; [discriminate|contradiction]. Qed.
Lemma no_newline_inv c s : no_newline (c :: s) -> any_no_nl c = true /\ no_newline s.
Proof.
  intros H. split.
  - unfold any_no_nl. destruct (c =b x0a) eqn:E; [|reflexivity]. apply byte_eqb_eq in E. subst.
    exfalso. apply H. left. reflexivity.
  - intros Hin. apply H. right. exact Hin.
Qed.
Lemma ns_find_sound s : forall x t, ns_find s = Some (x, t) -> ns_cand s x t.
Proof.
  induction s as [|c s IH]; intros x t; cbn [ns_find]; [discriminate|].
  destruct (any_no_nl c) eqn:Ec.
  - destruct (ns_find s) as [[x' t']|] eqn:E.
    + intros [= <- <-]. destruct (IH _ _ eq_refl) as (r & -> & Hn & Ht). exists r.
      repeat split; [|exact Ht]. apply no_newline_cons; assumption.
    + destruct (c =b ",") eqn:E1; [|discriminate]. apply byte_eqb_eq in E1. subst.
      destruct (parse_tail s) eqn:Et; [|discriminate]. intros [= <- <-].
      exists s. repeat split; [intros []|exact Et].
  - destruct (c =b ",") eqn:E1; [|discriminate]. apply byte_eqb_eq in E1. subst. discriminate.
Qed.
Lemma ns_find_max s : forall x t, ns_cand s x t ->
  exists x' t', ns_find s = Some (x', t') /\ length x <= length x' /\ (length x = length x' -> x = x' /\ t = t').
Proof.
  induction s as [|c s IH]; intros x t (r & Es & Hn & Ht); [destruct x; discriminate|].
  cbn [ns_find]. destruct x as [|d x].
  - cbn in Es. injection Es as -> ->. change (any_no_nl ",") with true. cbn iota.
    destruct (ns_find r) as [[x' t']|] eqn:E.
    + exists (","%byte :: x'), t'. split; [reflexivity|]. cbn [length]. split; [lia|discriminate].
    + rewrite byte_eqb_refl, Ht. exists [], t. auto.
  - cbn in Es. injection Es as -> Es. apply no_newline_inv in Hn as [Hc Hn]. rewrite Hc.
    destruct (IH x t) as (x' & t' & E & Hl & Hu); [exists r; auto|]. rewrite E.
    exists (d :: x'), t'. split; [reflexivity|]. cbn [length]. split; [lia|].
    intros Heq. destruct Hu as [-> ->]; [lia|]. auto.
Qed.

(** Header texts at the level of [hdr]. *)
Definition hdr_text (h : hdr) : bytes :=
  hd_kind h :: opt_text (fun d => d ++ ["-"%byte]) (hd_att h)
  ++ opt_text (fun x => x ++ [","%byte]) (hd_ns h) ++ otext (hd_id h) ++ otext (hd_args h).
Definition ns_o (o : option bytes) : Prop :=
  forall x, o = Some x -> (exists c r, x = "/"%byte :: c :: r) /\ no_newline x.
Definition hdr_ok (h : hdr) : Prop :=
  existsb (fun d => hd_kind h =b d) (bs "012356") = true /\
  canon_o (hd_att h) /\ ns_o (hd_ns h) /\ canon_o (hd_id h) /\ args_o (hd_args h).

Lemma tail_text_head id args : canon_o id -> args_o args ->
  match otext id ++ otext args with [] => True | c :: _ => (c =b "/") = false end.
Proof.
  intros Hc Ha. destruct id as [d|]; cbn.
  - specialize (Hc d eq_refl). destruct d as [|c d]; [discriminate|]. cbn.
    apply canon_dec_digits in Hc. cbn [forallb] in Hc. apply andb_true_iff in Hc as [Hc _].
    apply byte_eqb_neq. intros ->. discriminate.
  - destruct args as [a|]; cbn; [|exact I]. destruct (bracketed_head a (Ha a eq_refl)) as [r ->]. reflexivity.
Qed.
Lemma parse_ns_sound s ns id args : parse_ns s = Some (ns, (id, args)) ->
  s = opt_text (fun x => x ++ [","%byte]) ns ++ otext id ++ otext args /\ ns_o ns /\ canon_o id /\ args_o args.
Proof.
  assert (T : forall s, match parse_tail s with Some t => Some (@None bytes, t) | None => None end = Some (ns, (id, args)) ->
    s = opt_text (fun x => x ++ [","%byte]) ns ++ otext id ++ otext args /\ ns_o ns /\ canon_o id /\ args_o args).
  { clear s. intros s. destruct (parse_tail s) as [t|] eqn:E; [|discriminate]. intros [= <- ->].
    apply parse_tail_spec in E as (-> & Hc & Ha). repeat split; try assumption; discriminate. }
  unfold parse_ns. destruct s as [|c [|d r]]; try apply T.
  destruct ((c =b "/") && any_no_nl d) eqn:E; [|apply T].
  apply andb_true_iff in E as [E1 E2]. apply byte_eqb_eq in E1. subst c.
  destruct (ns_find r) as [[x t]|] eqn:Ef; [|discriminate]. intros [= <- ->].
  apply ns_find_sound in Ef as (r' & -> & Hn & Ht). apply parse_tail_spec in Ht as (-> & Hc & Ha).
  cbn [opt_text]. repeat split; try assumption.
  - repeat (rewrite <- ?app_assoc; cbn [app]). reflexivity.
  - injection H as <-. eauto.
  - injection H as <-. apply no_newline_cons; [reflexivity|]. apply no_newline_cons; assumption.
Qed.
Lemma parse_ns_max ns id args : ns_o ns -> canon_o id -> args_o args ->
  exists ns' id' args',
    parse_ns (opt_text (fun x => x ++ [","%byte]) ns ++ otext id ++ otext args) = Some (ns', (id', args')) /\
    length (otext ns) <= length (otext ns') /\
    (length (otext ns) = length (otext ns') -> ns = ns' /\ id = id' /\ args = args').
Proof.
  intros Hn Hc Ha.
  assert (Pt : parse_tail (otext id ++ otext args) = Some (id, args)) by (apply parse_tail_spec; auto).
  destruct ns as [x|]; cbn [opt_text].
  - destruct (Hn x eq_refl) as [(c & r & ->) Hnl].
    apply no_newline_inv in Hnl as [_ Hnl]. apply no_newline_inv in Hnl as [Hc' Hnl].
    cbn [app parse_ns]. rewrite byte_eqb_refl, Hc'. cbn [andb].
    destruct (ns_find_max ((r ++ [","%byte]) ++ otext id ++ otext args) r (id, args)) as (x' & [id' args'] & E & Hl & Hu).
    { eexists. rewrite <- app_assoc. split; [reflexivity|]. auto. }
    rewrite E. exists (Some ("/"%byte :: c :: x')), id', args'. split; [reflexivity|]. cbn. split; [lia|].
    intros Heq. destruct Hu as [-> [= -> ->]]; [lia|]. auto.
  - cbn [app]. exists None, id, args. split; [|split; [cbn; lia|auto]].
    pose proof (tail_text_head id args Hc Ha) as Hh.
    unfold parse_ns. destruct (otext id ++ otext args) as [|c [|d r]]; try (rewrite Pt; reflexivity).
    rewrite Hh. cbn [andb]. rewrite Pt. reflexivity.
Qed.
Lemma take_att_some d r : canon_dec d = true -> take_att (d ++ "-"%byte :: r) = (Some d, r).
Proof. intros H. unfold take_att. rewrite take_num_app by (exact H || reflexivity). reflexivity. Qed.
Lemma take_att_sound s a r : take_att s = (a, r) ->
  s = opt_text (fun d => d ++ ["-"%byte]) a ++ r /\ canon_o a.
Proof.
  unfold take_att. destruct (take_num s) as [[d [|c r']]|] eqn:E;
    try (intros [= <- <-]; split; [reflexivity|intros ? [=]]).
  apply take_num_some in E as (-> & Hd & _). destruct (c =b "-") eqn:Ec.
  - apply byte_eqb_eq in Ec. subst. intros [= <- <-]. cbn [opt_text]. rewrite <- app_assoc.
    split; [reflexivity|]. intros ? [= <-]. exact Hd.
  - intros [= <- <-]. split; [reflexivity|intros ? [=]].
Qed.
Lemma take_att_none s : (forall d r, s = d ++ "-"%byte :: r -> canon_dec d = true -> False) -> take_att s = (None, s).
Proof.
  intros H. unfold take_att. destruct (take_num s) as [[d [|c r']]|] eqn:E; try reflexivity.
  apply take_num_some in E as (-> & Hd & _). destruct (c =b "-") eqn:Ec; [|reflexivity].
  apply byte_eqb_eq in Ec. subst. exfalso. eapply H; eauto.
Qed.
Lemma digits_split d d' (c : byte) r r' : forallb is_digit d = true -> forallb is_digit d' = true ->
  is_digit c = false -> match r' with x :: _ => is_digit x = false | [] => True end ->
  d ++ c :: r = d' ++ r' -> d = d' /\ c :: r = r'.
Proof.
  intros Hd Hd' Hc Hr' E.
  assert (S1 : span is_digit (d ++ c :: r) = (d, c :: r)) by (apply span_make; assumption).
  assert (S2 : span is_digit (d' ++ r') = (d', r')) by (apply span_make; assumption).
  rewrite E in S1. rewrite S1 in S2. injection S2 as -> ->. auto.
Qed.
Lemma no_dash_rest ns id args : ns_o ns -> canon_o id -> args_o args ->
  forall d r, opt_text (fun x => x ++ [","%byte]) ns ++ otext id ++ otext args = d ++ "-"%byte :: r ->
    canon_dec d = true -> False.
Proof.
  intros Hn Hc Ha d r E Hd.
  assert (Hnz : exists c0 d0, d = c0 :: d0 /\ is_digit c0 = true).
  { destruct d as [|c0 d0]; [discriminate|]. apply canon_dec_digits in Hd. cbn [forallb] in Hd.
    apply andb_true_iff in Hd as [Hd _]. eauto. }
  destruct Hnz as (c0 & d0 & -> & Hc0).
  destruct ns as [x|]; cbn [opt_text] in E.
  - destruct (Hn x eq_refl) as [(c & r0 & ->) _]. cbn in E. injection E as <- _. discriminate.
  - cbn [app] in E. destruct id as [d'|]; cbn [otext opt_text app] in E.
    + symmetry in E. change (c0 :: d0 ++ "-"%byte :: r) with ((c0 :: d0) ++ "-"%byte :: r) in E.
      apply digits_split in E as [E1 E2].
      * pose proof (args_head_nodigit args Ha). destruct args as [a|]; [|discriminate].
        cbn in E2. destruct (bracketed_head a (Ha a eq_refl)) as [r1 ->]. discriminate.
      * apply (canon_dec_digits (c0 :: d0)). exact Hd.
      * apply canon_dec_digits. auto.
      * reflexivity.
      * apply args_head_nodigit. exact Ha.
    + destruct args as [a|]; [|discriminate]. cbn in E.
      destruct (bracketed_head a (Ha a eq_refl)) as [r1 ->]. injection E as <- _. discriminate.
Qed.

Lemma parse_header_sound t h : parse_header t = Some h -> t = hdr_text h /\ hdr_ok h.
Proof.
  unfold parse_header. destruct t as [|c s]; [discriminate|].
  destruct (existsb _ _) eqn:Ek; [|discriminate].
  destruct (take_att s) as [a r] eqn:Ea. apply take_att_sound in Ea as [-> Hca].
  destruct (parse_ns r) as [[ns [id args]]|] eqn:En; [|discriminate]. intros [= <-].
  apply parse_ns_sound in En as (-> & Hn & Hc & Ha). split; [reflexivity|].
  unfold hdr_ok. cbn [hd_kind hd_att hd_ns hd_id hd_args]. auto.
Qed.
Lemma parse_header_max h : hdr_ok h -> exists h', parse_header (hdr_text h) = Some h' /\
  length (otext (hd_ns h)) <= length (otext (hd_ns h')) /\
  (length (otext (hd_ns h)) = length (otext (hd_ns h')) -> h = h').
Proof.
  destruct h as [k a ns id args]. intros (Hk & Hca & Hn & Hc & Ha).
  cbn [hd_kind hd_att hd_ns hd_id hd_args] in *. unfold parse_header, hdr_text.
  cbn [hd_kind hd_att hd_ns hd_id hd_args]. rewrite Hk.
  assert (E : take_att (opt_text (fun d => d ++ ["-"%byte]) a ++
     opt_text (fun x => x ++ [","%byte]) ns ++ otext id ++ otext args) =
     (a, opt_text (fun x => x ++ [","%byte]) ns ++ otext id ++ otext args)).
  { destruct a as [d|]; cbn [opt_text].
    - rewrite <- app_assoc. cbn [app]. apply take_att_some. auto.
    - cbn [app]. apply take_att_none. apply no_dash_rest; assumption. }
  rewrite E. destruct (parse_ns_max ns id args Hn Hc Ha) as (ns' & id' & args' & En & Hl & Hu).
  rewrite En. eexists. split; [reflexivity|]. cbn [hd_ns]. split; [exact Hl|].
  intros Heq. destruct (Hu Heq) as (-> & -> & ->). reflexivity.
Qed.

(** ** From [hdr] to [wire] *)
Definition hdr_of (w : wire) : hdr :=
  Hdr (type_digit (w_kind w)) (option_map dec (w_count w)) (w_ns w) (option_map dec (w_id w)) (w_args w).
Lemma hdr_of_text w : hdr_text (hdr_of w) = wire_text w.
Proof. destruct w as [k [c|] ns [id|] args]; reflexivity. Qed.
Lemma kind_of_type_digit k : kind_of_char (type_digit k) = Some k.
Proof. destruct k; reflexivity. Qed.
Lemma type_digit_of_kind c k : kind_of_char c = Some k -> type_digit k = c.
Proof.
  unfold kind_of_char.
  repeat match goal with |- context [c =b ?d] => let E := fresh in destruct (c =b d) eqn:E;
    [apply byte_eqb_eq in E; intros [= <-]; subst; reflexivity|] end. discriminate.
Qed.
Lemma hdr_of_ok w : wire_ok w -> hdr_ok (hdr_of w).
Proof.
  intros [H1 H2]. unfold hdr_ok. cbn [hdr_of hd_kind hd_att hd_ns hd_id hd_args]. repeat split.
  - destruct (w_kind w); reflexivity.
  - intros d H. destruct (w_count w); [|discriminate]. injection H as <-. apply canon_dec_dec.
  - apply (H1 x H).
  - apply (H1 x H).
  - intros d H. destruct (w_id w); [|discriminate]. injection H as <-. apply canon_dec_dec.
  - intros d H. apply bracketed_spec. apply H2. exact H.
Qed.
Lemma hdr_is_wire h : hdr_ok h -> exists w, h = hdr_of w /\ wire_ok w.
Proof.
  destruct h as [k a ns id args]. intros (Hk & Hca & Hn & Hc & Ha).
  cbn [hd_kind hd_att hd_ns hd_id hd_args] in *.
  assert (Ek : exists pk, type_digit pk = k).
  { apply existsb_exists in Hk as (d & Hd & E). apply byte_eqb_eq in E. subst d.
    vm_compute in Hd.
    destruct Hd as [<-|[<-|[<-|[<-|[<-|[<-|[]]]]]]];
      [exists PKConnect|exists PKDisconnect|exists PKEvent|exists PKAck|exists PKBinaryEvent|exists PKBinaryAck];
      reflexivity. }
  destruct Ek as [pk Ek].
  exists (Wire pk (option_map undec a) ns (option_map undec id) args). split.
  - unfold hdr_of. cbn [w_kind w_count w_ns w_id w_args]. rewrite Ek. f_equal.
    + destruct a as [d|]; [|reflexivity]. cbn [option_map]. rewrite dec_undec by auto. reflexivity.
    + destruct id as [d|]; [|reflexivity]. cbn [option_map]. rewrite dec_undec by auto. reflexivity.
  - split; cbn [w_ns w_args]; [exact Hn|]. intros x H. apply bracketed_spec. apply Ha. exact H.
Qed.
Lemma hdr_of_inj w w' : hdr_of w = hdr_of w' -> w = w'.
Proof.
  destruct w as [k c ns id args], w' as [k' c' ns' id' args']. unfold hdr_of. cbn. intros [= Hk Hc -> Hi ->].
  assert (k = k') by (destruct k, k'; (reflexivity || discriminate)). subst k'.
  assert (G : forall a b, option_map dec a = option_map dec b -> a = b).
  { intros [a|] [b|]; cbn; try discriminate; [|reflexivity]. intros [= H]. f_equal. apply dec_inj. exact H. }
  apply G in Hc, Hi. subst. reflexivity.
Qed.

Lemma reads_as_header t w : reads_as t w <-> parse_header t = Some (hdr_of w).
Proof.
  split.
  - intros (-> & Hok & Hmax). rewrite <- hdr_of_text.
    destruct (parse_header_max (hdr_of w) (hdr_of_ok w Hok)) as (h' & E & Hl & Hu).
    rewrite E. f_equal. symmetry. apply Hu. cbn [hdr_of hd_ns] in *.
    apply parse_header_sound in E as E'. destruct E' as [Et Hok'].
    destruct (hdr_is_wire h' Hok') as (w' & -> & Hw'). cbn [hdr_of hd_ns] in *.
    assert (Hm : ns_length w' <= ns_length w).
    { apply Hmax; [|exact Hw']. rewrite <- hdr_of_text, <- (hdr_of_text w'). exact Et. }
    unfold ns_length in Hm. unfold otext in *. lia.
  - intros E. pose proof (parse_header_sound _ _ E) as [Et Hok].
    destruct (hdr_is_wire _ Hok) as (w0 & E0 & Hw0). apply hdr_of_inj in E0. subst w0.
    rewrite hdr_of_text in Et. split; [exact Et|]. split; [exact Hw0|].
    intros w' Ew' Hw'. destruct (parse_header_max (hdr_of w') (hdr_of_ok w' Hw')) as (h' & E' & Hl & _).
    rewrite hdr_of_text, <- Ew', E in E'. injection E' as <-. cbn [hdr_of hd_ns] in Hl. exact Hl.
Qed.
Lemma reads_as_unique t w w' : reads_as t w -> reads_as t w' -> w = w'.
Proof. rewrite !reads_as_header. intros -> [= E]. apply hdr_of_inj. unfold hdr_of. congruence. Qed.
Lemma reads_as_some t : (exists w, reads_as t w) \/ (parse_header t = None /\ forall w, t = wire_text w -> ~ wire_ok w).
Proof.
  destruct (parse_header t) as [h|] eqn:E.
  - left. pose proof (parse_header_sound _ _ E) as [_ Hok]. destruct (hdr_is_wire _ Hok) as (w & -> & _).
    exists w. apply reads_as_header. exact E.
  - right. split; [reflexivity|]. intros w -> Hw.
    destruct (parse_header_max (hdr_of w) (hdr_of_ok w Hw)) as (h' & E' & _).
    rewrite hdr_of_text, E in E'. discriminate.
Qed.
