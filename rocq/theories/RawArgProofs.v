(** Proofs about arguments carried as texts (C79-C81). *)
From Verif Require Export SpecRawArg.
From Verif Require Import AdjacentProofs BuildFacts ReadProofs.

(** ** Reading *)
Lemma take_raw_value r t rest : jvalue r t -> num_follow rest = true -> take_raw (t ++ rest) = Some (t, rest).
Proof.
  intros Hj Hf. unfold take_raw. rewrite (jvalue_skip r t rest Hj).
  rewrite (scan_value_app r t [] rest Hj ws_nil Hf : scan_value (value_fuel (t ++ rest)) (t ++ rest) = _).
  rewrite app_length, Nat.add_sub, firstn_app, firstn_all, Nat.sub_diag. cbn [firstn]. rewrite app_nil_r. reflexivity.
Qed.
Lemma raw_from_str_exact s t : raw_from_str s = Some t <-> json_text t /\ exists w1 w2, ws w1 /\ ws w2 /\ s = w1 ++ t ++ w2.
Proof.
  split.
  - unfold raw_from_str, take_raw. destruct (skip_ws_split s) as (w & Hw & Es).
    destruct (scan_value _ _) as [[r rest]|] eqn:E; [|discriminate]. destruct (skip_ws rest) eqn:Er; [|discriminate]. intros [= <-].
    apply skip_ws_nil in Er. apply scan_value_nows in E as (t & Hj & E).
    + rewrite E, app_length, Nat.add_sub, firstn_app, firstn_all, Nat.sub_diag. cbn [firstn]. rewrite app_nil_r.
      split; [exists r; exact Hj|]. exists w, rest. rewrite <- E. auto.
    + destruct (skip_ws s) as [|c s'] eqn:Ek; [trivial|]. eapply skip_ws_head. exact Ek.
  - intros [[r Hj] (w1 & w2 & H1 & H2 & ->)]. unfold raw_from_str.
    assert (E : take_raw (w1 ++ t ++ w2) = take_raw (t ++ w2)).
    { unfold take_raw. rewrite skip_ws_app by exact H1. reflexivity. }
    rewrite E, (take_raw_value r t w2 Hj) by (apply num_follow_of_ws; exact H2). rewrite skip_ws_of_ws by exact H2. reflexivity.
Qed.
Lemma arg_raw_text g : json_text (g_text g) -> arg_raw g = Ok (g_text g).
Proof.
  intros Hj. unfold arg_raw. assert (E : raw_from_str (g_text g) = Some (g_text g)).
  { apply raw_from_str_exact. split; [exact Hj|]. exists [], []. rewrite app_nil_r. auto using ws_nil. }
  destruct Hj as [r Hj]. destruct (g_attachments g); [rewrite E; reflexivity|].
  pose proof (take_raw_value r (g_text g) [] Hj eq_refl) as T. rewrite app_nil_r in T. rewrite T. reflexivity.
Qed.
Lemma jitems_incl ts body : jitems ts body -> forall t, In t ts -> incl t body.
Proof.
  induction 1 as [v t w1 w2 _ _ _|v t w1 w2 l t' _ _ _ _ IH]; intros u Hu c Hc.
  - destruct Hu as [<-|[]]. apply in_or_app. right. apply in_or_app. auto.
  - apply in_or_app. right. apply in_or_app. destruct Hu as [<-|Hu]; [auto|]. right. apply in_or_app. right. right. eapply IH; eauto.
Qed.
Lemma jarray_incl ts s : jarray ts s -> forall t, In t ts -> incl t s.
Proof.
  intros (wa & body & wb & _ & _ & -> & [[-> _]|H]) t Ht c Hc; [destruct Ht|].
  apply in_or_app. right. right. apply in_or_app. left. eapply jitems_incl; eauto.
Qed.
(** The texts of the arguments of a packet. *)
Lemma argument_text m t l g : sub_deref_str m = Some t -> Forall emsg_ok l -> argument_of m l g ->
  json_text (g_text g) /\ no_newline (g_text g) /\ arg_raw g = Ok (g_text g).
Proof.
  intros Hm Hl Hg. pose proof (argument_facts m t l g Hm Hl Hg) as [Hj _]. split; [exact Hj|]. split; [|apply arg_raw_text; exact Hj].
  destruct Hg as (p & d & a & i & Hr & Hd & Ha & Hg).
  destruct (arguments_are_elements m t l p d a Hm Hl Hr Hd Ha) as (w & ts & Hw & Hel & _ & Hget & _).
  rewrite Hget in Hg. destruct (nth_error ts i) as [x|] eqn:E; [|discriminate]. injection Hg as <-. cbn [g_text].
  apply nth_error_In in E. destruct (w_args w) as [u|] eqn:Eu; cbn [elements] in Hel; [|subst; destruct E].
  intros Hin. destruct Hw as (_ & Hok & _). destruct (proj2 Hok u Eu) as [_ Hn]. apply Hn. eapply jarray_incl; eauto.
Qed.

(** ** The builder *)
Definition is_binary (a : approach) : bool := match a with ANormal => false | ABinary _ _ _ _ => true end.
Definition atts_so_far (a : approach) : nat := match a with ANormal => 0 | ABinary _ _ _ l => length l end.
Definition attach (a : approach) (bl : list bytes) : approach :=
  match a with ANormal => ANormal | ABinary k ns id l => ABinary k ns id (l ++ map frame bl) end.
Definition item_written (bin : bool) (n : nat) (i : item) (t : bytes) : Prop :=
  match i with
  | IRaw x => t = x
  | IVal v => if bin then bwr v n t (map frame (blobs v)) OOk else wr v t OOk
  end.
Inductive items_written (bin : bool) : nat -> list item -> list bytes -> Prop :=
| iw_nil n : items_written bin n [] []
| iw_cons n i l t ts : item_written bin n i t -> items_written bin (n + length (item_blobs i)) l ts -> items_written bin n (i :: l) (t :: ts).

Lemma attach_nil a : attach a [] = a.
Proof. destruct a; cbn; rewrite ?app_nil_r; reflexivity. Qed.
Lemma attach_app a x y : attach (attach a x) y = attach a (x ++ y).
Proof. destruct a; cbn; rewrite ?map_app, ?app_assoc; reflexivity. Qed.
Lemma item_step B a f i : exists t, serialize_item (Builder B a f) i =
    (if succeeds i then (Builder (B ++ mark f ++ t) (attach a (item_blobs i)) false, Ok tt)
     else (Builder B a false, Err JsonSerError)) /\
    (succeeds i = true -> item_written (is_binary a) (atts_so_far a) i t).
Proof.
  destruct i as [v|x]; cbn [serialize_item succeeds item_blobs item_written].
  - destruct a as [|k ns id l]; [destruct (normal_step B f v) as (t & E & W)|destruct (binary_step B k ns id l f v) as (t & E & W)];
      exists t; rewrite E; cbn [is_binary atts_so_far]; auto.
  - exists x. rewrite attach_nil. cbn [serialize_raw b_buffer b_first b_approach]. auto.
Qed.
Lemma serialize_items_cons b i l : serialize_items b (i :: l) = serialize_items (fst (serialize_item b i)) l.
Proof. reflexivity. Qed.
Lemma kept_items_cons i l : kept_items (i :: l) = if succeeds i then i :: kept_items l else kept_items l.
Proof. reflexivity. Qed.
Lemma written_shift bin n i l t ts a : is_binary a = bin -> atts_so_far a = n -> item_written bin n i t ->
  items_written (is_binary (attach a (item_blobs i))) (atts_so_far (attach a (item_blobs i))) l ts ->
  items_written bin n (i :: l) (t :: ts).
Proof.
  intros <- <- H H'. constructor; [exact H|]. destruct a as [|k ns id A]; cbn [attach is_binary atts_so_far] in *.
  - clear H. cbn [Nat.add]. generalize (length (item_blobs i)) as n0. clear i. intros n0. revert n0. remember 0 as z in H'. clear Heqz.
    induction H' as [z|z i l t' ts' Hi H IH]; intros n0; constructor; auto.
  - rewrite app_length, map_length in H'. exact H'.
Qed.
Lemma items_from l : forall B a, exists ts,
  serialize_items (Builder B a false) l = Builder (B ++ seps false ts) (attach a (flat_map item_blobs (kept_items l))) false /\
  items_written (is_binary a) (atts_so_far a) (kept_items l) ts.
Proof.
  induction l as [|i l IH]; intros B a.
  { exists []. cbn [kept_items filter flat_map seps]. rewrite attach_nil, app_nil_r. split; [reflexivity|constructor]. }
  rewrite serialize_items_cons, kept_items_cons. destruct (item_step B a false i) as (t & E & W). rewrite E.
  destruct (succeeds i); cbn [fst].
  - destruct (IH (B ++ mark false ++ t) (attach a (item_blobs i))) as (ts & E2 & F). rewrite E2. exists (t :: ts).
    cbn [seps comma_unless flat_map mark]. rewrite attach_app, <- !app_assoc. split; [reflexivity|]. eapply written_shift; eauto.
  - destruct (IH B a) as (ts & E2 & F). exists ts. auto.
Qed.
Lemma items_history i l B a : succeeds i = true -> exists ts,
  serialize_items (Builder B a true) (i :: l) = Builder (B ++ "["%byte :: seps true ts) (attach a (flat_map item_blobs (kept_items (i :: l)))) false /\
  items_written (is_binary a) (atts_so_far a) (kept_items (i :: l)) ts.
Proof.
  intros Hi. rewrite serialize_items_cons, kept_items_cons, Hi. destruct (item_step B a true i) as (t & E & W). rewrite E, Hi. cbn [fst].
  destruct (items_from l (B ++ mark true ++ t) (attach a (item_blobs i))) as (ts & E2 & F). rewrite E2. exists (t :: ts).
  cbn [seps comma_unless flat_map mark app]. rewrite attach_app, <- !app_assoc. cbn [app]. split; [reflexivity|]. eapply written_shift; eauto.
Qed.

Definition text_wire (s : source) (ns : bytes) (bin : bool) (ts bl : list bytes) : wire :=
  Wire (out_kind s bin) (if bin then Some (N.of_nat (length bl)) else None) (ns_opt ns) (src_id s) (Some ("["%byte :: seps true ts ++ ["]"%byte])).
Lemma fresh_items s ns bin : exists b, fresh s ns bin = Some b /\
  forall l, serialize_items b l = serialize_items (start s ns bin) (all_items s l).
Proof.
  destruct s as [e i|i]; cbn [fresh all_items]; [|eexists; split; reflexivity].
  unfold new_event, start. cbn [src_id src_skind]. setoid_rewrite serialize_items_cons. cbn [serialize_item].
  unfold builder_new. destruct bin; cbn [negb].
  - destruct (binary_step [] PKBinaryEvent ns i [] true (SStr e)) as (t & E & _). rewrite E.
    cbn [serialises json_of fst]. eexists. split; reflexivity.
  - destruct (normal_step (serialize_header PKEvent None ns i) true (SStr e)) as (t & E & _). rewrite E.
    cbn [serialises json_of fst]. eexists. split; reflexivity.
Qed.
Lemma item_starts_first s l : item_starts s l -> exists i l', all_items s l = i :: l' /\ succeeds i = true.
Proof. destruct s as [e i|i]; cbn; intros H; [eauto|]. destruct l as [|v l]; [contradiction|eauto]. Qed.
Lemma items_shape s ns bin l : item_starts s l -> exists ts,
  build_items s ns bin l = Some (WText ("4"%byte :: wire_text (text_wire s ns bin ts (built_blobs bin (all_items s l)))) ::
    map frame (built_blobs bin (all_items s l))) /\
  items_written bin 0 (kept_items (all_items s l)) ts.
Proof.
  intros Hs. unfold build_items. destruct (fresh_items s ns bin) as (b & -> & Eb). rewrite Eb.
  destruct (item_starts_first s l Hs) as (i & l' & -> & Hi). unfold start, builder_new. destruct bin; cbn [negb].
  - set (a := ABinary _ ns (src_id s) []). destruct (items_history i l' [] a Hi) as (ts & E & W). rewrite E. exists ts. split; [|exact W].
    unfold finish, a. cbn [b_buffer b_approach b_first attach app]. rewrite map_length.
    rewrite (header_text _ _ ns (src_id s) (Some ("["%byte :: seps true ts ++ ["]"%byte])) :
      serialize_header _ _ ns (src_id s) ++ "["%byte :: seps true ts ++ ["]"%byte] = _), package_header.
    unfold text_wire, built_blobs. destruct s; reflexivity.
  - set (h := serialize_header _ None ns (src_id s)). destruct (items_history i l' h ANormal Hi) as (ts & E & W). rewrite E. exists ts. split; [|exact W].
    unfold finish. cbn [b_buffer b_approach b_first attach]. rewrite <- app_assoc. cbn [app]. unfold h.
    rewrite (header_text _ None ns (src_id s) (Some ("["%byte :: seps true ts ++ ["]"%byte])) :
      serialize_header _ None ns (src_id s) ++ "["%byte :: seps true ts ++ ["]"%byte] = _), package_header.
    unfold text_wire, built_blobs. destruct s; reflexivity.
Qed.

(** ** What arrives, by texts *)
Section Texts.
Variables (h : list wsmsg) (src : source) (ns : bytes) (bin : bool) (ts bl : list bytes).
Let w := text_wire src ns bin ts bl.
Hypothesis Hopen : opened h.
Hypothesis Hclosed : ~ closed h.
Hypothesis Hns : ns_ok ns.
Hypothesis Hid : fits (src_id src).
Hypothesis Hts : ts <> [].
Hypothesis Htrees : Forall json_text ts.
Hypothesis Hbl : bin = false -> bl = [].
Hypothesis Hcount : (N.of_nat (length bl) <= u64_max)%N.

Lemma texts_trees : exists rs, Forall2 jvalue rs ts.
Proof.
  clear - Htrees. induction ts as [|t l IH]; [exists []; constructor|].
  inversion Htrees as [|? ? [r H] Hl]; subst. destruct (IH Hl) as [rs Hj]. exists (r :: rs). constructor; assumption.
Qed.
Lemma texts_wire_ok : Forall no_newline ts -> wire_ok w.
Proof.
  intros Hn. split.
  - cbn [w text_wire w_ns]. intros x Hx. eapply ns_opt_ok; eauto.
  - cbn [w text_wire w_args]. intros a [= <-]. split; [eauto|]. apply brackets_no_newline. exact Hn.
Qed.
Lemma texts_accepts : reads_as (wire_text w) w ->
  accepts (wire_text w) (src_kind src) ns (src_id src) ts (N.of_nat (length bl)).
Proof.
  intros Hr. exists w. split; [exact Hr|]. split.
  { unfold w, too_big. cbn [text_wire w_count]. destruct bin; intros (n & E & Hn); [|discriminate]. injection E as <-. lia. }
  split.
  { unfold w, too_big. cbn [text_wire w_id]. intros (n & E & Hn). rewrite E in Hid. cbn in Hid. lia. }
  split.
  { cbn [w text_wire w_args elements]. destruct texts_trees as [rs Hj]. eapply jarray_seps; eauto. }
  split; [unfold w; cbn [text_wire w_ns]; rewrite ns_opt_back; reflexivity|]. split; [reflexivity|].
  unfold w. cbn [text_wire w_kind w_count w_id out_kind]. destruct src as [e i|i], bin; cbn [src_kind src_id out_kind w_kind]; conj; auto; try discriminate;
  try (split; [exact Hts|discriminate]); rewrite (Hbl eq_refl); reflexivity.
Qed.
Lemma texts_arrive : reads_as (wire_text w) w ->
  exists p, received (tsub (wire_text w)) (bmsgs bl) p /\ view p = Some (PView (src_kind src) ns (src_id src) ts bl).
Proof.
  intros Hr. apply (received_exact _ (wire_text w)); [apply tsub_wire|apply bmsgs_ok|].
  unfold bmsgs at 1. rewrite map_length. split; [apply texts_accepts; exact Hr|]. split; [apply bmsgs_content|].
  intros _. split; [exact Hts|]. destruct src; [discriminate|]. cbn. discriminate.
Qed.
Lemma newline_inside c x y : wire_ok x -> wire_text x = y -> In x0a y -> c = true.
Proof.
  intros [H1 H2] <- Hin. exfalso. unfold wire_text in Hin. destruct Hin as [E|Hin]; [destruct (w_kind x); discriminate|].
  assert (D : forall n, ~ In x0a (dec n)) by apply dec_no_newline.
  apply in_app_or in Hin as [Hin|Hin].
  { destruct (w_count x) as [n|]; [|destruct Hin]. cbn [opt_text] in Hin. apply in_app_or in Hin as [Hin|[E|[]]]; [exact (D n Hin)|discriminate]. }
  apply in_app_or in Hin as [Hin|Hin].
  { destruct (w_ns x) as [n|] eqn:E; [|destruct Hin]. cbn [opt_text] in Hin. apply in_app_or in Hin as [Hin|[E'|[]]]; [|discriminate].
    exact (proj2 (H1 n eq_refl) Hin). }
  apply in_app_or in Hin as [Hin|Hin].
  { destruct (w_id x) as [n|]; [|destruct Hin]. exact (D n Hin). }
  destruct (w_args x) as [a|] eqn:E; [|destruct Hin]. exact (proj2 (H2 a eq_refl) Hin).
Qed.
Lemma texts_one_line p : received (tsub (wire_text w)) (bmsgs bl) p -> Forall no_newline ts.
Proof.
  intros Hr. destruct (received_view _ _ _ _ (tsub_wire w) (bmsgs_ok bl) Hr) as (k & ns' & id & ts' & vs & (x & (Ex & Hx & _) & _) & _).
  apply Forall_forall. intros t Ht Hin. assert (X : false = true); [|discriminate X].
  apply (newline_inside false x (wire_text w) Hx (eq_sym Ex)). unfold wire_text. cbn [w text_wire w_args opt_text]. right.
  do 3 (apply in_or_app; right). right. apply in_or_app. left.
  clear - Ht Hin. revert Ht. generalize true as f. induction ts as [|u l IH]; intros f []; cbn [seps]; apply in_or_app; right; apply in_or_app.
  - subst u. auto.
  - right. apply IH. assumption.
Qed.
Lemma texts_only p : received (tsub (wire_text w)) (bmsgs bl) p ->
  reads_as (wire_text w) w /\ view p = Some (PView (src_kind src) ns (src_id src) ts bl).
Proof.
  intros Hr. pose proof (texts_one_line p Hr) as Hn.
  destruct (received_view _ _ _ _ (tsub_wire w) (bmsgs_ok bl) Hr) as (k & ns' & id & ts' & vs & Ha & Hb & Hv).
  assert (R : reads_as (wire_text w) w).
  { eapply accepts_intended; [apply texts_wire_ok; exact Hn|reflexivity| |exact Ha].
    destruct texts_trees as [rs Hj]. eapply seps_safe; eauto. }
  split; [exact R|]. pose proof (texts_accepts R) as Ha'.
  destruct (accepts_unique _ _ _ _ _ _ _ _ _ _ _ Ha Ha') as (-> & -> & -> & -> & _).
  rewrite bmsgs_content in Hb. injection Hb as <-. exact Hv.
Qed.
Let fs := WText ("4"%byte :: wire_text w) :: map frame bl.
Lemma texts_shown p : arrives h fs p -> Forall no_newline ts /\
  exists A, contents A = Some bl /\ presents p (src_kind src) ns (src_id src) (map (fun t => Arg t A) ts) bl.
Proof.
  intros Hp. apply arrives_received in Hp; try assumption. split; [eapply texts_one_line; eauto|].
  destruct (texts_only p Hp) as [_ Hv]. destruct (view_data _ _ Hv) as (Hn & d & Hd & Hm). cbn [v_ns v_kind v_id v_args v_atts] in *.
  destruct src as [e i|i]; cbn [src_kind src_id] in *.
  - destruct d as [| |i' a|i' a]; try discriminate; try (destruct Hm as [Hm0 _]; discriminate).
    destruct Hm as (_ & <- & Ha). destruct (args_view_accessors _ _ _ Ha) as (_ & _ & Hi & HA).
    exists (a_attachments a). split; [exact HA|]. split; [exact Hn|]. exists a. auto.
  - destruct d as [| |i' a|i' a]; try discriminate; try (destruct Hm as [Hm0 _]; discriminate).
    destruct Hm as (_ & E & Ha). injection E as <-. destruct (args_view_accessors _ _ _ Ha) as (_ & _ & Hi & HA).
    exists (a_attachments a). split; [exact HA|]. split; [exact Hn|]. exists a. auto.
Qed.
Lemma texts_root : ns = bs "/" -> Forall no_newline ts -> exists p, arrives h fs p.
Proof.
  intros E Hn. assert (R : reads_as (wire_text w) w).
  { apply (reads_intended w (seps true ts) (texts_wire_ok Hn) eq_refl). left. cbn [w text_wire w_ns]. rewrite E. reflexivity. }
  destruct (texts_arrive R) as (p & Hr & _). exists p. apply arrives_received; assumption.
Qed.
End Texts.

(** ** C79 *)
Theorem raw_reading m t l g : sub_deref_str m = Some t -> Forall emsg_ok l -> argument_of m l g ->
  arg_raw g = Ok (g_text g) /\ json_text (g_text g).
Proof. intros Hm Hl Hg. destruct (argument_text m t l g Hm Hl Hg) as (H1 & _ & H2). auto. Qed.

(** ** C80 *)
Definition inside (n : nat) (bl all : list bytes) : Prop := forall i b, nth_error bl i = Some b -> nth_error all (n + i) = Some b.
Lemma item_facts bin n i t : item_written bin n i t -> succeeds i = true -> item_usable bin i ->
  json_text t /\ (no_newline t <-> on_one_line i).
Proof.
  destruct i as [v|x]; cbn [item_written succeeds item_usable on_one_line]; intros Hw Hs Hu.
  - destruct (Hu Hs) as (Hv & _). destruct bin.
    + destruct Hw as (_ & _ & _ & _ & _ & H5). destruct (H5 eq_refl Hv) as (Hn & r & y & _ & Hj & _). split; [exists r; exact Hj|tauto].
    + destruct Hw as (_ & _ & _ & _ & H5). destruct (H5 eq_refl Hv) as (Hn & r & y & _ & Hj & _). split; [exists r; exact Hj|tauto].
  - subst x. tauto.
Qed.
Lemma item_reading bin n i t A all : item_written bin n i t -> succeeds i = true -> item_usable bin i ->
  contents A = Some all -> (bin = false -> all = []) -> (bin = true -> inside n (item_blobs i) all) ->
  (bin = true -> (N.of_nat (n + length (item_blobs i)) <= u64_max)%N) -> item_shown bin i (Arg t A).
Proof.
  intros Hw Hs Hu HA Hf Hi Hc. destruct (item_facts bin n i t Hw Hs Hu) as [Hj _].
  destruct i as [v|x]; cbn [item_written succeeds item_usable item_shown item_blobs] in *.
  - destruct (Hu Hs) as (Hv & Hn & Hp).
    assert (R : read_ok [v]) by (split; [cbn; auto|cbn; lia]).
    destruct bin.
    + pose proof (binary_values A all n [v] [t]) as X. cbn [flat_map map allP json_values app] in X. rewrite app_nil_r in X.
      specialize (X ltac:(constructor; [exact Hw|constructor]) R (conj (Hp eq_refl) I) HA (Hi eq_refl) (Hc eq_refl)).
      destruct (json_of (sent v)) as [x|] eqn:E; [|discriminate X]. exists x. injection X as X. auto.
    + rewrite (Hf eq_refl) in HA. apply atts_nil in HA. subst A. pose proof (text_values [v] [t] (Forall2_cons v t Hw (Forall2_nil _)) R) as X.
      cbn [flat_map map json_values app] in X. destruct (json_of v) as [x|] eqn:E; [|discriminate X]. exists x. injection X as X. auto.
  - subst x. cbn [g_text]. split; [reflexivity|]. exact (arg_raw_text (Arg t A) Hj).
Qed.
Lemma items_facts bin n l ts : items_written bin n l ts -> Forall (fun i => succeeds i = true) l -> Forall (item_usable bin) l ->
  Forall json_text ts /\ (Forall no_newline ts <-> Forall on_one_line l).
Proof.
  induction 1 as [n|n i l t ts Hi H IH]; intros Hs Hu; [split; [constructor|split; constructor]|].
  inversion Hs; subst. inversion Hu; subst. destruct (item_facts bin n i t Hi) as [Hj Hn]; [assumption..|].
  destruct IH as [IH1 IH2]; [assumption..|]. split; [constructor; assumption|]. rewrite !Forall_cons_iff. tauto.
Qed.
Lemma items_reading bin n l ts A all : items_written bin n l ts -> Forall (fun i => succeeds i = true) l -> Forall (item_usable bin) l ->
  contents A = Some all -> (bin = false -> all = []) -> (bin = true -> inside n (flat_map item_blobs l) all) ->
  (bin = true -> (N.of_nat (n + length (flat_map item_blobs l)) <= u64_max)%N) -> Forall2 (item_shown bin) l (map (fun t => Arg t A) ts).
Proof.
  intros H. induction H as [n|n i l t ts Hi H IH]; intros Hs Hu HA Hf Hin Hc; [constructor|].
  inversion Hs; subst. inversion Hu; subst. cbn [flat_map] in Hin, Hc. rewrite app_length in Hc. cbn [map]. constructor.
  - eapply item_reading; eauto; intros E; [|specialize (Hc E); lia]. intros j b Hb. apply (Hin E). rewrite nth_error_app1; [exact Hb|].
    apply nth_error_Some. congruence.
  - apply IH; auto; intros E; [|specialize (Hc E); lia]. intros j b Hb. rewrite <- Nat.add_assoc. apply (Hin E).
    rewrite nth_error_app2 by lia. replace (length (item_blobs i) + j - length (item_blobs i)) with j by lia. exact Hb.
Qed.
Lemma kept_succeed l : Forall (fun i => succeeds i = true) (kept_items l).
Proof. apply Forall_forall. intros i Hi. apply filter_In in Hi. tauto. Qed.
Lemma kept_usable bin l : Forall (item_usable bin) l -> Forall (item_usable bin) (kept_items l).
Proof. rewrite !Forall_forall. intros H i Hi. apply filter_In in Hi. apply H. tauto. Qed.
Lemma kept_one_line l : Forall on_one_line (kept_items l) <-> Forall on_one_line l.
Proof.
  rewrite !Forall_forall. split; intros H i Hi; [|apply filter_In in Hi; apply H; tauto].
  destruct i as [v|t]; [exact I|]. apply H. apply filter_In. auto.
Qed.
Lemma items_nonempty bin n l ts : items_written bin n l ts -> l <> [] -> ts <> [].
Proof. destruct 1; [congruence|discriminate]. Qed.
Lemma kept_starts s l : item_starts s l -> kept_items (all_items s l) <> [].
Proof. intros H. destruct (item_starts_first s l H) as (i & l' & -> & Hi). rewrite kept_items_cons, Hi. discriminate. Qed.

(** The texts that arrive, for use below. *)
Lemma items_arrive h src ns bin items fs : opened h -> ~ closed h -> ns_ok ns -> fits (src_id src) ->
  item_starts src items -> items_usable bin (all_items src items) -> build_items src ns bin items = Some fs ->
  exists ts, items_written bin 0 (kept_items (all_items src items)) ts /\
    (forall p, arrives h fs p -> Forall on_one_line (all_items src items) /\
       exists A, contents A = Some (built_blobs bin (all_items src items)) /\
         presents p (src_kind src) ns (src_id src) (map (fun t => Arg t A) ts) (built_blobs bin (all_items src items))) /\
    (ns = bs "/" -> Forall on_one_line (all_items src items) -> exists p, arrives h fs p).
Proof.
  intros Ho Hc Hns Hid Hs [Hu Hcount] Hb. destruct (items_shape src ns bin items Hs) as (ts & E & W). rewrite E in Hb. injection Hb as <-.
  destruct (items_facts _ _ _ _ W (kept_succeed _) (kept_usable _ _ Hu)) as [Hj Hn]. rewrite kept_one_line in Hn.
  assert (Hts : ts <> []) by (eapply items_nonempty; [exact W|apply kept_starts; exact Hs]).
  assert (H1 : bin = false -> built_blobs bin (all_items src items) = []) by (intros ->; reflexivity).
  assert (H2 : (N.of_nat (length (built_blobs bin (all_items src items))) <= u64_max)%N).
  { unfold built_blobs. destruct bin; [apply Hcount; reflexivity|]. apply N.le_0_l. }
  exists ts. split; [exact W|]. split.
  - intros p Hp. destruct (texts_shown h src ns bin ts _ Ho Hc Hns Hid Hts Hj H1 H2 p Hp) as [Hl (A & HA & HP)].
    split; [apply Hn; exact Hl|]. eauto.
  - intros -> Hl. apply (texts_root h src (bs "/") bin ts _ Ho Hc Hns Hid Hts Hj H1 H2 eq_refl). apply Hn. exact Hl.
Qed.
Theorem mixed_arguments h src ns bin items : opened h -> ~ closed h -> ns_ok ns -> fits (src_id src) ->
  item_starts src items -> items_usable bin (all_items src items) ->
  exists fs, build_items src ns bin items = Some fs /\
    (forall p, arrives h fs p -> exists gs,
       presents p (src_kind src) ns (src_id src) gs (built_blobs bin (all_items src items)) /\
       Forall2 (item_shown bin) (kept_items (all_items src items)) gs) /\
    (ns = bs "/" -> ((exists p, arrives h fs p) <-> Forall on_one_line items)).
Proof.
  intros Ho Hc Hns Hid Hs Hu. destruct (items_shape src ns bin items Hs) as (ts0 & E & _). eexists. split; [exact E|].
  destruct (items_arrive h src ns bin items _ Ho Hc Hns Hid Hs Hu E) as (ts & W & Hall & Hroot). split.
  - intros p Hp. destruct (Hall p Hp) as [_ (A & HA & HP)]. eexists. split; [exact HP|]. destruct Hu as [Hu Hcount].
    eapply items_reading; eauto using kept_succeed, kept_usable.
    + intros ->. reflexivity.
    + intros ->. intros j b Hb. exact Hb.
  - intros Hr. assert (X : Forall on_one_line (all_items src items) <-> Forall on_one_line items).
    { destruct src; cbn [all_items]; [|tauto]. rewrite Forall_cons_iff. cbn. tauto. }
    rewrite <- X. split; [intros [p Hp]; apply (Hall p Hp)|apply Hroot; exact Hr].
Qed.

(** ** C81 *)
Lemma contents_facts A bl : contents A = Some bl -> length A = length bl /\
  forall n, match nth_error A n with Some s => sub_deref_vec s | None => None end = nth_error bl n.
Proof.
  unfold contents. revert bl. induction A as [|s A IH]; intros bl H.
  - injection H as <-. split; [reflexivity|]. intros [|n]; reflexivity.
  - cbn [map all_some] in H. destruct (sub_deref_vec s) as [b|] eqn:E; [|discriminate].
    destruct (all_some (map sub_deref_vec A)) as [bl'|]; [|discriminate]. injection H as <-.
    destruct (IH bl' eq_refl) as [H1 H2]. cbn [length]. rewrite H1. split; [reflexivity|]. intros [|n]; cbn [nth_error]; auto.
Qed.
Section Alike.
Variables (A A' : list subslice_t) (bl : list bytes).
Hypothesis HA : contents A = Some bl.
Hypothesis HA' : contents A' = Some bl.
Lemma same_length : length A = length A'.
Proof. rewrite (proj1 (contents_facts _ _ HA)), (proj1 (contents_facts _ _ HA')). reflexivity. Qed.
Lemma same_content n : match nth_error A n with Some s => sub_deref_vec s | None => None end =
  match nth_error A' n with Some s => sub_deref_vec s | None => None end.
Proof. rewrite (proj2 (contents_facts _ _ HA)), (proj2 (contents_facts _ _ HA')). reflexivity. Qed.
Lemma classify_alike l : classify_obj A l = classify_obj A' l.
Proof.
  unfold classify_obj. destruct l as [|[k v] l']; [reflexivity|]. destruct (negb _); [reflexivity|]. destruct (bytes_eqb _ _); [|reflexivity].
  destruct v; try reflexivity. destruct l' as [|[k2 v2] [|]]; try reflexivity. destruct (_ && _); [|reflexivity].
  destruct (u64_of_raw v2) as [n|]; [|reflexivity]. rewrite same_length. destruct (_ <? _)%N; [|reflexivity].
  pose proof (same_content (N.to_nat n)) as S. destruct (nth_error A _), (nth_error A' _); try rewrite S; try reflexivity; rewrite <- S; reflexivity.
Qed.
Lemma val_wrap_alike rp r : forall d, val_wrap rp A d r = val_wrap rp A' d r.
Proof.
  induction r as [|b|x|s|l IH|l IH] using raw_ind'; intros d; try reflexivity.
  - destruct d as [|[|d]]; try reflexivity. rewrite !val_wrap_arr. do 2 f_equal. rewrite Forall_forall in IH. apply map_ext_in. auto.
  - destruct d as [|[|d]]; try reflexivity. destruct (classify_obj A l) eqn:Ec; pose proof Ec as Ec'; rewrite classify_alike in Ec'; [rewrite !val_wrap_obj, Ec, Ec'; reflexivity..|].
    destruct (token_dec l) as [(k & x & l' & -> & Hk)|Hk].
    + rewrite !val_wrap_obj, Ec, Ec', Hk, bytes_eqb_refl. reflexivity.
    + rewrite !val_wrap_map by assumption. do 2 f_equal. rewrite Forall_forall in IH. apply map_ext_in. intros [k x] Hx.
      unfold wrap_member. cbn [fst snd]. rewrite (IH _ Hx). reflexivity.
Qed.
Lemma de_wrap_alike rp t : forall d r, de_wrap rp A t d r = de_wrap rp A' t d r.
Proof.
  induction t as [|lo hi| | | | | | |u IH|u IH|u IH|ts IH|u IH|fs IH|vs IH| | | |lo hi u IH] using ty_ind'; intros d r; try reflexivity;
    try (cbn [de_wrap]; destruct r; auto; rewrite classify_alike; reflexivity).
  - cbn [de_wrap]. destruct r; auto; rewrite IH; reflexivity.
  - cbn [de_wrap]. rewrite IH. reflexivity.
  - rewrite !de_wrap_seq, ?classify_alike. destruct r; auto; [|rewrite classify_alike; reflexivity]. destruct (enter d); [|reflexivity]. f_equal. apply each_ext. auto.
  - rewrite !de_wrap_tuple. destruct r; auto; [|rewrite classify_alike; reflexivity]. destruct (enter d); [|reflexivity]. f_equal. apply zip_ext. intros u x Hu Hx.
    rewrite Forall_forall in IH. auto.
  - rewrite !de_wrap_map. destruct r; auto. rewrite classify_alike. destruct (enter d); [|reflexivity]. destruct (classify_obj A' l); auto. destruct (str_members l) as [m|] eqn:E; [|reflexivity].
    f_equal. apply map_ext_of. auto.
  - rewrite !de_wrap_struct. destruct (enter d); [|reflexivity]. rewrite Forall_forall in IH. destruct r; auto.
    + rewrite !zip_fields_eq. f_equal. apply zip_ext. intros u x Hu Hx. apply in_map_iff in Hu as (f & <- & Hf). auto.
    + rewrite classify_alike. destruct (classify_obj A' l); auto. destruct (str_members l) as [m|] eqn:E; [|reflexivity]. f_equal. apply fields_ext. intros k u x Hu Hx.
      apply (IH _ Hu).
  - rewrite !de_wrap_enum. destruct r as [| | | | |[|[k x] [|]]]; auto. destruct (enter d); [|reflexivity]. destruct (unescape k); [|reflexivity].
    apply variant_ext. intros m tag u Hu. rewrite Forall_forall in IH. unfold variant_wrap.
    specialize (IH _ Hu). cbn [snd] in IH. destruct tag; auto; rewrite IH; reflexivity.
  - cbn [de_wrap]. rewrite val_wrap_alike. reflexivity.
Qed.
Lemma fill_alike v : fill_placeholders A v = fill_placeholders A' v.
Proof.
  induction v as [|b|x|s|l IH|m IH] using value_ind'; try reflexivity.
  - rewrite !fill_arr. f_equal. induction l as [|x l IHl]; [reflexivity|]. inversion IH; subst. cbn [fill_list]. rewrite IHl by assumption.
    rewrite H1. reflexivity.
  - rewrite !fill_obj. destruct (obj_get key_placeholder m).
    + destruct (match obj_get key_num m with Some n => as_u64 n | None => None end) as [n|]; [|reflexivity]. rewrite same_length.
      destruct (_ <? _)%N; [|reflexivity]. pose proof (same_content (N.to_nat n)) as S.
      destruct (nth_error A _), (nth_error A' _); try rewrite S; try reflexivity; rewrite <- S; reflexivity.
    + f_equal. induction m as [|[k x] l IHl]; [reflexivity|]. inversion IH; subst. cbn [fill_members]. rewrite IHl by assumption.
      cbn [snd] in H1. rewrite H1. reflexivity.
Qed.
Lemma args_alike t : json_text t -> read_alike (Arg t A) (Arg t A').
Proof.
  intros Hj. split; [reflexivity|]. split; [|split].
  - unfold to_json_value. cbn [g_text g_attachments]. destruct (from_str_value t) as [v|]; [|reflexivity]. pose proof same_length as L.
    pose proof (fill_alike v) as F. destruct A, A'; try discriminate L; [reflexivity|]. symmetry. exact F.
  - rewrite !arg_raw_text by exact Hj. reflexivity.
  - intros u. unfold arg_deserialize, deserialize_with. cbn [g_text g_attachments]. pose proof same_length as L.
    pose proof de_wrap_alike as D. destruct A, A'; try discriminate L; [reflexivity|]. destruct (scan_value _ _) as [[r w]|]; [|reflexivity].
    rewrite D. reflexivity.
Qed.
End Alike.
Lemma written_app bin l1 l2 : forall n ts, items_written bin n (l1 ++ l2) ts ->
  exists ts1 ts2 n', ts = ts1 ++ ts2 /\ items_written bin n l1 ts1 /\ items_written bin n' l2 ts2.
Proof.
  induction l1 as [|i l1 IH]; intros n ts H; cbn [app] in H.
  - exists [], ts, n. split; [reflexivity|]. split; [constructor|exact H].
  - inversion H as [|? ? ? t ts' Hi Hr]; subst. destruct (IH _ _ Hr) as (ts1 & ts2 & n' & -> & H1 & H2). exists (t :: ts1), ts2, n'.
    split; [reflexivity|]. split; [constructor; assumption|exact H2].
Qed.
Lemma written_texts bin gs : forall n ts, items_written bin n (as_texts gs) ts -> ts = map g_text gs.
Proof.
  induction gs as [|g gs IH]; intros n ts H; inversion H as [|? ? ? t ts' Hi Hr]; subst; [reflexivity|]. cbn in Hi. subst t.
  cbn [map]. f_equal. eapply IH. exact Hr.
Qed.
Lemma kept_app l1 l2 : kept_items (l1 ++ l2) = kept_items l1 ++ kept_items l2.
Proof. apply filter_app. Qed.
Lemma kept_texts gs : kept_items (as_texts gs) = as_texts gs.
Proof. induction gs as [|g gs IH]; [reflexivity|]. cbn [as_texts map]. rewrite kept_items_cons. cbn [succeeds]. fold (as_texts gs). rewrite IH. reflexivity. Qed.
Lemma kept_bytes bl : kept_items (as_bytes bl) = as_bytes bl.
Proof. induction bl as [|b bl IH]; [reflexivity|]. cbn [as_bytes map]. rewrite kept_items_cons. cbn [succeeds serialises json_of]. fold (as_bytes bl). rewrite IH. reflexivity. Qed.
Lemma blobs_texts gs : flat_map item_blobs (as_texts gs) = [].
Proof. induction gs as [|g gs IH]; [reflexivity|exact IH]. Qed.
Lemma blobs_bytes bl : flat_map item_blobs (as_bytes bl) = bl.
Proof. induction bl as [|b bl IH]; [reflexivity|]. cbn [as_bytes map flat_map item_blobs blobs app]. f_equal. exact IH. Qed.
Definition name_items (src : source) : list item := all_items src [].
Lemma all_items_name src l : all_items src l = name_items src ++ l.
Proof. destruct src; reflexivity. Qed.
Lemma name_kept src : kept_items (name_items src) = name_items src.
Proof. destruct src; reflexivity. Qed.
Lemma name_blobs src : flat_map item_blobs (name_items src) = [].
Proof. destruct src; reflexivity. Qed.

Theorem relayed_texts m t l p d a gs bl h src ns bin some fs :
  sub_deref_str m = Some t -> Forall emsg_ok l -> received m l p -> packet_data p = Some d -> data_args d = Some a ->
  args_iter a = Ok gs -> contents (a_attachments a) = Some bl ->
  opened h -> ~ closed h -> ns_ok ns -> fits (src_id src) -> items_usable bin (all_items src []) ->
  incl some gs -> (bin = true \/ bl = []) -> item_starts src (as_texts some ++ as_bytes bl) ->
  build_items src ns bin (as_texts some ++ as_bytes bl) = Some fs ->
  (forall p', arrives h fs p' -> exists gs', presents p' (src_kind src) ns (src_id src) gs' bl /\
     Forall2 read_alike some (firstn (length some) (after_name src gs'))) /\
  (ns = bs "/" -> exists p', arrives h fs p').
Proof.
  intros Hm Hl Hr Hd Ha Hi Hbl Ho Hc Hns Hid [Hu _] Hsome Hbin Hs Hb.
  destruct (arguments_are_elements m t l p d a Hm Hl Hr Hd Ha) as (w & us & Hw & Hel & _ & Hget & Hit & Hcon & Hlen).
  assert (Eg : gs = map (fun x => Arg x (a_attachments a)) us) by congruence.
  assert (G : forall g, In g some -> json_text (g_text g) /\ no_newline (g_text g) /\ g_attachments g = a_attachments a).
  { intros g Hg. apply Hsome in Hg. pose proof Hg as Hg0. rewrite Eg in Hg. apply in_map_iff in Hg as (x & <- & Hx). apply In_nth_error in Hx as [j Hj].
    destruct (argument_text m t l (Arg x (a_attachments a)) Hm Hl) as (H1 & H2 & _); [|auto].
    exists p, d, a, j. rewrite Hget, Hj. auto. }
  set (items := as_texts some ++ as_bytes bl) in *.
  assert (Ek : kept_items (all_items src items) = name_items src ++ as_texts some ++ as_bytes bl).
  { rewrite all_items_name, kept_app, name_kept. unfold items. rewrite kept_app, kept_texts, kept_bytes. reflexivity. }
  assert (Eb : built_blobs bin (all_items src items) = bl).
  { unfold built_blobs. rewrite Ek, !flat_map_app, name_blobs, blobs_texts, blobs_bytes. destruct bin; [reflexivity|]. destruct Hbin; [discriminate|auto]. }
  assert (Hline : Forall on_one_line (all_items src items)).
  { rewrite all_items_name. apply Forall_app. split; [destruct src; repeat constructor|]. apply Forall_app. split.
    - apply Forall_map. apply Forall_forall. intros g Hg. apply (G g Hg).
    - apply Forall_map. apply Forall_forall. intros b _. exact I. }
  assert (Huse : items_usable bin (all_items src items)).
  { split.
    - rewrite all_items_name. apply Forall_app. split; [exact Hu|]. apply Forall_app. split; apply Forall_map, Forall_forall.
      + intros g Hg. apply (G g Hg).
      + intros b _. cbn. intros _. split; [exact I|]. split; [lia|]. intros _. exact I.
    - intros ->. rewrite Ek, !flat_map_app, name_blobs, blobs_texts, blobs_bytes. cbn [app].
      destruct (received_view m t l p Hm Hl Hr) as (k & ns' & id & ts' & vs & Hacc & Hvs & _).
      rewrite Hcon in Hvs. unfold contents in Hbl. rewrite Hbl in Hvs. injection Hvs as <-.
      assert (El : length bl = length l). { rewrite <- Hlen. symmetry. apply (contents_facts _ _ Hbl). }
      rewrite El. destruct Hacc as (x & _ & Hbig & _ & _ & _ & _ & Hk).
      assert (L : N.of_nat (length l) = 0%N \/ w_count x = Some (N.of_nat (length l))) by (destruct (w_kind x); tauto).
      destruct L as [->|L]; [apply N.le_0_l|]. apply N.nlt_ge. intros Hlt. apply Hbig. exists (N.of_nat (length l)). split; [exact L|apply N.lt_gt; exact Hlt]. }
  destruct (items_arrive h src ns bin items fs Ho Hc Hns Hid Hs Huse Hb) as (ts & W & Hall & Hroot).
  rewrite Eb in Hall. split; [|intros E; exact (Hroot E Hline)].
  intros p' Hp'. destruct (Hall p' Hp') as [_ (A' & HA' & HP)]. eexists. split; [exact HP|].
  rewrite Ek in W. apply written_app in W as (t0 & t12 & n1 & -> & W0 & W12). apply written_app in W12 as (t1 & t2 & n2 & -> & W1 & _).
  apply written_texts in W1. subst t1.
  assert (Ea : after_name src (map (fun x => Arg x A') (t0 ++ map g_text some ++ t2)) = map (fun x => Arg x A') (map g_text some ++ t2)).
  { clear - W0. destruct src; cbn [after_name]; inversion W0 as [|? ? ? u0 us0 X0 X1]; subst; [|reflexivity]. inversion X1; subst. reflexivity. }
  rewrite Ea, map_app, firstn_app, firstn_all2 by (rewrite !map_length; lia).
  rewrite !map_length, Nat.sub_diag. cbn [firstn]. rewrite app_nil_r, map_map.
  clear - G HA' Hbl. induction some as [|g some IH]; [constructor|]. cbn [map]. constructor; [|apply IH; intros; apply G; right; assumption].
  destruct (G g (or_introl eq_refl)) as (H1 & _ & H3). destruct g as [x B]. cbn [g_text g_attachments] in *. subst B.
  eapply args_alike; eauto.
Qed.
