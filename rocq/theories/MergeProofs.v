(** Structs with flattened fields survive the trip (C88). *)
From Verif Require Export SpecMerge VariantProofs.
From Coq Require Import Lia.

(** ** Members and names *)
Lemma Wents_text n n' l ts : Wents false n l ts -> Wents false n' l ts.
Proof. intros H. revert n'. induction H as [n|n k v l kt t ts Ek HW _ IH]; intros n'; [constructor|]. econstructor; [exact Ek|exact HW|apply IH]. Qed.
Lemma Wents_app bin l1 : forall n l2 ts, Wents bin n (l1 ++ l2) ts ->
  exists ts1 ts2, ts = ts1 ++ ts2 /\ Wents bin n l1 ts1 /\ Wents bin (n + length (flat_map (fun '(_, x) => blobs x) l1)) l2 ts2.
Proof.
  induction l1 as [|[k v] l1 IH]; intros n l2 ts H; cbn [app flat_map] in *.
  - exists [], ts. split; [reflexivity|]. split; [constructor|]. cbn. rewrite Nat.add_0_r. exact H.
  - inversion H as [|? ? ? ? kt t ts' Ek H1 H2]; subst. destruct (IH _ _ _ H2) as (ts1 & ts2 & -> & A1 & A2).
    exists ((kt ++ ":"%byte :: t) :: ts1), ts2. split; [reflexivity|]. split; [econstructor; eassumption|]. rewrite app_length, Nat.add_assoc. exact A2.
Qed.
(** In both modes the texts are members with the names that were written. *)
Lemma W_jvalue bin n v t : W bin n v t -> val_ok v -> exists r, jvalue r t.
Proof.
  destruct bin; intros H Hv.
  - destruct H as (_ & _ & _ & _ & _ & H). destruct (H eq_refl Hv) as (_ & r & y & _ & J & _). exists r. exact J.
  - destruct H as (_ & _ & _ & _ & H). destruct (H eq_refl Hv) as (_ & r & y & _ & J & _). exists r. exact J.
Qed.
Lemma ents_members bin l : allP (fun '(k, x) => key_ok k /\ val_ok x) l -> forall n ts, Wents bin n l ts ->
  exists rs, Forall2 jmember rs ts /\ map (fun r => unescape (fst r)) rs = map (fun kx => key_of (fst kx)) l.
Proof.
  induction l as [|[k v] l IH]; intros Hl n ts H; inversion H as [|? ? ? ? kt t ts' Ek H1 H2]; subst.
  - exists []. split; [constructor|reflexivity].
  - destruct Hl as [[Hk Hv] Hl]. destruct (IH Hl _ _ H2) as (rs & J & K). destruct (W_jvalue _ _ _ _ H1 Hv) as [r Jr].
    pose proof (key_spec k) as Ks. rewrite Ek in Ks. destruct (key_of k) as [s|] eqn:Es; [|contradiction]. destruct Ks as (b & -> & Kj & _). destruct (Kj Hk) as (Jb & Ub & _).
    exists ((b, r) :: rs). split; [constructor; [|exact J]; exists t; cbn [fst snd app]; rewrite <- app_assoc; auto|].
    cbn [map fst]. rewrite Ub, K, Es. reflexivity.
Qed.
Lemma names_app a b : names_of (a ++ b) = names_of a ++ names_of b.
Proof. apply flat_map_app. Qed.
Lemma names_entries (l : list (bytes * sval)) : names_of (map (fun kv => (SStr (fst kv), snd kv)) l) = map fst l.
Proof. induction l as [|[k v] l IH]; [reflexivity|]. cbn. f_equal. exact IH. Qed.
Lemma as_entries_map (l : list (bytes * sval)) : map (fun kv => (SStr (fst kv), snd kv)) l = as_entries l.
Proof. apply map_ext. intros [k x]. reflexivity. Qed.
(** Members that are not named are left by [without]; those that are, are not. *)
Lemma without_app names a b : without names (a ++ b) = without names a ++ without names b.
Proof. apply filter_app. Qed.
Lemma members_names (rs : list (bytes * raw)) l : map (fun r => unescape (fst r)) rs = map (fun kx : sval * sval => key_of (fst kx)) l ->
  forall r s, In r rs -> unescape (fst r) = Some s -> In s (names_of l).
Proof.
  revert l. induction rs as [|a rs IH]; intros [|[k v] l] K r s Hin E; try discriminate; [destruct Hin|]. cbn [map fst] in K. injection K as K1 K2.
  unfold names_of. cbn [flat_map fst]. apply in_or_app. destruct Hin as [-> |Hin].
  - left. rewrite <- K1, E. left. reflexivity.
  - right. exact (IH l K2 r s Hin E).
Qed.
Lemma without_none names rs l : map (fun r : bytes * raw => unescape (fst r)) rs = map (fun kx : sval * sval => key_of (fst kx)) l ->
  (forall s, In s (names_of l) -> In s names) -> Forall (fun kx => key_of (fst kx) <> None) l -> without names rs = [].
Proof.
  intros K Hin Hs. pose proof (members_names rs l K) as M.
  assert (Hk : Forall (fun r : bytes * raw => unescape (fst r) <> None) rs).
  { clear -K Hs. revert l K Hs. induction rs as [|a rs IH]; intros [|e l] K Hs; try discriminate; [constructor|]. cbn [map] in K. injection K as K1 K2.
    inversion Hs; subst. constructor; [rewrite K1; assumption|eapply IH; eassumption]. }
  unfold without. clear K. induction rs as [|a rs IH]; [reflexivity|]. cbn [filter]. inversion Hk as [|? ? Ha Hk']; subst.
  destruct (unescape (fst a)) as [s|] eqn:E; [|congruence].
  assert (X : In s names) by (apply Hin; apply (M a s); [left; reflexivity|exact E]). apply named_in_spec in X. unfold is_named in X. rewrite X. cbn [negb].
  apply IH; [|exact Hk']. intros r s' Hr. apply M. right. exact Hr.
Qed.
Lemma without_all names rs l : map (fun r : bytes * raw => unescape (fst r)) rs = map (fun kx : sval * sval => key_of (fst kx)) l ->
  (forall s, In s (names_of l) -> ~ In s names) -> without names rs = rs.
Proof.
  intros K Hin. pose proof (members_names rs l K) as M. unfold without. clear K. induction rs as [|a rs IH]; [reflexivity|]. cbn [filter].
  assert (X : (match unescape (fst a) with Some k => negb (existsb (bytes_eqb k) names) | None => true end) = true).
  { destruct (unescape (fst a)) as [s|] eqn:E; [|reflexivity]. assert (X : ~ In s names) by (apply Hin; apply (M a s); [left; reflexivity|exact E]).
    apply named_in_not in X. unfold is_named in X. rewrite X. reflexivity. }
  rewrite X, IH; [reflexivity|]. intros r s' Hr. apply M. right. exact Hr.
Qed.

Lemma allP_both {T} (P : T -> Prop) a b : allP P (a ++ b) <-> allP P a /\ allP P b.
Proof. rewrite !allP_Forall. apply Forall_app. Qed.

(** ** The own fields *)
Lemma direct_reader text A t d r : reader (reparse_of text) (rd_of A) t d r = de_direct (reparse_of text) (way_of (Arg text A)) t d r.
Proof. destruct A; reflexivity. Qed.
Lemma other_members bin (own : list (bytes * ty)) E : forall n rs ts, map (fun r : bytes * raw => unescape (fst r)) rs = map (fun kx => key_of (fst kx)) E ->
  (forall s, In s (names_of E) -> ~ In s (map fst own)) -> allP (fun '(k, x) => key_ok k /\ val_ok x) E -> Wents bin n E ts ->
  exists m, str_members rs = Some m /\ forall f, In f (map fst own) -> members_named f m = [].
Proof.
  induction E as [|[k v] E IH]; intros n [|[b r] rs] ts K Hn Hv H; try discriminate; [exists []; split; [reflexivity|intros; reflexivity]|].
  cbn [map fst] in K. injection K as K1 K2. destruct Hv as [[Hk _] Hv]. inversion H as [|? ? ? ? kt t ts' Ek H1 H2]; subst.
  pose proof (key_spec k) as Ks. rewrite Ek in Ks. destruct (key_of k) as [s|] eqn:Es; [|contradiction].
  destruct (IH (n + length (blobs v)) rs ts' K2) as (m & S & M); [|exact Hv|exact H2|].
  { intros s' Hs'. apply Hn. unfold names_of. cbn [flat_map]. apply in_or_app. right. exact Hs'. }
  exists ((s, r) :: m). cbn [str_members]. rewrite K1, S. split; [reflexivity|]. intros f Hf. unfold members_named. cbn [filter fst].
  destruct (bytes_eqb f s) eqn:Ef; [|apply M; exact Hf]. apply bytes_eqb_eq in Ef. subst s. exfalso. apply (Hn f); [|exact Hf].
  unfold names_of. cbn [flat_map fst]. rewrite Es. left. reflexivity.
Qed.
Section Own.
Variables (bin : bool) (A : list subslice_t) (text : bytes) (n : nat) (own : list (bytes * ty)) (vs : list dval) (ovs : list (bytes * sval)) (E : list (sval * sval)).
Hypothesis HW : W bin n (SMap (as_entries ovs ++ E)) text.
Hypothesis Hv : val_ok (SMap (as_entries ovs ++ E)).
Hypothesis Hok : ty_ok (TyStruct own).
Hypothesis He : encodes (TyStruct own) (XStruct vs) (SStruct ovs).
Hypothesis Hr : Forall2 (fun f x => recoverable bin (snd f) x) own vs.
Hypothesis Hd : nesting (SMap (as_entries ovs ++ E)) < 128.
Hypothesis Hf : fit bin (rd_of A) n (blobs (SMap (as_entries ovs ++ E))).
Hypothesis Hc : (bin = true -> N.of_nat (n + length (blobs (SMap (as_entries ovs ++ E)))) <= u64_max)%N.
Hypothesis Hnames : forall s, In s (names_of E) -> ~ In s (map fst own).
Lemma entries_blobs (l : list (bytes * sval)) : flat_map (fun '(_, x) => blobs x) (as_entries l) = flat_map (fun '(_, x) => blobs x) l.
Proof. induction l as [|[k v] l IH]; [reflexivity|]. unfold as_entries in *. cbn. rewrite IH. reflexivity. Qed.
Lemma own_read : exists ts1 ts2 rs1 rs2, text = "{"%byte :: seps true (ts1 ++ ts2) ++ ["}"%byte] /\
  Wents bin n (as_entries ovs) ts1 /\ Wents bin (n + length (flat_map (fun '(_, x) => blobs x) ovs)) E ts2 /\
  Forall2 jmember rs1 ts1 /\ Forall2 jmember rs2 ts2 /\ map fst rs1 = map (fun kx => escape (fst kx)) own /\
  map (fun r => unescape (fst r)) rs2 = map (fun kx => key_of (fst kx)) E /\ jvalue (RObj (rs1 ++ rs2)) text /\
  ((A <> [] -> ordinary_first (rs1 ++ rs2)) -> arg_deserialize (TyStruct own) (Arg text A) = Ok (XStruct vs)).
Proof.
  pose proof HW as HW'. apply (W_object _ _ _ (as_entries ovs ++ E)) in HW' as (ts & -> & HE); [|reflexivity|reflexivity|cbn [json_of]; rewrite opt_map_none, entry_map; auto].
  apply Wents_app in HE as (ts1 & ts2 & -> & H1 & H2). rewrite entries_blobs in H2.
  destruct Hv as [_ Hval]. rewrite allP_both in Hval. destruct Hval as [Hv1 Hv2].
  assert (Hv1' : allP (fun '(_, x) => val_ok x) ovs).
  { clear -Hv1. induction ovs as [|[k x] l IH]; [exact I|]. destruct Hv1 as [[_ X] Y]. split; [exact X|exact (IH Y)]. }
  cbn [blobs] in Hf, Hc. rewrite flat_map_app, entries_blobs in Hf, Hc. apply fit_app in Hf as [Hf1 _]. rewrite app_length in Hc.
  assert (He' : Forall3 (fun f x kv => fst kv = fst f /\ encodes (snd f) x (snd kv)) own vs ovs) by (inversion He; assumption).
  destruct Hok as [Hnd Ht].
  set (text := "{"%byte :: seps true (ts1 ++ ts2) ++ ["}"%byte]) in *.
  assert (R : Forall (fun f => round (reparse_of text) bin (rd_of A) (snd f)) own).
  { rewrite allP_In in Ht. rewrite Forall_forall. intros [f u] Hin. apply round_all. exact (Ht (f, u) Hin). }
  destruct (fields_trip (reparse_of text) bin (rd_of A) own vs ovs R He' Hr Hv1' n ts1 H1 Hf1 ltac:(intros e; specialize (Hc e); lia)) as (rs1 & J1 & K1 & V).
  destruct (ents_members bin E Hv2 _ _ H2) as (rs2 & J2 & K2).
  assert (J : jvalue (RObj (rs1 ++ rs2)) text) by (apply jobj_seps; apply Forall2_app; assumption).
  exists ts1, ts2, rs1, rs2. repeat (split; [first [assumption|reflexivity]|]). intros Ho.
  assert (L : length (map snd rs1) = length own) by (rewrite map_length, <- (map_length fst rs1), K1, map_length; reflexivity).
  destruct (combine_names own (map snd rs1) L) as [C1 C2].
  assert (S1 : str_members rs1 = Some (combine (map fst own) (map snd rs1))) by (apply str_members_escaped; exact K1).
  assert (S2 : exists m2, str_members rs2 = Some m2 /\ forall f, In f (map fst own) -> members_named f m2 = []).
  { exact (other_members bin own E _ rs2 ts2 K2 Hnames Hv2 H2). }
  destruct S2 as (m2 & S2 & M2).
  assert (S : str_members (rs1 ++ rs2) = Some (combine (map fst own) (map snd rs1) ++ m2)).
  { clear -S1 S2. revert S1. generalize (combine (map fst own) (map snd rs1)). induction rs1 as [|[k r] rs IH]; intros m S1; cbn [str_members app] in *.
    - injection S1 as <-. exact S2.
    - destruct (unescape k); [|discriminate]. destruct (str_members rs) as [m'|]; [|discriminate]. injection S1 as <-. rewrite (IH m' eq_refl). reflexivity. }
  apply (struct_read (rs1 ++ rs2) text A _ J Ho S own (XStruct vs)).
  rewrite (fields_of_ext _ _ (combine (map fst own) (map snd rs1))).
  - rewrite (fields_zip _ _ own (map snd rs1) vs); [reflexivity|rewrite C1; exact Hnd|exact C2|].
    assert (Hd' : list_max (map (fun '(_, x) => nesting x) ovs) < 127).
    { cbn [nesting] in Hd. rewrite map_app, list_max_app in Hd. assert (X : map (fun '(_, x) => nesting x) (as_entries ovs) = map (fun '(_, x) => nesting x) ovs).
      { unfold as_entries. rewrite map_map. apply map_ext. intros [k x]. reflexivity. } fold nesting in Hd. rewrite X in Hd. revert Hd. clear. intros Hd. change (List.list_max (map (fun '(_, x) => nesting x) ovs) < 127). lia. }
    specialize (V 127 Hd'). rewrite <- V. clear. generalize (map snd rs1). induction (map snd own) as [|u us IH]; intros l; destruct l; cbn [zip_of]; try reflexivity.
    rewrite direct_reader, IH. reflexivity.
  - intros f Hin. unfold members_named. rewrite filter_app, map_app. fold (members_named f m2). rewrite (M2 f Hin), app_nil_r. reflexivity.
Qed.
End Own.

(** ** The flattened fields, in text mode *)
Notation pairs := (Forall2 (fun kx kc => unescape (fst kx) = Some (fst kc) /\ content_of (objects Plain) 127 (snd kx) = Some (snd kc))).
Lemma sub_reads rp v l ts rs m t x : (forall o, json_ser v o = ser_object l o) -> (forall s, wrap_ser v s = wser_object l s) ->
  (json_of v <> None -> all_some (map entry_json l) <> None) -> (Wents false 0 l ts -> json_of v <> None) -> Wents false 0 l ts -> Forall2 jmember rs ts ->
  ty_ok t -> encodes t x v -> recoverable false t x -> no_int_map t -> val_ok v -> nesting v < 128 -> pairs rs m -> de_content rp false t (KMap m) = Some x.
Proof.
  intros H1 H2 H3 Hj HE J Ht He Hr Hn Hv Hd HF. destruct (W_exists false 0 v (Hj HE)) as (text & HW). pose proof HW as HW'.
  apply (W_object _ _ _ l) in HW' as (ts' & -> & HE'); [|assumption..]. rewrite (Wents_same _ _ _ _ HE' HE) in HW.
  destruct (text_read t x v _ rp Ht He Hr Hv HW) as (r & J' & V & _).
  rewrite <- (jvalue_unique _ _ _ (jobj_seps _ _ J) J') in V. specialize (V 128 Hd).
  pose proof (content_map_of (objects Plain) 128 127 rs m eq_refl eq_refl HF) as Hc.
  rewrite (content_agree rp Plain false t 128 (RObj rs) (KMap m) Hc (alike_plain t Hn (RObj rs))). exact V.
Qed.
Lemma Wents_json l : forall n ts, Wents false n l ts -> all_some (map entry_json l) <> None.
Proof.
  induction l as [|[k v] l IH]; intros n ts H; [discriminate|]. inversion H as [|? ? ? ? kt t ts' Ek H1 H2]; subst. cbn [map all_some]. 
  pose proof (W_json _ _ _ _ H1) as Hj. specialize (IH _ _ H2). pose proof (key_spec k) as Ks. rewrite Ek in Ks. unfold entry_json. cbn [fst snd].
  destruct (key_of k) as [s|]; [|contradiction]. destruct (json_of v); [|congruence]. fold entry_json. destruct (all_some (map entry_json l)); [discriminate|congruence].
Qed.
Lemma map_c_keys f m : forall acc ys, map_c f m acc = Some ys -> forall s, In s (map fst ys) <-> In s (map fst m) \/ In s (map fst acc).
Proof.
  induction m as [|[k x] m IH]; intros acc ys H s; cbn [map_c] in H; fold (map_c f) in H; [injection H as <-; cbn; tauto|].
  destruct (f x) as [y|]; [|discriminate]. rewrite (IH _ _ H s), insert_keys. cbn [map fst In]. intuition congruence.
Qed.
(** The contents [c] of the members [e] that the part [p] has written for the value [u]. *)
Definition part_content (rp : bytes -> option value) (p : part) (u : dval) (e : list (sval * sval)) (c : list (bytes * content)) : Prop :=
  map fst c = names_of e /\
  match p with
  | PStruct fs => map fst fs = names_of e /\ de_content rp true (TyStruct fs) (KMap c) = Some u
  | PMap t => de_content rp false (TyMap t) (KMap c) = Some u
  end.
Inductive parts_content (rp : bytes -> option value) : list part -> list dval -> list (list (sval * sval)) -> list (list (bytes * content)) -> Prop :=
| pc_nil : parts_content rp [] [] [] []
| pc_cons p u e c ps us es cs : part_content rp p u e c -> parts_content rp ps us es cs -> parts_content rp (p :: ps) (u :: us) (e :: es) (c :: cs).
Fixpoint alone_from (seen all : list bytes) (ps : list part) (es : list (list (sval * sval))) : Prop :=
  match ps, es with
  | PStruct fs :: ps', _ :: es' => alone_from (seen ++ map fst fs) all ps' es'
  | PMap _ :: ps', e :: es' => (forall s, In s all -> (In s (names_of e) <-> ~ In s seen)) /\ alone_from seen all ps' es'
  | _, _ => True
  end.
Lemma filter_none {T} (f : T -> bool) l : (forall x, In x l -> f x = false) -> filter f l = [].
Proof. induction l as [|a l IH]; intros H; [reflexivity|]. cbn [filter]. rewrite (H a (or_introl eq_refl)). apply IH. intros; apply H; right; assumption. Qed.
Lemma filter_every {T} (f : T -> bool) l : (forall x, In x l -> f x = true) -> filter f l = l.
Proof. induction l as [|a l IH]; intros H; [reflexivity|]. cbn [filter]. rewrite (H a (or_introl eq_refl)), IH; [reflexivity|]. intros; apply H; right; assumption. Qed.
Lemma filter_middle {T} (f : T -> bool) a m b : (forall x, In x a -> f x = false) -> (forall x, In x m -> f x = true) -> (forall x, In x b -> f x = false) ->
  filter f (a ++ m ++ b) = m.
Proof. intros Ha Hm Hb. rewrite !filter_app, (filter_none f a Ha), (filter_every f m Hm), (filter_none f b Hb), app_nil_r. reflexivity. Qed.
Lemma nodup_tail {T} (a b : list T) : NoDup (a ++ b) -> NoDup b.
Proof. induction a as [|x a IH]; [auto|]. cbn [app]. intros H. inversion H; subst. auto. Qed.
Lemma apart {T} (a m b : list (bytes * T)) : NoDup (map fst (a ++ m ++ b)) -> forall x, In x a \/ In x b -> ~ In (fst x) (map fst m).
Proof.
  rewrite !map_app. intros H x [Hx|Hx] Hm; apply (in_map fst) in Hx.
  - clear -H Hx Hm. induction (map fst a) as [|y l IH]; [destruct Hx|]. cbn [app] in H. inversion H as [|? ? N1 N2]; subst. destruct Hx as [-> |Hx]; [|exact (IH N2 Hx)].
    apply N1. apply in_or_app. right. apply in_or_app. left. exact Hm.
  - apply nodup_tail in H. clear -H Hx Hm. induction (map fst m) as [|y l IH]; [destruct Hm|]. cbn [app] in H. inversion H as [|? ? N1 N2]; subst.
    destruct Hm as [-> |Hm]; [|exact (IH N2 Hm)]. apply N1. apply in_or_app. right. exact Hx.
Qed.
Lemma filter_both {T} (f g : T -> bool) l : filter f (filter g l) = filter (fun x => f x && g x) l.
Proof. induction l as [|a l IH]; [reflexivity|]. cbn [filter]. destruct (g a) eqn:E; cbn [filter]; [destruct (f a); cbn; rewrite IH; reflexivity|rewrite andb_false_r; exact IH]. Qed.
Lemma take_alone rp tot : NoDup (map fst tot) -> forall ps us es cs, parts_content rp ps us es cs -> forall pre seen, tot = pre ++ concat cs -> NoDup (seen ++ struct_names ps) ->
  (take_parts rp ps (filter (keep seen) tot) = Some us <-> alone_from seen (map fst tot) ps es).
Proof.
  intros Hnd. induction 1 as [|p u e c ps us es cs [Hc Hp] Hps IH]; intros pre seen Ht Hs; [cbn; tauto|].
  cbn [concat] in Ht. pose proof Hnd as Hap. rewrite Ht in Hap. pose proof (apart pre c (concat cs) Hap) as Hout. clear Hap.
  specialize (IH (pre ++ c)). rewrite <- app_assoc in IH.
  destruct p as [fs|t]; cbn [take_parts alone_from].
  - destruct Hp as [Hf Hde]. cbn [struct_names flat_map] in Hs. rewrite app_assoc in Hs. specialize (IH (seen ++ map fst fs) Ht Hs).
    assert (E : filter (fun kc : bytes * content => is_named (map fst fs) (fst kc)) (filter (keep seen) tot) = c).
    { rewrite filter_both, Ht. apply filter_middle.
      - intros x Hx. apply andb_false_iff. left. apply named_in_not. rewrite Hf, <- Hc. apply Hout. left. exact Hx.
      - intros x Hx. apply (in_map fst) in Hx. rewrite Hc, <- Hf in Hx. apply andb_true_iff. split; [apply named_in_spec; exact Hx|]. unfold keep. apply negb_true_iff. apply named_in_not.
        intros Hx'. clear -Hs Hx Hx'. rewrite <- app_assoc in Hs. induction seen as [|y seen IH]; [destruct Hx'|]. cbn [app] in Hs. inversion Hs as [|? ? N1 N2]; subst.
        destruct Hx' as [-> |Hx']; [|exact (IH N2 Hx')]. apply N1. apply in_or_app. right. apply in_or_app. left. exact Hx.
      - intros x Hx. apply andb_false_iff. left. apply named_in_not. rewrite Hf, <- Hc. apply Hout. right. exact Hx. }
    rewrite E, Hde. change (fun kc : bytes * content => negb (is_named (map fst fs) (fst kc))) with (@keep (map fst fs) content). rewrite keep_app.
    rewrite <- IH. destruct (take_parts rp ps _) as [vs|]; split; congruence.
  - cbn [struct_names flat_map app] in Hs. specialize (IH seen Ht Hs). rewrite <- IH. split.
    + rewrite dc_map. destruct (map_c _ _ []) as [ys|] eqn:Em; [|discriminate]. cbn [option_map].
      destruct (take_parts rp ps _) as [vs|]; [|discriminate]. intros [= <- <-]. split; [|reflexivity]. rewrite dc_map in Hp. destruct (map_c _ c []) as [zs|] eqn:Ec; [|discriminate].
      cbn [option_map] in Hp. injection Hp as ->. intros s Hin. rewrite <- Hc.
      pose proof (map_c_keys _ _ _ _ Ec s) as K1. pose proof (map_c_keys _ _ _ _ Em s) as K2. cbn [map In] in K1, K2.
      assert (K3 : In s (map fst (filter (@keep seen content) tot)) <-> ~ In s seen).
      { split.
        - intros X. apply in_map_iff in X as ([k y] & <- & X). apply filter_In in X as [_ X]. unfold keep in X. apply negb_true_iff in X. apply named_in_not in X. exact X.
        - intros X. apply in_map_iff in Hin as ([k y] & <- & Hin). apply (in_map fst). apply filter_In. split; [exact Hin|]. unfold keep. apply negb_true_iff. apply named_in_not. exact X. }
      tauto.
    + intros [Ha Hrest]. assert (E : filter (@keep seen content) tot = c).
      { assert (Hall : forall x, In x tot -> In (fst x) (map fst c) <-> ~ In (fst x) seen).
        { intros x Hx. rewrite Hc. apply Ha. apply in_map. exact Hx. }
        rewrite Ht in Hall |- *. apply filter_middle; intros x Hx.
        - unfold keep. apply negb_false_iff. apply named_in_spec. destruct (is_named seen (fst x)) eqn:Ei; [apply named_in_spec; exact Ei|]. apply named_in_not in Ei.
          exfalso. apply (Hout x (or_introl Hx)). apply Hall; [apply in_or_app; left; exact Hx|exact Ei].
        - unfold keep. apply negb_true_iff. apply named_in_not. apply Hall; [apply in_or_app; right; apply in_or_app; left; exact Hx|apply in_map; exact Hx].
        - unfold keep. apply negb_false_iff. apply named_in_spec. destruct (is_named seen (fst x)) eqn:Ei; [apply named_in_spec; exact Ei|]. apply named_in_not in Ei.
          exfalso. apply (Hout x (or_intror Hx)). apply Hall; [apply in_or_app; right; apply in_or_app; right; exact Hx|exact Ei]. }
      rewrite E in *. rewrite Hp, Hrest. reflexivity.
Qed.
Lemma alone_spec all ps : forall seen es, length ps = length es ->
  (alone_from seen all ps es <-> forall before t after e m e', ps = before ++ PMap t :: after -> es = e ++ m :: e' -> length before = length e ->
     forall s, In s all -> (In s (names_of m) <-> ~ In s (seen ++ struct_names before))).
Proof.
  induction ps as [|p ps IH]; intros seen [|e es] L; try discriminate.
  - cbn. split; [|auto]. intros _ [|? ?] ? ? ? ? ? E; discriminate.
  - cbn in L. injection L as L. destruct p as [fs|t]; cbn [alone_from].
    + rewrite (IH _ es L). split; intros H before t after e0 m e' E1 E2 E3 s Hs.
      * destruct before as [|q before]; [discriminate|]. destruct e0 as [|e1 e0]; [discriminate|]. cbn [app length] in *. injection E1 as <- ->. injection E2 as <- ->. injection E3 as E3.
        rewrite (H before t after e0 m e' eq_refl eq_refl E3 s Hs). cbn [struct_names flat_map]. rewrite app_assoc. reflexivity.
      * subst ps es. specialize (H (PStruct fs :: before) t after (e :: e0) m e' eq_refl eq_refl ltac:(cbn; congruence) s Hs). rewrite H.
        cbn [struct_names flat_map]. rewrite app_assoc. reflexivity.
    + rewrite (IH _ es L). split.
      * intros [H0 H] before t0 after e0 m e' E1 E2 E3 s Hs. destruct before as [|q before], e0 as [|e1 e0]; try discriminate; cbn [app length] in *.
        -- injection E1 as <- <-. injection E2 as <- <-. cbn [struct_names flat_map]. rewrite app_nil_r. apply H0. exact Hs.
        -- injection E1 as <- ->. injection E2 as <- ->. injection E3 as E3. rewrite (H before t0 after e0 m e' eq_refl eq_refl E3 s Hs). reflexivity.
      * intros H. split.
        -- intros s Hs. rewrite (H [] t ps [] e es eq_refl eq_refl eq_refl s Hs). cbn. rewrite app_nil_r. reflexivity.
        -- intros before t0 after e0 m e' -> -> E3 s Hs. apply (H (PMap t :: before) t0 after (e :: e0) m e' eq_refl eq_refl); [cbn; congruence|exact Hs].
Qed.
Lemma pairs_named rs l c : map (fun r : bytes * raw => unescape (fst r)) rs = map (fun kx : sval * sval => key_of (fst kx)) l -> pairs rs c -> map fst c = names_of l.
Proof.
  intros K H. revert l K. induction H as [|[k x] [k' y] rs c [H1 _] _ IH]; intros [|[b v] l] K; try discriminate; [reflexivity|]. cbn [map fst] in *. injection K as K1 K2.
  rewrite (IH l K2). unfold names_of. cbn [flat_map fst]. rewrite <- K1, H1. reflexivity.
Qed.
Lemma part_made rp p u e ts rs c : part_writes p u e ->
  match p with PStruct fs => recoverable false (TyStruct fs) u /\ no_int_map (TyStruct fs) | PMap t => recoverable false (TyMap t) u /\ no_int_map t end ->
  match p with PStruct fs => ty_ok (TyStruct fs) | PMap t => ty_ok t end -> Wents false 0 e ts -> Forall2 jmember rs ts ->
  map (fun r => unescape (fst r)) rs = map (fun kx => key_of (fst kx)) e -> pairs rs c -> list_max (map (fun '(_, x) => nesting x) e) < 127 -> part_content rp p u e c.
Proof.
  intros Hp Hk Hok HE J K HF Hd. split; [exact (pairs_named _ _ _ K HF)|]. destruct Hp as [fs xs vs He Hv|t m vs He Hv].
  - rewrite as_entries_map in *. destruct Hk as [Hk Hn]. split.
    + rewrite <- as_entries_map, names_entries. inversion He as [| | | | | | | | | | | | | | | | |? ? ? He'| | | | | | | |]; subst. clear -He'. induction He' as [|? ? ? ? ? ? [H _] _ IH]; [reflexivity|]. cbn. congruence.
    + apply content_mono. apply (sub_reads rp (SStruct vs) (as_entries vs) ts rs); auto; [apply ser_struct|apply wser_struct|cbn [json_of]; rewrite opt_map_none, entry_as; auto| |].
      * intros X. apply Wents_json in X. cbn [json_of]. rewrite opt_map_none, <- entry_as. exact X.
      * rewrite nesting_as in Hd. cbn [nesting]. lia.
  - destruct Hk as [Hk Hn]. apply (sub_reads rp (SMap vs) vs ts rs); auto; [cbn [json_of]; rewrite opt_map_none, entry_map; auto| |].
    + intros X. apply Wents_json in X. cbn [json_of]. rewrite opt_map_none, <- entry_map. exact X.
    + cbn [nesting]. lia.
Qed.
Lemma app_split {T U} (f : T -> U) (l : list T) (a b : list U) : map f l = a ++ b -> exists l1 l2, l = l1 ++ l2 /\ map f l1 = a /\ map f l2 = b.
Proof. intros H. apply map_eq_app in H as (l1 & l2 & E & A & B). exists l1, l2. auto. Qed.
Lemma max_app a b : list_max (a ++ b) = Nat.max (list_max a) (list_max b).
Proof. induction a as [|x a IH]; [reflexivity|]. change (Nat.max x (list_max (a ++ b)) = Nat.max (Nat.max x (list_max a)) (list_max b)). rewrite IH. lia. Qed.
Lemma parts_made rp ps us es : Forall3 part_writes ps us es ->
  Forall2 (fun p u => match p with PStruct fs => recoverable false (TyStruct fs) u /\ no_int_map (TyStruct fs) | PMap t => recoverable false (TyMap t) u /\ no_int_map t end) ps us ->
  Forall (fun p => match p with PStruct fs => ty_ok (TyStruct fs) | PMap t => ty_ok t end) ps ->
  forall ts rs tot, Wents false 0 (concat es) ts -> Forall2 jmember rs ts -> map (fun r => unescape (fst r)) rs = map (fun kx => key_of (fst kx)) (concat es) ->
    pairs rs tot -> list_max (map (fun '(_, x) => nesting x) (concat es)) < 127 -> exists cs, tot = concat cs /\ parts_content rp ps us es cs.
Proof.
  induction 1 as [|p u e ps us es Hp Hps IH]; intros Hk Hok ts rs tot HE J K HF Hd; cbn [concat] in *.
  - destruct rs; [|discriminate]. inversion HF; subst. exists []. split; [reflexivity|constructor].
  - inversion Hk as [|? ? ? ? Hk1 Hk2]; subst. inversion Hok as [|? ? Hok1 Hok2]; subst.
    apply Wents_app in HE as (ts1 & ts2 & -> & E1 & E2). apply (Wents_text _ 0) in E2.
    rewrite map_app in K. apply app_split in K as (rs1 & rs2 & -> & K1 & K2).
    apply Forall2_app_inv_l in HF as (c1 & c2 & F1 & F2 & ->).
    assert (L : length rs1 = length ts1).
    { apply (f_equal (@length _)) in K1. rewrite !map_length in K1. rewrite K1. clear -E1. induction E1; cbn; congruence. }
    assert (J12 : Forall2 jmember rs1 ts1 /\ Forall2 jmember rs2 ts2).
    { apply Forall2_app_inv_l in J as (t1 & t2 & J1 & J2 & Et). pose proof (Forall2_len _ _ _ J1) as L1.
      destruct (app_inj_length ts1 t1 ts2 t2 ltac:(congruence) Et) as [-> ->]. auto. }
    destruct J12 as [J1 J2]. rewrite map_app, max_app in Hd.
    destruct (IH Hk2 Hok2 ts2 rs2 c2 E2 J2 K2 F2 ltac:(lia)) as (cs & -> & HC). exists (c1 :: cs). split; [reflexivity|]. constructor; [|exact HC].
    apply (part_made rp p u e ts1 rs1 c1 Hp Hk1 Hok1 E1 J1 K1 F1). lia.
Qed.
Lemma keep_none {T} (l : list (bytes * T)) : filter (keep []) l = l.
Proof. apply filter_every. intros; reflexivity. Qed.
Lemma concat_ok es : Forall (fun e => val_ok (SMap e)) es -> val_ok (SMap (concat es)).
Proof.
  induction 1 as [|e es He Hes IH]; [split; exact I|]. cbn [concat]. destruct He as [H1 H2], IH as [I1 I2]. split; [|rewrite allP_both; split; [exact H2|exact I2]].
  destruct e as [|[k x] e]; [exact I1|exact H1].
Qed.
Lemma part_val p u e : part_writes p u e -> val_ok (SMap e) /\ Forall (fun kx => exists s, fst kx = SStr s) e.
Proof.
  intros [fs xs vs He [Hv1 Hv2]|t m vs He Hv].
  - split; [split|].
    + rewrite map_map. destruct vs; [exact I|exact Hv1].
    + rewrite as_entries_map. apply keys_as. exact Hv2.
    + rewrite Forall_map. apply Forall_forall. intros kv _. exists (fst kv). reflexivity.
  - split; [exact Hv|]. inversion He as [| | | | | | | | | | | | | | | |? ? m' ? Ho Hp He'| | | | | | | | |]; subst. clear -He'. induction He' as [|? ? ? ? [H _] _ IH]; constructor; eauto.
Qed.
Lemma parts_val ps us es : Forall3 part_writes ps us es -> val_ok (SMap (concat es)) /\ Forall (fun kx => exists s, fst kx = SStr s) (concat es).
Proof.
  intros H. assert (X : Forall (fun e => val_ok (SMap e) /\ Forall (fun kx => exists s, fst kx = SStr s) e) es).
  { induction H; constructor; auto. eapply part_val; eassumption. }
  split; [apply concat_ok; eapply Forall_impl; [|exact X]; intros e He; exact (proj1 He)|]. clear H. induction X as [|e es [_ H] _ IH]; [constructor|]. cbn [concat]. apply Forall_app. auto.
Qed.
(** The flattened fields are read from the text of their members as written iff every map is alone. *)
Lemma parts_text ps us es rest : Forall3 part_writes ps us es ->
  Forall2 (fun p u => match p with PStruct fs => recoverable false (TyStruct fs) u /\ no_int_map (TyStruct fs) | PMap t => recoverable false (TyMap t) u /\ no_int_map t end) ps us ->
  Forall (fun p => match p with PStruct fs => ty_ok (TyStruct fs) | PMap t => ty_ok t end) ps -> NoDup (struct_names ps) -> NoDup (names_of (concat es)) ->
  W false 0 (SMap (concat es)) rest -> nesting (SMap (concat es)) < 128 ->
  (arg_flat [] ps (Arg rest []) = Ok (XStruct us) <-> maps_alone ps es).
Proof.
  intros Hp Hk Hok Hn Hnd HW Hd. destruct (parts_val _ _ _ Hp) as [Hv _].
  destruct (text_value _ rest HW Hv Hd) as [y Hy]. destruct (map_object _ _ HW Hv) as (ts & rs & Et & HE & J & Jv & K).
  destruct (value_arg_buffers _ _ _ _ Jv Hy) as [c Hc]. change (way_of (Arg rest [])) with Plain in Hc.
  apply content_obj in Hc as (d' & Ed & [(b' & Eb & _)|(_ & m & -> & HF)]); [discriminate|]. injection Ed as <-.
  destruct (parts_made (reparse_of rest) ps us es Hp Hk Hok ts rs m HE J K HF) as (cs & Em & HC).
  { cbn [nesting] in Hd. lia. }
  assert (Nm : map fst m = names_of (concat es)) by exact (pairs_named _ _ _ K HF).
  pose proof (take_alone (reparse_of rest) m ltac:(rewrite Nm; exact Hnd) ps us es cs HC [] [] Em Hn) as T. rewrite keep_none, Nm in T.
  assert (L : length ps = length es) by (clear -Hp; induction Hp; cbn; congruence).
  rewrite (alone_spec _ ps [] es L) in T. cbn [app] in T.
  assert (S : exists m0, str_members rs = Some m0 /\ collect Plain [] 127 m0 = Some m).
  { destruct (str_members rs) as [m0|] eqn:Es.
    - exists m0. split; [reflexivity|]. apply collect_pairs. rewrite keep_none. exact (pairs_names _ _ _ _ HF m0 Es).
    - exfalso. clear -HF Es. induction HF as [|[k x] kc rs m [H1 _] _ IH]; [discriminate|]. cbn [str_members fst] in *. rewrite H1 in Es. destruct (str_members rs); [discriminate|auto]. }
  destruct S as (m0 & S1 & S2).
  rewrite (arg_flat_ok [] ps rest (RObj rs) [] _ Jv). change (way_of (Arg rest [])) with Plain. unfold de_flat. cbn [enter objects map own_fields]. rewrite S1, S2.
  unfold maps_alone. rewrite <- T. destruct (take_parts _ ps m); cbn [option_map app]; split; congruence.
Qed.

(** ** The whole struct *)
Lemma text_parts O E text : W false 0 (SMap (O ++ E)) text -> val_ok (SMap (O ++ E)) ->
  exists rs1 rs2 rest, jvalue (RObj (rs1 ++ rs2)) text /\ map (fun r => unescape (fst r)) rs1 = map (fun kx => key_of (fst kx)) O /\
    map (fun r => unescape (fst r)) rs2 = map (fun kx => key_of (fst kx)) E /\ W false 0 (SMap E) rest /\ jvalue (RObj rs2) rest.
Proof.
  intros HW [_ Hv]. rewrite allP_both in Hv. destruct Hv as [Hv1 Hv2].
  apply (W_object _ _ _ (O ++ E)) in HW as (ts & -> & HE); [|reflexivity|reflexivity|cbn [json_of]; rewrite opt_map_none, entry_map; auto].
  apply Wents_app in HE as (ts1 & ts2 & -> & H1 & H2). apply (Wents_text _ 0) in H2.
  destruct (ents_members false O Hv1 _ _ H1) as (rs1 & J1 & K1). destruct (ents_members false E Hv2 _ _ H2) as (rs2 & J2 & K2).
  assert (Hj : json_of (SMap E) <> None) by (apply Wents_json in H2; cbn [json_of]; rewrite opt_map_none, <- entry_map; exact H2).
  destruct (W_exists false 0 _ Hj) as (rest & HR). pose proof HR as HR'.
  apply (W_object _ _ _ E) in HR' as (ts' & Er & HE'); [|reflexivity|reflexivity|cbn [json_of]; rewrite opt_map_none, entry_map; auto].
  rewrite (Wents_same _ _ _ _ HE' H2) in Er. subst rest.
  exists rs1, rs2, ("{"%byte :: seps true ts2 ++ ["}"%byte]). split; [apply jobj_seps; apply Forall2_app; assumption|]. repeat (split; [assumption|]). apply jobj_seps. exact J2.
Qed.
Lemma flat_split own ps l text rest x : jvalue (RObj l) text -> jvalue (RObj (without (map fst own) l)) rest ->
  (arg_flat own ps (Arg text []) = Ok x <->
   exists vs us, x = XStruct (vs ++ us) /\ arg_deserialize (TyStruct own) (Arg text []) = Ok (XStruct vs) /\ arg_flat [] ps (Arg rest []) = Ok (XStruct us)).
Proof.
  intros Hj Hr. rewrite (arg_flat_ok own ps text (RObj l) [] x Hj). assert (Ho : @nil subslice_t <> [] -> ordinary_first l) by (intros X; congruence).
  destruct (str_members l) as [m|] eqn:Em.
  2:{ unfold de_flat. cbn [enter]. rewrite (objects_map [] text l Ho), Em. split; [discriminate|]. intros (vs & us & _ & H & _).
      apply (arg_direct_ok _ _ _ _ _ Hj) in H. rewrite direct_struct in H. cbn [enter] in H. rewrite (objects_map [] text l Ho), Em in H. discriminate H. }
  pose proof (fun vs => struct_read l text [] m Hj Ho Em own (XStruct vs)) as S.
  pose proof (members_without (map fst own) l m Em) as Ew.
  assert (P : forall us, arg_flat [] ps (Arg rest []) = Ok (XStruct us) <-> (match collect Plain (map fst own) 127 m with Some cs => take_parts (reparse_of text) ps cs | None => None end) = Some us).
  { intros us. rewrite (arg_flat_ok [] ps rest _ [] _ Hr). change (way_of (Arg rest [])) with Plain.
    unfold de_flat. cbn [enter objects map own_fields]. rewrite Ew. rewrite (collect_keep Plain (map fst own)).
    destruct (collect Plain [] 127 (filter (keep (map fst own)) m)) as [cs|] eqn:Ec; [|split; discriminate].
    rewrite (take_same _ _ _ ps (reparse_below rest) cs (collect_short _ _ _ _ (str_members_short _ _ _ Ew (proj1 jvalue_short _ _ Hr)) _ Ec)).
    rewrite (take_same _ _ _ ps (reparse_below text) cs).
    - destruct (take_parts ever ps cs); cbn [option_map app]; split; congruence.
    - refine (collect_short _ _ _ _ _ _ Ec). refine (str_members_short _ _ _ Ew _). apply without_short. exact Hj. }
  unfold de_flat. cbn [enter]. rewrite (objects_map [] text l Ho), Em, own_fields_of. change (way_of (Arg text [])) with Plain in *.
  destruct (fields_of _ m own) as [vs|].
  - split.
    + destruct (collect _ _ 127 m) as [cs|]; [|discriminate]. destruct (take_parts _ ps cs) as [us|]; [|discriminate]. intros [= <-]. exists vs, us.
      split; [reflexivity|]. split; [apply S; reflexivity|]. apply P. reflexivity.
    + intros (vs' & us & -> & H1 & H2). apply S in H1. cbn in H1. injection H1 as ->. apply P in H2.
      destruct (collect _ _ 127 m) as [cs|]; [|discriminate]. rewrite H2. reflexivity.
  - split; [discriminate|]. intros (vs & us & _ & H & _). apply S in H. discriminate H.
Qed.
Lemma apart_names {T} (a b : list T) : NoDup (a ++ b) -> forall s, In s b -> ~ In s a.
Proof.
  intros H s Hb Ha. induction a as [|y a IH]; [destruct Ha|]. cbn [app] in H. inversion H as [|? ? N1 N2]; subst. destruct Ha as [-> |Ha]; [|exact (IH N2 Ha)].
  apply N1. apply in_or_app. right. exact Hb.
Qed.
Lemma flat_arrived bin n g own ps vs us ovs es :
  arrived bin n (merged ovs es) g -> flat_ok own ps -> flat_encodes own ps vs us ovs es ->
  flat_keeps bin own ps vs us -> NoDup (map fst own ++ names_of (concat es)) -> (bin = true -> no_mixed (merged ovs es) /\ plain_first (merged ovs es)) ->
  (arg_flat own ps g = Ok (XStruct (vs ++ us)) <-> maps_alone ps es).
Proof.
  unfold merged. rewrite as_entries_map. intros Hb (Hok & Hnn & Hoks) [He Hp] [Hk Hks] Hnd Hx.
  destruct (arrived_spelt _ _ _ _ Hb Hx) as (text & r & HT & _ & _ & Jt & Hg). destruct Hb as (HW & Hv & Hd & bl0 & HA & Hnil & Hc). destruct g as [tb A]. cbn [g_text g_attachments] in *.
  assert (Hfit : fit bin (rd_of A) n (blobs (SMap (as_entries ovs ++ concat es)))).
  { eapply fit_of; [exact HA|intros eb; apply Hc; exact eb|exact Hnil]. }
  assert (Hnames : forall s, In s (names_of (concat es)) -> ~ In s (map fst own)) by exact (apart_names _ _ Hnd).
  destruct (own_read bin A tb n own vs ovs (concat es) HW Hv Hok He Hk Hd Hfit ltac:(intros eb; apply Hc; exact eb) Hnames)
    as (ts1 & ts2 & rs1 & rs2 & _ & _ & _ & _ & _ & K1 & K2 & J & D).
  destruct (text_parts _ _ _ HT Hv) as (rs1' & rs2' & rest & J' & K1' & K2' & HR & JR).
  pose proof (jvalue_unique _ _ _ Jt J') as Er.
  assert (Ko : map fst own = map fst ovs).
  { inversion He as [| | | | | | | | | | | | | | | | |? ? ? He'| | | | | | | |]; subst. clear -He'. induction He' as [|? ? ? ? ? ? [H _] _ IH]; [reflexivity|]. cbn. congruence. }
  assert (L : length rs1 = length rs1').
  { apply (f_equal (@length _)) in K1, K1', Ko. unfold as_entries in K1'. rewrite !map_length in *. congruence. }
  assert (U1 : map (fun r => unescape (fst r)) rs1 = map (fun kx => key_of (fst kx)) (as_entries ovs)).
  { rewrite <- (map_map fst unescape), K1. unfold as_entries. rewrite !map_map. transitivity (map (fun x => Some x) (map fst own)); [|rewrite Ko, map_map; apply map_ext; intros [k x]; reflexivity].
    rewrite map_map. apply map_ext. intros [k x]. apply unescape_escape. }
  assert (Wo : forall l1 l2, map (fun r => unescape (fst r)) l1 = map (fun kx => key_of (fst kx)) (as_entries ovs) ->
    map (fun r => unescape (fst r)) l2 = map (fun kx => key_of (fst kx)) (concat es) -> without (map fst own) (l1 ++ l2) = l2).
  { intros l1 l2 U V. rewrite without_app, (without_none _ l1 (as_entries ovs) U), (without_all _ l2 (concat es) V); [reflexivity|exact Hnames| |].
    - intros s. rewrite <- as_entries_map, names_entries, Ko. auto.
    - unfold as_entries. rewrite Forall_map. apply Forall_forall. intros [k x] _. discriminate. }
  assert (Hrest : arg_flat [] ps (Arg rest []) = Ok (XStruct us) <-> maps_alone ps es).
  { apply parts_text; auto.
    - apply nodup_tail in Hnn. exact Hnn.
    - apply nodup_tail in Hnd. exact Hnd.
    - cbn [nesting] in Hd |- *. rewrite map_app, max_app in Hd. lia. }
  assert (F : (A <> [] -> ordinary_first (rs1 ++ rs2)) -> (arg_flat own ps (Arg tb A) = Ok (XStruct (vs ++ us)) <-> exists vs' us', XStruct (vs ++ us) = XStruct (vs' ++ us') /\
      arg_deserialize (TyStruct own) (Arg tb A) = Ok (XStruct vs') /\ arg_flat [] ps (Arg rest []) = Ok (XStruct us'))).
  { intros Ho. destruct Hg as [[= -> ->]|(tb' & A' & bl & rb & [= <- <-] & HnA & Hbl & Jb & S & N)].
    - apply (flat_split own ps (rs1 ++ rs2)); [exact J|]. rewrite (Wo rs1 rs2 U1 K2). pose proof (jvalue_unique _ _ _ J J') as X. injection X as X.
      destruct (app_inj_length _ _ _ _ L X) as [_ ->]. exact JR.
    - apply (flat_spelt own ps (rs1 ++ rs2) tb A bl rs2' rest _ J (Ho HnA) HnA Hbl); [|exact JR]. rewrite (Wo rs1 rs2 U1 K2).
      rewrite (jvalue_unique _ _ _ Jb J), Er in S. specialize (N (fun X => X)). rewrite (jvalue_unique _ _ _ Jb J) in N. cbn in N.
      inversion S as [? HS| |l b Hst E1 E2|l l' HO HF E1 E2]; subst; [destruct HS|]. unfold spelt_members.
      apply Forall2_app_inv_l in HF as (l1 & l2 & F1 & F2 & E). pose proof (Forall2_len _ _ _ F1) as L1. destruct (app_inj_length rs1' l1 rs2' l2 ltac:(congruence) E) as [-> ->]. exact F2. }
  assert (Ho : A <> [] -> ordinary_first (rs1 ++ rs2)).
  { intros HnA. destruct Hg as [[= -> ->]|(tb' & A' & bl & rb & [= <- <-] & _ & Hbl & Jb & S & N)]; [congruence|]. specialize (N (fun X => X)). rewrite (jvalue_unique _ _ _ Jb J) in N. exact N. }
  rewrite (F Ho), <- Hrest. split.
  - intros (vs' & us' & [= E] & D' & R). rewrite (D Ho) in D'. injection D' as <-. apply app_inv_head in E. subst us'. exact R.
  - intros R. exists vs, us. split; [reflexivity|]. split; [exact (D Ho)|exact R].
Qed.
Theorem flat_returns bin src ns args i g own ps vs us ovs es :
  sendable bin src ns args -> became bin src ns args i (merged ovs es) g -> flat_ok own ps -> flat_encodes own ps vs us ovs es ->
  flat_keeps bin own ps vs us -> NoDup (map fst own ++ names_of (concat es)) -> (bin = true -> no_mixed (merged ovs es) /\ plain_first (merged ovs es)) ->
  (arg_flat own ps g = Ok (XStruct (vs ++ us)) <-> maps_alone ps es).
Proof. intros Hs Hb. destruct (became_arrived _ _ _ _ _ _ _ Hs Hb) as [n Ha]. exact (flat_arrived bin n g own ps vs us ovs es Ha). Qed.

(** ** At most one map, at the end *)
Lemma struct_entries fs u e : part_writes (PStruct fs) u e -> names_of e = map fst fs.
Proof.
  intros H. inversion H as [? xs vs He Hv|]; subst. rewrite names_entries. inversion He as [| | | | | | | | | | | | | | | | |? ? ? He'| | | | | | | |]; subst.
  clear -He'. induction He' as [|? ? ? ? ? ? [H _] _ IH]; [reflexivity|]. cbn. congruence.
Qed.
Lemma structs_entries fss us es : Forall3 part_writes (map PStruct fss) us es -> names_of (concat es) = struct_names (map PStruct fss).
Proof.
  revert us es. induction fss as [|fs fss IH]; intros us es H; inversion H as [|? u e ? us' es' H1 H2]; subst; [reflexivity|].
  cbn [concat map struct_names flat_map]. rewrite names_app, (struct_entries _ _ _ H1), (IH _ _ H2). reflexivity.
Qed.
Lemma F3_app {A B C} (R : A -> B -> C -> Prop) a1 a2 : forall b c, Forall3 R (a1 ++ a2) b c -> exists b1 b2 c1 c2, b = b1 ++ b2 /\ c = c1 ++ c2 /\ Forall3 R a1 b1 c1 /\ Forall3 R a2 b2 c2.
Proof.
  induction a1 as [|x a1 IH]; intros b c H; cbn [app] in H; [exists [], b, [], c; repeat split; auto; constructor|].
  inversion H as [|? y z ? lb lc H1 H2]; subst. destruct (IH _ _ H2) as (b1 & b2 & c1 & c2 & -> & -> & A1 & A2).
  exists (y :: b1), b2, (z :: c1), c2. repeat split; auto. constructor; assumption.
Qed.
Lemma one_map fss last before t after : map PStruct fss ++ last = before ++ PMap t :: after -> (last = [] \/ exists t', last = [PMap t']) ->
  before = map PStruct fss /\ after = [] /\ last = [PMap t].
Proof.
  revert before. induction fss as [|fs fss IH]; intros before E Hl; cbn [map app] in E.
  - destruct Hl as [-> |[t' ->]]; [destruct before; discriminate|]. destruct before as [|q before]; [cbn in E; injection E as -> <-; auto|destruct before; discriminate].
  - destruct before as [|q before]; [discriminate|]. cbn [app] in E. injection E as <- E. destruct (IH before E Hl) as (-> & -> & ->). auto.
Qed.
Lemma last_alone ps us es : map_at_end ps -> Forall3 part_writes ps us es -> NoDup (names_of (concat es)) -> maps_alone ps es.
Proof.
  intros (fss & last & -> & Hl) Hp Hnd before t after e m e' E1 E2 E3 s Hs. destruct (one_map _ _ _ _ _ E1 Hl) as (-> & -> & ->).
  apply F3_app in Hp as (u1 & u2 & c1 & c2 & -> & -> & P1 & P2).
  assert (L : length e = length c1) by (rewrite <- E3; clear -P1; induction P1; cbn; congruence).
  destruct (app_inj_length _ _ _ _ (eq_sym L) E2) as [-> Ec]. subst c2. inversion P2 as [|? ? ? ? ? ? _ P3]; subst. inversion P3; subst.
  rewrite <- (structs_entries _ _ _ P1). rewrite concat_app in Hs, Hnd. cbn [concat] in Hs, Hnd. rewrite app_nil_r in Hs, Hnd. rewrite names_app in Hs, Hnd.
  split; [exact (apart_names _ _ Hnd s)|]. intros X. apply in_app_or in Hs as [Hs|Hs]; [contradiction|exact Hs].
Qed.
Theorem flat_last bin src ns args i g own ps vs us ovs es :
  sendable bin src ns args -> became bin src ns args i (merged ovs es) g -> flat_ok own ps -> flat_encodes own ps vs us ovs es ->
  flat_keeps bin own ps vs us -> NoDup (map fst own ++ names_of (concat es)) -> (bin = true -> no_mixed (merged ovs es) /\ plain_first (merged ovs es)) ->
  map_at_end ps -> arg_flat own ps g = Ok (XStruct (vs ++ us)).
Proof.
  intros Hs Hb Hok He Hk Hnd Hx Hl. apply (flat_returns bin src ns args i g own ps vs us ovs es Hs Hb Hok He Hk Hnd Hx).
  apply (last_alone ps us es Hl); [apply He|]. exact (nodup_tail _ _ Hnd).
Qed.

(** ** Names that are written twice *)
Lemma times_members s l : forall m, str_members l = Some m -> length (members_named s m) = times_named s l.
Proof.
  unfold times_named, members_named. induction l as [|[k x] l IH]; intros m E; cbn [str_members] in E; [injection E as <-; reflexivity|].
  destruct (unescape k) as [k'|] eqn:Ek; [|discriminate]. destruct (str_members l) as [m'|]; [|discriminate]. injection E as <-. specialize (IH m' eq_refl).
  cbn [filter fst]. rewrite Ek, (bytes_eqb_sym s k'). destruct (bytes_eqb k' s); cbn [map length]; [f_equal|]; exact IH.
Qed.
Lemma fields_of_twice f m fs s : In s (map fst fs) -> 2 <= length (members_named s m) -> fields_of f m fs = None.
Proof.
  induction fs as [|[n u] fs IH]; intros Hin H; [destruct Hin|]. cbn [fields_of]; fold (fields_of f m). destruct Hin as [E|Hin].
  - cbn [fst] in E. subst n. unfold field_of. destruct (members_named s m) as [|a [|b l]]; [cbn in H; lia|cbn in H; lia|reflexivity].
  - rewrite (IH Hin H). destruct (field_of f m n u); reflexivity.
Qed.
Lemma fields_c_twice f m fs s : In s (map fst fs) -> 2 <= length (contents_named s m) -> fields_c f m fs = None.
Proof.
  induction fs as [|[n u] fs IH]; intros Hin H; [destruct Hin|]. cbn [fields_c]; fold (fields_c f m). destruct Hin as [E|Hin].
  - cbn [fst] in E. subst n. unfold field_c. destruct (contents_named s m) as [|a [|b l]]; [cbn in H; lia|cbn in H; lia|reflexivity].
  - rewrite (IH Hin H). destruct (field_c f m n u); reflexivity.
Qed.
Lemma contents_keep names s cs : ~ In s names -> contents_named s (filter (fun kc => negb (is_named names (fst kc))) cs) = contents_named s cs.
Proof.
  intros Hn. unfold contents_named. f_equal. induction cs as [|[k c] cs IH]; [reflexivity|]. cbn [filter fst]. destruct (is_named names k) eqn:E; cbn [negb filter fst].
  - destruct (bytes_eqb s k) eqn:Ek; [|exact IH]. apply bytes_eqb_eq in Ek. subst k. apply named_in_spec in E. contradiction.
  - rewrite IH. reflexivity.
Qed.
Lemma take_twice rp ps s : In s (struct_names ps) -> NoDup (struct_names ps) -> forall cs, 2 <= length (contents_named s cs) -> take_parts rp ps cs = None.
Proof.
  induction ps as [|[fs|t] ps IH]; intros Hin Hnd cs H; [destruct Hin| |]; cbn [take_parts struct_names flat_map] in *.
  - apply in_app_or in Hin. destruct (in_dec (list_eq_dec Byte.byte_eq_dec) s (map fst fs)) as [Hs|Hs].
    + rewrite dc_struct_map, (fields_c_twice _ _ fs s Hs); [reflexivity|]. rewrite (named_mine (map fst fs) s cs Hs). exact H.
    + rewrite (IH ltac:(tauto) (nodup_tail _ _ Hnd)) by (rewrite contents_keep; assumption). destruct (de_content _ _ _ _); reflexivity.
  - cbn [app] in *. rewrite (IH Hin Hnd cs H). destruct (de_content _ _ _ _); reflexivity.
Qed.
Theorem flat_twice own ps l text A x s : jvalue (RObj l) text -> NoDup (map fst own ++ struct_names ps) -> In s (map fst own ++ struct_names ps) ->
  2 <= times_named s l -> arg_flat own ps (Arg text A) <> Ok x.
Proof.
  intros J Hnd Hin H X. apply (arg_flat_ok own ps text (RObj l) A x J) in X. unfold de_flat in X. cbn [enter] in X. destruct (objects _ l); try discriminate.
  destruct (str_members l) as [m|] eqn:Em; [|discriminate]. rewrite own_fields_of in X. rewrite <- (times_members s l m Em) in H.
  destruct (in_dec (list_eq_dec Byte.byte_eq_dec) s (map fst own)) as [Hs|Hs]; [rewrite (fields_of_twice _ m own s Hs H) in X; discriminate X|].
  destruct (fields_of _ m own); [|discriminate]. destruct (collect _ _ 127 m) as [cs|] eqn:Ec; [|discriminate]. apply collect_pairs in Ec.
  apply in_app_or in Hin. rewrite (take_twice _ ps s ltac:(tauto) (nodup_tail _ _ Hnd)) in X; [discriminate X|].
  rewrite <- (named_keep (map fst own) s m Hs) in H. clear -Ec H. unfold contents_named, members_named in *. rewrite map_length in *.
  replace (length (filter (fun p : bytes * content => bytes_eqb s (fst p)) cs)) with (length (filter (fun p : bytes * raw => bytes_eqb s (fst p)) (filter (keep (map fst own)) m))); [exact H|].
  clear H. induction Ec as [|kx kc l1 l2 [E _] _ IH]; [reflexivity|]. cbn [filter]. rewrite E. destruct (bytes_eqb s (fst kc)); cbn [length]; rewrite IH; reflexivity.
Qed.

(** A map with a key that is the name of a field. *)
Lemma times_app s a b : times_named s (a ++ b) = times_named s a + times_named s b.
Proof. unfold times_named. rewrite filter_app, app_length. reflexivity. Qed.
Lemma times_in s rs l : map (fun r : bytes * raw => unescape (fst r)) rs = map (fun kx : sval * sval => key_of (fst kx)) l -> In s (names_of l) -> 1 <= times_named s rs.
Proof.
  revert l. induction rs as [|[k x] rs IH]; intros [|[b v] l] K Hin; try discriminate; [destruct Hin|]. cbn [map fst] in K. injection K as K1 K2.
  unfold names_of in Hin. cbn [flat_map fst] in Hin. unfold times_named. cbn [filter fst]. rewrite K1. apply in_app_or in Hin as [Hin|Hin].
  - destruct (key_of b) as [s'|]; [|destruct Hin]. destruct Hin as [-> |[]]. rewrite bytes_eqb_refl. cbn. lia.
  - specialize (IH l K2 Hin). unfold times_named in IH. destruct (match key_of b with Some k0 => bytes_eqb k0 s | None => false end); cbn [length]; lia.
Qed.
Lemma times_parts s ps us es : Forall3 part_writes ps us es -> forall rs, map (fun r : bytes * raw => unescape (fst r)) rs = map (fun kx => key_of (fst kx)) (concat es) ->
  (In s (struct_names ps) -> 1 <= times_named s rs) /\
  ((exists before t after e m e', ps = before ++ PMap t :: after /\ es = e ++ m :: e' /\ length before = length e /\ In s (names_of m)) ->
    1 <= times_named s rs /\ (In s (struct_names ps) -> 2 <= times_named s rs)).
Proof.
  induction 1 as [|p u e ps us es Hp Hps IH]; intros rs K.
  - split; [intros []|]. intros ([|? ?] & ? & ? & ? & ? & ? & E & _); discriminate.
  - cbn [concat] in K. rewrite map_app in K. apply app_split in K as (r1 & r2 & -> & K1 & K2). rewrite times_app. destruct (IH r2 K2) as [I1 I2]. pose proof (times_in s r1 e K1) as T.
    destruct p as [fs|t]; cbn [struct_names flat_map].
    + rewrite <- (struct_entries _ _ _ Hp). split; [intros X; apply in_app_or in X as [X|X]; [specialize (T X); lia|specialize (I1 X); lia]|].
      intros (before & t & after & e0 & m & e' & E1 & E2 & E3 & Hm). destruct before as [|q before]; [discriminate|]. destruct e0 as [|e1 e0]; [discriminate|].
      cbn [app length] in *. injection E1 as <- ->. injection E2 as <- ->. injection E3 as E3. destruct I2 as [I2 I3]; [exists before, t, after, e0, m, e'; auto|].
      split; [lia|]. intros X. apply in_app_or in X as [X|X]; [specialize (T X); lia|specialize (I3 X); lia].
    + cbn [app]. split; [intros X; specialize (I1 X); lia|]. intros (before & t0 & after & e0 & m & e' & E1 & E2 & E3 & Hm).
      destruct before as [|q before], e0 as [|e1 e0]; try discriminate; cbn [app length] in *.
      * injection E1 as <- <-. injection E2 as <- <-. specialize (T Hm). split; [lia|]. intros X. specialize (I1 X). lia.
      * injection E1 as <- ->. injection E2 as <- ->. injection E3 as E3. destruct I2 as [I2 I3]; [exists before, t0, after, e0, m, e'; auto|]. split; [lia|]. intros X. specialize (I3 X). lia.
Qed.
Theorem flat_clash bin src ns args i g own ps vs us ovs es before t after e m e' s x :
  sendable bin src ns args -> became bin src ns args i (merged ovs es) g -> flat_ok own ps -> flat_encodes own ps vs us ovs es ->
  ps = before ++ PMap t :: after -> es = e ++ m :: e' -> length before = length e -> In s (names_of m) -> In s (map fst own ++ struct_names ps) ->
  arg_flat own ps g <> Ok x.
Proof.
  unfold merged. rewrite as_entries_map. intros Hs Hb (Hok & Hnn & Hoks) [He Hp] E1 E2 E3 Hm Hin.
  destruct (became_text _ _ _ _ _ _ _ Hs Hb) as (n & HW & [_ Hv] & _). destruct g as [text A]. cbn [g_text] in HW.
  apply (W_object _ _ _ (as_entries ovs ++ concat es)) in HW as (ts & -> & HE); [|reflexivity|reflexivity|cbn [json_of]; rewrite opt_map_none, entry_map; auto].
  destruct (ents_members bin _ Hv _ _ HE) as (rs & J & K). pose proof (jobj_seps _ _ J) as Jv. apply (flat_twice own ps rs _ A x s Jv Hnn Hin).
  rewrite map_app in K. apply app_split in K as (r1 & r2 & -> & K1 & K2). rewrite times_app.
  destruct (times_parts s ps us es Hp r2 K2) as [_ T]. destruct T as [T1 T2]; [exists before, t, after, e, m, e'; auto|].
  apply in_app_or in Hin as [Hin|Hin]; [|specialize (T2 Hin); lia].
  assert (X : 1 <= times_named s r1); [|lia]. apply (times_in s r1 (as_entries ovs) K1). rewrite <- as_entries_map, names_entries.
  inversion He as [| | | | | | | | | | | | | | | | |? ? ? He'| | | | | | | |]; subst. clear -He' Hin. induction He' as [|? ? ? ? ? ? [H _] _ IH]; [destruct Hin|]. cbn [map] in *. rewrite H.
  destruct Hin as [Hin|Hin]; [left; exact Hin|right; exact (IH Hin)].
Qed.
