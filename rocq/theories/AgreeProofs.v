(** When the two readers of an argument agree (C24). *)
From Verif Require Export ExactProofs.

(** ** Maps without repeated keys *)
Lemma nodup_value {T} (ms : list (bytes * T)) k v v' : NoDup (map fst ms) -> In (k, v) ms -> In (k, v') ms -> v = v'.
Proof.
  induction ms as [|[k1 v1] ms IH]; intros Hn H1 H2; [destruct H1|]. cbn [map fst] in Hn. inversion Hn as [|? ? Hk Hn']; subst.
  destruct H1 as [H1|H1]; destruct H2 as [H2|H2]; auto.
  - congruence.
  - injection H1 as -> ->. destruct Hk. apply in_map_iff. exists (k, v'). auto.
  - injection H2 as -> ->. destruct Hk. apply in_map_iff. exists (k, v). auto.
Qed.
Lemma obj_of_in ms k v : NoDup (map fst ms) -> In (k, v) (obj_of ms) <-> In (k, v) ms.
Proof.
  intros Hn. destruct (obj_of_members ms) as [_ H]. rewrite H. split.
  - intros (pre & post & -> & _). apply in_or_app. right. left. reflexivity.
  - intros Hin. apply in_split in Hin as (pre & post & ->). exists pre, post. split; [reflexivity|].
    rewrite map_app in Hn. cbn [map fst] in Hn. apply NoDup_remove_2 in Hn. intros X. apply Hn. apply in_or_app. auto.
Qed.
Lemma obj_get_in {T} k (m : list (bytes * T)) v : obj_get k m = Some v -> In (k, v) m.
Proof.
  induction m as [|[k1 x] m IH]; cbn [obj_get]; [discriminate|]. destruct (bytes_eqb k k1) eqn:E.
  - apply bytes_eqb_eq in E. subst. intros [= ->]. left. reflexivity.
  - intros H. right. auto.
Qed.
Lemma obj_get_some {T} k (m : list (bytes * T)) : In k (map fst m) -> exists v, obj_get k m = Some v.
Proof.
  induction m as [|[k1 x] m IH]; cbn [map fst In obj_get]; [contradiction|]. destruct (bytes_eqb k k1) eqn:E; [eauto|].
  intros [->|H]; [rewrite bytes_eqb_refl in E; discriminate|auto].
Qed.
Lemma obj_get_of_in ms k v : NoDup (map fst ms) -> obj_get k (obj_of ms) = Some v <-> In (k, v) ms.
Proof.
  intros Hn. split; [intros H; apply obj_get_in in H; apply obj_of_in; assumption|].
  intros H. assert (Hk : In k (map fst (obj_of ms))) by (apply in_map_iff; exists (k, v); split; [reflexivity|apply obj_of_in; assumption]).
  destruct (obj_get_some _ _ Hk) as (v' & Hv). rewrite Hv. f_equal. apply obj_get_in in Hv. rewrite obj_of_in in Hv by exact Hn.
  eapply nodup_value; eauto.
Qed.
Lemma obj_of_inj ms ms' : map fst ms = map fst ms' -> NoDup (map fst ms) -> obj_of ms = obj_of ms' -> ms = ms'.
Proof.
  intros Hk Hn E. assert (G : forall k v, In (k, v) ms <-> In (k, v) ms').
  { intros k v. rewrite <- obj_of_in by exact Hn. rewrite E. apply obj_of_in. rewrite <- Hk. exact Hn. }
  clear E. revert ms' Hk G. induction ms as [|[k v] ms IH]; intros [|[k' v'] ms'] Hk G; try discriminate; [reflexivity|].
  cbn [map fst] in *. injection Hk as -> Hk. assert (Hn' : NoDup (k' :: map fst ms')) by (rewrite <- Hk; exact Hn).
  assert (Ev : v = v'). { apply (nodup_value ((k', v') :: ms') k'); [exact Hn'|apply G; left; reflexivity|left; reflexivity]. }
  subst v'. f_equal. inversion Hn as [|? ? H1 H2]; subst. inversion Hn' as [|? ? H1' H2']; subst. apply IH; auto.
  intros k v0. split; intros H.
  - destruct (proj1 (G k v0) (or_intror H)) as [[= <- <-]|H']; [|exact H']. destruct H1. apply in_map_iff. exists (k', v). auto.
  - destruct (proj2 (G k v0) (or_intror H)) as [[= <- <-]|H']; [|exact H']. destruct H1'. apply in_map_iff. exists (k', v). auto.
Qed.
Lemma all_some_miss {T} (l : list (option T)) : all_some l = None -> In None l.
Proof.
  induction l as [|[x|] l IH]; cbn [all_some]; [discriminate| |left; reflexivity].
  destruct (all_some l); [discriminate|]. right. auto.
Qed.
Lemma all_some_has {T} (l : list (option T)) : In None l -> all_some l = None.
Proof.
  induction l as [|[x|] l IH]; cbn [all_some In]; [contradiction| |reflexivity].
  intros [H|H]; [discriminate|]. rewrite (IH H). reflexivity.
Qed.
Lemma F2_impl {T U} (P Q : T -> U -> Prop) l r : (forall x y, P x y -> Q x y) -> Forall2 P l r -> Forall2 Q l r.
Proof. intros H. induction 1; constructor; auto. Qed.

Section Agree.
Variables (rp : bytes -> option value) (A : list subslice_t) (bl : list bytes).
Hypothesis HA : contents A = Some bl.
Notation fillo := (fillo A).
Notation fillm := (fillm A).

(** ** The parts of an object *)
Lemma val_obj d l w : (forall k x l', l = (k, x) :: l' -> unescape k <> Some raw_token) -> val_of rp (S (S d)) (RObj l) = Some w ->
  exists ms, w = VObj (obj_of ms) /\ Forall2 (fun a b => unescape (fst a) = Some (fst b) /\ val_of rp (S d) (snd a) = Some (snd b)) l ms.
Proof.
  intros Hp H. rewrite val_of_obj' in H by exact Hp. destruct (all_some _) as [ms|] eqn:E; [|discriminate]. injection H as <-.
  exists ms. split; [reflexivity|]. apply all_some_map_F2 in E. eapply F2_impl; [|exact E]. intros [k x] [k' v]. unfold val_member. cbn [fst snd].
  destruct (unescape k); [|discriminate]. destruct (val_of rp (S d) x); [|discriminate]. cbn [pair_opt]. intros [= -> ->]. auto.
Qed.
Lemma keys_of {T} (P : raw -> T -> Prop) l ms : Forall2 (fun a b => unescape (fst a) = Some (fst b) /\ P (snd a) (snd b)) l ms ->
  map (fun m => unescape (fst m)) l = map Some (map fst ms).
Proof. induction 1 as [|a b l ms [H1 _] H IH]; [reflexivity|]. cbn [map]. rewrite H1, IH. reflexivity. Qed.
Lemma nodup_keys {T} (P : raw -> T -> Prop) l ms : Forall2 (fun a b => unescape (fst a) = Some (fst b) /\ P (snd a) (snd b)) l ms ->
  NoDup (map (fun m => unescape (fst m)) l) -> NoDup (map fst ms).
Proof. intros H Hn. rewrite (keys_of P l ms H) in Hn. apply NoDup_map_inv in Hn. exact Hn. Qed.
Lemma F2_left {T U} (P : T -> U -> Prop) l ms x : Forall2 P l ms -> In x l -> exists y, In y ms /\ P x y.
Proof. induction 1 as [|a b l ms H1 H IH]; [contradiction|]. intros [<-|Hin]; [exists b; cbn; auto|]. destruct (IH Hin) as (y & Hy & HP). exists y. cbn. auto. Qed.
Lemma F2_right {T U} (P : T -> U -> Prop) l ms y : Forall2 P l ms -> In y ms -> exists x, In x l /\ P x y.
Proof. induction 1 as [|a b l ms H1 H IH]; [contradiction|]. intros [<-|Hin]; [exists a; cbn; auto|]. destruct (IH Hin) as (x & Hx & HP). exists x. cbn. auto. Qed.
Lemma marked_key {T} (P : raw -> T -> Prop) l ms : Forall2 (fun a b => unescape (fst a) = Some (fst b) /\ P (snd a) (snd b)) l ms ->
  marked l <-> In key_placeholder (map fst ms).
Proof.
  intros H. split.
  - intros (k & x & Hin & Hk). destruct (F2_left _ _ _ _ H Hin) as ([k' v] & Hin' & E & _). cbn [fst] in *. apply in_map_iff. exists (k', v).
    split; [cbn [fst]; rewrite Hk in E; injection E as <-; reflexivity|exact Hin'].
  - intros Hin. apply in_map_iff in Hin as ([k' v] & E & Hin). cbn [fst] in E. subst k'. destruct (F2_right _ _ _ _ H Hin) as ([k x] & Hin' & E & _).
    cbn [fst] in *. exists k, x. auto.
Qed.
Lemma marked_dec l : marked l \/ ~ marked l.
Proof.
  induction l as [|[k x] l IH]; [right; intros (? & ? & [] & _)|].
  destruct (unescape k) as [s|] eqn:Ek; [destruct (bytes_eqb s key_placeholder) eqn:E|].
  - apply bytes_eqb_eq in E. subst. left. exists k, x. split; [left; reflexivity|exact Ek].
  - destruct IH as [(k' & x' & H & H')|IH]; [left; exists k', x'; split; [right; exact H|exact H']|].
    right. intros (k' & x' & [[= <- <-]|H] & H'); [rewrite Ek in H'; injection H' as ->; rewrite bytes_eqb_refl in E; discriminate|]. apply IH. exists k', x'. auto.
  - destruct IH as [(k' & x' & H & H')|IH]; [left; exists k', x'; split; [right; exact H|exact H']|].
    right. intros (k' & x' & [[= <- <-]|H] & H'); [congruence|]. apply IH. exists k', x'. auto.
Qed.
Lemma fill_free d l ms : Forall2 (fun a b => unescape (fst a) = Some (fst b) /\ val_of rp (S d) (snd a) = Some (snd b)) l ms ->
  NoDup (map (fun m => unescape (fst m)) l) -> ~ marked l ->
  fillo (VObj (obj_of ms)) = option_map (fun ms' => VObj (obj_of ms')) (all_some (map fillm ms)).
Proof.
  intros H Hn Hm. rewrite fillo_obj.
  - rewrite fill_of by (eapply (nodup_keys (fun x v => val_of rp (S d) x = Some v)); eauto). destruct (all_some (map fillm ms)); reflexivity.
  - apply obj_get_of. apply Forall_forall. intros [k v] Hin E. cbn [fst] in E. subst k. apply Hm.
    apply (marked_key (fun x v => val_of rp (S d) x = Some v) l ms H). apply in_map_iff. exists (key_placeholder, v). auto.
Qed.
Lemma fill_marked d l ms : Forall2 (fun a b => unescape (fst a) = Some (fst b) /\ val_of rp (S d) (snd a) = Some (snd b)) l ms ->
  different_keys (RObj l) -> marked l ->
  (indexed bl l /\ exists b, fillo (VObj (obj_of ms)) = Some (byte_array b)) \/ (~ indexed bl l /\ fillo (VObj (obj_of ms)) = None).
Proof.
  intros H Hdk Hm. apply (marked_key (fun x v => val_of rp (S d) x = Some v) l ms H) in Hm. destruct (Hdk l (in_here _)) as [Hn _].
  pose proof (nodup_keys (fun x v => val_of rp (S d) x = Some v) l ms H Hn) as Hn'.
  assert (Hp : has_pkey (obj_of ms)).
  { apply in_map_iff in Hm as ([k v] & E & Hin). apply in_map_iff. exists (k, v). split; [exact E|]. apply obj_of_in; assumption. }
  assert (Hi : indexed bl l <-> exists n b, obj_get key_num (obj_of ms) = Some (VNum (NPos n)) /\ nth_error bl (N.to_nat n) = Some b).
  { split.
    - intros (k & x & n & b & Hin & Hk & Hx & Hb). exists n, b. split; [|exact Hb]. apply obj_get_of_in; [exact Hn'|].
      destruct (F2_left _ _ _ _ H Hin) as ([k' v] & Hin' & E & Ev). cbn [fst snd] in *. rewrite Hk in E. injection E as <-.
      cbn [val_of] in Ev. rewrite Hx in Ev. injection Ev as <-. exact Hin'.
    - intros (n & b & Hg & Hb). rewrite obj_get_of_in in Hg by exact Hn'. destruct (F2_right _ _ _ _ H Hg) as ([k x] & Hin & E & Ev). cbn [fst snd] in *.
      destruct x as [| |x| | |]; try discriminate.
      + cbn [val_of] in Ev. destruct (num_of x) as [y|] eqn:Ex; [|discriminate]. injection Ev as ->. exists k, x, n, b. auto.
      + cbn [val_of] in Ev. destruct (unescape body); discriminate.
      + destruct d; [discriminate|]. rewrite val_of_arr in Ev. destruct (all_some _); discriminate.
      + destruct d; [discriminate|]. destruct (private_dec l0) as [(k1 & x1 & l1 & -> & E1)|E1].
        * destruct (Hdk ((k1, x1) :: l1)) as [_ Hq]; [eapply in_obj; [exact Hin|apply in_here]|]. destruct (Hq _ _ _ eq_refl E1).
        * rewrite val_of_obj' in Ev by exact E1. destruct (all_some _); discriminate. }
  unfold ReadProofs.fillo. rewrite (fill_pkey A bl HA _ Hp). rewrite Hi. destruct (obj_get key_num (obj_of ms)) as [[| |[n| |]| | |]|] eqn:Eg;
    try (right; split; [intros (n0 & b0 & X & _); discriminate X|reflexivity]).
  destruct (nth_error bl (N.to_nat n)) as [b|] eqn:Eb.
  - left. split; [exists n, b; auto|exists b; reflexivity].
  - right. split; [intros (n0 & b & [= <-] & E); congruence|reflexivity].
Qed.

(** ** How the typed reader takes an object *)
Lemma stands_start l b : stands_for bl l b -> ~ bad_start bl l.
Proof.
  intros Hs (k & x & l' & E & Hbad). pose proof Hs as (f & y & n & -> & _). injection E as <- <- <-.
  destruct Hbad as [Hb|[_ Hb]]; [|exact (Hb b Hs)]. revert Hb. apply no_backslash_in. apply no_backslash_keys.
Qed.
Lemma classify_cases l :
  (exists b, stands_for bl l b /\ classify_obj A l = OMBuffer b) \/
  (bad_start bl l /\ classify_obj A l = OMError) \/
  (classify_obj A l = OMMap /\ forall k x l', l = (k, x) :: l' -> ~ In x5c k /\ k <> key_placeholder).
Proof.
  destruct l as [|[k x] l]; [right; right; split; [reflexivity|discriminate]|].
  unfold classify_obj. destruct (no_backslash k) eqn:Eb; cbn [negb].
  2:{ right; left. split; [|reflexivity]. exists k, x, l. split; [reflexivity|]. left.
      destruct (in_dec Byte.byte_eq_dec x5c k) as [H|H]; [exact H|]. apply no_backslash_in in H. congruence. }
  destruct (bytes_eqb k key_placeholder) eqn:Ek.
  2:{ right; right. split; [reflexivity|]. intros k' x' l' [= <- <- <-]. split; [apply no_backslash_in; exact Eb|]. apply bytes_eqb_neq. exact Ek. }
  apply bytes_eqb_eq in Ek. subst k.
  assert (G : (forall b, ~ stands_for bl ((key_placeholder, x) :: l) b) -> bad_start bl ((key_placeholder, x) :: l)).
  { intros H. exists key_placeholder, x, l. auto. }
  destruct x as [|f| | | |]; try (right; left; split; [apply G; intros b0 (? & ? & ? & E0 & _); discriminate E0|reflexivity]).
  destruct l as [|[k2 v2] [|]]; try (right; left; split; [apply G; intros b0 (? & ? & ? & E0 & _); discriminate E0|reflexivity]).
  destruct (bytes_eqb k2 key_num) eqn:E2.
  2:{ rewrite Bool.andb_false_r. right; left. split; [|reflexivity]. apply G. intros b (? & ? & ? & E & _). injection E as _ -> _. rewrite bytes_eqb_refl in E2. discriminate. }
  apply bytes_eqb_eq in E2. subst k2. destruct no_backslash_keys as [_ ->]. cbn [andb].
  destruct v2 as [| |y| | |]; cbn [u64_of_raw]; try (right; left; split; [apply G; intros b0 (? & ? & ? & E0 & _); discriminate E0|reflexivity]).
  assert (G2 : (forall n, num_of y = Some (NPos n) -> nth_error bl (N.to_nat n) = None) ->
    forall b, ~ stands_for bl [(key_placeholder, RBool f); (key_num, RNum y)] b).
  { intros H b (f' & y' & n & E & Hn & Hb). injection E as <- <-. rewrite (H n Hn) in Hb. discriminate. }
  destruct (num_of y) as [[n| |]|] eqn:Ey; try (right; left; split; [apply G, G2; intros; discriminate|reflexivity]).
  pose proof (contents_nth A bl (N.to_nat n) HA) as En. pose proof (contents_length A bl HA) as El.
  destruct (N.ltb_spec n (N.of_nat (length A))) as [Hlt|Hge].
  - destruct (nth_error A (N.to_nat n)) as [s|] eqn:Es.
    + destruct (sub_deref_vec s) as [b|] eqn:Ed.
      * left. exists b. split; [|reflexivity]. exists f, y, n. auto.
      * right; left. split; [|reflexivity]. apply G, G2. intros n' [= <-]. exact En.
    + right; left. split; [|reflexivity]. apply G, G2. intros n' [= <-]. exact En.
  - right; left. split; [|reflexivity]. apply G, G2. intros n' [= <-]. apply nth_error_None. lia.
Qed.
Lemma different_arr l x : different_keys (RArr l) -> In x l -> different_keys x.
Proof. intros H Hx l' Hl. apply H. eapply in_arr; eauto. Qed.
Lemma different_obj l k x : different_keys (RObj l) -> In (k, x) l -> different_keys x.
Proof. intros H Hx l' Hl. apply H. eapply in_obj; eauto. Qed.
Lemma stands_inside l b r' : stands_for bl l b -> inside (RObj l) r' -> r' = RObj l \/ forall l', r' <> RObj l'.
Proof.
  intros (f & x & n & -> & _) H. inversion H as [| |? k y ? Hin Hi]; subst; [left; reflexivity|]. right. intros l' ->.
  destruct Hin as [[= <- <-]|[[= <- <-]|[]]]; inversion Hi.
Qed.

(** The typed reader fails exactly on objects with a bad start. *)
Lemma wrap_members_some d l : (forall k x, In (k, x) l -> unescape k <> None /\ exists v, val_wrap rp A d x = Some v) ->
  exists ms, all_some (map (wrap_member rp A d) l) = Some ms.
Proof.
  induction l as [|[k x] l IH]; intros H; [eexists; reflexivity|]. destruct IH as (ms & Hms); [intros k' x' Hin; apply (H k'); right; exact Hin|].
  destruct (H k x (or_introl eq_refl)) as (Hk & v & Hv). cbn [map all_some]. unfold wrap_member at 1. cbn [fst snd]. rewrite Hv, Hms.
  destruct (unescape k); [|congruence]. eexists. reflexivity.
Qed.
Lemma in_member_split (P : raw -> Prop) (Q : Prop) (l : list (bytes * raw)) : (forall k x, In (k, x) l -> P x \/ Q) ->
  (forall k x, In (k, x) l -> P x) \/ Q.
Proof.
  induction l as [|[k x] l IH]; intros H; [left; intros ? ? []|]. destruct (H k x (or_introl eq_refl)) as [Hx|Hq]; [|auto].
  destruct IH as [IH|IH]; [intros k' y Hy; apply (H k'); right; exact Hy| |auto]. left. intros k' y [[= <- <-]|Hy]; eauto.
Qed.
Lemma in_elem_split (P : raw -> Prop) (Q : Prop) (l : list raw) : (forall x, In x l -> P x \/ Q) ->
  (forall x, In x l -> P x) \/ Q.
Proof.
  induction l as [|x l IH]; intros H; [left; intros ? []|]. destruct (H x (or_introl eq_refl)) as [Hx|Hq]; [|auto].
  destruct IH as [IH|IH]; [intros y Hy; apply (H y); right; exact Hy| |auto]. left. intros y [<-|Hy]; eauto.
Qed.
Lemma typed_total r : different_keys r -> forall d w, val_of rp d r = Some w ->
  (exists v, val_wrap rp A d r = Some v) \/ typed_rejects bl r.
Proof.
  induction r as [|b|x|s|l IH|l IH] using raw_ind'; intros Hd d w Hw; try (left; eexists; exact Hw).
  - destruct d as [|[|d]]; try discriminate. rewrite val_of_arr in Hw. destruct (all_some _) as [vs|] eqn:E; [|discriminate].
    rewrite Forall_forall in IH. destruct (in_elem_split (fun x => exists v, val_wrap rp A (S d) x = Some v) (typed_rejects bl (RArr l)) l) as [H|H].
    + intros x Hx. destruct (all_some_in _ _ _ _ E Hx) as (y & Hy). destruct (IH x Hx (different_arr _ _ Hd Hx) _ _ Hy) as [H|(l' & H1 & H2)]; [auto|].
      right. exists l'. split; [eapply in_arr; eauto|exact H2].
    + left. rewrite val_wrap_arr. destruct (all_some (map (val_wrap rp A (S d)) l)) as [r|] eqn:Er; [eexists; reflexivity|].
      apply all_some_miss in Er. apply in_map_iff in Er as (x & Ex & Hx). destruct (H x Hx) as (v & Hv). congruence.
    + right. exact H.
  - destruct d as [|[|d]]; try discriminate. destruct (Hd l (in_here _)) as [Hn Hp]. destruct (val_obj d l w Hp Hw) as (ms & -> & Hms).
    destruct (classify_cases l) as [(b & _ & Hc)|[(Hb & Hc)|(Hc & _)]].
    + left. rewrite val_wrap_obj, Hc. eexists. reflexivity.
    + right. exists l. split; [apply in_here|exact Hb].
    + rewrite Forall_forall in IH.
      destruct (in_member_split (fun x => exists v, val_wrap rp A (S d) x = Some v) (typed_rejects bl (RObj l)) l) as [H|H].
      * intros k x Hx. destruct (F2_left _ _ _ _ Hms Hx) as ([k' v] & _ & _ & Hv). cbn [snd] in Hv.
        destruct (IH _ Hx (different_obj _ _ _ Hd Hx) _ _ Hv) as [H|(l' & H1 & H2)]; [auto|].
        right. exists l'. split; [eapply in_obj; eauto|exact H2].
      * left. rewrite val_wrap_map by assumption. destruct (wrap_members_some (S d) l) as (ms' & ->); [|eexists; reflexivity].
        intros k x Hx. split; [|eauto]. destruct (F2_left _ _ _ _ Hms Hx) as ([k' v] & _ & E & _). cbn [fst] in E. congruence.
      * right. exact H.
Qed.
Lemma typed_sound r : different_keys r -> forall d v, val_wrap rp A d r = Some v -> ~ typed_rejects bl r.
Proof.
  induction r as [|b|x|s|l IH|l IH] using raw_ind'; intros Hd d v Hv (l' & Hi & Hb); try (inversion Hi; fail).
  - destruct d as [|[|d]]; try discriminate. rewrite val_wrap_arr in Hv. destruct (all_some _) as [vs|] eqn:E; [|discriminate].
    inversion Hi as [|? x ? Hx Hx'|]; subst. destruct (all_some_in _ _ _ _ E Hx) as (y & Hy). rewrite Forall_forall in IH.
    apply (IH x Hx (different_arr _ _ Hd Hx) _ _ Hy). exists l'. auto.
  - destruct d as [|[|d]]; try discriminate. destruct (Hd l (in_here _)) as [Hn Hp].
    destruct (classify_cases l) as [(b & Hs & Hc)|[(Hb' & Hc)|(Hc & Hst)]].
    + destruct (stands_inside _ _ _ Hs Hi) as [E|E]; [|exact (E _ eq_refl)]. injection E as <-. exact (stands_start _ _ Hs Hb).
    + rewrite val_wrap_obj, Hc in Hv. discriminate.
    + inversion Hi as [| |? k x ? Hx Hx']; subst.
      * destruct Hb as (k & x & l2 & -> & Hb). destruct (Hst _ _ _ eq_refl) as [H1 H2]. destruct Hb as [Hb|[Hb _]]; contradiction.
      * rewrite val_wrap_map in Hv by assumption. destruct (all_some _) as [ms|] eqn:E; [|discriminate].
        destruct (all_some_in _ _ _ _ E Hx) as (y & Hy). unfold wrap_member in Hy. cbn [fst snd] in Hy. destruct (unescape k); [|discriminate].
        destruct (val_wrap rp A (S d) x) as [vx|] eqn:Ex; [|discriminate]. rewrite Forall_forall in IH.
        apply (IH _ Hx (different_obj _ _ _ Hd Hx) _ _ Ex). exists l'. auto.
Qed.

(** [to_json_value] fails exactly on marked objects without an index. *)
Lemma json_total r : different_keys r -> forall d w, val_of rp d r = Some w ->
  (exists v, fillo w = Some v) \/ json_rejects bl r.
Proof.
  induction r as [|b|x|s|l IH|l IH] using raw_ind'; intros Hd d w Hw.
  - injection Hw as <-. left. eexists. reflexivity.
  - injection Hw as <-. left. eexists. reflexivity.
  - cbn [val_of] in Hw. destruct (num_of x); [|discriminate]. injection Hw as <-. left. eexists. reflexivity.
  - cbn [val_of] in Hw. destruct (unescape s); [|discriminate]. injection Hw as <-. left. eexists. reflexivity.
  - destruct d as [|[|d]]; try discriminate. rewrite val_of_arr in Hw. destruct (all_some _) as [vs|] eqn:E; [|discriminate]. injection Hw as <-.
    apply all_some_map_F2 in E. rewrite Forall_forall in IH. rewrite fillo_arr.
    destruct (all_some (map fillo vs)) as [vs'|] eqn:Ev; [left; eexists; reflexivity|]. right.
    apply all_some_miss in Ev. apply in_map_iff in Ev as (y & Ey & Hy). destruct (F2_right _ _ _ _ E Hy) as (x & Hx & Hxy).
    destruct (IH x Hx (different_arr _ _ Hd Hx) _ _ Hxy) as [(v & Hv)|(l' & H1 & H2)]; [congruence|]. exists l'. split; [eapply om_arr; eauto|exact H2].
  - destruct d as [|[|d]]; try discriminate. destruct (Hd l (in_here _)) as [Hn Hp]. destruct (val_obj d l w Hp Hw) as (ms & -> & Hms).
    destruct (marked_dec l) as [Hm|Hm].
    + destruct (fill_marked d l ms Hms Hd Hm) as [(_ & b & Hf)|(Hi & _)]; [left; eauto|]. right. exists l. split; [apply om_here|auto].
    + rewrite (fill_free d l ms Hms Hn Hm). destruct (all_some (map fillm ms)) as [ms'|] eqn:Em; [left; eexists; reflexivity|]. right.
      apply all_some_miss in Em. apply in_map_iff in Em as ([k' y] & Ey & Hy). destruct (F2_right _ _ _ _ Hms Hy) as ([k x] & Hx & _ & Hxy). cbn [fst snd] in *.
      rewrite Forall_forall in IH. destruct (IH _ Hx (different_obj _ _ _ Hd Hx) _ _ Hxy) as [(v & Hv)|(l' & H1 & H2)].
      * rewrite fillm_eq, Hv in Ey. discriminate.
      * exists l'. split; [eapply om_obj; eauto|exact H2].
Qed.
Lemma json_sound r : different_keys r -> forall d w v, val_of rp d r = Some w -> fillo w = Some v -> ~ json_rejects bl r.
Proof.
  induction r as [|b|x|s|l IH|l IH] using raw_ind'; intros Hd d w v Hw Hv (l' & Ho & Hm & Hx); try (inversion Ho; fail).
  - destruct d as [|[|d]]; try discriminate. rewrite val_of_arr in Hw. destruct (all_some _) as [vs|] eqn:E; [|discriminate]. injection Hw as <-.
    apply all_some_map_F2 in E. rewrite fillo_arr in Hv. destruct (all_some (map fillo vs)) as [vs'|] eqn:Ev; [|discriminate].
    inversion Ho as [|? x ? Hin Hr|]; subst. destruct (F2_left _ _ _ _ E Hin) as (y & Hy & Hxy). destruct (all_some_in _ _ _ _ Ev Hy) as (z & Hz).
    rewrite Forall_forall in IH. apply (IH x Hin (different_arr _ _ Hd Hin) _ _ _ Hxy Hz). exists l'. auto.
  - destruct d as [|[|d]]; try discriminate. destruct (Hd l (in_here _)) as [Hn Hp]. destruct (val_obj d l w Hp Hw) as (ms & -> & Hms).
    inversion Ho as [| |? k x ? Hnm Hin Hr]; subst.
    + destruct (fill_marked d l' ms Hms Hd Hm) as [(Hi & _)|(_ & Hf)]; [contradiction|]. congruence.
    + rewrite (fill_free d l ms Hms Hn Hnm) in Hv. destruct (all_some (map fillm ms)) as [ms'|] eqn:Em; [|discriminate].
      destruct (F2_left _ _ _ _ Hms Hin) as ([k' y] & Hy & _ & Hxy). cbn [snd] in Hxy. destruct (all_some_in _ _ _ _ Em Hy) as (z & Hz). rewrite fillm_eq in Hz.
      destruct (fillo y) as [vy|] eqn:Evy; [|discriminate]. rewrite Forall_forall in IH.
      apply (IH _ Hin (different_obj _ _ _ Hd Hin) _ _ _ Hxy Evy). exists l'. auto.
Qed.

(** Both give the same value exactly when every object is proper. *)
Lemma same_value r : different_keys r -> forall d w, val_of rp d r = Some w ->
  (forall l, inside r (RObj l) -> proper bl l) -> exists v, val_wrap rp A d r = Some v /\ fillo w = Some v.
Proof.
  induction r as [|b|x|s|l IH|l IH] using raw_ind'; intros Hd d w Hw Hpr.
  - injection Hw as <-. eexists. split; reflexivity.
  - injection Hw as <-. eexists. split; reflexivity.
  - cbn [val_of val_wrap] in *. destruct (num_of x); [|discriminate]. injection Hw as <-. eexists. split; reflexivity.
  - cbn [val_of val_wrap] in *. destruct (unescape s); [|discriminate]. injection Hw as <-. eexists. split; reflexivity.
  - destruct d as [|[|d]]; try discriminate. rewrite val_of_arr in Hw. destruct (all_some _) as [vs|] eqn:E; [|discriminate]. injection Hw as <-.
    apply all_some_map_F2 in E. rewrite val_wrap_arr, fillo_arr.
    assert (G : exists vs', all_some (map (val_wrap rp A (S d)) l) = Some vs' /\ all_some (map fillo vs) = Some vs').
    { clear - IH E Hd Hpr. assert (Hd' : forall x, In x l -> different_keys x) by (intros x; apply different_arr; exact Hd).
      assert (Hp' : forall x l', In x l -> inside x (RObj l') -> proper bl l') by (intros x l' Hx Hi; apply Hpr; eapply in_arr; eauto).
      clear Hd Hpr. revert IH Hd' Hp'. induction E as [|x y l vs Hxy E I]; intros IH Hd' Hp'; [eexists; split; reflexivity|].
      inversion IH as [|? ? H1 H2]; subst. destruct (H1 (Hd' x (or_introl eq_refl)) _ _ Hxy (fun l' => Hp' x l' (or_introl eq_refl))) as (v & Hv & Hf).
      destruct (I H2) as (vs' & Hvs & Hfs); [intros x' Hx'; apply Hd'; right; exact Hx'|intros x' l' Hx'; apply (Hp' x'); right; exact Hx'|].
      exists (v :: vs'). cbn [map all_some]. rewrite Hv, Hf, Hvs, Hfs. split; reflexivity. }
    destruct G as (vs' & -> & ->). eexists. split; reflexivity.
  - destruct d as [|[|d]]; try discriminate. destruct (Hd l (in_here _)) as [Hn Hp]. destruct (val_obj d l w Hp Hw) as (ms & -> & Hms).
    destruct (Hpr l (in_here _)) as [(b & Hs)|(Hm & Hst)].
    + destruct (classify_cases l) as [(b' & Hs' & Hc)|[(Hb' & Hc)|(Hc & Hst)]].
      * rewrite val_wrap_obj, Hc. exists (byte_array b'). split; [reflexivity|].
        destruct Hs' as (f & x & n & -> & Hx & Hb). assert (Em : ms = [(key_placeholder, VBool f); (key_num, VNum (NPos n))]).
        { inversion Hms as [|? [k1 v1] ? ? [K1 V1] H1]; subst. inversion H1 as [|? [k2 v2] ? ? [K2 V2] H2]; subst. inversion H2; subst.
          cbn [fst snd] in *. cbn [val_of] in V1, V2. rewrite Hx in V2. injection V1 as <-. injection V2 as <-.
          rewrite no_backslash_unescape in K1, K2 by apply no_backslash_keys. injection K1 as <-. injection K2 as <-. reflexivity. }
        subst ms. unfold ReadProofs.fillo. rewrite (fill_pkey A bl HA) by (left; reflexivity).
        change (obj_get key_num (obj_of [(key_placeholder, VBool f); (key_num, VNum (NPos n))])) with (Some (VNum (NPos n))). cbv iota beta. rewrite Hb. reflexivity.
      * destruct (stands_start _ _ Hs Hb').
      * destruct Hs as (f & x & n & -> & _). destruct (Hst _ _ _ eq_refl) as [_ H]. congruence.
    + assert (Hc : classify_obj A l = OMMap).
      { destruct (classify_cases l) as [(b' & (f & x & n & -> & _) & _)|[((k & x & l' & -> & Hb') & _)|(Hc & _)]].
        - destruct Hm. exists key_placeholder, (RBool f). split; [left; reflexivity|]. apply no_backslash_unescape, no_backslash_keys.
        - destruct Hb' as [Hb'|[-> _]]; [destruct (Hst _ _ _ eq_refl Hb')|]. destruct Hm. exists key_placeholder, x.
          split; [left; reflexivity|]. apply no_backslash_unescape, no_backslash_keys.
        - exact Hc. }
      rewrite val_wrap_map by assumption. rewrite (fill_free d l ms Hms Hn Hm).
      assert (G : exists ms', all_some (map (wrap_member rp A (S d)) l) = Some ms' /\ all_some (map fillm ms) = Some ms').
      { clear - IH Hms Hd Hpr. assert (Hd' : forall k x, In (k, x) l -> different_keys x) by (intros k x; apply different_obj; exact Hd).
        assert (Hp' : forall k x l', In (k, x) l -> inside x (RObj l') -> proper bl l') by (intros k x l' Hx Hi; apply Hpr; eapply in_obj; eauto).
        clear Hd Hpr. revert IH Hd' Hp'. induction Hms as [|[k x] [k' y] l ms [Hk Hxy] E I]; intros IH Hd' Hp'; [eexists; split; reflexivity|].
        inversion IH as [|? ? H1 H2]; subst. cbn [fst snd] in *.
        destruct (H1 (Hd' k x (or_introl eq_refl)) _ _ Hxy (fun l' => Hp' k x l' (or_introl eq_refl))) as (v & Hv & Hf).
        destruct (I H2) as (ms' & Hvs & Hfs); [intros k0 x' Hx'; apply (Hd' k0); right; exact Hx'|intros k0 x' l' Hx'; apply (Hp' k0 x'); right; exact Hx'|].
        exists ((k', v) :: ms'). cbn [map all_some]. unfold wrap_member at 1. cbn [fst snd]. rewrite fillm_eq, Hk, Hv, Hf, Hvs, Hfs. split; reflexivity. }
      destruct G as (ms' & -> & ->). eexists. split; reflexivity.
Qed.
Lemma value_same r : different_keys r -> forall d w v, val_of rp d r = Some w -> val_wrap rp A d r = Some v -> fillo w = Some v ->
  forall l, inside r (RObj l) -> proper bl l.
Proof.
  induction r as [|b|x|s|l IH|l IH] using raw_ind'; intros Hd d w v Hw Hv Hf l' Hi; try (inversion Hi; fail).
  - destruct d as [|[|d]]; try discriminate. rewrite val_of_arr in Hw. destruct (all_some _) as [vs|] eqn:E; [|discriminate]. injection Hw as <-.
    rewrite val_wrap_arr in Hv. destruct (all_some (map (val_wrap rp A (S d)) l)) as [vs'|] eqn:E'; [|discriminate]. injection Hv as <-.
    rewrite fillo_arr in Hf. destruct (all_some (map fillo vs)) as [vs2|] eqn:E2; [|discriminate]. injection Hf as ->.
    inversion Hi as [|? x ? Hx Hx'|]; subst. apply all_some_map_F2 in E, E', E2. apply In_nth_error in Hx as (i & Hx).
    assert (G : exists y z, val_of rp (S d) x = Some y /\ val_wrap rp A (S d) x = Some z /\ fillo y = Some z).
    { clear - E E' E2 Hx. revert vs vs' E E' E2 Hx. revert i. induction l as [|a l I]; intros i vs vs' E E' E2 Hx; [destruct i; discriminate|].
      inversion E as [|? y ? ys H1 H1']; subst. inversion E' as [|? z ? zs H2 H2']; subst. inversion E2 as [|? ? ? ? H3 H3']; subst.
      destruct i as [|i]; cbn [nth_error] in Hx; [injection Hx as <-; exists y, z; auto|]. eapply I; eauto. }
    destruct G as (y & z & G1 & G2 & G3). apply nth_error_In in Hx. rewrite Forall_forall in IH.
    eapply (IH x Hx (different_arr _ _ Hd Hx)); eauto.
  - destruct d as [|[|d]]; try discriminate. destruct (Hd l (in_here _)) as [Hn Hp]. destruct (val_obj d l w Hp Hw) as (ms & -> & Hms).
    destruct (classify_cases l) as [(b & Hs & Hc)|[(Hb & Hc)|(Hc & Hst)]].
    + destruct (stands_inside _ _ _ Hs Hi) as [E|E]; [|destruct (E _ eq_refl)]. injection E as ->. left. eauto.
    + rewrite val_wrap_obj, Hc in Hv. discriminate.
    + rewrite val_wrap_map in Hv by assumption. destruct (all_some (map (wrap_member rp A (S d)) l)) as [ms1|] eqn:E1; [|discriminate]. injection Hv as <-.
      destruct (marked_dec l) as [Hm|Hm].
      { destruct (fill_marked d l ms Hms Hd Hm) as [(_ & b & E)|(_ & E)]; rewrite E in Hf; discriminate. }
      inversion Hi as [| |? k x ? Hx Hx']; subst; [right; split; [exact Hm|]; intros k x l2 E; apply (Hst _ _ _ E)|].
      rewrite (fill_free d l ms Hms Hn Hm) in Hf. destruct (all_some (map fillm ms)) as [ms2|] eqn:E2; [|discriminate].
      apply all_some_map_F2 in E1.
      assert (H1 : Forall2 (fun a b => unescape (fst a) = Some (fst b) /\ val_wrap rp A (S d) (snd a) = Some (snd b)) l ms1).
      { eapply F2_impl; [|exact E1]. intros [k0 x0] [k1 v1]. unfold wrap_member. cbn [fst snd].
        destruct (unescape k0); [|discriminate]. destruct (val_wrap rp A (S d) x0); [|discriminate]. cbn [pair_opt]. intros [= -> ->]. auto. }
      assert (K : map fst ms2 = map fst ms1).
      { rewrite (fillm_keys _ _ _ E2). pose proof (keys_of (fun x v => val_of rp (S d) x = Some v) l ms Hms) as K1.
        pose proof (keys_of (fun x v => val_wrap rp A (S d) x = Some v) l ms1 H1) as K2. rewrite K1 in K2.
        clear - K2. revert K2. generalize (map fst ms), (map fst ms1). intros a. induction a as [|y a IH]; intros [|z b'] K2; try discriminate; [reflexivity|].
        cbn [map] in K2. injection K2 as -> K2. f_equal. auto. }
      cbn [option_map] in Hf. injection Hf as Hf.
      assert (Em : ms2 = ms1).
      { apply obj_of_inj; [exact K| |exact Hf]. rewrite K. eapply (nodup_keys (fun x v => val_wrap rp A (S d) x = Some v)); eauto. }
      subst ms2. apply all_some_map_F2 in E2. apply In_nth_error in Hx as (i & Hx).
      assert (G : exists y z, val_of rp (S d) x = Some y /\ val_wrap rp A (S d) x = Some z /\ fillo y = Some z).
      { clear - Hms H1 E2 Hx. revert ms ms1 Hms H1 E2 Hx. revert i. induction l as [|a l I]; intros i ms ms1 E E' E2 Hx; [destruct i; discriminate|].
        inversion E as [|? [k1 y] ? ys [_ H1] H1']; subst. inversion E' as [|? [k2 z] ? zs [_ H2] H2']; subst. inversion E2 as [|? ? ? ? H3 H3']; subst.
        destruct i as [|i]; cbn [nth_error] in Hx; [injection Hx as ->; cbn [fst snd] in *; exists y, z|eapply I; eauto].
        rewrite fillm_eq in H3. destruct (fillo y); [|discriminate]. injection H3 as _ ->. auto. }
      destruct G as (y & z & G1 & G2 & G3). apply nth_error_In in Hx. rewrite Forall_forall in IH.
      eapply (IH _ Hx (different_obj _ _ _ Hd Hx)); eauto.
Qed.
End Agree.

Lemma agree_exact text r A bl w : jvalue r text -> contents A = Some bl -> A <> [] -> from_str_value text = Some w -> different_keys r ->
  readers_agree (Arg text A) <->
    (forall l, inside r (RObj l) -> proper bl l) \/ (typed_rejects bl r /\ json_rejects bl r).
Proof.
  intros Hr HA Hne Hw Hd. unfold readers_agree.
  assert (Hv : val_of (from_str_value_n (S (length text))) 128 r = Some w).
  { rewrite (val_of_same _ from_str_value (length text) r); [|apply jvalue_short; exact Hr|intros u Hu; apply (from_str_stable (S (length u))); lia].
    rewrite <- (from_str_eq text r (jvalue_doc _ _ Hr)). exact Hw. }
  set (rp := from_str_value_n (S (length text))) in *.
  assert (HT : forall v, arg_deserialize TyValue (Arg text A) = Ok (XValue v) <-> val_wrap rp A 128 r = Some v).
  { intros v. rewrite (arg_some TyValue text r A Hr Hne). cbn [de_wrap]. fold rp. destruct (val_wrap rp A 128 r); cbn [option_map]; split; congruence. }
  assert (HJ : forall v, to_json_value (Arg text A) = Ok v <-> fillo A w = Some v).
  { intros v. unfold to_json_value. cbn [g_text g_attachments]. rewrite Hw. destruct A as [|a A]; [congruence|]. unfold fillo.
    destruct (fill_placeholders (a :: A) w); split; congruence. }
  split.
  - intros H. destruct (typed_total rp A bl HA r Hd 128 w Hv) as [(v & Et)|Rt].
    + left. apply (value_same rp A bl HA r Hd 128 w v Hv Et). apply HJ, H, HT. exact Et.
    + destruct (json_total rp A bl HA r Hd 128 w Hv) as [(v & Ej)|Rj]; [|auto].
      exfalso. apply HJ, H, HT in Ej. exact (typed_sound rp A bl HA r Hd 128 v Ej Rt).
  - intros [H|(Rt & Rj)] v; rewrite HT, HJ.
    + destruct (same_value rp A bl HA r Hd 128 w Hv H) as (v' & -> & ->). reflexivity.
    + split; intros E; exfalso.
      * exact (json_sound rp A bl HA r Hd 128 w v Hv E Rj).
      * exact (typed_sound rp A bl HA r Hd 128 v E Rt).
Qed.
