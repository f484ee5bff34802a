(** Exactly when attachments that are not referred to make a difference (C25), and when the two
    readers of an argument agree (C24). *)
From Verif Require Export ReadProofs ValueProofs SpecExact.

Lemma no_backslash_in k : no_backslash k = true <-> ~ In x5c k.
Proof.
  unfold no_backslash. rewrite forallb_forall. split.
  - intros H Hin. specialize (H _ Hin). discriminate.
  - intros H c Hc. destruct (c =b backslash) eqn:E; [|reflexivity]. apply byte_eqb_eq in E. subst. contradiction.
Qed.

(** ** C25 *)
Section Unused.
Variables (rp : bytes -> option value) (A : list subslice_t).
Lemma classify_free l : no_placeholder_key (RObj l) ->
  classify_obj A l = match l with (k, _) :: _ => if no_backslash k then OMMap else OMError | [] => OMMap end.
Proof.
  intros H. destruct l as [|[k x] l]; [reflexivity|]. cbn [no_placeholder_key allP] in H. destruct H as [[H _] _].
  unfold classify_obj. destruct (no_backslash k) eqn:E; [|reflexivity]. cbn [negb]. rewrite (no_backslash_unescape k E) in H.
  assert (N : k <> key_placeholder) by congruence. apply bytes_eqb_neq in N. rewrite N. reflexivity.
Qed.
Lemma classify_never l b : no_placeholder_key (RObj l) -> classify_obj A l <> OMBuffer b.
Proof. intros H. rewrite (classify_free l H). destruct l as [|[k x] l]; [discriminate|]. destruct (no_backslash k); discriminate. Qed.
Lemma classify_plain t l : no_placeholder_key (RObj l) -> plain_starts t (RObj l) -> from_members t -> classify_obj A l = OMMap.
Proof.
  intros H Hs Hm. rewrite (classify_free l H). destruct l as [|[k x] l]; [reflexivity|].
  rewrite (proj2 (no_backslash_in k) (Hs t k x l (rd_here _ _) Hm)). reflexivity.
Qed.
Lemma free_arr l x : no_placeholder_key (RArr l) -> In x l -> no_placeholder_key x.
Proof. cbn [no_placeholder_key]. rewrite allP_In. auto. Qed.
Lemma free_obj l k x : no_placeholder_key (RObj l) -> In (k, x) l -> no_placeholder_key x.
Proof. cbn [no_placeholder_key]. rewrite allP_In. intros H Hin. apply (H _ Hin). Qed.

Lemma val_wrap_plain r : no_placeholder_key r -> plain_starts TyValue r -> forall d, val_wrap rp A d r = val_of rp d r.
Proof.
  induction r as [|b|x|s|l IH|l IH] using raw_ind'; intros Hk Hs d; try reflexivity.
  - destruct d as [|[|d]]; try reflexivity. rewrite val_wrap_arr, val_of_arr. do 2 f_equal.
    rewrite Forall_forall in IH. apply map_ext_in. intros x Hx. apply (IH x Hx).
    + eapply free_arr; eauto.
    + intros t' k y l' Hr Hm. refine (Hs t' k y l' _ Hm). eapply rd_value_arr; eauto.
  - destruct d as [|[|d]]; try reflexivity. pose proof (classify_plain TyValue l Hk Hs I) as Hc.
    destruct (private_dec l) as [(k & x & l' & -> & E)|E].
    + rewrite val_of_private by exact E. rewrite val_wrap_obj, Hc, E, bytes_eqb_refl. reflexivity.
    + rewrite val_wrap_map by assumption. rewrite val_of_obj' by exact E. do 2 f_equal.
      rewrite Forall_forall in IH. apply map_ext_in. intros [k x] Hx. unfold wrap_member, val_member. cbn [fst snd].
      rewrite (IH _ Hx); [reflexivity| |].
      * eapply free_obj; eauto.
      * intros t' k' y l' Hr Hm. refine (Hs t' k' y l' _ Hm). eapply rd_value_obj; eauto.
Qed.
Lemma zip_ext_nth f g ts : forall l, (forall i u x, nth_error ts i = Some u -> nth_error l i = Some x -> f u x = g u x) ->
  zip_of f ts l = zip_of g ts l.
Proof.
  induction ts as [|u ts IH]; intros [|x l] H; try reflexivity. cbn [zip_of]. fold (zip_of f) (zip_of g).
  rewrite (H 0 u x) by reflexivity. rewrite IH; [reflexivity|]. intros i v y Hv Hy. apply (H (S i)); assumption.
Qed.
Lemma variant_ext_first f g name vs :
  (forall pre tag u post, vs = pre ++ (name, (tag, u)) :: post -> ~ In name (map fst pre) -> f name tag u = g name tag u) ->
  variant_of f name vs = variant_of g name vs.
Proof.
  induction vs as [|[n [tag u]] vs IH]; intros H; [reflexivity|]. cbn [variant_of]. fold (variant_of f name) (variant_of g name).
  destruct (bytes_eqb n name) eqn:E.
  - apply bytes_eqb_eq in E. subst. apply (H [] tag u vs); [reflexivity|intros []].
  - apply IH. intros pre tag' u' post -> Hn. apply (H ((n, (tag, u)) :: pre) tag' u' post); [reflexivity|].
    intros [<-|Hin]; [rewrite bytes_eqb_refl in E; discriminate|contradiction].
Qed.
Definition alike (t : ty) (r : raw) : Prop := plain_starts t r /\ no_numeric_keys t r /\ no_lone_surrogates t r.
Lemma alike_sub t r u x : (forall t' r', reads u x t' r' -> reads t r t' r') -> alike t r -> alike u x.
Proof.
  intros H (H1 & H2 & H3). split; [|split].
  - intros t' k y l Hr. apply (H1 t' k y l). apply H. exact Hr.
  - intros lo hi v l Hr. apply (H2 lo hi v l). apply H. exact Hr.
  - intros b Hr. apply (H3 b). apply H. exact Hr.
Qed.
Lemma de_wrap_plain t : forall d r, no_placeholder_key r -> alike t r -> de_wrap rp A t d r = de_plain rp t d r.
Proof.
  assert (Hbad : forall (T : Type) l (f : bytes -> option T), no_placeholder_key (RObj l) ->
    match classify_obj A l with OMBuffer b => f b | _ => None end = None).
  { intros T l f H. pose proof (classify_never l) as N. destruct (classify_obj A l); auto. destruct (N b H eq_refl). }
  induction t as [|lo hi| | | | | | |u IH|u IH|u IH|ts IH|u IH|fs IH|vs IH| | | |lo hi u IH] using ty_ind'; intros d r Hk Hs; try reflexivity.
  - destruct r; try reflexivity. cbn [de_wrap de_plain]. rewrite Hbad by exact Hk. destruct (enter d); reflexivity.
  - destruct r; try reflexivity. cbn [de_wrap de_plain]. rewrite Hbad by exact Hk. destruct (enter d); reflexivity.
  - destruct r; try reflexivity. cbn [de_wrap de_plain]. rewrite Hbad by exact Hk. destruct (enter d); reflexivity.
  - cbn [de_wrap de_plain]. destruct r; auto; (rewrite IH; [reflexivity|exact Hk|]; refine (alike_sub _ _ _ _ _ Hs); intros t' r' Hr; apply rd_option; [discriminate|exact Hr]).
  - cbn [de_wrap de_plain]. rewrite IH; [reflexivity|exact Hk|]. refine (alike_sub _ _ _ _ _ Hs). intros t' r' Hr. apply rd_newtype. exact Hr.
  - rewrite de_wrap_seq, de_plain_seq. destruct r; auto.
    + destruct (enter d); [|reflexivity]. f_equal. apply each_ext. intros x Hx. apply IH; [eapply free_arr; eauto|].
      refine (alike_sub _ _ _ _ _ Hs). intros t' r' Hr. eapply rd_seq; eauto.
    + destruct (enter d); [|reflexivity]. apply Hbad. exact Hk.
  - rewrite de_wrap_tuple, de_plain_tuple. destruct r; auto.
    + destruct (enter d); [|reflexivity]. f_equal. apply zip_ext_nth. intros i u x Hu Hx. rewrite Forall_forall in IH.
      apply IH; [eapply nth_error_In; eauto|eapply free_arr; eauto; eapply nth_error_In; eauto|].
      refine (alike_sub _ _ _ _ _ Hs). intros t' r' Hr. eapply rd_tuple; eauto.
    + destruct (enter d); [|reflexivity]. apply Hbad. exact Hk.
  - rewrite de_wrap_map, de_plain_map. destruct r; auto. rewrite (classify_plain _ l Hk (proj1 Hs) I). destruct (enter d); [|reflexivity].
    destruct (str_members l) as [m|] eqn:E; [|reflexivity]. f_equal. apply map_ext_of. intros k x Hx.
    apply (str_members_in l m k x E) in Hx as (k0 & _ & Hx). apply IH; [eapply free_obj; eauto|].
    refine (alike_sub _ _ _ _ _ Hs). intros t' r' Hr. eapply rd_map; eauto.
  - rewrite de_wrap_struct, de_plain_struct. destruct (enter d) as [d1|]; [|reflexivity]. rewrite Forall_forall in IH. destruct r; auto.
    + rewrite !zip_fields_eq. f_equal. apply zip_ext_nth. intros i u x Hu Hx. rewrite nth_error_map in Hu.
      destruct (nth_error fs i) as [[n u']|] eqn:Ef; [|discriminate]. cbn [option_map snd] in Hu. injection Hu as <-.
      apply (IH (n, u')); [eapply nth_error_In; eauto|eapply free_arr; eauto; eapply nth_error_In; eauto|].
      refine (alike_sub _ _ _ _ _ Hs). intros t' r' Hr. eapply rd_struct_seq; eauto.
    + rewrite (classify_plain _ l Hk (proj1 Hs) I). destruct (str_members l) as [m|] eqn:E; [|reflexivity]. f_equal. apply fields_ext. intros k u x Hu Hx.
      apply (str_members_in l m k x E) in Hx as (k0 & Hk0 & Hx). apply (IH _ Hu); [eapply free_obj; eauto|].
      refine (alike_sub _ _ _ _ _ Hs). intros t' r' Hr. eapply rd_struct; eauto.
  - rewrite de_wrap_enum, de_plain_enum. destruct r as [| | | | |[|[k x] [|]]]; auto.
    destruct (enter d); [|reflexivity]. destruct (unescape k) as [name|] eqn:Ek; [|reflexivity].
    apply variant_ext_first. intros pre tag u post -> Hn. rewrite Forall_forall in IH. unfold variant_plain, variant_wrap.
    assert (Hx : no_placeholder_key x) by (eapply free_obj; [exact Hk|left; reflexivity]).
    assert (E : tag <> VtUnit -> de_wrap rp A u n x = de_plain rp u n x).
    { intros Ht. apply (IH (name, (tag, u))); [apply in_or_app; right; left; reflexivity|exact Hx|].
      refine (alike_sub _ _ _ _ _ Hs). intros t' r' Hr. eapply rd_variant; eauto. }
    destruct tag; auto; rewrite E by discriminate; auto.
  - cbn [de_wrap de_plain]. rewrite val_wrap_plain by (assumption || exact (proj1 Hs)). reflexivity.
  - destruct r as [| | |b|l|l]; try reflexivity; cbn [de_wrap de_plain].
    + destruct Hs as (_ & _ & Hs). destruct (Hs b (rd_here _ _)) as (s & Hm). apply means_unescape in Hm. rewrite Hm, (unescape_both b s Hm). reflexivity.
    + rewrite Hbad by exact Hk. destruct (enter d); reflexivity.
  - rewrite de_plain_int_map. cbn [de_wrap]. destruct r as [| | | | |l]; try reflexivity. destruct Hs as (_ & Hs & _). rewrite (Hs lo hi u l (rd_here _ _)).
    destruct (enter d); reflexivity.
Qed.

(** Whatever is read on the way was read successfully. *)
Lemma all_some_in {T U} (f : T -> option U) l r x : all_some (map f l) = Some r -> In x l -> exists y, f x = Some y.
Proof.
  revert r. induction l as [|a l IH]; intros r H Hin; [destruct Hin|]. cbn [map all_some] in H. destruct (f a) as [y|] eqn:E; [|discriminate].
  destruct (all_some (map f l)) as [r'|]; [|discriminate]. destruct Hin as [<-|Hin]; eauto.
Qed.
Lemma each_in f l vs x : each_of f l = Some vs -> In x l -> exists v, f x = Some v.
Proof.
  intros H Hin. apply In_nth_error in Hin as (i & Hi). destruct (each_nth _ _ _ _ _ H Hi) as (v & _ & Hv). eauto.
Qed.
Lemma map_of_in f m : forall acc r k x, map_of f m acc = Some r -> In (k, x) m -> exists v, f x = Some v.
Proof.
  induction m as [|[k y] m IH]; intros acc r k' x H Hin; [destruct Hin|]. cbn [map_of] in H. fold (map_of f) in H.
  destruct (f y) as [v|] eqn:E; [|discriminate]. destruct Hin as [[= <- <-]|Hin]; eauto.
Qed.
Lemma read_below t r t' r' : reads t r t' r' -> no_placeholder_key r -> forall d v, de_wrap rp A t d r = Some v ->
  no_placeholder_key r' /\ exists d' v', de_wrap rp A t' d' r' = Some v'.
Proof.
  induction 1 as [t r|u r t' r' Hn _ IH|u r t' r' _ IH|u l x t' r' Hx _ IH|ts l i u x t' r' Hu Hx _ IH
    |u l k x t' r' Hin _ IH|fs l i n u x t' r' Hf Hx _ IH|fs l n u k x t' r' Hf Hin Hk _ IH|pre n tag u post k x t' r' Hk Hn Ht _ IH|lo hi u l k x t' r' Hin _ IH
    |l x t' r' Hx _ IH|l k x t' r' Hin _ IH]; intros Hp d v H.
  - eauto.
  - cbn [de_wrap] in H. destruct r; try congruence; (destruct (de_wrap rp A u d _) as [w|] eqn:E; [|discriminate]; injection H as <-; eauto).
  - cbn [de_wrap] in H. destruct (de_wrap rp A u d r) as [w|] eqn:E; [|discriminate]. injection H as <-. eauto.
  - rewrite de_wrap_seq in H. destruct (enter d) as [d1|]; [|discriminate].
    destruct (each_of _ l) as [vs|] eqn:E; [|discriminate]. destruct (each_in _ _ _ _ E Hx) as (w & Hw). eapply IH; eauto. eapply free_arr; eauto.
  - rewrite de_wrap_tuple in H. destruct (enter d) as [d1|]; [|discriminate].
    destruct (zip_of _ ts l) as [vs|] eqn:E; [|discriminate]. destruct (zip_nth _ _ _ _ _ _ _ E Hu Hx) as (w & _ & Hw).
    eapply IH; eauto. eapply free_arr; eauto. eapply nth_error_In; eauto.
  - rewrite de_wrap_map in H. destruct (enter d) as [d1|]; [|discriminate]. destruct (classify_obj A l); try discriminate.
    destruct (str_members l) as [m|] eqn:Em; [|discriminate]. destruct (map_of _ m []) as [w|] eqn:E; [|discriminate].
    assert (Hm : exists k', In (k', x) m).
    { clear - Em Hin. revert m Em. induction l as [|[k1 y] l IH]; intros m Em; [destruct Hin|]. cbn [str_members] in Em.
      destruct (unescape k1) as [k2|]; [|discriminate]. destruct (str_members l) as [m'|]; [|discriminate]. injection Em as <-.
      destruct Hin as [[= <- <-]|Hin]; [exists k2; left; reflexivity|]. destruct (IH Hin _ eq_refl) as (k' & H). exists k'. right. exact H. }
    destruct Hm as (k' & Hm). destruct (map_of_in _ _ _ _ _ _ E Hm) as (w' & Hw). eapply IH; eauto. eapply free_obj; eauto.
  - rewrite de_wrap_struct in H. destruct (enter d) as [d1|]; [|discriminate]. rewrite zip_fields_eq in H.
    destruct (zip_of _ (map snd fs) l) as [vs|] eqn:E; [|discriminate].
    assert (Hf' : nth_error (map snd fs) i = Some u) by (rewrite nth_error_map, Hf; reflexivity).
    destruct (zip_nth _ _ _ _ _ _ _ E Hf' Hx) as (w & _ & Hw).
    eapply IH; eauto. eapply free_arr; eauto. eapply nth_error_In; eauto.
  - rewrite de_wrap_struct in H. destruct (enter d) as [d1|]; [|discriminate]. pose proof (classify_never l) as N.
    destruct (classify_obj A l); try discriminate; [destruct (N b Hp eq_refl)|].
    destruct (str_members l) as [m|] eqn:Em; [|discriminate]. destruct (fields_of _ m fs) as [vs|] eqn:E; [|discriminate].
    apply In_nth_error in Hf as (i & Hf). destruct (fields_nth _ _ _ _ _ _ _ E Hf) as (w & _ & Hd).
    assert (Hx : In x (members_named n m)). { apply named_in. apply (str_members_in l m n x Em). exists k. auto. }
    unfold field_of in Hd. destruct (members_named n m) as [|y [|]]; [destruct Hx| |discriminate]. destruct Hx as [->|[]].
    eapply IH; eauto. eapply free_obj; eauto.
  - rewrite de_wrap_enum in H. destruct (enter d) as [d1|]; [|discriminate]. rewrite Hk in H.
    assert (E : variant_of (variant_wrap A rp d1 x) n (pre ++ (n, (tag, u)) :: post) = variant_wrap A rp d1 x n tag u).
    { clear - Hn. induction pre as [|[n1 [t1 u1]] pre IH]; cbn [app variant_of]; [rewrite bytes_eqb_refl; reflexivity|].
      fold (variant_of (variant_wrap A rp d1 x) n). cbn [map fst In] in Hn. assert (E : n1 <> n) by tauto. apply bytes_eqb_neq in E. rewrite E. tauto. }
    rewrite E in H. assert (Hx : no_placeholder_key x) by (eapply free_obj; [exact Hp|left; reflexivity]). unfold variant_wrap in H. destruct tag; try congruence.
    + destruct (de_wrap rp A u d1 x) as [w|] eqn:Ew; [|discriminate]. eauto.
    + destruct x; try discriminate. destruct (de_wrap rp A u d1 (RArr l)) as [w|] eqn:Ew; [|discriminate]. eauto.
    + destruct (de_wrap rp A u d1 x) as [w|] eqn:Ew; [|discriminate]. eauto.
  - cbn [de_wrap] in H. destruct (enter d); [|discriminate]. destruct (classify_obj A l); try discriminate. destruct l; [destruct Hin|discriminate].
  - cbn [de_wrap] in *. destruct (val_wrap rp A d (RArr l)) as [w|] eqn:E; [|discriminate]. destruct d as [|[|d]]; try discriminate.
    rewrite val_wrap_arr in E. destruct (all_some _) as [vs|] eqn:Ev; [|discriminate]. destruct (all_some_in _ _ _ _ Ev Hx) as (y & Hy).
    apply (IH (free_arr _ _ Hp Hx) (S d) (XValue y)). rewrite Hy. reflexivity.
  - cbn [de_wrap] in *. destruct (val_wrap rp A d (RObj l)) as [w|] eqn:E; [|discriminate]. destruct d as [|[|d]]; try discriminate.
    assert (Hx : exists y, val_wrap rp A (S d) x = Some y).
    { pose proof (classify_never l) as N. destruct (private_dec l) as [(k1 & x1 & l1 & -> & Ek)|Ek].
      - rewrite val_wrap_obj in E. destruct (classify_obj A _); try discriminate; [destruct (N b Hp eq_refl)|]. rewrite Ek, bytes_eqb_refl in E.
        destruct x1; try discriminate. destruct l1; [|discriminate]. destruct Hin as [[= <- <-]|[]]. cbn [val_wrap].
        destruct (unescape body); [eauto|discriminate].
      - destruct (classify_obj A l) eqn:Ec; [rewrite val_wrap_obj, Ec in E; discriminate|destruct (N b Hp eq_refl)|].
        rewrite val_wrap_map in E by assumption. destruct (all_some _) as [ms|] eqn:Em; [|discriminate].
        destruct (all_some_in _ _ _ _ Em Hin) as (y & Hy). unfold wrap_member in Hy. cbn [fst snd] in Hy.
        destruct (unescape k); [|discriminate]. destruct (val_wrap rp A (S d) x); [eauto|discriminate]. }
    destruct Hx as (y & Hy). apply (IH (free_obj _ _ _ Hp Hin) (S d) (XValue y)). rewrite Hy. reflexivity.
Qed.
Lemma read_starts t r d v : no_placeholder_key r -> de_wrap rp A t d r = Some v -> plain_starts t r.
Proof.
  intros Hp H t' k x l Hr Hm. destruct (read_below t r t' _ Hr Hp d v H) as (Hp' & d' & v' & Hv).
  apply no_backslash_in. destruct (no_backslash k) eqn:E; [reflexivity|exfalso].
  assert (Hc : classify_obj A ((k, x) :: l) = OMError) by (rewrite (classify_free _ Hp'), E; reflexivity).
  destruct t'; try contradiction.
  - rewrite de_wrap_map, Hc in Hv. destruct (enter d'); discriminate.
  - rewrite de_wrap_struct, Hc in Hv. destruct (enter d'); discriminate.
  - cbn [de_wrap] in Hv. destruct d' as [|[|d']]; try discriminate. rewrite val_wrap_obj, Hc in Hv. discriminate.
Qed.
Lemma reads_well t r t' r' : reads t r t' r' -> well r -> well r'.
Proof.
  assert (A1 : forall l x, In x l -> well (RArr l) -> well x) by (intros l x Hin; cbn [well]; rewrite allP_In; auto).
  assert (A2 : forall l k x, In (k, x) l -> well (RObj l) -> well x) by (intros l k x Hin; cbn [well]; rewrite allP_In; intros H; exact (proj2 (H _ Hin))).
  intros H; induction H; intros Hw; eauto using nth_error_In. match goal with IH : well _ -> well _ |- _ => apply IH end. eapply A2; [|exact Hw]. left. reflexivity.
Qed.
Lemma read_plain t r d v : well r -> no_placeholder_key r -> de_wrap rp A t d r = Some v -> alike t r.
Proof.
  intros Hwell Hp H. split; [eapply read_starts; eauto|]. split.
  - intros lo hi u l Hr. destruct (read_below t r _ _ Hr Hp d v H) as (_ & d' & v' & Hv). cbn [de_wrap] in Hv.
    destruct (enter d'); [|discriminate]. destruct (classify_obj A l); try discriminate. destruct l; [reflexivity|discriminate].
  - intros b Hr. destruct (read_below t r _ _ Hr Hp d v H) as (_ & d' & v' & Hv). cbn [de_wrap] in Hv.
    destruct (unescape b) as [s|] eqn:E; [|discriminate]. exists s. apply unescape_exact; [|exact E]. exact (reads_well _ _ _ _ Hr Hwell).
Qed.
End Unused.
Lemma unused_exact t text r A v : jvalue r text -> no_placeholder_key r -> A <> [] ->
  arg_deserialize t (Arg text A) = Ok v <->
    arg_deserialize t (Arg text []) = Ok v /\ plain_starts t r /\ no_numeric_keys t r /\ no_lone_surrogates t r.
Proof.
  change (plain_starts t r /\ no_numeric_keys t r /\ no_lone_surrogates t r) with (alike t r).
  intros Hr Hp HA. rewrite (arg_some t text r A Hr HA), (arg_none t text r Hr).
  assert (E : de_plain (from_str_value_n (S (length text))) t 128 r = de_plain from_str_value t 128 r).
  { apply (de_plain_same _ _ (length text)); [apply jvalue_short; exact Hr|]. intros u Hu. apply (from_str_stable (S (length u))); lia. }
  split.
  - intros H. destruct (de_wrap _ A t 128 r) as [w|] eqn:Ew; [|discriminate]. injection H as <-.
    pose proof (read_plain _ A t r 128 w (proj1 jvalue_well _ _ Hr) Hp Ew) as Hs. split; [|exact Hs]. rewrite (de_wrap_plain _ A t 128 r Hp Hs), E in Ew. rewrite Ew. reflexivity.
  - intros [H Hs]. rewrite (de_wrap_plain _ A t 128 r Hp Hs), E. exact H.
Qed.
