(** Argument readers: attachments delivered, agreement, display (C21, C22, C24, C26, C43). *)
From Verif Require Export InlineProofs.

(** ** C26: as if written inline *)
Lemma inline_short bl n r : forall r', short n r -> inline bl r = Some r' -> short n r'.
Proof.
  induction r as [|b|x|s|l IH|l IH] using raw_ind'; intros r' Hs H; try (injection H as <-; exact Hs).
  - rewrite inline_arr in H. destruct (all_some (map (inline bl) l)) as [l'|] eqn:E; [|discriminate]. injection H as <-.
    cbn [short] in *. revert l' E Hs. induction IH as [|x l Hx IH I]; intros l' E Hs.
    + injection E as <-. exact I.
    + cbn [map all_some] in E. destruct (inline bl x) as [y|] eqn:Ex; [|discriminate].
      destruct (all_some (map (inline bl) l)) as [l1|]; [|discriminate]. injection E as <-.
      destruct Hs as [S1 S2]. split; [eapply Hx; eauto|apply (I l1 eq_refl S2)].
  - rewrite inline_obj in H. destruct (placeholder_num l) as [k|].
    + destruct (nth_error bl (N.to_nat k)) as [b|]; [|discriminate]. injection H as <-. cbn [short].
      induction b as [|c b I]; cbn; auto.
    + destruct (inl_members bl l) as [l'|] eqn:E; [|discriminate]. injection H as <-. cbn [short] in *.
      revert l' E Hs. induction IH as [|[k x] l Hx IH I]; intros l' E Hs.
      * injection E as <-. exact I.
      * rewrite inl_members_cons in E. destruct (inline bl x) as [y|] eqn:Ex; [|discriminate].
        destruct (inl_members bl l) as [l1|]; [|discriminate]. injection E as <-. destruct Hs as [S1 S2].
        split; [eapply Hx; eauto|apply (I l1 eq_refl S2)].
Qed.
Lemma as_if_inline t text r A bl : jvalue r text -> contents A = Some bl -> A <> [] -> wrap_ok r -> suits bl t r ->
  match inline bl r with
  | Some r' => forall text', jvalue r' text' -> forall v,
      arg_deserialize t (Arg text A) = Ok v <-> arg_deserialize t (Arg text' []) = Ok v
  | None => exists e, arg_deserialize t (Arg text A) = Err e
  end.
Proof.
  intros Hr HA Hne Hw Hs. rewrite (arg_some t text r A Hr Hne), (de_inline A bl HA _ t 128 r Hw Hs).
  destruct (inline bl r) as [r'|] eqn:E; [|eauto]. intros text' Hr' v. rewrite (arg_none t text' r' Hr').
  rewrite (de_plain_same _ from_str_value (length text)).
  - destruct (de_plain from_str_value t 128 r'); split; intros H; try discriminate; exact H.
  - eapply inline_short; [|exact E]. apply jvalue_short. exact Hr.
  - intros u Hu. apply (from_str_stable (S (length u))); lia.
Qed.

(** Every inlined tree has a text. *)
Lemma byte_lit_text c : exists t, jvalue (byte_lit c) t.
Proof.
  exists (numlit_text (int_lit false (bN c))). unfold byte_lit. change (NumLit false (dec (bN c)) None None) with (int_lit false (bN c)).
  apply jv_num. apply int_lit_ok.
Qed.
Lemma array_text l : Forall (fun r => exists t, jvalue r t) l -> exists t, jvalue (RArr l) t.
Proof.
  intros H. destruct l as [|x l]; [eexists; apply (jv_arr0 []); apply ws_nil|].
  assert (E : exists t, jelems (x :: l) t).
  { revert x H. induction l as [|y l IH]; intros x H; inversion H as [|? ? [t Ht] Hl]; subst.
    - eexists. apply (je_one x t [] []); auto using ws_nil.
    - destruct (IH y Hl) as [t' Ht']. eexists. apply (je_cons x t [] []); eauto using ws_nil. }
  destruct E as [t Ht]. eexists. apply jv_arr. exact Ht.
Qed.
Lemma object_text l : Forall (fun m => jbody (fst m) /\ exists t, jvalue (snd m) t) l -> exists t, jvalue (RObj l) t.
Proof.
  intros H. destruct l as [|[k x] l]; [eexists; apply (jv_obj0 []); apply ws_nil|].
  assert (E : exists t, jmembers ((k, x) :: l) t).
  { revert k x H. induction l as [|[k1 y] l IH]; intros k x H; inversion H as [|? ? [Hk [t Ht]] Hl]; subst; cbn [fst snd] in *.
    - eexists. apply (jm_one k x t [] [] [] []); auto using ws_nil.
    - destruct (IH k1 y Hl) as [t' Ht']. eexists. apply (jm_cons k x t [] [] [] []); eauto using ws_nil. }
  destruct E as [t Ht]. eexists. apply jv_obj. exact Ht.
Qed.
Lemma inline_text bl r text r' : jvalue r text -> inline bl r = Some r' -> exists text', jvalue r' text'.
Proof.
  assert (G : (forall r t, jvalue r t -> forall r', inline bl r = Some r' -> exists t', jvalue r' t') /\
    (forall l t, jelems l t -> forall l', all_some (map (inline bl) l) = Some l' -> Forall (fun r => exists t, jvalue r t) l') /\
    (forall l t, jmembers l t -> forall l', inl_members bl l = Some l' -> Forall (fun m => jbody (fst m) /\ exists t, jvalue (snd m) t) l')).
  { apply json_mutind.
    - intros r1 [= <-]. eexists. constructor.
    - intros r1 [= <-]. eexists. constructor.
    - intros r1 [= <-]. eexists. constructor.
    - intros n Hn r1 [= <-]. eexists. constructor. exact Hn.
    - intros b Hb r1 [= <-]. eexists. constructor. exact Hb.
    - intros w Hw r1 [= <-]. eexists. constructor. exact Hw.
    - intros l t Hl IH r1 H. rewrite inline_arr in H. destruct (all_some _) as [l'|]; [|discriminate]. injection H as <-.
      apply array_text. auto.
    - intros w Hw r1 [= <-]. eexists. constructor. exact Hw.
    - intros l t Hl IH r1 H. rewrite inline_obj in H. destruct (placeholder_num l).
      + destruct (nth_error bl _) as [b|]; [|discriminate]. injection H as <-. apply array_text. apply Forall_forall.
        intros x Hx. apply in_map_iff in Hx as (c & <- & _). apply byte_lit_text.
      + destruct (inl_members bl l) as [l'|]; [|discriminate]. injection H as <-. apply object_text. auto.
    - intros v t w1 w2 _ _ Hv IH l' H. cbn [map all_some] in H. destruct (inline bl v); [|discriminate]. injection H as <-.
      constructor; auto.
    - intros v t w1 w2 l t' _ _ Hv IH Hl IHl l' H. cbn [map all_some] in H. destruct (inline bl v); [|discriminate].
      destruct (all_some (map (inline bl) l)); [|discriminate]. injection H as <-. constructor; auto.
    - intros k v t w1 w2 w3 w4 _ _ _ _ Hk Hv IH l' H. rewrite inl_members_cons in H. destruct (inline bl v); [|discriminate].
      injection H as <-. constructor; auto.
    - intros k v t w1 w2 w3 w4 l t' _ _ _ _ Hk Hv IH Hl IHl l' H. rewrite inl_members_cons in H. destruct (inline bl v); [|discriminate].
      destruct (inl_members bl l); [|discriminate]. injection H as <-. constructor; auto. }
  intros H. apply (proj1 G r text H).
Qed.

(** ** C26: every placeholder that was read as bytes gives the bytes *)
Section Places.
Variables (rp : bytes -> option value) (A : list subslice_t).
Lemma each_nth f l vs i x : each_of f l = Some vs -> nth_error l i = Some x -> exists v, nth_error vs i = Some v /\ f x = Some v.
Proof.
  revert vs i. induction l as [|y l IH]; intros vs i H Hi; [destruct i; discriminate|]. cbn [each_of] in H. fold (each_of f) in H.
  destruct (f y) as [v|] eqn:Ey; [|discriminate]. destruct (each_of f l) as [vs'|]; [|discriminate]. injection H as <-.
  destruct i as [|i]; cbn [nth_error] in *; [injection Hi as <-; eauto|]. eapply IH; eauto.
Qed.
Lemma zip_nth f ts l vs i u x : zip_of f ts l = Some vs -> nth_error ts i = Some u -> nth_error l i = Some x ->
  exists v, nth_error vs i = Some v /\ f u x = Some v.
Proof.
  revert l vs i. induction ts as [|w ts IH]; intros [|y l] vs i H Hu Hi; try (destruct i; discriminate). cbn [zip_of] in H. fold (zip_of f) in H.
  destruct (f w y) as [v|] eqn:Ey; [|discriminate]. destruct (zip_of f ts l) as [vs'|] eqn:E; [|discriminate]. injection H as <-.
  destruct i as [|i]; cbn [nth_error] in *; [injection Hi as <-; injection Hu as <-; eauto|]. eapply IH; eauto.
Qed.
Lemma fields_nth f m fs vs i n u : fields_of f m fs = Some vs -> nth_error fs i = Some (n, u) ->
  exists v, nth_error vs i = Some v /\ field_of f m n u = Some v.
Proof.
  revert vs i. induction fs as [|[k w] fs IH]; intros vs i H Hi; [destruct i; discriminate|]. cbn [fields_of] in H. fold (fields_of f m) in H.
  destruct (field_of f m k w) as [v|] eqn:Ey; [|discriminate]. destruct (fields_of f m fs) as [vs'|]; [|discriminate]. injection H as <-.
  destruct i as [|i]; cbn [nth_error] in *; [injection Hi as <- <-; eauto|]. eapply IH; eauto.
Qed.
Lemma obj_get_same {B} k (x : B) m : obj_get k (obj_insert k x m) = Some x.
Proof.
  induction m as [|[k' y] m IH]; cbn [obj_insert obj_get]; [rewrite bytes_eqb_refl; reflexivity|].
  destruct (bytes_eqb k k') eqn:E; cbn [obj_get]; [rewrite bytes_eqb_refl; reflexivity|].
  destruct (bytes_ltb k k'); cbn [obj_get]; [rewrite bytes_eqb_refl; reflexivity|]. rewrite E. exact IH.
Qed.
Lemma map_of_keep f m n : Forall (fun kx => fst kx <> n) m -> forall acc r, map_of f m acc = Some r -> obj_get n r = obj_get n acc.
Proof.
  induction m as [|[k x] m IH]; intros Hf acc r H; cbn [map_of] in H; fold (map_of f) in H; [injection H as <-; reflexivity|].
  destruct (f x); [|discriminate]. inversion Hf; subst. rewrite (IH ltac:(assumption) _ _ H). apply obj_get_insert. cbn in *. congruence.
Qed.
Lemma map_of_last f pre n x post : Forall (fun kx => fst kx <> n) post -> forall acc r, map_of f (pre ++ (n, x) :: post) acc = Some r ->
  exists v, obj_get n r = Some v /\ f x = Some v.
Proof.
  intros Hp. induction pre as [|[k y] pre IH]; intros acc r H; cbn [map_of app] in H; fold (map_of f) in H.
  - destruct (f x) as [v|]; [|discriminate]. exists v. split; [|reflexivity]. rewrite (map_of_keep _ _ _ Hp _ _ H). apply obj_get_same.
  - destruct (f y); [|discriminate]. eapply IH; eauto.
Qed.
Lemma str_members_app a b : str_members (a ++ b) =
  match str_members a, str_members b with Some x, Some y => Some (x ++ y) | _, _ => None end.
Proof.
  induction a as [|[k x] a IH]; cbn [str_members app]; [destruct (str_members b); reflexivity|].
  rewrite IH. destruct (unescape k); [|reflexivity]. destruct (str_members a); [|reflexivity]. destruct (str_members b); reflexivity.
Qed.
Lemma starts_classify l b : starts_ordinary l -> classify_obj A l <> OMBuffer b.
Proof.
  destruct l as [|[k x] l]; [discriminate|]. intros H. unfold classify_obj. destruct (negb (no_backslash k)); [discriminate|].
  apply bytes_eqb_neq in H. rewrite H. discriminate.
Qed.

Lemma place_read t r t' r' g : place t r t' r' g -> forall d v, de_wrap rp A t d r = Some v ->
  exists d' v', g v = Some v' /\ de_wrap rp A t' d' r' = Some v'.
Proof.
  induction 1 as [t r|u r t' r' g Hn _ IH|u r t' r' g _ IH|u l i x t' r' g Hx _ IH|ts l i u x t' r' g Hu Hx _ IH
    |u pre k n x post t' r' g Hs Hk Hp _ IH|fs i n u l k x t' r' g Hs Hf Hin Hk _ IH|vs k n tag u x t' r' g Hk (pre & post & -> & Hn) Ht _ IH];
    intros d v H.
  - eauto.
  - cbn [de_wrap] in H. destruct r; try congruence; (destruct (de_wrap rp A u d _) as [w|] eqn:E; [|discriminate]; injection H as <-; eauto).
  - cbn [de_wrap] in H. destruct (de_wrap rp A u d r) as [w|] eqn:E; [|discriminate]. injection H as <-. eauto.
  - rewrite de_wrap_seq in H. destruct (enter d) as [d1|]; [|discriminate].
    destruct (each_of _ l) as [vs|] eqn:E; [|discriminate]. injection H as <-. destruct (each_nth _ _ _ _ _ E Hx) as (w & Hw & Hd).
    rewrite Hw. cbn [sub_value]. eauto.
  - rewrite de_wrap_tuple in H. destruct (enter d) as [d1|]; [|discriminate].
    destruct (zip_of _ ts l) as [vs|] eqn:E; [|discriminate]. injection H as <-. destruct (zip_nth _ _ _ _ _ _ _ E Hu Hx) as (w & Hw & Hd).
    rewrite Hw. cbn [sub_value]. eauto.
  - rewrite de_wrap_map in H. destruct (enter d) as [d1|]; [|discriminate]. destruct (classify_obj A _); try discriminate.
    rewrite str_members_app in H. destruct (str_members pre) as [mp|]; [|discriminate]. cbn [str_members] in H. rewrite Hk in H.
    destruct (str_members post) as [mq|] eqn:Eq; [|discriminate]. destruct (map_of _ _ []) as [m|] eqn:E; [|discriminate]. injection H as <-.
    apply map_of_last in E.
    + destruct E as (w & Hw & Hd). rewrite Hw. cbn [sub_value]. eauto.
    + apply Forall_forall. intros [k' y] Hy. apply (str_members_in post mq k' y Eq) in Hy as (k0 & Hk0 & Hy). rewrite Forall_forall in Hp.
      specialize (Hp _ Hy). cbn [fst] in *. congruence.
  - rewrite de_wrap_struct in H. destruct (enter d) as [d1|]; [|discriminate]. destruct (classify_obj A l) eqn:Ec; try discriminate; try (exfalso; revert Ec; apply starts_classify; exact Hs).
    destruct (str_members l) as [m|] eqn:Em; [|discriminate]. destruct (fields_of _ m fs) as [vs|] eqn:E; [|discriminate]. injection H as <-.
    destruct (fields_nth _ _ _ _ _ _ _ E Hf) as (w & Hw & Hd). rewrite Hw. cbn [sub_value].
    assert (Hx : In x (members_named n m)). { apply named_in. apply (str_members_in l m n x Em). exists k. auto. }
    unfold field_of in Hd. destruct (members_named n m) as [|y [|]]; [destruct Hx| |discriminate]. destruct Hx as [->|[]]. eauto.
  - rewrite de_wrap_enum in H. destruct (enter d) as [d1|]; [|discriminate]. rewrite Hk in H.
    assert (E : variant_of (variant_wrap A rp d1 x) n (pre ++ (n, (tag, u)) :: post) = variant_wrap A rp d1 x n tag u).
    { clear - Hn. induction pre as [|[n1 [t1 u1]] pre IH]; cbn [app variant_of]; [rewrite bytes_eqb_refl; reflexivity|].
      fold (variant_of (variant_wrap A rp d1 x) n). cbn [map fst In] in Hn. assert (E : n1 <> n) by tauto. apply bytes_eqb_neq in E. rewrite E. tauto. }
    rewrite E in H. unfold variant_wrap in H. destruct tag; try congruence.
    + destruct (de_wrap rp A u d1 x) as [w|] eqn:Ew; [|discriminate]. injection H as <-. eauto.
    + destruct x; try discriminate. destruct (de_wrap rp A u d1 (RArr l)) as [w|] eqn:Ew; [|discriminate]. injection H as <-. eauto.
    + destruct (de_wrap rp A u d1 x) as [w|] eqn:Ew; [|discriminate]. injection H as <-. eauto.
Qed.
End Places.


Lemma visit_all_u8 b : visit_u8_all TyU8 b = Some (map (fun c => XInt (Z.of_N (bN c))) b).
Proof.
  induction b as [|c b IH]; [reflexivity|]. cbn [visit_u8_all map]. rewrite IH. unfold TyU8. cbn [visit_u8]. unfold int_in. cbn [num_Z].
  pose proof (bN_bound c). destruct (0 <=? Z.of_N (bN c))%Z eqn:E1; [|lia]. destruct (Z.of_N (bN c) <=? 255)%Z eqn:E2; [|lia]. reflexivity.
Qed.
Lemma read_placeholder rp A bl l k d v t' : contents A = Some bl -> placeholder_num l = Some k ->
  de_wrap rp A t' d (RObj l) = Some v ->
  match t' with
  | TyBytes | TyByteBuf => exists b, nth_error bl (N.to_nat k) = Some b /\ v = XBytes b
  | TyString | TyStr => exists b, nth_error bl (N.to_nat k) = Some b /\ utf8_valid b = true /\ v = XStr b
  | TySeq (TyInt lo hi) => exists b, nth_error bl (N.to_nat k) = Some b /\ v = XU8s b
  | TyValue => exists b, nth_error bl (N.to_nat k) = Some b /\ v = XValue (byte_array b)
  | _ => True
  end.
Proof.
  intros HA Hk H. pose proof (classify_placeholder A bl HA l k Hk) as Hc. destruct t' as [| | | | | | | | | |u| | | | | | | |]; try exact I.
  - cbn [de_wrap] in H. rewrite Hc in H. destruct (enter d); [|discriminate]. destruct (nth_error bl (N.to_nat k)) as [b|]; [|discriminate].
    destruct (utf8_valid b) eqn:E; [|discriminate]. injection H as <-. eauto.
  - cbn [de_wrap] in H. rewrite Hc in H. destruct (enter d); [|discriminate]. destruct (nth_error bl (N.to_nat k)) as [b|]; [|discriminate].
    destruct (utf8_valid b) eqn:E; [|discriminate]. injection H as <-. eauto.
  - cbn [de_wrap] in H. rewrite Hc in H. destruct (enter d); [|discriminate]. destruct (nth_error bl (N.to_nat k)) as [b|]; [|discriminate].
    injection H as <-. eauto.
  - destruct u; try exact I. rewrite de_wrap_seq, Hc in H. destruct (enter d); [|discriminate]. destruct (nth_error bl (N.to_nat k)) as [b|]; [|discriminate].
    destruct (visit_u8_all _ b) as [vs|] eqn:E; [|discriminate]. injection H as <-. exists b. split; [reflexivity|]. unfold XU8s. f_equal.
    clear Hc. revert vs E. induction b as [|c b IH]; intros vs E; [injection E as <-; reflexivity|]. cbn [visit_u8_all visit_u8] in E.
    unfold int_in in E. cbn [num_Z] in E. destruct (_ && _)%bool; [|discriminate]. destruct (visit_u8_all (TyInt lo hi) b) as [vs'|]; [|discriminate].
    injection E as <-. cbn [map]. f_equal. auto.
  - cbn [de_wrap] in H. destruct d as [|[|d]]; try discriminate. rewrite val_wrap_obj, Hc in H.
    destruct (nth_error bl (N.to_nat k)) as [b|]; [|discriminate]. injection H as <-. exists b. split; reflexivity.
  - cbn [de_wrap] in H. rewrite Hc in H. destruct (enter d); [|discriminate]. destruct (nth_error bl (N.to_nat k)) as [b|]; [|discriminate].
    injection H as <-. eauto.
Qed.
Lemma bytes_delivered t text r A bl v t' l k g : jvalue r text -> contents A = Some bl -> A <> [] ->
  arg_deserialize t (Arg text A) = Ok v -> place t r t' (RObj l) g -> placeholder_num l = Some k ->
  match t' with
  | TyBytes | TyByteBuf => exists b, nth_error bl (N.to_nat k) = Some b /\ g v = Some (XBytes b)
  | TyString | TyStr => exists b, nth_error bl (N.to_nat k) = Some b /\ utf8_valid b = true /\ g v = Some (XStr b)
  | TySeq (TyInt lo hi) => exists b, nth_error bl (N.to_nat k) = Some b /\ g v = Some (XU8s b)
  | TyValue => exists b, nth_error bl (N.to_nat k) = Some b /\ g v = Some (XValue (byte_array b))
  | _ => True
  end.
Proof.
  intros Hr HA Hne H Hp Hk. rewrite (arg_some t text r A Hr Hne) in H. destruct (de_wrap _ A t 128 r) as [w|] eqn:E; [|discriminate].
  injection H as <-. destruct (place_read _ A _ _ _ _ _ Hp _ _ E) as (d' & v' & Hg & Hd). rewrite Hg.
  pose proof (read_placeholder _ A bl l k d' v' t' HA Hk Hd) as G. destruct t' as [| | | | | | | | | |u| | | | | | | |]; try exact I; try destruct u; try exact I.
  all: try (destruct G as (b & G1 & G2 & ->); eauto).
  all: destruct G as (b & G1 & ->); eauto.
Qed.

(** The placeholder itself as an argument. *)
Lemma placeholder_read A bl text l k : jvalue (RObj l) text -> contents A = Some bl -> A <> [] -> placeholder_num l = Some k ->
  arg_deserialize TyBytes (Arg text A) =
    match nth_error bl (N.to_nat k) with Some b => Ok (XBytes b) | None => Err (AJsonDeError text) end /\
  arg_deserialize (TySeq TyU8) (Arg text A) =
    match nth_error bl (N.to_nat k) with Some b => Ok (XU8s b) | None => Err (AJsonDeError text) end /\
  (forall n, arg_deserialize (TyU8Array n) (Arg text A) =
    match nth_error bl (N.to_nat k) with
    | Some b => if n <=? length b then Ok (XU8Array (firstn n b)) else Err (AJsonDeError text)
    | None => Err (AJsonDeError text)
    end).
Proof.
  intros Hr HA Hne Hk. pose proof (classify_placeholder A bl HA l k Hk) as Hc. repeat split; intros; rewrite (arg_some _ text _ A Hr Hne).
  - cbn [de_wrap]. rewrite Hc. destruct (nth_error bl (N.to_nat k)); reflexivity.
  - rewrite de_wrap_seq, Hc. cbn [enter]. destruct (nth_error bl (N.to_nat k)) as [b|]; [|reflexivity]. rewrite visit_all_u8. reflexivity.
  - unfold TyU8Array. rewrite de_wrap_tuple, Hc. cbn [enter]. destruct (nth_error bl (N.to_nat k)) as [b|]; [|reflexivity].
    assert (E : visit_u8_each (repeat TyU8 n) b =
      if n <=? length b then Some (map (fun c => XInt (Z.of_N (bN c))) (firstn n b)) else None).
    { clear. revert b. induction n as [|n IH]; intros b; [reflexivity|]. destruct b as [|c b]; [reflexivity|].
      cbn [repeat visit_u8_each length firstn map]. rewrite IH. unfold TyU8. cbn [visit_u8]. unfold int_in. cbn [num_Z].
      pose proof (bN_bound c). destruct (0 <=? Z.of_N (bN c))%Z eqn:E1; [|lia]. destruct (Z.of_N (bN c) <=? 255)%Z eqn:E2; [|lia].
      cbn [andb Nat.leb]. destruct (n <=? length b); reflexivity. }
    rewrite E. destruct (n <=? length b); reflexivity.
Qed.

(** ** C24: when the two readers agree *)
Section Agree.
Variables (A : list subslice_t) (bl : list bytes).
Hypothesis HA : contents A = Some bl.
Definition fillo (v : value) : option value := match fill_placeholders A v with Ok x => Some x | _ => None end.
Definition fillm (kx : bytes * value) : option (bytes * value) := option_map (pair (fst kx)) (fillo (snd kx)).
Lemma fillm_eq k x : fillm (k, x) = match fillo x with Some y => Some (k, y) | None => None end.
Proof. reflexivity. Qed.
Lemma fillo_arr l : fillo (VArr l) = option_map VArr (all_some (map fillo l)).
Proof.
  unfold fillo at 1. rewrite fill_arr. assert (E : match fill_list A l with Ok x => Some x | _ => None end = all_some (map fillo l)).
  { induction l as [|x l IH]; [reflexivity|]. cbn [fill_list map all_some]. rewrite <- IH. unfold fillo.
    destruct (fill_placeholders A x); cbn [rbind]; try reflexivity. destruct (fill_list A l); reflexivity. }
  rewrite <- E. destruct (fill_list A l); reflexivity.
Qed.
Lemma fillo_obj m : obj_get key_placeholder m = None -> fillo (VObj m) = option_map VObj (all_some (map fillm m)).
Proof.
  intros Hm. unfold fillo. rewrite fill_obj, Hm. assert (E : match fill_members A m with Ok x => Some x | _ => None end = all_some (map fillm m)).
  { clear Hm. induction m as [|[k x] m IH]; [reflexivity|]. cbn [fill_members map all_some]. rewrite <- IH. unfold fillm, fillo. cbn [fst snd].
    destruct (fill_placeholders A x); cbn [rbind option_map]; try reflexivity. destruct (fill_members A m); reflexivity. }
  rewrite <- E. destruct (fill_members A m); reflexivity.
Qed.
Lemma fillm_keys m m' : all_some (map fillm m) = Some m' -> map fst m' = map fst m.
Proof.
  revert m'. induction m as [|[k x] m IH]; intros m' H; [injection H as <-; reflexivity|]. cbn [map all_some] in H. unfold fillm in H at 1.
  cbn [fst snd] in H. destruct (fillo x); [|discriminate]. cbn [option_map] in H. destruct (all_some (map fillm m)); [|discriminate].
  injection H as <-. cbn [map fst]. f_equal. auto.
Qed.
Lemma fill_insert k x m : ~ In k (map fst m) ->
  all_some (map fillm (obj_insert k x m)) =
    match fillo x, all_some (map fillm m) with Some y, Some m' => Some (obj_insert k y m') | _, _ => None end.
Proof.
  induction m as [|[k1 x1] m IH]; intros Hk.
  - cbn [obj_insert map all_some]. unfold fillm. cbn [fst snd]. destruct (fillo x); reflexivity.
  - cbn [map fst In] in Hk. assert (E : k <> k1) by (intros ->; tauto). apply bytes_eqb_neq in E. cbn [obj_insert]. rewrite E.
    destruct (bytes_ltb k k1) eqn:El; cbn [map all_some]; rewrite ?IH by tauto; rewrite !fillm_eq.
    + destruct (fillo x); [|reflexivity]. destruct (fillo x1); [|reflexivity]. destruct (all_some (map fillm m)); [|reflexivity].
      cbn [option_map obj_insert]. rewrite E, El. reflexivity.
    + destruct (fillo x1); [|destruct (fillo x); reflexivity]. destruct (fillo x); [|reflexivity].
      destruct (all_some (map fillm m)); [|reflexivity]. cbn [option_map obj_insert]. rewrite E, El. reflexivity.
Qed.
Lemma insert_keys {B} k (x : B) m k' : In k' (map fst (obj_insert k x m)) <-> k' = k \/ In k' (map fst m).
Proof.
  induction m as [|[k1 x1] m IH]; cbn [obj_insert map fst In]; [split; intuition|].
  destruct (bytes_eqb k k1) eqn:E; [apply bytes_eqb_eq in E; subst; cbn [map fst In]; intuition|].
  destruct (bytes_ltb k k1); cbn [map fst In]; rewrite ?IH; intuition.
Qed.
Lemma fill_of ms : NoDup (map fst ms) -> all_some (map fillm (obj_of ms)) = option_map obj_of (all_some (map fillm ms)).
Proof.
  intros Hn. unfold obj_of. assert (G : forall acc, (forall k, In k (map fst ms) -> ~ In k (map fst acc)) ->
    all_some (map fillm (fold_left (fun m kv => obj_insert (fst kv) (snd kv) m) ms acc)) =
    match all_some (map fillm ms), all_some (map fillm acc) with
    | Some ms', Some acc' => Some (fold_left (fun m kv => obj_insert (fst kv) (snd kv) m) ms' acc') | _, _ => None end).
  { induction ms as [|[k x] ms IH]; intros acc Hd; cbn [fold_left map all_some].
    - destruct (all_some (map fillm acc)); reflexivity.
    - cbn [map fst] in Hn. inversion Hn as [|? ? Hk Hn']; subst. cbn [fst snd]. rewrite (IH Hn').
      + rewrite fill_insert by (apply Hd; left; reflexivity). rewrite fillm_eq. destruct (fillo x); cbn [option_map].
        * destruct (all_some (map fillm ms)); [|reflexivity]. destruct (all_some (map fillm acc)); reflexivity.
        * destruct (all_some (map fillm ms)); reflexivity.
      + intros k' Hk'. rewrite insert_keys. intros [->|H]; [exact (Hk Hk')|]. revert H. apply Hd. right. exact Hk'. }
  rewrite G by (intros k _ []). destruct (all_some (map fillm ms)); reflexivity.
Qed.

Lemma no_backslash_unescape k : no_backslash k = true -> unescape k = Some k.
Proof.
  induction k as [|c k IH]; intros H; [reflexivity|]. cbn [no_backslash forallb] in H. apply andb_prop in H as [H1 H2].
  cbn [unescape]. destruct (c =b backslash); [discriminate|]. fold (no_backslash k) in H2. rewrite (IH H2). reflexivity.
Qed.
Lemma agree_canonical rp r : canonical r -> forall d,
  val_wrap rp A d r = match val_of rp d r with Some v => fillo v | None => None end.
Proof.
  induction r as [|b|x|s|l IH|l IH] using raw_ind'; intros Hc d; try reflexivity.
  - cbn [val_wrap val_of]. destruct (num_of x); reflexivity.
  - cbn [val_wrap val_of]. destruct (unescape s); reflexivity.
  - destruct d as [|[|d]]; try reflexivity. rewrite val_wrap_arr, val_of_arr. cbn [canonical] in Hc.
    assert (E : all_some (map (val_wrap rp A (S d)) l) = match all_some (map (val_of rp (S d)) l) with Some vs => all_some (map fillo vs) | None => None end).
    { clear - IH Hc. induction IH as [|x l Hx IH I]; [reflexivity|]. destruct Hc as [H1 H2]. cbn [map all_some]. rewrite (Hx H1), (I H2).
      destruct (val_of rp (S d) x) as [v|]; [|reflexivity]. destruct (all_some (map (val_of rp (S d)) l)); cbn [option_map map all_some].
      - destruct (fillo v); reflexivity.
      - destruct (fillo v); reflexivity. }
    rewrite E. destruct (all_some (map (val_of rp (S d)) l)) as [vs|]; [|reflexivity]. cbn [option_map]. rewrite fillo_arr. reflexivity.
  - destruct d as [|[|d]]; try reflexivity. destruct (placeholder_num l) as [k|] eqn:Ep.
    + rewrite val_wrap_obj, (classify_placeholder A bl HA l k Ep). destruct (placeholder_shape l k Ep) as (x & -> & Hx).
      assert (E : val_of rp (S (S d)) (RObj [(key_placeholder, RBool true); (key_num, RNum x)]) =
        Some (VObj [(key_placeholder, VBool true); (key_num, VNum (NPos k))])).
      { rewrite val_of_obj'.
        - cbn [map all_some]. unfold val_member. cbn [fst snd val_of]. rewrite Hx. reflexivity.
        - intros k0 x0 l0 [= <- _ _]. discriminate. }
      rewrite E. unfold fillo. rewrite (fill_pkey A bl HA).
      * cbn [obj_get]. change (bytes_eqb key_num key_placeholder) with false. rewrite bytes_eqb_refl. cbv iota.
        destruct (nth_error bl (N.to_nat k)); reflexivity.
      * left. reflexivity.
    + cbn [canonical] in Hc. destruct Hc as [Hc|(Hf & Hr & Hn & Hp & Hl)]; [congruence|].
      assert (Hpriv : forall k x l', l = (k, x) :: l' -> unescape k <> Some raw_token).
      { intros k x l' ->. destruct Hf as [Hf _]. rewrite (no_backslash_unescape k Hf). intros [= E]. exact (Hr _ _ _ eq_refl E). }
      rewrite val_wrap_map by (auto using classify_ordinary). rewrite val_of_obj' by exact Hpriv.
      assert (E : all_some (map (wrap_member rp A (S d)) l) = match all_some (map (val_member rp (S d)) l) with Some ms => all_some (map fillm ms) | None => None end).
      { clear - IH Hl. induction IH as [|[k x] l Hx IH I]; [reflexivity|]. destruct Hl as [H1 H2]. cbn [map all_some snd] in *.
        unfold wrap_member at 1, val_member at 1. cbn [fst snd]. rewrite (Hx H1), (I H2).
        destruct (unescape k) as [k'|]; [|reflexivity]. cbn [pair_opt]. destruct (val_of rp (S d) x) as [v|]; [|reflexivity].
        destruct (all_some (map (val_member rp (S d)) l)); cbn [option_map map all_some].
        - rewrite fillm_eq. destruct (fillo v); reflexivity.
        - destruct (fillo v); reflexivity. }
      rewrite E. clear E. destruct (all_some (map (val_member rp (S d)) l)) as [ms|] eqn:Em; [|reflexivity]. cbn [option_map].
      assert (Hkeys : map (fun m => unescape (fst m)) l = map (fun m => Some (fst m)) ms).
      { clear - Em. revert ms Em. induction l as [|[k x] l I]; intros ms H; [injection H as <-; reflexivity|]. cbn [map all_some] in H.
        unfold val_member in H at 1. cbn [fst snd] in H. destruct (unescape k) as [k'|] eqn:Ek; [|discriminate]. cbn [pair_opt] in H.
        destruct (val_of rp (S d) x); [|discriminate]. destruct (all_some (map (val_member rp (S d)) l)); [|discriminate]. injection H as <-.
        cbn [map fst]. rewrite Ek, (I _ eq_refl). reflexivity. }
      rewrite Hkeys in Hn, Hp. rewrite fillo_obj.
      * rewrite fill_of.
        -- destruct (all_some (map fillm ms)); reflexivity.
        -- rewrite <- map_map with (f := fst) (g := Some) in Hn. apply NoDup_map_inv in Hn. exact Hn.
      * apply obj_get_of. apply Forall_forall. intros [k x] Hx E. cbn [fst] in E. subst k. apply Hp.
        apply in_map_iff. exists (key_placeholder, x). auto.
Qed.
End Agree.
Lemma readers_agree_canonical text r A bl : jvalue r text -> contents A = Some bl -> A = [] \/ canonical r ->
  readers_agree (Arg text A).
Proof.
  intros Hr HA H v. assert (Hd : jdoc r text). { exists [], text, []. rewrite app_nil_r. repeat split; auto using ws_nil. }
  unfold to_json_value. cbn [g_text g_attachments]. rewrite (from_str_eq text r Hd). destruct A as [|s A].
  - rewrite (arg_none _ text r Hr). cbn [de_plain]. destruct (val_of from_str_value 128 r); cbn [option_map]; split; intros E; try discriminate; congruence.
  - destruct H as [H|H]; [discriminate|]. rewrite (arg_some _ text r) by (assumption || discriminate). cbn [de_wrap].
    rewrite (agree_canonical _ bl HA _ r H). rewrite (val_of_same (from_str_value_n (S (length text))) from_str_value (length text) r).
    + destruct (val_of from_str_value 128 r) as [w|]; cbn [option_map]; [|split; discriminate].
      unfold fillo. destruct (fill_placeholders (s :: A) w); cbn [option_map]; split; intros E; try discriminate; congruence.
    + apply jvalue_short. exact Hr.
    + intros u Hu. apply (from_str_stable (S (length u))); lia.
Qed.

(** ** Headers whose last comma ends the namespace *)
Lemma comma_le (a b a' b' : bytes) : a ++ ","%byte :: b = a' ++ ","%byte :: b' -> ~ In ","%byte b -> length a' <= length a.
Proof.
  revert a'. induction a as [|c a IH]; intros a' H Hb.
  - destruct a' as [|c' a']; [cbn; lia|]. exfalso. apply Hb. cbn [app] in H. injection H as _ ->. apply in_or_app. right. left. reflexivity.
  - destruct a' as [|c' a']; [cbn; lia|]. cbn [app] in H. injection H as _ H. cbn [length]. apply le_n_S. eauto.
Qed.
Lemma reads_last_comma w : wire_ok w -> w_count w = None ->
  ~ In ","%byte (opt_text dec (w_id w) ++ opt_text (fun a => a) (w_args w)) -> reads_as (wire_text w) w.
Proof.
  intros Hok Hc Hn. split; [reflexivity|]. split; [exact Hok|]. intros w' Ht _. unfold ns_length.
  destruct (w_ns w') as [x'|] eqn:En'; cbn [opt_text length]; [|lia].
  unfold wire_text in Ht. rewrite Hc, En' in Ht. cbn [opt_text app] in Ht. injection Ht as Hk Ht.
  set (b := opt_text dec (w_id w) ++ opt_text (fun a => a) (w_args w)) in *.
  destruct (w_ns w) as [x|] eqn:En; cbn [opt_text] in *.
  - assert (H : x ++ ","%byte :: b = (opt_text (fun n => dec n ++ bs "-") (w_count w') ++ x') ++ ","%byte :: opt_text dec (w_id w') ++ opt_text (fun a => a) (w_args w')).
    { rewrite <- !app_assoc. rewrite <- !app_assoc in Ht. exact Ht. }
    apply comma_le in H; [|exact Hn]. rewrite app_length in H. lia.
  - exfalso. apply Hn. cbn [app] in Ht. rewrite Ht. apply in_or_app. right. apply in_or_app. left. apply in_or_app. right. left. reflexivity.
Qed.
Lemma no_comma_dec n : ~ In ","%byte (dec n).
Proof. intros H. pose proof (dec_digits n) as D. rewrite forallb_forall in D. specialize (D _ H). discriminate. Qed.

(** ** C21 *)
Lemma four_no_header t : parse_header ("4"%byte :: t) = None.
Proof.
  destruct (reads_as_some ("4"%byte :: t)) as [[w (E & _)]|[H _]]; [|exact H]. exfalso.
  unfold wire_text in E. injection E as E _. destruct (w_kind w); discriminate.
Qed.
Lemma connect_rejected k ns : In k [PKConnect; PKDisconnect] ->
  deserialize (MText (sub_from (serialize_header k None ns None))) = Err (SInvalidMessage (serialize_header k None ns None)).
Proof.
  intros _. cbn [deserialize]. unfold deserialize_text. erewrite parse_text_invalid; [reflexivity|apply deref_whole|apply four_no_header].
Qed.
Lemma connect_frame h k ns : In k [PKConnect; PKDisconnect] -> opened h -> ~ closed h -> ns_ok ns ->
  exists p, arrives h [WText (serialize_header k None ns None)] p /\
    view p = Some (PView (match k with PKConnect => KConnect | _ => KDisconnect end) ns None [] []).
Proof.
  intros Hk Ho Hc Hns. set (w := Wire k None (ns_opt ns) None None).
  assert (Et : serialize_header k None ns None = "4"%byte :: wire_text w).
  { rewrite <- (app_nil_r (serialize_header k None ns None)). exact (header_text k None ns None None). }
  rewrite Et.
  assert (Hr : reads_as (wire_text w) w).
  { apply reads_last_comma; [|reflexivity|intros []]. split; cbn [w w_ns w_args]; [|discriminate]. intros x Hx. exact (ns_opt_ok ns x Hns Hx). }
  assert (Hacc : accepts (wire_text w) (match k with PKConnect => KConnect | _ => KDisconnect end) ns None [] 0).
  { exists w. split; [exact Hr|]. cbn [w w_count w_id w_args w_ns w_kind elements]. repeat split; try (intros (n & [=] & _)).
    - symmetry. apply ns_opt_back.
    - destruct Hk as [<-|[<-|[]]]; auto. }
  destruct (proj2 (received_exact (tsub (wire_text w)) (wire_text w) [] (match k with PKConnect => KConnect | _ => KDisconnect end) ns None [] [] (tsub_wire w) (Forall_nil _))) as (p & Hp & Hv).
  { split; [exact Hacc|]. split; [reflexivity|]. intros H. destruct Hk as [<-|[<-|[]]]; destruct H; discriminate. }
  exists p. split; [|exact Hv]. apply (arrives_received h (wire_text w) [] p Ho Hc). exact Hp.
Qed.
Lemma C21_refuted_lemma : ~ C21_full.
Proof.
  intros H. destruct (H (bs "/")) as [(p & E & _) _]; [split; [exists []; reflexivity|intros [E|[]]; discriminate]|].
  unfold serialize_connect in E. rewrite connect_rejected in E by (left; reflexivity). discriminate.
Qed.

(** ** C43 *)
Lemma argless_rejected m t w : sub_deref_str m = Some t -> reads_as t w -> ~ too_big (w_id w) -> ~ too_big (w_count w) ->
  elements (w_args w) [] ->
  (w_kind w = PKAck -> deserialize (MText m) = Err (SMissingData (bs "ack") t)) /\
  (w_kind w = PKEvent -> deserialize (MText m) = Err (SMissingData (bs "event") t)) /\
  (w_kind w = PKBinaryAck -> forall l p, ~ received m l p) /\
  (w_kind w = PKBinaryEvent -> forall l p, ~ received m l p).
Proof.
  intros Hm Hr Hi Hcnt Hel.
  assert (Hd : exists q, parsed_ok t w [] q /\ deserialize (MText m) = dispatch q).
  { cbn [deserialize]. unfold deserialize_text. destruct (parse_text_cases m t w Hm Hr) as [[Hb _]|(_ & _ & [(a & Ha & Hj & _)|(ts & q & He & E & Hq)])].
    - tauto.
    - rewrite Ha in Hel. exfalso. exact (Hj _ Hel).
    - rewrite (elements_unique _ _ _ He Hel) in *. exists q. rewrite E. auto. }
  destruct Hd as (q & (Q1 & Q2 & Q3 & Q4 & _ & Q6) & Hd). inversion Q6 as [Hargs|]; subst.
  assert (Hev : forall k name atts, deserialize_event q k name atts = Err (SMissingData name t)).
  { intros k name atts. unfold deserialize_event. rewrite <- Hargs. cbn [is_nil]. rewrite orb_true_r. unfold msg_text. rewrite Q1. reflexivity. }
  rewrite Hd. unfold received, dispatch. rewrite Hd. unfold dispatch. rewrite Q2. repeat split; intros ->; rewrite ?Hev; try reflexivity.
  - intros l p [[H _]|(q' & H & Hp)].
    + unfold deserialize_binary in H. destruct (pa_attachments q) as [n|]; [|discriminate]. destruct (n =? 0)%N; [rewrite Hev in H|]; discriminate.
    + unfold deserialize_binary in H. destruct (pa_attachments q) as [n|]; [|discriminate]. destruct (n =? 0)%N; [rewrite Hev in H; discriminate|].
      injection H as <-. unfold deserialize_partial in Hp. destruct (collect_binary l); cbn [rbind] in Hp; try discriminate.
      destruct (pa_kind q); try discriminate; rewrite Hev in Hp; discriminate.
  - intros l p [[H _]|(q' & H & Hp)].
    + unfold deserialize_binary in H. destruct (pa_attachments q) as [n|]; [|discriminate]. destruct (n =? 0)%N; [rewrite Hev in H|]; discriminate.
    + unfold deserialize_binary in H. destruct (pa_attachments q) as [n|]; [|discriminate]. destruct (n =? 0)%N; [rewrite Hev in H; discriminate|].
      injection H as <-. unfold deserialize_partial in Hp. destruct (collect_binary l); cbn [rbind] in Hp; try discriminate.
      destruct (pa_kind q); try discriminate; rewrite Hev in Hp; discriminate.
Qed.
Lemma argless_ack_rejected m ns id b : ns_ok ns -> (id <= u64_max)%N -> sub_deref_str m = Some (argless_ack ns id b) ->
  deserialize (MText m) = Err (SMissingData (bs "ack") (argless_ack ns id b)).
Proof.
  intros Hns Hid Hm. unfold argless_ack in *. set (w := Wire _ _ _ _ _) in *.
  assert (Hr : reads_as (wire_text w) w).
  { apply reads_last_comma; [|reflexivity|].
    - split; cbn [w w_ns w_args]; [intros x Hx; exact (ns_opt_ok ns x Hns Hx)|]. intros a Ha. destruct b; [|discriminate].
      injection Ha as <-. split; [exists []; reflexivity|]. intros [H|[H|[]]]; discriminate.
    - cbn [w w_id w_args opt_text]. intros H. apply in_app_or in H as [H|H]; [exact (no_comma_dec id H)|]. destruct b; [|exact H].
      destruct H as [H|[H|[]]]; discriminate. }
  apply (argless_rejected m (wire_text w) w Hm Hr); try reflexivity.
  - cbn [w w_id]. intros (n & [= <-] & H). lia.
  - intros (n & [=] & _).
  - cbn [w w_args]. destruct b; [|reflexivity]. exists [], [], []. repeat split; auto using ws_nil.
Qed.
Lemma C43_refuted_lemma : ~ C43_full.
Proof.
  intros H. assert (Hns : ns_ok (bs "/")) by (split; [exists []; reflexivity|intros [E|[]]; discriminate]).
  assert (Hm : sub_deref_str (sub_from (argless_ack (bs "/") 0 true)) = Some (argless_ack (bs "/") 0 true)) by apply deref_whole.
  assert (Hid : (0 <= u64_max)%N) by lia.
  destruct (H (bs "/") 0%N Hns Hid (sub_from (argless_ack (bs "/") 0 true)) Hm) as (p & Hp & _).
  pose proof (argless_ack_rejected _ (bs "/") 0 true Hns Hid Hm) as E.
  destruct Hp as [[Hp _]|(q & Hp & _)]; rewrite E in Hp; discriminate.
Qed.
Lemma ack_with_arguments m t w l vs : sub_deref_str m = Some t -> Forall emsg_ok l -> reads_as t w -> w_kind w = PKAck \/ w_kind w = PKBinaryAck ->
  forall id ts, w_id w = Some id -> (id <= u64_max)%N -> elements (w_args w) ts -> ts <> [] ->
  w_count w = (match w_kind w with PKAck => None | _ => Some (N.of_nat (length l)) end) -> (w_kind w = PKAck -> l = []) ->
  (N.of_nat (length l) <= u64_max)%N -> all_some (map binary_content l) = Some vs ->
  exists p, received m l p /\ view p = Some (PView KAck (match w_ns w with Some x => x | None => bs "/" end) (Some id) ts vs).
Proof.
  intros Hm Hl Hr Hk id ts Hi Hid Hel Hne Hc Hlk Hlen Hvs. apply (received_exact m t l KAck _ (Some id) ts vs Hm Hl). split; [|split; [exact Hvs|]].
  - exists w. split; [exact Hr|]. split; [|split; [|split; [exact Hel|]]].
    + rewrite Hc. intros (n & E & Hn). destruct Hk as [Hk|Hk]; rewrite Hk in E; [discriminate|]. injection E as <-. lia.
    + rewrite Hi. intros (n & [= <-] & Hn). lia.
    + split; [reflexivity|]. split; [symmetry; exact Hi|]. destruct Hk as [Hk|Hk]; rewrite Hk in *.
      * rewrite (Hlk eq_refl). repeat split; auto. discriminate.
      * split; [reflexivity|]. split; [exact Hc|]. intros _. split; [exact Hne|discriminate].
  - intros _. split; [exact Hne|]. discriminate.
Qed.

(** ** C22: displaying *)
Lemma show_list_ok l : forall f, show_arg_list f l <> None <-> Forall (fun g => exists v, to_json_value g = Ok v) l.
Proof.
  induction l as [|g l IH]; intros f; cbn [show_arg_list].
  - split; [constructor|discriminate].
  - unfold show_arg. split.
    + intros H. destruct (to_json_value g) as [v| |] eqn:E; try congruence. constructor; [eauto|].
      apply (IH false). destruct (show_arg_list false l); congruence.
    + intros H. inversion H as [|? ? [v Hv] Hl]; subst. rewrite Hv. apply (IH false) in Hl. destruct (show_arg_list false l); congruence.
Qed.
Lemma show_exact m t l p : sub_deref_str m = Some t -> Forall emsg_ok l -> received m l p ->
  (show_packet p = None <-> exists g, (exists d a i, packet_data p = Some d /\ data_args d = Some a /\ args_get a i = Ok (Some g)) /\
     forall v, to_json_value g <> Ok v).
Proof.
  intros Hm Hl Hr. destruct (accessors_ok m t l p Hm Hl Hr) as (_ & d & Hd & Hacc). unfold show_packet. rewrite Hd.
  assert (Hargs : forall a, data_args d = Some a -> (show_args a = None <-> exists g i, args_get a i = Ok (Some g) /\ forall v, to_json_value g <> Ok v)).
  { intros a Ha. destruct (Hacc a Ha) as (_ & (gs & Hgs) & _). pose proof (args_iter_get a gs Hgs) as Hget. unfold show_args. rewrite Hgs.
    assert (E : forall o : option bytes, match o with Some t => Some ("["%byte :: t ++ ["]"%byte]) | None => None end = None <-> ~ (o <> None)).
    { intros [x|]; split; intros H; try discriminate; try reflexivity; try congruence; exfalso; apply H; discriminate. }
    transitivity (~ (show_arg_list true gs <> None)); [apply E|]. rewrite show_list_ok. split.
    - intros H. assert (G : forall g, {forall v, to_json_value g <> Ok v} + {exists v, to_json_value g = Ok v}).
      { intros g. destruct (to_json_value g) as [v| |]; [right; eauto| |]; left; discriminate. }
      assert (X : Exists (fun g => forall v, to_json_value g <> Ok v) gs).
      { clear - H G. induction gs as [|g gs IH]; [destruct H; constructor|]. destruct (G g) as [Hg|Hg]; [left; exact Hg|right].
        apply IH. intros Hf. apply H. constructor; assumption. }
      apply Exists_exists in X as (g & Hin & Hg). apply In_nth_error in Hin as (i & Hi). exists g, i. split; [|exact Hg].
      rewrite Hget, Hi. reflexivity.
    - intros (g & i & Hi & Hg) Hf. rewrite Hget in Hi. injection Hi as Hi. apply nth_error_In in Hi. rewrite Forall_forall in Hf.
      destruct (Hf g Hi) as (v & Hv). exact (Hg v Hv). }
  split.
  - intros H. destruct d as [| |id a|id a]; try discriminate.
    + assert (Hs : show_args a = None) by (destruct (show_args a); [discriminate|reflexivity]). apply (Hargs a eq_refl) in Hs as (g & i & Hi & Hg).
      exists g. split; [|exact Hg]. exists (DataEvent id a), a, i. auto.
    + assert (Hs : show_args a = None) by (destruct (show_args a); [discriminate|reflexivity]). apply (Hargs a eq_refl) in Hs as (g & i & Hi & Hg).
      exists g. split; [|exact Hg]. exists (DataAck id a), a, i. auto.
  - intros (g & (d' & a & i & [= <-] & Ha & Hi) & Hg). assert (Hs : show_args a = None) by (apply (Hargs a Ha); eauto).
    destruct d as [| |id a'|id a']; try discriminate; injection Ha as ->; rewrite Hs; reflexivity.
Qed.

(** ** Witnesses *)
Lemma argument_by p m l d a i g : received m l p -> packet_data p = Some d -> data_args d = Some a -> args_get a i = Ok (Some g) ->
  argument_of m l g.
Proof. intros H1 H2 H3 H4. exists p, d, a, i. auto. Qed.
Definition huge : bytes := bs "2[""x"",1e999]".
Lemma huge_argument : argument_of (sub_from huge) [] (Arg (bs "1e999") []).
Proof.
  destruct (deserialize (MText (sub_from huge))) as [[p|]| |] eqn:E; try (vm_compute in E; discriminate).
  destruct (packet_data p) as [d|] eqn:Ed; [|vm_compute in E; injection E as <-; vm_compute in Ed; discriminate].
  destruct (data_args d) as [a|] eqn:Ea; [|vm_compute in E; injection E as <-; vm_compute in Ed; injection Ed as <-; discriminate].
  apply (argument_by p _ _ d a 1); auto; [left; auto|].
  vm_compute in E; injection E as <-; vm_compute in Ed; injection Ed as <-; vm_compute in Ea; injection Ea as <-. vm_compute. reflexivity.
Qed.
Lemma C22_refuted_lemma : ~ C22_full.
Proof.
  intros H. apply (H (sub_from huge) huge [] (Arg (bs "1e999") [])).
  - apply deref_whole.
  - constructor.
  - exact huge_argument.
  - vm_compute. reflexivity.
Qed.
Definition swapped : bytes := bs "51-[""x"",{""num"":0,""_placeholder"":true}]".
Definition swapped_arg : arg_t := Arg (bs "{""num"":0,""_placeholder"":true}") [sub_from (bs "ab")].
Lemma swapped_argument : argument_of (sub_from swapped) [MBinary (sub_from (bs "ab"))] swapped_arg.
Proof.
  destruct (deserialize (MText (sub_from swapped))) as [[|q]| |] eqn:E; try (vm_compute in E; discriminate).
  destruct (deserialize_partial q [MBinary (sub_from (bs "ab"))]) as [p| |] eqn:Ep;
    try (vm_compute in E; injection E as <-; vm_compute in Ep; discriminate).
  assert (Hr : received (sub_from swapped) [MBinary (sub_from (bs "ab"))] p) by (right; exists q; auto).
  vm_compute in E; injection E as <-. vm_compute in Ep. injection Ep as <-.
  eapply (argument_by _ _ _ _ _ 1); [exact Hr|vm_compute; reflexivity|vm_compute; reflexivity|vm_compute; reflexivity].
Qed.
Lemma swapped_read : to_json_value swapped_arg = Ok (byte_array (bs "ab")) /\
  arg_deserialize TyValue swapped_arg = Ok (XValue (VObj [(key_placeholder, VBool true); (key_num, VNum (NPos 0))])).
Proof. split; vm_compute; reflexivity. Qed.
Lemma C24_refuted_lemma : ~ C24_full.
Proof.
  intros H. destruct swapped_read as [R1 R2].
  assert (Hl : Forall emsg_ok [MBinary (sub_from (bs "ab"))]) by (constructor; [vm_compute; discriminate|constructor]).
  assert (Hr := H (sub_from swapped) swapped _ swapped_arg (proj2 (deref_whole swapped)) Hl swapped_argument). unfold readers_agree in Hr.
  apply Hr in R1. rewrite R1 in R2. discriminate.
Qed.
Definition escaped_key : bytes := bs "{""a\""b"":1}".
Definition escaped_tree : raw := RObj [(bs "a\""b", RNum (NumLit false (bs "1") None None))].
Lemma jvalue_by_scan text r : scan_value (value_fuel text) text = Some (r, []) ->
  match text with c :: _ => is_ws c = false | [] => True end -> jvalue r text.
Proof.
  intros H Hc. apply (proj1 (scan_sound _)) in H as (w & t & Hw & Hv & E). rewrite app_nil_r in E.
  destruct w as [|c w]; [subst text; exact Hv|]. exfalso. subst text. cbn in Hc.
  inversion Hw as [|? ? Hin _]; subst. destruct Hin as [<-|[<-|[<-|[<-|[]]]]]; discriminate.
Qed.
Definition placeholder0 : bytes := bs "{""_placeholder"":true,""num"":0}".
Definition placeholder0_tree : list (bytes * raw) :=
  [(key_placeholder, RBool true); (key_num, RNum (NumLit false (bs "0") None None))].
Lemma placeholder0_json : jvalue (RObj placeholder0_tree) placeholder0.
Proof. apply jvalue_by_scan; vm_compute; reflexivity. Qed.
Lemma C45_refuted_lemma : ~ C45_full.
Proof.
  intros H. assert (E := H [sub_from (bs "abc")] [bs "abc"] placeholder0 placeholder0_tree 0%N (bs "abc") 2 placeholder0_json eq_refl).
  assert (L : length (bs "abc") = 2); [|discriminate]. apply E; [discriminate|reflexivity|reflexivity|].
  exists (XU8Array (bs "ab")). vm_compute. reflexivity.
Qed.
Lemma array_of_attachment A bl text l k b n : jvalue (RObj l) text -> contents A = Some bl -> A <> [] ->
  placeholder_num l = Some k -> nth_error bl (N.to_nat k) = Some b ->
  forall v, arg_deserialize (TyU8Array n) (Arg text A) = Ok v <-> n <= length b /\ v = XU8Array (firstn n b).
Proof.
  intros Hr HA Hne Hk Hb v. destruct (placeholder_read A bl text l k Hr HA Hne Hk) as (_ & _ & E). rewrite E, Hb.
  destruct (Nat.leb_spec n (length b)).
  - split; [intros [= <-]; auto|intros [_ ->]; reflexivity].
  - split; [discriminate|lia].
Qed.
Lemma escaped_json : jvalue escaped_tree escaped_key.
Proof. apply jvalue_by_scan; vm_compute; reflexivity. Qed.
Lemma C25_refuted_lemma : ~ C25_full.
Proof.
  intros H. assert (E := H (TyMap TyU8) escaped_key escaped_tree [sub_from (bs "ab")] escaped_json).
  assert (Hn : no_placeholder_key escaped_tree) by (cbn; repeat split; discriminate). specialize (E Hn).
  assert (E1 : arg_deserialize (TyMap TyU8) (Arg escaped_key [sub_from (bs "ab")]) = Err (AJsonDeError escaped_key)) by (vm_compute; reflexivity).
  assert (E2 : arg_deserialize (TyMap TyU8) (Arg escaped_key []) = Ok (XMap [(bs "a""b", XInt 1)])) by (vm_compute; reflexivity).
  rewrite E1, E2 in E. discriminate.
Qed.
