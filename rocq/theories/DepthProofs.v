(** Reading does not depend on the depth that is left, as long as it suffices, nor on the recursion bound. *)
From Verif Require Export ShapeProofs FilledProofs SpecNested.

Lemma enter_in a d : S a < d -> exists e, enter d = Some e /\ d = S e /\ a < e.
Proof. intros H. destruct d as [|[|d]]; [lia|lia|]. exists (S d). cbn. repeat split. lia. Qed.
Lemma within_elem a l x : within a (RArr l) -> In x l -> exists b, a = S b /\ within b x.
Proof. destruct a as [|b]; cbn [within]; [contradiction|]. rewrite allP_In. eauto. Qed.
Lemma within_mem a l k x : within a (RObj l) -> In (k, x) l -> exists b, a = S b /\ within b x.
Proof. destruct a as [|b]; cbn [within]; [contradiction|]. rewrite allP_In. intros H Hin. exists b. split; [reflexivity|]. exact (H _ Hin). Qed.
Lemma within_arr a l : within a (RArr l) -> exists b, a = S b /\ forall x, In x l -> within b x.
Proof. destruct a as [|b]; cbn [within]; [contradiction|]. rewrite allP_In. eauto. Qed.
Lemma within_obj a l : within a (RObj l) -> exists b, a = S b /\ forall k x, In (k, x) l -> within b x.
Proof. destruct a as [|b]; cbn [within]; [contradiction|]. rewrite allP_In. intros H. exists b. split; [reflexivity|]. intros k x Hx. exact (H _ Hx). Qed.

Lemma within_more a b r : a <= b -> within a r -> within b r.
Proof.
  revert a b. induction r as [|b'|x|s|l IH|l IH] using raw_ind'; intros a b H; cbn [within]; auto; rewrite Forall_forall in IH.
  - destruct a as [|a]; [contradiction|]. destruct b as [|b]; [lia|]. rewrite !allP_In. intros W x Hx. apply (IH x Hx a); [lia|auto].
  - destruct a as [|a]; [contradiction|]. destruct b as [|b]; [lia|]. rewrite !allP_In. intros W [k x] Hx. apply (IH _ Hx a); [lia|]. exact (W _ Hx).
Qed.

(** ** Without the wrapper, and with it *)
Section Deep.
Variables (rp rp' : bytes -> option value) (n : nat).
Hypothesis Hr : same_below n rp rp'.
Lemma val_of_deep r : forall a d d', short n r -> within a r -> a < d -> a < d' -> val_of rp d r = val_of rp' d' r.
Proof.
  induction r as [|b|x|s|l IH|l IH] using raw_ind'; intros a d d' Hs Hw H1 H2; try reflexivity; rewrite Forall_forall in IH.
  - apply within_arr in Hw as (b & -> & Hw). destruct d as [|[|d]]; [lia|lia|]. destruct d' as [|[|d']]; [lia|lia|].
    rewrite !val_of_arr. do 2 f_equal. apply map_ext_in. intros x Hx. apply (IH x Hx b); [eapply short_elem|apply Hw| |]; eauto; lia.
  - apply within_obj in Hw as (b & -> & Hw). destruct d as [|[|d]]; [lia|lia|]. destruct d' as [|[|d']]; [lia|lia|].
    destruct (private_dec l) as [(k & x & l' & -> & Hk)|Hk].
    + rewrite !val_of_private by exact Hk. destruct x as [| | |c| |]; try reflexivity. destruct l'; [|reflexivity].
      destruct (unescape c) as [t|] eqn:E; [|reflexivity]. apply Hr. apply unescape_length in E. cbn in Hs. lia.
    + rewrite !val_of_obj' by exact Hk. do 2 f_equal. apply map_ext_in. intros [k x] Hx. unfold val_member. cbn [fst snd].
      pose proof (IH _ Hx b (S d) (S d') (short_mem _ _ _ _ Hs Hx) (Hw _ _ Hx)) as E. cbn [snd] in E. rewrite E by lia. reflexivity.
Qed.
Lemma de_plain_deep t : forall r a d d', short n r -> within a r -> a < d -> a < d' -> de_plain rp t d r = de_plain rp' t d' r.
Proof.
  induction t as [|lo hi| | | | | | |u IH|u IH|u IH|ts IH|u IH|fs IH|vs IH| | | |lo hi u IH] using ty_ind'; intros r a d d' Hs Hw H1 H2; try reflexivity.
  - cbn [de_plain]. destruct r; auto; rewrite (IH _ a d d') by assumption; reflexivity.
  - cbn [de_plain]. rewrite (IH _ a d d') by assumption. reflexivity.
  - rewrite !de_plain_seq. destruct r as [| | | |l|l]; auto. apply within_arr in Hw as (b & -> & Hw).
    destruct (enter_in b d H1) as (e & -> & _ & He). destruct (enter_in b d' H2) as (e' & -> & _ & He'). f_equal. apply each_ext.
    intros x Hx. apply (IH x b); eauto using short_elem.
  - rewrite !de_plain_tuple. destruct r as [| | | |l|l]; auto. apply within_arr in Hw as (b & -> & Hw). rewrite Forall_forall in IH.
    destruct (enter_in b d H1) as (e & -> & _ & He). destruct (enter_in b d' H2) as (e' & -> & _ & He'). f_equal. apply zip_ext.
    intros u x Hu Hx. apply (IH u Hu x b); eauto using short_elem.
  - rewrite !de_plain_map. destruct r as [| | | |l|l]; auto. apply within_obj in Hw as (b & -> & Hw).
    destruct (enter_in b d H1) as (e & -> & _ & He). destruct (enter_in b d' H2) as (e' & -> & _ & He'). destruct (str_members l) as [m|] eqn:E; [|reflexivity].
    f_equal. apply map_ext_of. intros k x Hx. apply (str_members_in l m k x E) in Hx as (k0 & _ & Hx). apply (IH x b); eauto using short_mem.
  - rewrite !de_plain_struct. rewrite Forall_forall in IH. destruct r as [| | | |l|l]; try (destruct (enter d), (enter d'); reflexivity).
    + apply within_arr in Hw as (b & -> & Hw). destruct (enter_in b d H1) as (e & -> & _ & He). destruct (enter_in b d' H2) as (e' & -> & _ & He').
      rewrite !zip_fields_eq. f_equal. apply zip_ext. intros u x Hu Hx. apply in_map_iff in Hu as (f & <- & Hf). apply (IH f Hf x b); eauto using short_elem.
    + apply within_obj in Hw as (b & -> & Hw). destruct (enter_in b d H1) as (e & -> & _ & He). destruct (enter_in b d' H2) as (e' & -> & _ & He').
      destruct (str_members l) as [m|] eqn:E; [|reflexivity]. f_equal. apply fields_ext. intros k u x Hu Hx.
      apply (str_members_in l m k x E) in Hx as (k0 & _ & Hx). apply (IH _ Hu x b); eauto using short_mem.
  - rewrite !de_plain_enum. destruct r as [| | | | |[|[k x] [|]]]; auto. apply within_obj in Hw as (b & -> & Hw).
    destruct (enter_in b d H1) as (e & -> & _ & He). destruct (enter_in b d' H2) as (e' & -> & _ & He'). destruct (unescape k); [|reflexivity].
    apply variant_ext. intros m tag u Hu. rewrite Forall_forall in IH. unfold variant_plain.
    pose proof (IH _ Hu x b e e' (short_mem _ _ _ _ Hs (or_introl eq_refl)) (Hw _ _ (or_introl eq_refl)) He He') as E. cbn [snd] in E.
    destruct tag; auto; rewrite E; reflexivity.
  - cbn [de_plain]. rewrite (val_of_deep r a d d') by assumption. reflexivity.
  - cbn [de_plain]. destruct r as [| | | |l|l]; auto. apply within_arr in Hw as (b & -> & Hw).
    destruct (enter_in b d H1) as (e & -> & _ & He). destruct (enter_in b d' H2) as (e' & -> & _ & He'). reflexivity.
  - rewrite !de_plain_int_map. destruct r as [| | | |l|l]; auto. apply within_obj in Hw as (b & -> & Hw).
    destruct (enter_in b d H1) as (e & -> & _ & He). destruct (enter_in b d' H2) as (e' & -> & _ & He'). f_equal. apply int_map_ext. intros k x Hx.
    apply (IH x b); eauto using short_mem.
Qed.
Variable A : list subslice_t.
Lemma val_wrap_deep r : forall a d d', short n r -> within a r -> a < d -> a < d' -> val_wrap rp A d r = val_wrap rp' A d' r.
Proof.
  induction r as [|b|x|s|l IH|l IH] using raw_ind'; intros a d d' Hs Hw H1 H2; try reflexivity; rewrite Forall_forall in IH.
  - apply within_arr in Hw as (b & -> & Hw). destruct d as [|[|d]]; [lia|lia|]. destruct d' as [|[|d']]; [lia|lia|].
    rewrite !val_wrap_arr. do 2 f_equal. apply map_ext_in. intros x Hx. apply (IH x Hx b); [eapply short_elem|apply Hw| |]; eauto; lia.
  - apply within_obj in Hw as (b & -> & Hw). destruct d as [|[|d]]; [lia|lia|]. destruct d' as [|[|d']]; [lia|lia|].
    destruct (classify_obj A l) eqn:Ec; [rewrite !val_wrap_obj, Ec; reflexivity..|].
    destruct (token_dec l) as [(k & x & l' & -> & Hk)|Hk].
    + rewrite !val_wrap_obj, Ec, Hk, bytes_eqb_refl. destruct x as [| | |c| |]; try reflexivity. destruct l'; [|reflexivity].
      destruct (unescape c) as [t|] eqn:E; [|reflexivity]. apply Hr. apply unescape_length in E. cbn in Hs. lia.
    + rewrite !val_wrap_map by assumption. do 2 f_equal. apply map_ext_in. intros [k x] Hx. unfold wrap_member. cbn [fst snd].
      pose proof (IH _ Hx b (S d) (S d') (short_mem _ _ _ _ Hs Hx) (Hw _ _ Hx)) as E. cbn [snd] in E. rewrite E by lia. reflexivity.
Qed.
Lemma de_wrap_deep t : forall r a d d', short n r -> within a r -> a < d -> a < d' -> de_wrap rp A t d r = de_wrap rp' A t d' r.
Proof.
  induction t as [|lo hi| | | | | | |u IH|u IH|u IH|ts IH|u IH|fs IH|vs IH| | | |lo hi u IH] using ty_ind'; intros r a d d' Hs Hw H1 H2; try reflexivity.
  1-3: cbn [de_wrap]; destruct r as [| | | |l|l]; try reflexivity; apply within_obj in Hw as (b & -> & Hw);
    destruct (enter_in b d H1) as (e & -> & _ & He); destruct (enter_in b d' H2) as (e' & -> & _ & He'); reflexivity.
  - cbn [de_wrap]. destruct r; auto; rewrite (IH _ a d d') by assumption; reflexivity.
  - cbn [de_wrap]. rewrite (IH _ a d d') by assumption. reflexivity.
  - rewrite !de_wrap_seq. destruct r as [| | | |l|l]; auto.
    + apply within_arr in Hw as (b & -> & Hw).
      destruct (enter_in b d H1) as (e & -> & _ & He). destruct (enter_in b d' H2) as (e' & -> & _ & He'). f_equal. apply each_ext.
      intros x Hx. apply (IH x b); eauto using short_elem.
    + apply within_obj in Hw as (b & -> & Hw). destruct (enter_in b d H1) as (e & -> & _ & He). destruct (enter_in b d' H2) as (e' & -> & _ & He'). reflexivity.
  - rewrite !de_wrap_tuple. rewrite Forall_forall in IH. destruct r as [| | | |l|l]; auto.
    + apply within_arr in Hw as (b & -> & Hw).
      destruct (enter_in b d H1) as (e & -> & _ & He). destruct (enter_in b d' H2) as (e' & -> & _ & He'). f_equal. apply zip_ext.
      intros u x Hu Hx. apply (IH u Hu x b); eauto using short_elem.
    + apply within_obj in Hw as (b & -> & Hw). destruct (enter_in b d H1) as (e & -> & _ & He). destruct (enter_in b d' H2) as (e' & -> & _ & He'). reflexivity.
  - rewrite !de_wrap_map. destruct r as [| | | |l|l]; auto. apply within_obj in Hw as (b & -> & Hw).
    destruct (enter_in b d H1) as (e & -> & _ & He). destruct (enter_in b d' H2) as (e' & -> & _ & He'). destruct (classify_obj A l); auto.
    destruct (str_members l) as [m|] eqn:E; [|reflexivity].
    f_equal. apply map_ext_of. intros k x Hx. apply (str_members_in l m k x E) in Hx as (k0 & _ & Hx). apply (IH x b); eauto using short_mem.
  - rewrite !de_wrap_struct. rewrite Forall_forall in IH. destruct r as [| | | |l|l]; try (destruct (enter d), (enter d'); reflexivity).
    + apply within_arr in Hw as (b & -> & Hw). destruct (enter_in b d H1) as (e & -> & _ & He). destruct (enter_in b d' H2) as (e' & -> & _ & He').
      rewrite !zip_fields_eq. f_equal. apply zip_ext. intros u x Hu Hx. apply in_map_iff in Hu as (f & <- & Hf). apply (IH f Hf x b); eauto using short_elem.
    + apply within_obj in Hw as (b & -> & Hw). destruct (enter_in b d H1) as (e & -> & _ & He). destruct (enter_in b d' H2) as (e' & -> & _ & He').
      destruct (classify_obj A l); auto. destruct (str_members l) as [m|] eqn:E; [|reflexivity]. f_equal. apply fields_ext. intros k u x Hu Hx.
      apply (str_members_in l m k x E) in Hx as (k0 & _ & Hx). apply (IH _ Hu x b); eauto using short_mem.
  - rewrite !de_wrap_enum. destruct r as [| | | | |[|[k x] [|]]]; auto. apply within_obj in Hw as (b & -> & Hw).
    destruct (enter_in b d H1) as (e & -> & _ & He). destruct (enter_in b d' H2) as (e' & -> & _ & He'). destruct (unescape k); [|reflexivity].
    apply variant_ext. intros m tag u Hu. rewrite Forall_forall in IH. unfold variant_wrap.
    pose proof (IH _ Hu x b e e' (short_mem _ _ _ _ Hs (or_introl eq_refl)) (Hw _ _ (or_introl eq_refl)) He He') as E. cbn [snd] in E.
    destruct tag; auto; rewrite E; reflexivity.
  - cbn [de_wrap]. rewrite (val_wrap_deep r a d d') by assumption. reflexivity.
  - cbn [de_wrap]. destruct r as [| | | |l|l]; auto.
    + apply (de_plain_deep TyByteBuf (RArr l) a); assumption.
    + apply within_obj in Hw as (b & -> & Hw). destruct (enter_in b d H1) as (e & -> & _ & He). destruct (enter_in b d' H2) as (e' & -> & _ & He'). reflexivity.
  - cbn [de_wrap]. destruct r as [| | | |l|l]; auto. apply within_obj in Hw as (b & -> & Hw).
    destruct (enter_in b d H1) as (e & -> & _ & He). destruct (enter_in b d' H2) as (e' & -> & _ & He'). reflexivity.
Qed.
End Deep.

(** ** Buffers *)
Lemma content_deep cls r : forall a d d', within a r -> a < d -> a < d' -> content_of cls d r = content_of cls d' r.
Proof.
  induction r as [|b|x|s|l IH|l IH] using raw_ind'; intros a d d' Hw H1 H2; try reflexivity; cbn [content_of].
  - apply within_arr in Hw as (b & -> & Hw). destruct (enter_in b d H1) as (e & -> & _ & He). destruct (enter_in b d' H2) as (e' & -> & _ & He'). f_equal.
    clear H1 H2. induction IH as [|x l Hx IH IHl]; [reflexivity|]. rewrite (Hx b e e' (Hw x (or_introl eq_refl)) He He').
    rewrite IHl by (intros y Hy; apply Hw; right; exact Hy). reflexivity.
  - apply within_obj in Hw as (b & -> & Hw). destruct (enter_in b d H1) as (e & -> & _ & He). destruct (enter_in b d' H2) as (e' & -> & _ & He').
    destruct (cls l); try reflexivity. f_equal.
    clear H1 H2. induction IH as [|[k x] l Hx IH IHl]; [reflexivity|]. cbn [snd] in Hx. rewrite (Hx b e e' (Hw k x (or_introl eq_refl)) He He').
    rewrite IHl by (intros k' y Hy; apply (Hw k'); right; exact Hy). reflexivity.
Qed.
Lemma contents_deep w a e e' l : (forall x, In x l -> within a x) -> a < e -> a < e' -> contents_of w e l = contents_of w e' l.
Proof.
  intros Hw H1 H2. induction l as [|x l IH]; [reflexivity|]. cbn [contents_of]. rewrite (content_deep _ x a e e' (Hw x (or_introl eq_refl)) H1 H2).
  rewrite IH by (intros y Hy; apply Hw; right; exact Hy). reflexivity.
Qed.
Lemma tag_loop_deep w tag a e e' l : (forall k x, In (k, x) l -> within a x) -> a < e -> a < e' ->
  forall found acc, tag_loop w tag e l found acc = tag_loop w tag e' l found acc.
Proof.
  intros Hw H1 H2. induction l as [|[k x] l IH]; intros found acc; [reflexivity|]. cbn [tag_loop]. destruct (unescape k) as [k'|]; [|reflexivity].
  assert (IH' := IH (fun k y Hy => Hw k y (or_intror Hy))). destruct (bytes_eqb k' tag).
  - destruct found; [reflexivity|]. destruct (tag_name x); [|reflexivity]. apply IH'.
  - rewrite (content_deep _ x a e e' (Hw k x (or_introl eq_refl)) H1 H2). destruct (content_of _ e' x); [|reflexivity]. apply IH'.
Qed.
Lemma collect_deep w names a e e' m : (forall k x, In (k, x) m -> within a x) -> a < e -> a < e' -> collect w names e m = collect w names e' m.
Proof.
  intros Hw H1 H2. induction m as [|[k x] m IH]; [reflexivity|]. cbn [collect]. rewrite (content_deep _ x a e e' (Hw k x (or_introl eq_refl)) H1 H2).
  rewrite IH by (intros k' y Hy; apply (Hw k'); right; exact Hy). reflexivity.
Qed.

(** ** Enums and structs with flattened fields *)
Section DeepEnum.
Variables (rp rp' : bytes -> option value) (n : nat) (w : way).
Hypothesis Hr : same_below n rp rp'.
Lemma direct_deep t r a d d' : short n r -> within a r -> a < d -> a < d' -> de_direct rp w t d r = de_direct rp' w t d' r.
Proof. intros Hs Hw H1 H2. destruct w as [|A]; cbn [de_direct]; [apply (de_plain_deep rp rp' n Hr t r a)|apply (de_wrap_deep rp rp' n Hr A t r a)]; assumption. Qed.
Lemma alt_deep alt r a d d' : short n r -> within a r -> a < d -> a < d' -> alt_direct rp w alt d r = alt_direct rp' w alt d' r.
Proof.
  intros Hs Hw H1 H2. destruct alt as [|t|fs]; cbn [alt_direct]; [reflexivity|apply (direct_deep t r a); assumption|].
  destruct r; try reflexivity. destruct (objects w l); try reflexivity. apply (direct_deep _ _ a); assumption.
Qed.
Lemma adjacent_tag_deep alts r a d d' : short n r -> within a r -> a < d -> a < d' -> adjacent_tag rp w alts d r = adjacent_tag rp' w alts d' r.
Proof. intros Hs Hw H1 H2. unfold adjacent_tag. rewrite (direct_deep _ r a d d') by assumption. reflexivity. Qed.
Lemma as_ext alts m f g : (forall a, f a = g a) -> adjacent_as alts m f = adjacent_as alts m g.
Proof. intros H. unfold adjacent_as. destruct (find_alt m alts); [|reflexivity]. rewrite H. reflexivity. Qed.
Lemma octets_cshort b : allP (cshort n) (map (fun x => KNum (NPos (bN x))) b).
Proof. induction b; cbn; auto. Qed.
Lemma enum_deep e r a d d' : short n r -> within a r -> a < d -> a < d' -> de_enum rp w e d r = de_enum rp' w e d' r.
Proof.
  intros Hs Hw H1 H2. destruct e as [alts|tag alts|tag cont alts]; cbn [de_enum].
  - unfold de_untagged. rewrite (content_deep _ r a d d' Hw H1 H2). destruct (content_of _ d' r) as [c|] eqn:E; [|reflexivity].
    apply (try_same rp rp' n Hr). exact (content_short _ _ _ Hs _ _ E).
  - unfold de_tagged. destruct r as [| | | |[|x l]|l]; auto.
    + apply within_arr in Hw as (b & -> & Hw). destruct (enter_in b d H1) as (e & -> & _ & He). destruct (enter_in b d' H2) as (e' & -> & _ & He').
      rewrite (contents_deep w b e e' l) by (auto; intros; apply Hw; right; assumption). destruct (tag_name x); [|reflexivity].
      destruct (contents_of w e' l) as [cs|] eqn:E; [|reflexivity]. apply (tagged_as_same rp rp' n); [exact Hr|]. cbn [cshort]. cbn [short allP] in Hs.
      exact (contents_short _ _ _ _ (proj2 Hs) _ E).
    + apply within_obj in Hw as (b & -> & Hw). destruct (enter_in b d H1) as (e & -> & _ & He). destruct (enter_in b d' H2) as (e' & -> & _ & He').
      destruct (objects w l) as [|bb|]; [reflexivity| |].
      * destruct bb as [|c bb]; [reflexivity|]. destruct (nth_error alts _) as [[m alt]|]; [|reflexivity].
        rewrite (tagged_content_same rp rp' n Hr); [reflexivity|]. cbn [cshort]. apply octets_cshort.
      * rewrite (tag_loop_deep w tag b e e' l Hw He He'). destruct (tag_loop w tag e' l None []) as [[m c]|] eqn:E; [|reflexivity].
        apply (tagged_as_same rp rp' n); [exact Hr|]. exact (tag_loop_short w tag n e' l Hs None [] m c I E).
  - unfold de_adjacent. destruct r as [| | | |[|x [|y [|z l]]]|l]; try reflexivity; try (destruct (enter d), (enter d'); reflexivity).
    + apply within_arr in Hw as (b & -> & Hw). destruct (enter_in b d H1) as (e & -> & _ & He). destruct (enter_in b d' H2) as (e' & -> & _ & He').
      cbn [short allP] in Hs. rewrite (adjacent_tag_deep alts x b e e') by (try tauto; apply Hw; left; reflexivity).
      destruct (adjacent_tag rp' w alts e' x); [|reflexivity]. apply as_ext. intros alt. apply (alt_deep alt y b); try tauto. apply Hw. right. left. reflexivity.
    + apply within_obj in Hw as (b & -> & Hw). destruct (enter_in b d H1) as (e & -> & _ & He). destruct (enter_in b d' H2) as (e' & -> & _ & He').
      destruct (objects w l); try reflexivity. destruct (str_members l) as [m|] eqn:Em; [|reflexivity].
      assert (G : forall k x, In (k, x) (relevant tag cont m) -> short n x /\ within b x).
      { intros k x Hx. unfold relevant in Hx. apply filter_In in Hx as [Hx _]. apply (str_members_in l m k x Em) in Hx as (k0 & _ & Hx).
        split; [eapply short_mem; eassumption|eapply Hw; eassumption]. }
      destruct (relevant tag cont m) as [|[k1 x1] [|[k2 x2] [|]]]; try reflexivity.
      * destruct (bytes_eqb k1 tag); [|reflexivity]. destruct (G k1 x1 (or_introl eq_refl)) as [G1 G2]. rewrite (adjacent_tag_deep alts x1 b e e') by assumption. reflexivity.
      * destruct (G k1 x1 (or_introl eq_refl)) as [G1 G2]. destruct (G k2 x2 (or_intror (or_introl eq_refl))) as [G3 G4].
        rewrite (adjacent_tag_deep alts x1 b e e'), (adjacent_tag_deep alts x2 b e e'), (content_deep _ x1 b e e') by assumption.
        destruct (bytes_eqb k1 tag).
        -- destruct (bytes_eqb k2 tag); [reflexivity|]. destruct (adjacent_tag rp' w alts e' x1); [|reflexivity]. apply as_ext. intros alt. apply (alt_deep alt x2 b); assumption.
        -- destruct (bytes_eqb k2 tag); [|reflexivity]. destruct (content_of (objects w) e' x1) as [c|] eqn:E; [|reflexivity].
           destruct (adjacent_tag rp' w alts e' x2); [|reflexivity]. apply as_ext. intros alt. apply (alt_content_same rp rp' n Hr). exact (content_short _ _ _ G1 _ _ E).
Qed.
Lemma flat_deep own ps r a d d' : short n r -> within a r -> a < d -> a < d' -> de_flat rp w own ps d r = de_flat rp' w own ps d' r.
Proof.
  intros Hs Hw H1 H2. unfold de_flat. destruct r as [| | | |l|l]; try reflexivity.
  apply within_obj in Hw as (b & -> & Hw). destruct (enter_in b d H1) as (e & -> & _ & He). destruct (enter_in b d' H2) as (e' & -> & _ & He').
  destruct (objects w l); try reflexivity. destruct (str_members l) as [m|] eqn:Em; [|reflexivity].
  assert (G : forall k x, In (k, x) m -> short n x /\ within b x).
  { intros k x Hx. apply (str_members_in l m k x Em) in Hx as (k0 & _ & Hx). split; [eapply short_mem; eassumption|eapply Hw; eassumption]. }
  rewrite !own_fields_of. rewrite (fields_ext (fun u => de_direct rp w u e) (fun u => de_direct rp' w u e') m own).
  2:{ intros k u x _ Hx. destruct (G k x Hx) as [G1 G2]. apply (direct_deep u x b); assumption. }
  destruct (fields_of _ m own); [|reflexivity]. rewrite (collect_deep w _ b e e' m (fun k x Hx => proj2 (G k x Hx)) He He').
  destruct (collect w _ e' m) as [cs|] eqn:Ec; [|reflexivity]. f_equal. apply (take_same rp rp' n); [exact Hr|].
  rewrite collect_keep in Ec. refine (collect_short w n e' _ _ cs Ec). rewrite allP_In. intros [k x] Hx. apply filter_In in Hx as [Hx _]. exact (proj1 (G k x Hx)).
Qed.
End DeepEnum.
