(** Proofs about tagged enums (C75, C76). *)
From Verif Require Export BufferProofs.

(** ** Independence of the recursion bound *)
Lemma val_wrap_same rp rp' n A r : short n r -> same_below n rp rp' -> forall d, val_wrap rp A d r = val_wrap rp' A d r.
Proof.
  intros Hs Hr. revert Hs. induction r as [|b|x|s|l IH|l IH] using raw_ind'; intros Hs d; try reflexivity.
  - destruct d as [|[|d]]; try reflexivity. rewrite !val_wrap_arr. do 2 f_equal. cbn [short] in Hs. rewrite allP_In in Hs.
    rewrite Forall_forall in IH. apply map_ext_in. auto.
  - destruct d as [|[|d]]; try reflexivity. destruct (classify_obj A l) eqn:Ec; [rewrite !val_wrap_obj, Ec; reflexivity..|].
    destruct (token_dec l) as [(k & x & l' & -> & Hk)|Hk].
    + rewrite !val_wrap_obj, Ec, Hk, bytes_eqb_refl. destruct x as [| | |s| |]; try reflexivity. destruct l'; [|reflexivity].
      destruct (unescape s) as [t|] eqn:Et; [|reflexivity]. apply Hr. cbn [short allP] in Hs. destruct Hs as [Hs _].
      apply unescape_length in Et. lia.
    + rewrite !val_wrap_map by assumption. do 2 f_equal. cbn [short] in Hs. rewrite allP_In in Hs.
      rewrite Forall_forall in IH. apply map_ext_in. intros [k x] Hx. unfold wrap_member. cbn [fst snd]. rewrite (IH _ Hx (Hs _ Hx)). reflexivity.
Qed.
Lemma de_wrap_same rp rp' n A t : forall d r, short n r -> same_below n rp rp' -> de_wrap rp A t d r = de_wrap rp' A t d r.
Proof.
  induction t as [|lo hi| | | | | | |u IH|u IH|u IH|ts IH|u IH|fs IH|vs IH| | | |lo hi u IH] using ty_ind'; intros d r Hs Hr; try reflexivity.
  - cbn [de_wrap]. destruct r; auto; rewrite IH by assumption; reflexivity.
  - cbn [de_wrap]. rewrite IH by assumption. reflexivity.
  - rewrite !de_wrap_seq. destruct r; auto. destruct (enter d); [|reflexivity]. f_equal. apply each_ext. intros x Hx.
    cbn [short] in Hs. rewrite allP_In in Hs. auto.
  - rewrite !de_wrap_tuple. destruct r; auto. destruct (enter d); [|reflexivity]. f_equal. apply zip_ext. intros u x Hu Hx.
    cbn [short] in Hs. rewrite allP_In in Hs. rewrite Forall_forall in IH. auto.
  - rewrite !de_wrap_map. destruct r; auto. destruct (enter d); [|reflexivity]. destruct (classify_obj A l); auto. destruct (str_members l) as [m|] eqn:E; [|reflexivity].
    f_equal. apply map_ext_of. intros k x Hx. apply (str_members_in l m k x E) in Hx as (k0 & _ & Hx). cbn [short] in Hs. rewrite allP_In in Hs.
    apply IH; [|exact Hr]. exact (Hs _ Hx).
  - rewrite !de_wrap_struct. destruct (enter d); [|reflexivity]. rewrite Forall_forall in IH. destruct r; auto.
    + rewrite !zip_fields_eq. f_equal. apply zip_ext. intros u x Hu Hx. apply in_map_iff in Hu as (f & <- & Hf).
      cbn [short] in Hs. rewrite allP_In in Hs. auto.
    + destruct (classify_obj A l); auto. destruct (str_members l) as [m|] eqn:E; [|reflexivity]. f_equal. apply fields_ext. intros k u x Hu Hx.
      apply (str_members_in l m k x E) in Hx as (k0 & _ & Hx). cbn [short] in Hs. rewrite allP_In in Hs.
      apply (IH _ Hu); [|exact Hr]. exact (Hs _ Hx).
  - rewrite !de_wrap_enum. destruct r as [| | | | |[|[k x] [|]]]; auto. destruct (enter d); [|reflexivity]. destruct (unescape k); [|reflexivity].
    apply variant_ext. intros m tag u Hu. rewrite Forall_forall in IH. unfold variant_wrap. cbn in Hs. destruct Hs as [Hs _].
    specialize (IH _ Hu). cbn [snd] in IH. destruct tag; auto; rewrite IH by assumption; reflexivity.
  - cbn [de_wrap]. rewrite (val_wrap_same rp rp' n) by assumption. reflexivity.
Qed.
Definition ever : bytes -> option value := from_str_value.
Lemma reparse_below text : same_below (length text) (reparse_of text) ever.
Proof. intros u Hu. apply (from_str_stable (S (length u))); lia. Qed.
Lemma direct_ever text w t d r : short (length text) r -> de_direct (reparse_of text) w t d r = de_direct ever w t d r.
Proof.
  intros Hs. destruct w as [|A]; cbn [de_direct]; [apply (de_plain_same _ _ (length text))|apply (de_wrap_same _ _ (length text))];
    auto using reparse_below.
Qed.
Lemma alt_direct_ever text w a d r : short (length text) r -> alt_direct (reparse_of text) w a d r = alt_direct ever w a d r.
Proof.
  intros Hs. destruct a as [|t|fs]; cbn [alt_direct]; [reflexivity|apply direct_ever; exact Hs|].
  destruct r; try reflexivity. destruct (objects w l); try reflexivity. apply direct_ever. exact Hs.
Qed.
Lemma adjacent_tag_ever text w alts d r : short (length text) r -> adjacent_tag (reparse_of text) w alts d r = adjacent_tag ever w alts d r.
Proof. intros Hs. unfold adjacent_tag. rewrite direct_ever by exact Hs. reflexivity. Qed.

Lemma alt_agree rp w a d r c : content_of (objects w) d r = Some c -> alt_alike (bin_of w) true a r ->
  alt_content rp true a c = alt_direct rp w a d r.
Proof.
  intros Hc Ha. destruct a as [|t|fs]; cbn [alt_content alt_direct alt_alike] in *.
  - destruct r as [|b|n|s|l|l]; try (injection Hc as <-; reflexivity).
    + cbn [content_of] in Hc. destruct (num_of n); [injection Hc as <-; reflexivity|discriminate].
    + cbn [content_of] in Hc. destruct (unescape s); [injection Hc as <-; reflexivity|discriminate].
    + apply content_arr in Hc as (? & ? & _ & -> & _). reflexivity.
    + apply content_obj in Hc as (? & _ & [(? & _ & ->)|(_ & ? & -> & _)]); reflexivity.
  - apply content_agree; assumption.
  - rewrite (content_agree rp w true (TyStruct fs) d r c Hc Ha).
    destruct r as [|b|n|s|l|l]; try (injection Hc as <-; reflexivity).
    + cbn [content_of] in Hc. destruct (num_of n); [injection Hc as <-; reflexivity|discriminate].
    + cbn [content_of] in Hc. destruct (unescape s); [injection Hc as <-; reflexivity|discriminate].
    + apply content_arr in Hc as (? & ? & _ & -> & _). reflexivity.
    + cbn [alike] in Ha. apply content_obj in Hc as (? & _ & [(b & Hb & ->)|(Hm & ? & -> & _)]).
      * destruct (proj1 Ha). apply (attached_buffer w l b Hb).
      * rewrite Hm. reflexivity.
Qed.

(** ** C75: the order of tag and content *)
Definition adjacent_parts rp w (alts : list (bytes * alt)) (d : nat) (tags conts : list raw) : option dval :=
  match tags with
  | [x] =>
      match adjacent_tag rp w alts d x with
      | Some n =>
          match conts with
          | [] => adjacent_as alts n missing_content
          | [y] => adjacent_as alts n (fun a => alt_direct rp w a d y)
          | _ => None
          end
      | None => None
      end
  | _ => None
  end.
Lemma named_relevant tag cont m n : n = tag \/ n = cont -> members_named n (relevant tag cont m) = members_named n m.
Proof.
  intros Hn. unfold members_named, relevant. f_equal. induction m as [|[k x] m IH]; [reflexivity|]. cbn [filter fst].
  destruct (bytes_eqb k tag || bytes_eqb k cont) eqn:E.
  - cbn [filter fst]. destruct (bytes_eqb n k); rewrite IH; reflexivity.
  - destruct (bytes_eqb n k) eqn:En; [|exact IH]. apply bytes_eqb_eq in En. subst k. exfalso.
    destruct Hn as [<-|<-]; rewrite bytes_eqb_refl in E; [|rewrite orb_true_r in E]; discriminate.
Qed.
Lemma named_cons n k x m : members_named n ((k, x) :: m) = if bytes_eqb n k then x :: members_named n m else members_named n m.
Proof. unfold members_named. cbn [filter fst]. destruct (bytes_eqb n k); reflexivity. Qed.
Lemma find_in name alts a : find_alt name alts = Some a -> In (name, a) alts.
Proof.
  induction alts as [|[n b] alts IH]; cbn [find_alt]; [discriminate|]. destruct (bytes_eqb n name) eqn:E; [|right; auto].
  apply bytes_eqb_eq in E. intros [= ->]. left. subst. reflexivity.
Qed.
Lemma adjacent_as_ext alts n f g : (forall a, In (n, a) alts -> f a = g a) -> adjacent_as alts n f = adjacent_as alts n g.
Proof. intros H. unfold adjacent_as. destruct (find_alt n alts) as [a|] eqn:E; [|reflexivity]. rewrite (H a (find_in _ _ _ E)). reflexivity. Qed.
Lemma bytes_eqb_sym a b : bytes_eqb a b = bytes_eqb b a.
Proof.
  destruct (bytes_eqb a b) eqn:E.
  - apply bytes_eqb_eq in E. subst. symmetry. apply bytes_eqb_refl.
  - apply bytes_eqb_neq in E. symmetry. apply bytes_eqb_neq. congruence.
Qed.
Lemma adjacent_sym rp w tag cont alts d d' l m : tag <> cont -> enter d = Some d' -> objects w l = OMMap -> str_members l = Some m ->
  (forall y, members_named cont m = [y] -> (exists c, content_of (objects w) d' y = Some c) /\
     forall n a, In (n, a) alts -> alt_alike (bin_of w) true a y) ->
  de_adjacent rp w tag cont alts d (RObj l) = adjacent_parts rp w alts d' (members_named tag m) (members_named cont m).
Proof.
  intros Htc Hd Ho Hm Hy. unfold de_adjacent. rewrite Hd, Ho, Hm.
  rewrite <- (named_relevant tag cont m tag) by (left; reflexivity).
  rewrite <- (named_relevant tag cont m cont) in * by (right; reflexivity).
  assert (Hin : forall k x, In (k, x) (relevant tag cont m) -> k = tag \/ k = cont).
  { intros k x H. unfold relevant in H. apply filter_In in H as [_ H]. cbn [fst] in H. apply orb_true_iff in H as [H|H]; apply bytes_eqb_eq in H; auto. }
  assert (E1 : bytes_eqb tag cont = false) by (apply bytes_eqb_neq; exact Htc).
  assert (E2 : bytes_eqb cont tag = false) by (rewrite bytes_eqb_sym; exact E1).
  destruct (relevant tag cont m) as [|[k1 x1] [|[k2 x2] rest]]; [reflexivity| |].
  - destruct (Hin k1 x1 (or_introl eq_refl)) as [->| ->]; rewrite !named_cons, ?bytes_eqb_refl, ?E1, ?E2; [|reflexivity].
    cbn [adjacent_parts members_named filter map]. reflexivity.
  - destruct rest as [|[k3 x3] rest].
    + destruct (Hin k1 x1 (or_introl eq_refl)) as [->| ->]; destruct (Hin k2 x2 (or_intror (or_introl eq_refl))) as [->| ->];
        rewrite !named_cons, ?bytes_eqb_refl, ?E1, ?E2 in *; cbn [members_named filter map adjacent_parts] in *; try reflexivity.
      destruct (Hy x1 eq_refl) as [[c Hc] Ha]. rewrite Hc. destruct (adjacent_tag rp w alts d' x2); [|reflexivity].
      apply adjacent_as_ext. intros a Hin'. apply alt_agree; [exact Hc|exact (Ha _ _ Hin')].
    + destruct (Hin k1 x1 (or_introl eq_refl)) as [->| ->]; destruct (Hin k2 x2 (or_intror (or_introl eq_refl))) as [->| ->];
        destruct (Hin k3 x3 (or_intror (or_intror (or_introl eq_refl)))) as [->| ->];
        rewrite !named_cons, ?bytes_eqb_refl, ?E1, ?E2; unfold adjacent_parts;
        repeat match goal with
               | |- _ = match ?X with _ => _ end => destruct X; try reflexivity
               end; reflexivity.
Qed.
Lemma str_members_perm l1 l2 : Permutation l1 l2 -> forall m1, str_members l1 = Some m1 -> exists m2, str_members l2 = Some m2 /\ Permutation m1 m2.
Proof.
  induction 1 as [|[k x] l1 l2 H IH|[k x] [k' x'] l|l1 l2 l3 H1 IH1 H2 IH2]; intros m1 E.
  - injection E as <-. exists []. split; [reflexivity|constructor].
  - cbn [str_members] in *. destruct (unescape k); [|discriminate]. destruct (str_members l1) as [m|]; [|discriminate]. injection E as <-.
    destruct (IH m eq_refl) as (m2 & -> & Hp). eexists. split; [reflexivity|]. constructor. exact Hp.
  - cbn [str_members] in *. destruct (unescape k'); [|discriminate]. destruct (unescape k); [|discriminate].
    destruct (str_members l) as [m|]; [|discriminate]. injection E as <-. eexists. split; [reflexivity|]. apply perm_swap.
  - destruct (IH1 m1 E) as (m2 & E2 & P2). destruct (IH2 m2 E2) as (m3 & E3 & P3). exists m3. split; [exact E3|]. eapply perm_trans; eassumption.
Qed.
Lemma named_perm n m1 m2 : Permutation m1 m2 -> Permutation (members_named n m1) (members_named n m2).
Proof.
  intros H. unfold members_named. apply Permutation_map. induction H as [|x l1 l2 H IH|x y l|l1 l2 l3 H1 IH1 H2 IH2]; cbn [filter].
  - constructor.
  - destruct (bytes_eqb n (fst x)); [constructor|]; exact IH.
  - destruct (bytes_eqb n (fst x)), (bytes_eqb n (fst y)); try apply Permutation_refl. apply perm_swap.
  - eapply perm_trans; eassumption.
Qed.
Lemma perm_short {T} (l1 l2 : list T) : Permutation l1 l2 -> (exists a, l1 = l2 /\ l1 = [a]) \/ (l1 = [] /\ l2 = []) \/ (exists a b l c d l', l1 = a :: b :: l /\ l2 = c :: d :: l').
Proof.
  intros H. pose proof (Permutation_length H) as Hl. destruct l1 as [|a [|b l1]], l2 as [|c [|d l2]]; try discriminate Hl.
  - auto.
  - apply Permutation_length_1 in H. subst. left. eauto.
  - right. right. exists a, b, l1, c, d, l2. auto.
Qed.
Lemma parts_perm rp w alts d t1 t2 c1 c2 : Permutation t1 t2 -> Permutation c1 c2 -> adjacent_parts rp w alts d t1 c1 = adjacent_parts rp w alts d t2 c2.
Proof.
  intros H1 H2. unfold adjacent_parts. apply perm_short in H1 as [(x & <- & ->)|[[-> ->]|(? & ? & ? & ? & ? & ? & -> & ->)]]; [|reflexivity..].
  destruct (adjacent_tag rp w alts d x); [|reflexivity].
  apply perm_short in H2 as [(y & <- & ->)|[[-> ->]|(? & ? & ? & ? & ? & ? & -> & ->)]]; reflexivity.
Qed.
Lemma parts_ever text w alts d ts cs : Forall (short (length text)) ts -> Forall (short (length text)) cs ->
  adjacent_parts (reparse_of text) w alts d ts cs = adjacent_parts ever w alts d ts cs.
Proof.
  intros Ht Hc. unfold adjacent_parts. destruct ts as [|x [|]]; try reflexivity. inversion Ht; subst. rewrite adjacent_tag_ever by assumption.
  destruct (adjacent_tag ever w alts d x); [|reflexivity]. destruct cs as [|y [|]]; try reflexivity. inversion Hc; subst.
  apply adjacent_as_ext. intros a _. apply alt_direct_ever. assumption.
Qed.
Lemma named_short text l m n : jvalue (RObj l) text -> str_members l = Some m -> Forall (short (length text)) (members_named n m).
Proof.
  intros Hr Hm. apply jvalue_short in Hr. cbn [short] in Hr. rewrite allP_In in Hr. rewrite Forall_forall. intros x Hx.
  apply named_in in Hx. apply (str_members_in l m n x Hm) in Hx as (k & _ & Hx). exact (Hr _ Hx).
Qed.
Lemma objects_map A text l : (A <> [] -> ordinary_first l) -> objects (way_of (Arg text A)) l = OMMap.
Proof.
  intros H. unfold way_of. cbn [g_attachments]. destruct A as [|s A]; [reflexivity|]. cbn [objects]. apply classify_ordinary. apply H. discriminate.
Qed.

Theorem adjacent_order tag cont alts l1 l2 text1 text2 A v x : tag <> cont -> jvalue (RObj l1) text1 -> jvalue (RObj l2) text2 ->
  Permutation l1 l2 -> (A <> [] -> ordinary_first l1 /\ ordinary_first l2) ->
  arg_deserialize (TyStruct [(cont, TyOption TyValue)]) (Arg text1 A) = Ok v ->
  (forall k y n a, In (k, y) l1 -> unescape k = Some cont -> In (n, a) alts -> alt_alike (has_some A) true a y) ->
  arg_enum (Adjacent tag cont alts) (Arg text1 A) = Ok x <-> arg_enum (Adjacent tag cont alts) (Arg text2 A) = Ok x.
Proof.
  intros Htc Hr1 Hr2 Hp Ho Hv Ha. rewrite (arg_enum_ok _ _ _ _ _ Hr1), (arg_enum_ok _ _ _ _ _ Hr2). cbn [de_enum].
  apply (arg_direct_ok _ _ _ _ _ Hr1) in Hv. rewrite direct_struct in Hv. cbn [enter] in Hv.
  assert (W : way_of (Arg text2 A) = way_of (Arg text1 A)) by reflexivity. rewrite W.
  rewrite (objects_map A text1 l1) in Hv by (intros H; apply Ho; exact H).
  destruct (str_members l1) as [m1|] eqn:E1; [|discriminate]. destruct (str_members_perm l1 l2 Hp m1 E1) as (m2 & E2 & Hm).
  assert (Hc : forall y, members_named cont m1 = [y] -> (exists c, content_of (objects (way_of (Arg text1 A))) 127 y = Some c) /\
     forall n a, In (n, a) alts -> alt_alike (bin_of (way_of (Arg text1 A))) true a y).
  { intros y Ey. split.
    - cbn [fields_of] in Hv. unfold field_of in Hv. rewrite Ey in Hv. rewrite direct_option in Hv.
      destruct y; [exists KNull; reflexivity|rewrite direct_value in Hv..];
        match type of Hv with context [option_map XValue ?X] => destruct X as [u|] eqn:E; [exact (value_buffers _ _ _ _ _ E)|discriminate] end.
    - intros n a Hin. rewrite bin_way. assert (In y (members_named cont m1)) as Hy by (rewrite Ey; left; reflexivity).
      apply named_in in Hy. apply (str_members_in l1 m1 cont y E1) in Hy as (k & Hk & Hy). exact (Ha k y n a Hy Hk Hin). }
  rewrite (adjacent_sym (reparse_of text1) (way_of (Arg text1 A)) tag cont alts 128 127 l1 m1 Htc eq_refl); [|apply objects_map; intros H; apply Ho; exact H|exact E1|exact Hc].
  rewrite (adjacent_sym (reparse_of text2) (way_of (Arg text1 A)) tag cont alts 128 127 l2 m2 Htc eq_refl).
  - rewrite !parts_ever by (eapply named_short; eassumption).
    rewrite (parts_perm ever _ alts 127 _ _ _ _ (named_perm tag m1 m2 Hm) (named_perm cont m1 m2 Hm)). reflexivity.
  - apply (objects_map A text1). intros H. apply Ho. exact H.
  - exact E2.
  - intros y Ey. apply Hc. pose proof (named_perm cont m1 m2 Hm) as P. rewrite Ey in P. apply Permutation_sym, Permutation_length_1_inv in P. exact P.
Qed.

Lemma named_find alts n a : named_alt alts n a -> find_alt n alts = Some a.
Proof.
  intros (b & af & -> & Hn). induction b as [|[n' a'] b IH]; cbn [app find_alt].
  - rewrite bytes_eqb_refl. reflexivity.
  - cbn [map fst In] in Hn. destruct (bytes_eqb n' n) eqn:E; [apply bytes_eqb_eq in E; destruct Hn; auto|]. apply IH. auto.
Qed.
(** *** The variant that is read if the tag is ahead *)
Lemma str_members_app l1 l2 : str_members (l1 ++ l2) =
  match str_members l1, str_members l2 with Some a, Some b => Some (a ++ b) | _, _ => None end.
Proof.
  induction l1 as [|[k x] l1 IH]; cbn [str_members app]; [destruct (str_members l2); reflexivity|].
  rewrite IH. destruct (unescape k); [|reflexivity]. destruct (str_members l1); [|reflexivity]. destruct (str_members l2); reflexivity.
Qed.
Lemma str_members_without l m n : str_members l = Some m -> Forall (fun kx => unescape (fst kx) <> Some n) l ->
  Forall (fun kx => bytes_eqb n (fst kx) = false) m.
Proof.
  revert m. induction l as [|[k x] l IH]; intros m E H; cbn [str_members] in E; [injection E as <-; constructor|].
  destruct (unescape k) as [k'|] eqn:Ek; [|discriminate]. destruct (str_members l) as [m'|]; [|discriminate]. injection E as <-.
  inversion H as [|? ? H1 H2]; subst. cbn [fst] in H1. constructor; [|exact (IH _ eq_refl H2)]. cbn [fst]. apply bytes_eqb_neq. congruence.
Qed.
Lemma named_none n m : Forall (fun kx : bytes * raw => bytes_eqb n (fst kx) = false) m -> members_named n m = [].
Proof. induction 1 as [|[k x] m H _ IH]; [reflexivity|]. cbn [fst] in H. rewrite named_cons, H. exact IH. Qed.
Lemma relevant_none tag cont m : Forall (fun kx : bytes * raw => bytes_eqb tag (fst kx) = false) m ->
  Forall (fun kx => bytes_eqb cont (fst kx) = false) m -> relevant tag cont m = [].
Proof.
  induction 1 as [|[k x] m H _ IH]; intros H2; [reflexivity|]. inversion H2 as [|? ? H3 H4]; subst. cbn [fst] in H, H3. unfold relevant.
  cbn [filter fst]. rewrite (bytes_eqb_sym k tag), (bytes_eqb_sym k cont), H, H3. cbn. apply IH. exact H4.
Qed.
Lemma relevant_content tag cont m : Forall (fun kx : bytes * raw => bytes_eqb tag (fst kx) = false) m ->
  relevant tag cont m = map (pair cont) (members_named cont m).
Proof.
  induction 1 as [|[k x] m H _ IH]; [reflexivity|]. cbn [fst] in H. unfold relevant in *. cbn [filter fst].
  rewrite named_cons, (bytes_eqb_sym k tag), H, (bytes_eqb_sym k cont). cbn [orb].
  destruct (bytes_eqb cont k) eqn:E; [|exact IH]. apply bytes_eqb_eq in E. subst k. cbn [map]. rewrite IH. reflexivity.
Qed.
Lemma named_app n m1 m2 : members_named n (m1 ++ m2) = members_named n m1 ++ members_named n m2.
Proof. unfold members_named. rewrite filter_app, map_app. reflexivity. Qed.
Lemma tag_ahead_members tag cont n l m : tag <> cont -> tag_ahead tag cont n l -> str_members l = Some m ->
  exists b, unescape b = Some n /\ members_named tag m = [RStr b] /\ relevant tag cont m = (tag, RStr b) :: map (pair cont) (members_named cont m).
Proof.
  intros Htc (l1 & k & b & l2 & -> & Hk & Hb & H1 & H2) E. exists b. split; [exact Hb|].
  rewrite str_members_app in E. cbn [str_members] in E. rewrite Hk in E. destruct (str_members l1) as [m1|] eqn:E1; [|discriminate].
  destruct (str_members l2) as [m2|] eqn:E2; [|discriminate]. injection E as <-.
  assert (T1 : Forall (fun kx => bytes_eqb tag (fst kx) = false) m1).
  { apply (str_members_without l1 _ _ E1). eapply Forall_impl; [|exact H1]. intros ? [? _]. assumption. }
  assert (C1 : Forall (fun kx => bytes_eqb cont (fst kx) = false) m1).
  { apply (str_members_without l1 _ _ E1). eapply Forall_impl; [|exact H1]. intros ? [_ ?]. assumption. }
  pose proof (str_members_without l2 _ _ E2 H2) as T2.
  assert (Ect : bytes_eqb cont tag = false) by (apply bytes_eqb_neq; congruence).
  rewrite !named_app, !named_cons, bytes_eqb_refl, Ect, (named_none tag m1 T1), (named_none tag m2 T2), (named_none cont m1 C1).
  split; [reflexivity|]. unfold relevant. rewrite filter_app. fold (relevant tag cont m1). rewrite (relevant_none _ _ _ T1 C1).
  cbn [app filter fst]. rewrite bytes_eqb_refl. cbn [orb]. fold (relevant tag cont m2). rewrite (relevant_content _ _ _ T2). reflexivity.
Qed.
Lemma adjacent_tag_str rp w alts d b n a : unescape b = Some n -> find_alt n alts = Some a -> adjacent_tag rp w alts d (RStr b) = Some n.
Proof.
  intros Hb. unfold adjacent_tag. rewrite direct_enum, Hb. induction alts as [|[k c] alts IH]; cbn [find_alt map variant_of fst]; [discriminate|].
  destruct (bytes_eqb k n) eqn:E; [|exact IH]. apply bytes_eqb_eq in E. subst k. reflexivity.
Qed.
Lemma direct_string rp w d b n : unescape b = Some n -> de_direct rp w TyString d (RStr b) = Some (XStr n).
Proof. intros H. destruct w; cbn [de_direct de_plain de_wrap]; rewrite H; reflexivity. Qed.
Lemma fields_two rp w tag cont t d d' l m v : enter d = Some d' -> objects w l = OMMap -> str_members l = Some m ->
  de_direct rp w (TyStruct [(tag, TyString); (cont, t)]) d (RObj l) = Some v <->
  exists x y, v = XStruct [x; y] /\ field_of (fun u => de_direct rp w u d') m tag TyString = Some x /\ field_of (fun u => de_direct rp w u d') m cont t = Some y.
Proof.
  intros Hd Ho Hm. rewrite direct_struct, Hd, Ho, Hm. cbn [fields_of]. split.
  - destruct (field_of _ m tag TyString) as [x|]; [|discriminate]. destruct (field_of _ m cont t) as [y|]; [|discriminate]. intros [= <-]. eauto.
  - intros (x & y & -> & -> & ->). reflexivity.
Qed.
Lemma unit_none rp w d y : de_direct rp w (TyOption TyUnit) d y = Some XNone <-> y = RNull.
Proof.
  rewrite direct_option. split; [|intros ->; reflexivity]. destruct y; [reflexivity|..];
    match goal with |- option_map XSome ?X = _ -> _ => destruct X; discriminate end.
Qed.
Lemma attached_not_map w l : attached (bin_of w) (RObj l) -> objects w l <> OMMap.
Proof.
  intros [Hb Hk]. destruct w as [|A]; [discriminate|]. destruct l as [|[k x] l]; [destruct Hk|]. subst k. cbn [objects]. unfold classify_obj.
  rewrite (proj1 no_backslash_keys), bytes_eqb_refl. cbn [negb]. intros H.
  repeat match type of H with match ?X with _ => _ end = _ => destruct X; try discriminate H end.
Qed.
Theorem adjacent_variant tag cont alts n a l text A v : tag <> cont -> jvalue (RObj l) text -> (A <> [] -> ordinary_first l) ->
  tag_ahead tag cont n l -> named_alt alts n a ->
  arg_enum (Adjacent tag cont alts) (Arg text A) = Ok (XVariant n v) <-> as_fields tag cont n a l (Arg text A) v.
Proof.
  intros Htc Hr Ho Ht Hn. rewrite (arg_enum_ok _ _ _ _ _ Hr). cbn [de_enum]. pose proof (objects_map A text l Ho) as Hobj.
  unfold as_fields. cbv zeta.
  destruct (str_members l) as [m|] eqn:E.
  2: { split.
       - unfold de_adjacent. cbn [enter]. rewrite Hobj, E. discriminate.
       - intros H. exfalso. destruct a; [destruct H as [_ H]| |destruct H as [H _]];
           rewrite (arg_direct_ok _ _ _ _ _ Hr), direct_struct in H; cbn [enter] in H; rewrite Hobj, E in H; discriminate H. }
  destruct (tag_ahead_members _ _ _ _ _ Htc Ht E) as (b & Hb & Htag & Hrel).
  pose proof (named_find _ _ _ Hn) as Hf.
  assert (Hcy : forall y, In y (members_named cont m) -> exists k, unescape k = Some cont /\ In (k, y) l).
  { intros y Hy. apply named_in in Hy. apply (str_members_in l m cont y E) in Hy. exact Hy. }
  assert (Hyc : forall k y, In (k, y) l -> unescape k = Some cont -> In y (members_named cont m)).
  { intros k y Hin Hk. apply named_in. apply (str_members_in l m cont y E). exists k. auto. }
  assert (L : de_adjacent (reparse_of text) (way_of (Arg text A)) tag cont alts 128 (RObj l) = Some (XVariant n v) <->
    match members_named cont m with
    | [] => missing_content a = Some v
    | [y] => alt_direct (reparse_of text) (way_of (Arg text A)) a 127 y = Some v
    | _ => False
    end).
  { unfold de_adjacent. cbn [enter]. rewrite Hobj, E, Hrel. rewrite (adjacent_tag_str _ _ _ _ _ _ _ Hb Hf), bytes_eqb_refl.
    assert (Ect : bytes_eqb cont tag = false) by (apply bytes_eqb_neq; congruence).
    destruct (members_named cont m) as [|y [|y' r]]; cbn [map]; rewrite ?Ect; [| |split; [discriminate|contradiction]];
      unfold adjacent_as; rewrite Hf; split; [| intros ->; reflexivity | | intros ->; reflexivity];
      match goal with |- option_map _ ?X = _ -> _ => destruct X; [|discriminate] end; intros [= <-]; reflexivity. }
  rewrite L. clear L.
  assert (R : forall t x, arg_deserialize (TyStruct [(tag, TyString); (cont, t)]) (Arg text A) = Ok (XStruct [XStr n; x]) <->
    match members_named cont m with
    | [] => missing_field t = Some x
    | [y] => de_direct (reparse_of text) (way_of (Arg text A)) t 127 y = Some x
    | _ => False
    end).
  { intros t x. rewrite (arg_direct_ok _ _ _ _ _ Hr). rewrite (fields_two _ _ _ _ _ 128 127 _ _ _ eq_refl Hobj E). unfold field_of.
    rewrite Htag, (direct_string _ _ _ _ _ Hb). destruct (members_named cont m) as [|y [|y' r]].
    - split; [intros (? & ? & [= <- <-] & _ & H); exact H|intros H; eauto].
    - split; [intros (? & ? & [= <- <-] & _ & H); exact H|intros H; eauto].
    - split; [intros (? & ? & _ & _ & H); discriminate|contradiction]. }
  destruct a as [|t|fs].
  - rewrite R. destruct (members_named cont m) as [|y [|]]; cbn [missing_content missing_field].
    + split; [intros [= <-]; auto|intros [-> _]; reflexivity].
    + rewrite unit_none. cbn [alt_direct]. split; [destruct y; try discriminate; intros [= <-]; auto|intros [-> ->]; reflexivity].
    + split; [contradiction|intros [_ H]; exact H].
  - rewrite R. destruct (members_named cont m) as [|y [|]]; reflexivity.
  - rewrite R. destruct (members_named cont m) as [|y [|]]; cbn [missing_content missing_field].
    + split; [discriminate|intros [H _]; exact H].
    + cbn [alt_direct g_attachments]. split.
      * destruct y as [| | | | |ym]; try discriminate. destruct (objects (way_of (Arg text A)) ym) eqn:Eo; try discriminate. intros H. split; [exact H|].
        intros k y Hin Hk. destruct (Hyc k y Hin Hk) as [<-|[]]. split; [eauto|].
        intros Hat. rewrite <- (bin_way text A) in Hat. exact (attached_not_map _ _ Hat Eo).
      * intros [H1 H2]. destruct (Hcy y (or_introl eq_refl)) as (k & Hk & Hin). destruct (H2 k y Hin Hk) as [[ym ->] Hat].
        rewrite direct_struct in H1. cbn [enter] in H1. destruct (objects (way_of (Arg text A)) ym) as [|bb|] eqn:Eo; [discriminate| |].
        -- destruct Hat. rewrite <- (bin_way text A). exact (attached_buffer _ _ _ Eo).
        -- rewrite direct_struct. cbn [enter]. rewrite Eo. exact H1.
    + split; [contradiction|intros [H _]; exact H].
Qed.

Theorem adjacent_pair tag cont alts n a b y text A v : jvalue (RArr [RStr b; y]) text -> unescape b = Some n -> named_alt alts n a ->
  arg_enum (Adjacent tag cont alts) (Arg text A) = Ok (XVariant n v) <-> as_pair n a y (Arg text A) v.
Proof.
  intros Hr Hb Hn. rewrite (arg_enum_ok _ _ _ _ _ Hr). cbn [de_enum de_adjacent enter]. pose proof (named_find _ _ _ Hn) as Hf.
  rewrite (adjacent_tag_str _ _ _ _ _ _ _ Hb Hf). unfold adjacent_as. rewrite Hf. unfold as_pair. cbv zeta.
  assert (L : option_map (XVariant n) (alt_direct (reparse_of text) (way_of (Arg text A)) a 127 y) = Some (XVariant n v) <->
              alt_direct (reparse_of text) (way_of (Arg text A)) a 127 y = Some v).
  { split; [|intros ->; reflexivity]. destruct (alt_direct _ _ a 127 y); [|discriminate]. intros [= ->]. reflexivity. }
  rewrite L. clear L.
  assert (R : forall t x, arg_deserialize (TyTuple [TyString; t]) (Arg text A) = Ok (XTuple [XStr n; x]) <->
    de_direct (reparse_of text) (way_of (Arg text A)) t 127 y = Some x).
  { intros t x. rewrite (arg_direct_ok _ _ _ _ _ Hr), direct_tuple. cbn [enter zip_of]. rewrite (direct_string _ _ _ _ _ Hb).
    destruct (de_direct _ _ t 127 y); cbn [option_map]; split; congruence. }
  destruct a as [|t|fs]; [| |rewrite R; cbn [g_attachments]]; cbn [alt_direct].
  - split; [destruct y; try discriminate; intros [= <-]; auto|intros [-> ->]; reflexivity].
  - rewrite R. reflexivity.
  - split.
    + destruct y as [| | | | |m]; try discriminate. destruct (objects (way_of (Arg text A)) m) eqn:Eo; try discriminate. intros H.
      split; [exact H|]. split; [eauto|]. intros Hat. rewrite <- (bin_way text A) in Hat. exact (attached_not_map _ _ Hat Eo).
    + intros (H1 & [m ->] & Hat). rewrite direct_struct in H1. cbn [enter] in H1.
      destruct (objects (way_of (Arg text A)) m) as [|bb|] eqn:Eo; [discriminate| |].
      * destruct Hat. rewrite <- (bin_way text A). exact (attached_buffer _ _ _ Eo).
      * rewrite direct_struct. cbn [enter]. rewrite Eo. exact H1.
Qed.

(** *** One tag, one content *)
Lemma named_none_inv l m n : str_members l = Some m -> members_named n m = [] -> no_member n l.
Proof.
  revert m. induction l as [|[k x] l IH]; intros m E H; [constructor|]. cbn [str_members] in E.
  destruct (unescape k) as [k'|] eqn:Ek; [|discriminate]. destruct (str_members l) as [m'|]; [|discriminate]. injection E as <-.
  rewrite named_cons in H. destruct (bytes_eqb n k') eqn:En; [discriminate|]. apply bytes_eqb_neq in En.
  constructor; [cbn [fst]; congruence|]. exact (IH m' eq_refl H).
Qed.
Lemma named_sole l m n y : str_members l = Some m -> members_named n m = [y] -> sole_member n l y.
Proof.
  revert m. induction l as [|[k x] l IH]; intros m E H; cbn [str_members] in E; [injection E as <-; discriminate|].
  destruct (unescape k) as [k'|] eqn:Ek; [|discriminate]. destruct (str_members l) as [m'|] eqn:El; [|discriminate]. injection E as <-.
  rewrite named_cons in H. destruct (bytes_eqb n k') eqn:En.
  - apply bytes_eqb_eq in En. subst k'. injection H as -> H. exists [], k, l. split; [reflexivity|]. split; [exact Ek|].
    split; [constructor|]. exact (named_none_inv l m' n El H).
  - apply bytes_eqb_neq in En. destruct (IH m' eq_refl H) as (l1 & k0 & l2 & -> & Hk & H1 & H2). exists ((k, x) :: l1), k0, l2.
    split; [reflexivity|]. split; [exact Hk|]. split; [|exact H2]. constructor; [cbn [fst]; congruence|exact H1].
Qed.
Lemma adjacent_tag_for rp w alts d y n : adjacent_tag rp w alts d y = Some n -> tag_for y n.
Proof.
  unfold adjacent_tag. rewrite direct_enum. assert (V : forall f name, (forall k v, f k VtUnit TyUnit = Some v -> v = XVariant k XUnit) ->
    match variant_of f name (map (fun na : bytes * alt => (fst na, (VtUnit, TyUnit))) alts) with Some (XVariant n _) => Some n | _ => None end = Some n ->
    n = name /\ exists v, f name VtUnit TyUnit = Some v).
  { intros f name Hf. induction alts as [|[k a] alts IH]; cbn [map fst variant_of]; [discriminate|]. destruct (bytes_eqb k name) eqn:E; [|exact IH].
    apply bytes_eqb_eq in E. subst k. destruct (f name VtUnit TyUnit) as [v|] eqn:Ev; [|discriminate]. rewrite (Hf _ _ Ev). intros [= <-]. eauto. }
  destruct y as [| | |b| |[|[k x] [|]]]; try discriminate.
  - destruct (unescape b) as [name|] eqn:Eb; [|discriminate]. intros H. apply V in H as [-> _]; [left; eauto|]. intros k v [= <-]. reflexivity.
  - destruct (enter d); [|discriminate]. destruct (unescape k) as [name|] eqn:Ek; [|discriminate]. intros H.
    apply V in H as [-> [v Hv]]; [|intros k' v'; cbn; destruct x; try discriminate; intros [= <-]; reflexivity].
    cbn in Hv. destruct x; try discriminate. right. eauto.
Qed.
Lemma adjacent_as_some alts n f x : adjacent_as alts n f = Some x -> exists v, x = XVariant n v /\ In n (map fst alts).
Proof.
  unfold adjacent_as. destruct (find_alt n alts) as [a|] eqn:E; [|discriminate]. destruct (f a) as [v|]; [|discriminate]. intros [= <-].
  exists v. split; [reflexivity|]. apply in_map_iff. exists (n, a). split; [reflexivity|]. exact (find_in _ _ _ E).
Qed.
Theorem adjacent_one_tag tag cont alts l text A x : tag <> cont -> jvalue (RObj l) text -> (A <> [] -> ordinary_first l) ->
  arg_enum (Adjacent tag cont alts) (Arg text A) = Ok x ->
  exists n v y, x = XVariant n v /\ In n (map fst alts) /\ sole_member tag l y /\ tag_for y n /\
    (no_member cont l \/ exists z, sole_member cont l z).
Proof.
  intros Htc Hr Ho H. apply (arg_enum_ok _ _ _ _ _ Hr) in H. cbn [de_enum] in H. unfold de_adjacent in H. cbn [enter] in H.
  rewrite (objects_map A text l Ho) in H. destruct (str_members l) as [m|] eqn:E; [|discriminate].
  pose proof (named_relevant tag cont m tag (or_introl eq_refl)) as Nt. pose proof (named_relevant tag cont m cont (or_intror eq_refl)) as Nc.
  assert (E1 : bytes_eqb tag cont = false) by (apply bytes_eqb_neq; exact Htc).
  assert (E2 : bytes_eqb cont tag = false) by (rewrite bytes_eqb_sym; exact E1).
  assert (Hin : forall k y, In (k, y) (relevant tag cont m) -> k = tag \/ k = cont).
  { intros k y Hk. unfold relevant in Hk. apply filter_In in Hk as [_ Hk]. cbn [fst] in Hk. apply orb_true_iff in Hk as [Hk|Hk]; apply bytes_eqb_eq in Hk; auto. }
  assert (C : forall y, members_named tag m = [y] -> (members_named cont m = [] \/ exists z, members_named cont m = [z]) ->
    forall w alts' d n f, adjacent_tag (reparse_of text) w alts' d y = Some n -> adjacent_as alts n f = Some x ->
    exists n v y, x = XVariant n v /\ In n (map fst alts) /\ sole_member tag l y /\ tag_for y n /\ (no_member cont l \/ exists z, sole_member cont l z)).
  { intros y Hy Hz w alts' d n f Ht Hx. apply adjacent_as_some in Hx as (v & -> & Hi). exists n, v, y. split; [reflexivity|]. split; [exact Hi|].
    split; [exact (named_sole l m tag y E Hy)|]. split; [exact (adjacent_tag_for _ _ _ _ _ _ Ht)|].
    destruct Hz as [Hz|[z Hz]]; [left; exact (named_none_inv l m cont E Hz)|right; exists z; exact (named_sole l m cont z E Hz)]. }
  destruct (relevant tag cont m) as [|[k1 x1] [|[k2 x2] [|]]]; try discriminate.
  - destruct (Hin k1 x1 (or_introl eq_refl)) as [->| ->]; rewrite ?bytes_eqb_refl, ?E2 in H; [|discriminate].
    rewrite !named_cons, bytes_eqb_refl in Nt. rewrite !named_cons, E2 in Nc. cbn [members_named filter map] in Nt, Nc.
    destruct (adjacent_tag _ _ alts 127 x1) as [n|] eqn:Et; [|discriminate]. eapply C; eauto.
  - destruct (Hin k1 x1 (or_introl eq_refl)) as [->| ->]; destruct (Hin k2 x2 (or_intror (or_introl eq_refl))) as [->| ->];
      rewrite ?bytes_eqb_refl, ?E2 in H; try discriminate; rewrite !named_cons, ?bytes_eqb_refl in Nt, Nc; rewrite ?E1, ?E2 in Nt; rewrite ?E1, ?E2 in Nc; cbn [members_named filter map] in Nt, Nc.
    + destruct (adjacent_tag _ _ alts 127 x1) as [n|] eqn:Et; [|discriminate]. eapply C; [symmetry; exact Nt|right; eexists; symmetry; exact Nc|exact Et|exact H].
    + destruct (content_of _ 127 x1); [|discriminate]. destruct (adjacent_tag _ _ alts 127 x2) as [n|] eqn:Et; [|discriminate]. eapply C; [symmetry; exact Nt|right; eexists; symmetry; exact Nc|exact Et|exact H].
Qed.

(** ** C76: internally tagged enums *)
Lemma tag_loop_rest w tag d l m : Forall (fun kx => unescape (fst kx) <> Some tag) l ->
  Forall2 (fun kx kc => unescape (fst kx) = Some (fst kc) /\ content_of (objects w) d (snd kx) = Some (snd kc)) l m ->
  forall l' found acc, tag_loop w tag d (l ++ l') found acc = tag_loop w tag d l' found (rev m ++ acc).
Proof.
  intros Hl HF. induction HF as [|[k x] [k' c] l m [H1 H2] HF IH]; intros l' found acc; [reflexivity|].
  inversion Hl as [|? ? Hk Hl']; subst. cbn [fst snd] in *. cbn [app tag_loop]. rewrite H1.
  destruct (bytes_eqb k' tag) eqn:E; [apply bytes_eqb_eq in E; congruence|]. rewrite H2, (IH Hl'). cbn [rev]. rewrite <- app_assoc. reflexivity.
Qed.
Lemma tag_loop_one w tag d l1 l2 k b n m : unescape k = Some tag -> unescape b = Some n ->
  Forall (fun kx => unescape (fst kx) <> Some tag) (l1 ++ l2) ->
  Forall2 (fun kx kc => unescape (fst kx) = Some (fst kc) /\ content_of (objects w) d (snd kx) = Some (snd kc)) (l1 ++ l2) m ->
  tag_loop w tag d (l1 ++ (k, RStr b) :: l2) None [] = Some (n, KMap m).
Proof.
  intros Hk Hb Hl HF. apply Forall_app in Hl as [L1 L2]. apply Forall2_app_inv_l in HF as (m1 & m2 & F1 & F2 & ->).
  rewrite (tag_loop_rest w tag d l1 m1 L1 F1). cbn [tag_loop tag_name]. rewrite Hk, bytes_eqb_refl, Hb.
  rewrite <- (app_nil_r l2). rewrite (tag_loop_rest w tag d l2 m2 L2 F2). cbn [tag_loop].
  rewrite app_nil_r, rev_app_distr, !rev_involutive. reflexivity.
Qed.
Lemma map_values_content rp w d d' l v : enter d = Some d' -> objects w l = OMMap -> de_direct rp w (TyMap TyValue) d (RObj l) = Some v ->
  exists m, Forall2 (fun kx kc => unescape (fst kx) = Some (fst kc) /\ content_of (objects w) d' (snd kx) = Some (snd kc)) l m.
Proof.
  intros Hd Ho Hv. rewrite direct_map, Hd, Ho in Hv. destruct (str_members l) as [ml|] eqn:E; [|discriminate].
  assert (Hall : forall k x, In (k, x) ml -> exists c, content_of (objects w) d' x = Some c).
  { destruct (map_of (de_direct rp w TyValue d') ml []) as [r|] eqn:Em; [|discriminate]. clear Hv E. revert r Em. generalize (@nil (bytes * dval)).
    induction ml as [|[k x] ml IH]; intros acc r Em k' x' Hin; [destruct Hin|]. cbn [map_of] in Em. fold (map_of (de_direct rp w TyValue d')) in Em.
    destruct (de_direct rp w TyValue d' x) as [y|] eqn:Ex; [|discriminate]. destruct Hin as [[= <- <-]|Hin]; [|eapply IH; eassumption].
    rewrite direct_value in Ex. match type of Ex with option_map _ ?X = _ => destruct X as [z|] eqn:Ez; [|discriminate] end. exact (value_buffers rp w x d' z Ez). }
  clear Hv Ho. revert ml E Hall. induction l as [|[k x] l IH]; intros ml E Hall; [exists []; constructor|].
  cbn [str_members] in E. destruct (unescape k) as [k'|] eqn:Ek; [|discriminate]. destruct (str_members l) as [ml'|]; [|discriminate]. injection E as <-.
  destruct (Hall k' x (or_introl eq_refl)) as [c Hc]. destruct (IH ml' eq_refl) as [m Hm]; [intros k0 x0 Hin; apply (Hall k0); right; exact Hin|].
  exists ((k', c) :: m). constructor; [cbn; auto|exact Hm].
Qed.
Theorem tagged_variant tag alts n a l text rest A v0 v : with_tag tag n l text rest -> named_alt alts n a ->
  arg_deserialize (TyMap TyValue) (Arg rest A) = Ok v0 -> alt_alike (has_some A) true a (RObj l) ->
  arg_enum (Tagged tag alts) (Arg text A) = Ok (XVariant n v) <-> untagged_part a (Arg rest A) v.
Proof.
  intros (l1 & l2 & k & b & -> & Hr & Hrest & Hk & Hb & Hl & Ho1 & Ho2) Hn Hv Ha.
  rewrite (arg_enum_ok _ _ _ _ _ Hr). cbn [de_enum]. unfold de_tagged. cbn [enter].
  apply (arg_direct_ok _ _ _ _ _ Hrest) in Hv.
  assert (W : way_of (Arg rest A) = way_of (Arg text A)) by reflexivity. rewrite W in Hv.
  rewrite (objects_map A text (l1 ++ (k, RStr b) :: l2)) by (intros _; exact Ho2).
  pose proof (objects_map A text (l1 ++ l2) (fun _ => Ho1)) as Om.
  destruct (map_values_content _ _ 128 127 _ _ eq_refl Om Hv) as [m HF].
  rewrite (tag_loop_one _ tag 127 l1 l2 k b n m Hk Hb Hl HF). unfold tagged_as. rewrite (named_find _ _ _ Hn).
  pose proof (content_map_of (objects (way_of (Arg text A))) 128 127 (l1 ++ l2) m eq_refl Om HF) as Hc.
  assert (Hsh : short (length rest) (RObj (l1 ++ l2))) by exact (proj1 jvalue_short _ _ Hrest).
  assert (Hst : short (length text) (RObj (l1 ++ l2))).
  { pose proof (proj1 jvalue_short _ _ Hr) as Hs. cbn [short] in *. rewrite allP_In in *. intros y Hy. apply Hs. rewrite in_app_iff in *. cbn [In]. tauto. }
  destruct a as [|t|fs]; cbn [tagged_content untagged_part alt_alike] in *.
  - split; [intros [= <-]; reflexivity|intros ->; reflexivity].
  - rewrite <- (bin_way text A) in Ha. rewrite (content_agree (reparse_of text) _ true t 128 (RObj (l1 ++ l2)) _ Hc Ha).
    rewrite (arg_direct_ok _ _ _ _ _ Hrest), W, !direct_ever by assumption. destruct (de_direct ever _ t 128 _); cbn [option_map]; split; congruence.
  - rewrite <- (bin_way text A) in Ha. rewrite (content_agree (reparse_of text) _ true (TyStruct fs) 128 (RObj (l1 ++ l2)) _ Hc Ha).
    rewrite (arg_direct_ok _ _ _ _ _ Hrest), W, !direct_ever by assumption. destruct (de_direct ever _ (TyStruct fs) 128 _); cbn [option_map]; split; congruence.
Qed.

(** One tag. *)
Lemma tag_loop_some w tag d l : forall found acc n c, tag_loop w tag d l found acc = Some (n, c) ->
  (found = Some n /\ no_member tag l) \/ (found = None /\ exists b, sole_member tag l (RStr b) /\ unescape b = Some n).
Proof.
  induction l as [|[k x] l IH]; intros found acc n c H; cbn [tag_loop] in H.
  - destruct found as [n'|]; [|discriminate]. injection H as <- _. left. split; [reflexivity|constructor].
  - destruct (unescape k) as [k'|] eqn:Ek; [|discriminate]. destruct (bytes_eqb k' tag) eqn:E.
    + apply bytes_eqb_eq in E. subst k'. destruct found; [discriminate|]. destruct (tag_name x) as [n'|] eqn:Ex; [|discriminate].
      apply IH in H as [[[= ->] H]|[[=] _]]. right. split; [reflexivity|]. destruct x as [| | |b| |]; try discriminate. exists b. split; [|exact Ex].
      exists [], k, l. repeat split; [exact Ek|constructor|exact H].
    + apply bytes_eqb_neq in E. destruct (content_of (objects w) d x); [|discriminate].
      apply IH in H as [[-> H]|(-> & b & (l1 & k0 & l2 & -> & Hk & H1 & H2) & Hb)].
      * left. split; [reflexivity|]. constructor; [cbn [fst]; congruence|exact H].
      * right. split; [reflexivity|]. exists b. split; [|exact Hb]. exists ((k, x) :: l1), k0, l2. split; [reflexivity|]. split; [exact Hk|].
        split; [|exact H2]. constructor; [cbn [fst]; congruence|exact H1].
Qed.
Theorem tagged_one_tag tag alts l text A x : jvalue (RObj l) text -> (A <> [] -> ordinary_first l) ->
  arg_enum (Tagged tag alts) (Arg text A) = Ok x ->
  exists n v b, x = XVariant n v /\ In n (map fst alts) /\ sole_member tag l (RStr b) /\ unescape b = Some n.
Proof.
  intros Hr Ho H. apply (arg_enum_ok _ _ _ _ _ Hr) in H. cbn [de_enum] in H. unfold de_tagged in H. cbn [enter] in H.
  rewrite (objects_map A text l Ho) in H. destruct (tag_loop _ tag 127 l None []) as [[n c]|] eqn:E; [|discriminate].
  apply tag_loop_some in E as [[[=] _]|(_ & b & Hs & Hb)]. unfold tagged_as in H. destruct (find_alt n alts) as [a|] eqn:Ef; [|discriminate].
  destruct (tagged_content _ a c) as [v|]; [|discriminate]. injection H as <-. exists n, v, b. split; [reflexivity|]. split; [|auto].
  apply in_map_iff. exists (n, a). split; [reflexivity|exact (find_in _ _ _ Ef)].
Qed.

(** A list whose first element is the tag. *)
Theorem tagged_list tag alts n a b l text rest A v0 v : jvalue (RArr (RStr b :: l)) text -> unescape b = Some n -> jvalue (RArr l) rest ->
  named_alt alts n a -> arg_deserialize TyValue (Arg rest A) = Ok v0 -> alt_alike (has_some A) true a (RArr l) ->
  arg_enum (Tagged tag alts) (Arg text A) = Ok (XVariant n v) <-> untagged_list a l (Arg rest A) v.
Proof.
  intros Hr Hb Hrest Hn Hv Ha. destruct (value_arg_buffers _ _ _ _ Hrest Hv) as [c Hc].
  assert (W : way_of (Arg rest A) = way_of (Arg text A)) by reflexivity. rewrite W in Hc.
  assert (Hc' := Hc). apply content_arr in Hc' as (d' & cs & [= <-] & -> & HF).
  assert (Hcs : contents_of (way_of (Arg text A)) 127 l = Some cs).
  { clear -HF. induction HF as [|x k l cs H _ IH]; [reflexivity|]. cbn [contents_of]. rewrite H, IH. reflexivity. }
  rewrite (arg_enum_ok _ _ _ _ _ Hr). cbn [de_enum]. unfold de_tagged. cbn [enter tag_name]. rewrite Hb, Hcs. unfold tagged_as.
  rewrite (named_find _ _ _ Hn).
  assert (Hsh : short (length rest) (RArr l)) by exact (proj1 jvalue_short _ _ Hrest).
  assert (Hst : short (length text) (RArr l)).
  { pose proof (proj1 jvalue_short _ _ Hr) as Hs. cbn [short allP] in *. apply Hs. }
  destruct a as [|t|fs]; cbn [tagged_content untagged_list alt_alike] in *.
  - inversion HF; subst; cbn [option_map]; split; try congruence; try (intros [= <-]; auto; fail); intros [? ->]; try reflexivity; discriminate.
  - rewrite <- (bin_way text A) in Ha. rewrite (content_agree (reparse_of text) _ true t 128 (RArr l) _ Hc Ha).
    rewrite (arg_direct_ok _ _ _ _ _ Hrest), W, !direct_ever by assumption. destruct (de_direct ever _ t 128 _); cbn [option_map]; split; congruence.
  - rewrite <- (bin_way text A) in Ha. rewrite (content_agree (reparse_of text) _ true (TyStruct fs) 128 (RArr l) _ Hc Ha).
    rewrite (arg_direct_ok _ _ _ _ _ Hrest), W, !direct_ever by assumption. destruct (de_direct ever _ (TyStruct fs) 128 _); cbn [option_map]; split; congruence.
Qed.

(** An attachment in place of the object. *)
Lemma alike_number o t n : alike false o t (RNum n).
Proof.
  induction t using ty_ind'; cbn [alike]; try exact I; try assumption; try (intros [Hx _]; discriminate Hx); try (intros _ Hx; discriminate Hx);
    try (split; [intros [Hx _]; discriminate Hx|exact I]). intros _. exact I.
Qed.
Lemma alike_numbers o t ns : alike false o t (RArr (map RNum ns)).
Proof.
  induction t as [|lo hi| | | | | | |u IH|u IH|u IH|ts IH|u IH|fs IH|vs IH| | | |lo hi u IH] using ty_ind';
    cbn [alike]; try exact I; try assumption; try (intros [Hx _]; discriminate Hx); try (intros _ Hx; discriminate Hx).
  - split; [intros [Hx _]; discriminate Hx|]. rewrite allP_In. intros x Hx. apply in_map_iff in Hx as (n & <- & _). apply alike_number.
  - split; [intros [Hx _]; discriminate Hx|]. clear IH. revert ns. induction ts as [|u ts IH]; intros [|n ns]; cbn [map]; try exact I.
    split; [apply alike_number|apply IH].
  - split; [intros [Hx _]; discriminate Hx|]. clear IH. revert ns. induction fs as [|[f u] fs IH]; intros [|n ns]; cbn [map]; try exact I.
    split; [apply alike_number|apply IH].
  - intros _. exact I.
Qed.
Lemma octets_buffer d d' b : enter d = Some d' ->
  content_of (fun _ => OMMap) d (RArr (map byte_lit b)) = Some (KSeq (map (fun x => KNum (NPos (bN x))) b)).
Proof.
  intros Hd. apply (content_arr_of _ _ d'); [exact Hd|]. induction b as [|c b IH]; [constructor|]. cbn [map]. constructor; [|exact IH].
  unfold byte_lit. cbn [content_of]. change (NumLit false (dec (bN c)) None None) with (int_lit false (bN c)). rewrite u8_num. reflexivity.
Qed.
Theorem tagged_octets tag alts l text A bl b t' x : jvalue (RObj l) text -> A <> [] -> contents A = Some bl -> stands_for bl l b ->
  jvalue (RArr (map byte_lit (tl b))) t' ->
  arg_enum (Tagged tag alts) (Arg text A) = Ok x <->
  exists c n a v, hd_error b = Some c /\ nth_error alts (N.to_nat (bN c)) = Some (n, a) /\ x = XVariant n v /\ from_octets a (tl b) t' v.
Proof.
  intros Hr HA Hbl Hs Ht. rewrite (arg_enum_ok _ _ _ _ _ Hr). cbn [de_enum]. unfold de_tagged. cbn [enter].
  assert (objects (way_of (Arg text A)) l = OMBuffer b) as ->.
  { unfold way_of. cbn [g_attachments]. destruct A as [|s A]; [congruence|]. cbn [objects].
    destruct (classify_cases (s :: A) bl Hbl l) as [(b' & Hs' & ->)|[[Hbad _]|[_ Hm]]].
    - destruct Hs as (? & ? & ? & -> & Hx & Hn). destruct Hs' as (? & ? & ? & [= <- <-] & Hx' & Hn'). congruence.
    - destruct (stands_start bl l b Hs Hbad).
    - destruct Hs as (f & y & k & -> & _). destruct (proj2 (Hm _ _ _ eq_refl)). reflexivity. }
  destruct b as [|c b]; cbn [tl hd_error] in *.
  { split; [discriminate|]. intros (? & ? & ? & ? & Hx & _). discriminate. }
  assert (K : forall t, de_content (reparse_of text) true t (KSeq (map (fun x => KNum (NPos (bN x))) b)) =
              de_direct (reparse_of text) Plain t 128 (RArr (map byte_lit b))).
  { intros t. apply (content_agree (reparse_of text) Plain true t 128).
    - exact (octets_buffer 128 127 b eq_refl).
    - unfold byte_lit. rewrite <- (map_map (fun c => NumLit false (dec (bN c)) None None) RNum). apply alike_numbers. }
  assert (Hsh : forall n, short n (RArr (map byte_lit b))).
  { intros n. cbn [short]. rewrite allP_In. intros y Hy. apply in_map_iff in Hy as (? & <- & _). exact I. }
  assert (K2 : forall t v, arg_deserialize t (Arg t' []) = Ok v <-> de_content (reparse_of text) true t (KSeq (map (fun x => KNum (NPos (bN x))) b)) = Some v).
  { intros t v. rewrite (arg_direct_ok _ _ _ _ _ Ht), K, !direct_ever by apply Hsh. reflexivity. }
  destruct (nth_error alts (N.to_nat (bN c))) as [[n a]|] eqn:En.
  - split.
    + intros H. destruct (tagged_content (reparse_of text) a _) as [v|] eqn:Ev in H; [|discriminate]. injection H as <-.
      exists c, n, a, v. split; [reflexivity|]. split; [exact En|]. split; [reflexivity|]. destruct a as [|t|fs]; cbn [from_octets tagged_content] in *.
      * destruct b; [injection Ev as <-; auto|discriminate].
      * apply K2. exact Ev.
      * apply K2. exact Ev.
    + intros (c' & n' & a' & v & [= <-] & En' & -> & Hf). rewrite En in En'. injection En' as <- <-.
      destruct a as [|t|fs]; cbn [from_octets tagged_content] in *.
      * destruct Hf as [-> ->]. reflexivity.
      * apply K2 in Hf. rewrite Hf. reflexivity.
      * apply K2 in Hf. rewrite Hf. reflexivity.
  - split; [discriminate|]. intros (c' & n' & a' & v & [= <-] & En' & _). congruence.
Qed.
