(** Proofs about types with enums and flattened structs within them (C89). *)
From Verif Require Export DepthProofs.

Section XtyInd.
Variable P : xty -> Prop.
Hypothesis Hty : forall t, P (XTy t).
Hypothesis Henum : forall e, P (XEnum e).
Hypothesis Hflat : forall own ps, P (XFlatten own ps).
Hypothesis Hopt : forall u, P u -> P (XOpt u).
Hypothesis Hnew : forall u, P u -> P (XNew u).
Hypothesis Hvec : forall u, P u -> P (XVec u).
Hypothesis Htup : forall us, Forall P us -> P (XTup us).
Hypothesis Hdict : forall u, P u -> P (XDict u).
Hypothesis Hrec : forall fs, Forall (fun f => P (snd f)) fs -> P (XRec fs).
Hypothesis Hvar : forall vs, Forall (fun v => P (snd (snd v))) vs -> P (XVar vs).
Fixpoint xty_ind' (x : xty) : P x :=
  match x with
  | XTy t => Hty t | XEnum e => Henum e | XFlatten own ps => Hflat own ps
  | XOpt u => Hopt u (xty_ind' u) | XNew u => Hnew u (xty_ind' u) | XVec u => Hvec u (xty_ind' u) | XDict u => Hdict u (xty_ind' u)
  | XTup us => Htup us ((fix go us : Forall P us := match us with [] => Forall_nil _ | u :: us' => Forall_cons u (xty_ind' u) (go us') end) us)
  | XRec fs => Hrec fs ((fix go fs : Forall (fun f => P (snd f)) fs :=
      match fs with [] => Forall_nil _ | f :: fs' => Forall_cons f (xty_ind' (snd f)) (go fs') end) fs)
  | XVar vs => Hvar vs ((fix go vs : Forall (fun v => P (snd (snd v))) vs :=
      match vs with [] => Forall_nil _ | v :: vs' => Forall_cons v (xty_ind' (snd (snd v))) (go vs') end) vs)
  end.
End XtyInd.

(** ** Loops *)
Section LoopFacts.
Context {T : Type}.
Variable f : T -> raw -> option dval.
Lemma read_tuple_iff us : forall l vs, read_tuple f us l = Some vs <-> Forall3 (fun u x v => f u x = Some v) us l vs.
Proof.
  induction us as [|u us IH]; intros [|x l] vs; cbn [read_tuple].
  - split; [intros [= <-]; constructor|]. intros H. inversion H. reflexivity.
  - split; [discriminate|]. intros H. inversion H.
  - split; [discriminate|]. intros H. inversion H.
  - fold (read_tuple f). split.
    + destruct (f u x) as [v|] eqn:E; [|discriminate]. destruct (read_tuple f us l) as [ws|] eqn:El; [|discriminate]. intros [= <-].
      constructor; [exact E|]. apply IH. exact El.
    + intros H. inversion H as [|? ? v ? ? ws H1 H2]; subst. rewrite H1. apply IH in H2. rewrite H2. reflexivity.
Qed.
Lemma in_order_tuple fs : forall l, read_fields_in_order f fs l = read_tuple f (map snd fs) l.
Proof.
  induction fs as [|[m u] fs IH]; intros [|x l]; try reflexivity. cbn [read_fields_in_order read_tuple map snd].
  fold (read_fields_in_order f) (read_tuple f). rewrite IH. reflexivity.
Qed.
Variable missing : T -> option dval.
Definition read_field (m : list (bytes * raw)) (k : bytes) (u : T) : option dval :=
  match members_named k m with [] => missing u | [x] => f u x | _ => None end.
Lemma read_fields_iff m fs : forall vs, read_fields f missing m fs = Some vs <-> Forall2 (fun fd v => read_field m (fst fd) (snd fd) = Some v) fs vs.
Proof.
  induction fs as [|[k u] fs IH]; intros vs; cbn [read_fields].
  - split; [intros [= <-]; constructor|]. intros H. inversion H. reflexivity.
  - fold (read_fields f missing m). fold (read_field m k u). split.
    + destruct (read_field m k u) as [v|] eqn:E; [|discriminate]. destruct (read_fields f missing m fs) as [ws|] eqn:El; [|discriminate]. intros [= <-].
      constructor; [exact E|]. apply IH. reflexivity.
    + intros H. inversion H as [|? v ? ws H1 H2]; subst. cbn [fst snd] in H1. rewrite H1. apply IH in H2. rewrite H2. reflexivity.
Qed.
Lemma read_field_iff m k u v : read_field m k u = Some v <->
  (exists x, only_member m k x /\ f u x = Some v) \/ ~ In k (map fst m) /\ missing u = Some v.
Proof.
  unfold read_field. split.
  - destruct (members_named k m) as [|x [|]] eqn:E; [| |discriminate]; intros H.
    + right. split; [apply members_none; exact E|exact H].
    + left. exists x. split; [apply members_one; exact E|exact H].
  - intros [(x & H1 & H2)|[H1 H2]].
    + apply members_one in H1. rewrite H1. exact H2.
    + apply members_none in H1. rewrite H1. exact H2.
Qed.
Lemma find_variant (vs : list (bytes * (vtag * T))) name (g : bytes -> vtag -> T -> option dval) (go : list (bytes * (vtag * T)) -> option dval) v :
  go [] = None -> (forall n tag u vs', go ((n, (tag, u)) :: vs') = if bytes_eqb n name then g n tag u else go vs') ->
  go vs = Some v <-> exists pre tag u post, vs = pre ++ (name, (tag, u)) :: post /\ ~ In name (map fst pre) /\ g name tag u = Some v.
Proof.
  intros G0 G1. induction vs as [|[n [tag u]] vs IH].
  - rewrite G0. split; [discriminate|]. intros (pre & ? & ? & ? & E & _). destruct pre; discriminate.
  - rewrite G1. destruct (bytes_eqb n name) eqn:E.
    + apply bytes_eqb_eq in E. subst n. split.
      * intros H. exists [], tag, u, vs. split; [reflexivity|]. split; [intros []|exact H].
      * intros (pre & tag' & u' & post & X & H1 & H2). destruct pre as [|[k w] pre]; cbn in X.
        -- injection X as <- <- <-. exact H2.
        -- injection X as <- _ _. destruct H1. left. reflexivity.
    + apply bytes_eqb_neq in E. rewrite IH. split.
      * intros (pre & tag' & u' & post & -> & H1 & H2). exists ((n, (tag, u)) :: pre), tag', u', post. split; [reflexivity|].
        split; [|exact H2]. intros [X|X]; [cbn in X; congruence|auto].
      * intros (pre & tag' & u' & post & X & H1 & H2). destruct pre as [|[k w] pre]; cbn in X; [injection X as X _; congruence|].
        injection X as <- <- ->. exists pre, tag', u', post. split; [reflexivity|]. split; [|exact H2]. intros Hin. apply H1. right. exact Hin.
Qed.
Definition variant_contents (x : raw) (n : bytes) (tag : vtag) (u : T) : option dval :=
  match tag with
  | VtUnit => match x with RNull => Some (XVariant n XUnit) | _ => None end
  | VtTuple => match x with RArr _ => option_map (XVariant n) (f u x) | _ => None end
  | _ => option_map (XVariant n) (f u x)
  end.
Lemma read_variant_iff x name vs v : read_variant f x name vs = Some v <->
  exists pre tag u post, vs = pre ++ (name, (tag, u)) :: post /\ ~ In name (map fst pre) /\ variant_contents x name tag u = Some v.
Proof. apply (find_variant vs name (variant_contents x) (read_variant f x name)); reflexivity. Qed.
Lemma named_variant_iff name (vs : list (bytes * (vtag * T))) v : named_variant name vs = Some v <->
  exists pre u post, vs = pre ++ (name, (VtUnit, u)) :: post /\ ~ In name (map fst pre) /\ v = XVariant name XUnit.
Proof.
  rewrite (find_variant vs name (fun n tag _ => match tag with VtUnit => Some (XVariant n XUnit) | _ => None end) (named_variant name)) by reflexivity.
  split.
  - intros (pre & tag & u & post & -> & H1 & H2). destruct tag; try discriminate. injection H2 as <-. eauto 6.
  - intros (pre & u & post & -> & H1 & ->). exists pre, VtUnit, u, post. auto.
Qed.
Variable o : T -> byte -> option dval.
Lemma read_octets_iff u b : forall vs, read_octets o u b = Some vs <-> Forall2 (fun c v => o u c = Some v) b vs.
Proof.
  induction b as [|c b IH]; intros vs; cbn [read_octets].
  - split; [intros [= <-]; constructor|]. intros H. inversion H. reflexivity.
  - fold (read_octets o u). split.
    + destruct (o u c) as [v|] eqn:E; [|discriminate]. destruct (read_octets o u b) as [ws|] eqn:El; [|discriminate]. intros [= <-].
      constructor; [exact E|]. apply IH. reflexivity.
    + intros H. inversion H as [|? v ? ws H1 H2]; subst. rewrite H1. apply IH in H2. rewrite H2. reflexivity.
Qed.
Lemma in_order_iff us : forall b vs, read_octets_in_order o us b = Some vs <-> exists b1 b2, b = b1 ++ b2 /\ Forall3 (fun u c v => o u c = Some v) us b1 vs.
Proof.
  induction us as [|u us IH]; intros b vs; cbn [read_octets_in_order].
  - split; [intros [= <-]; exists [], b; split; [reflexivity|constructor]|]. intros (b1 & b2 & -> & H). inversion H. reflexivity.
  - destruct b as [|c b].
    + split; [discriminate|]. intros (b1 & b2 & E & H). inversion H; subst; discriminate.
    + fold (read_octets_in_order o). split.
      * destruct (o u c) as [v|] eqn:E; [|discriminate]. destruct (read_octets_in_order o us b) as [ws|] eqn:Ew; [|discriminate]. intros [= <-].
        apply IH in Ew as (b1 & b2 & -> & H). exists (c :: b1), b2. split; [reflexivity|]. constructor; [exact E|exact H].
      * intros (b1 & b2 & E & H). inversion H as [|? c' v ? b1' ws H1 H2]; subst. cbn in E. injection E as <- ->. rewrite H1.
        rewrite (proj2 (IH (b1' ++ b2) ws)); [reflexivity|eauto].
Qed.
End LoopFacts.

(** ** Texts of the parts *)
Lemma elem_texts l t : jelems l t -> Forall (fun x => exists t, jvalue x t) l.
Proof. induction 1; constructor; eauto. Qed.
Lemma elem_text l t x : jvalue (RArr l) t -> In x l -> exists t', jvalue x t'.
Proof.
  intros H Hin. assert (E : l = [] \/ exists t', jelems l t') by (inversion H; subst; eauto). destruct E as [->|[t' E]]; [destruct Hin|].
  apply elem_texts in E. rewrite Forall_forall in E. exact (E x Hin).
Qed.
Lemma mem_text l t k x : jvalue (RObj l) t -> In (k, x) l -> exists t', jvalue x t'.
Proof.
  intros H Hin. destruct (object_members l t H) as [->|[t' E]]; [destruct Hin|]. apply member_texts in E. rewrite Forall_forall in E. apply (E _ Hin).
Qed.

(** ** The bytes of attachments *)
Lemma number_text c : exists x, number_means x (NPos (bN c)) /\ jvalue (RNum x) (numlit_text x) /\ num_of x = Some (NPos (bN c)).
Proof.
  exists (int_lit false (bN c)). assert (E : num_of (int_lit false (bN c)) = Some (NPos (bN c))) by apply u8_num.
  split; [apply num_exact; [apply int_lit_ok|exact E]|]. split; [constructor; apply int_lit_ok|exact E].
Qed.
Lemma untagged_octet alts c v : try_alts ever alts (KNum (NPos (bN c))) = Some v <-> piece_octet (XEnum (Untagged alts)) c v.
Proof.
  assert (G : forall x text, num_of x = Some (NPos (bN c)) -> jvalue (RNum x) text ->
    arg_enum (Untagged alts) (Arg text []) = Ok v <-> try_alts ever alts (KNum (NPos (bN c))) = Some v).
  { intros x text E J. rewrite (arg_enum_ok _ _ _ _ _ J). cbn [de_enum]. unfold de_untagged. cbn [content_of]. rewrite E. cbn [option_map].
    rewrite (try_same _ _ _ (reparse_below text)) by exact I. reflexivity. }
  split.
  - intros H. destruct (number_text c) as (x & Hx & J & E). apply (po_untagged alts c x (numlit_text x) v Hx J). apply (G x _ E J). exact H.
  - intros H. inversion H as [|? ? x text ? Hx J Ha]; subst. apply (G x text); [|exact J|exact Ha].
    apply num_exact; [|exact Hx]. inversion J; assumption.
Qed.
Lemma octet_iff x c v : octet_nested ever x c = Some v <-> piece_octet x c v.
Proof.
  destruct x as [t|[alts|tag alts|tag cont alts]| | | | | | | |]; cbn [octet_nested];
    try (split; [discriminate|intros H; inversion H]).
  - rewrite visit_iff. split; [apply po_ty|]. intros H. inversion H. assumption.
  - apply untagged_octet.
Qed.
Lemma missing_iff x v : missing_nested x = Some v <-> ((exists u, x = XOpt u) \/ (exists t, x = XTy (TyOption t))) /\ v = XNone.
Proof.
  split.
  - destruct x as [t| | |u| | | | | |]; try discriminate; cbn [missing_nested].
    + destruct t; try discriminate. intros [= <-]. split; [right; eauto|reflexivity].
    + intros [= <-]. split; [left; eauto|reflexivity].
  - intros [[[u ->]|[t ->]] ->]; reflexivity.
Qed.

(** ** How objects are treated *)
Section Main.
Variable A : list subslice_t.
Hypothesis HA : contents A <> None.
Let w := way_of (Arg [] A).
Lemma objects_buffer l b : well (RObj l) -> (objects w l = OMBuffer b <-> attachment (seen_with A) l b).
Proof.
  intros Hw. unfold w, way_of, seen_with. cbn [g_attachments]. destruct (contents A) as [bl|] eqn:E; [|congruence].
  destruct A as [|s A']; cbn [objects]; [split; [discriminate|intros []]|]. apply classify_buffer; assumption.
Qed.
Lemma objects_members l : well (RObj l) -> (objects w l = OMMap <-> by_members (seen_with A) l).
Proof.
  intros Hw. unfold w, way_of, seen_with. cbn [g_attachments]. destruct (contents A) as [bl|] eqn:E; [|congruence].
  destruct A as [|s A']; cbn [objects]; [split; [left|]; reflexivity|]. apply classify_members; assumption.
Qed.

(** ** What is not a container *)
Lemma below_ever text : same_below (length text) ever (reparse_of text).
Proof. intros u Hu. symmetry. apply reparse_below. exact Hu. Qed.
Lemma leaf_ty t r a d text v : jvalue r text -> within a r -> a < d -> a < 128 ->
  (de_direct ever w t d r = Some v <-> arg_deserialize t (Arg text A) = Ok v).
Proof.
  intros J Hw H1 H2. rewrite (arg_direct_ok _ _ _ _ _ J). change (way_of (Arg text A)) with w.
  rewrite (direct_deep _ _ _ w (below_ever text) t r a d 128 (proj1 jvalue_short _ _ J) Hw H1 H2). reflexivity.
Qed.
Lemma leaf_enum e r a d text v : jvalue r text -> within a r -> a < d -> a < 128 ->
  (de_enum ever w e d r = Some v <-> arg_enum e (Arg text A) = Ok v).
Proof.
  intros J Hw H1 H2. rewrite (arg_enum_ok _ _ _ _ _ J). change (way_of (Arg text A)) with w.
  rewrite (enum_deep _ _ _ w (below_ever text) e r a d 128 (proj1 jvalue_short _ _ J) Hw H1 H2). reflexivity.
Qed.
Lemma leaf_flat own ps r a d text v : jvalue r text -> within a r -> a < d -> a < 128 ->
  (de_flat ever w own ps d r = Some v <-> arg_flat own ps (Arg text A) = Ok v).
Proof.
  intros J Hw H1 H2. rewrite (arg_flat_ok _ _ _ _ _ _ J). change (way_of (Arg text A)) with w.
  rewrite (flat_deep _ _ _ w (below_ever text) own ps r a d 128 (proj1 jvalue_short _ _ J) Hw H1 H2). reflexivity.
Qed.

(** ** Everything *)
Lemma octets_case u b vs : read_octets (octet_nested ever) u b = Some vs <-> Forall2 (piece_octet u) b vs.
Proof. rewrite read_octets_iff. apply F2_iff_in. intros c v _. apply octet_iff. Qed.
Lemma in_order_case us b vs : read_octets_in_order (octet_nested ever) us b = Some vs <-> exists b1 b2, b = b1 ++ b2 /\ Forall3 piece_octet us b1 vs.
Proof.
  rewrite in_order_iff. split; intros (b1 & b2 & -> & H); exists b1, b2; (split; [reflexivity|]); revert H; apply F3_iff; intros u c v _ _; rewrite octet_iff; reflexivity.
Qed.
Ltac dead := let H := fresh in split; [discriminate|intros H; solve [inversion H]].
Theorem nested_pieces x : forall r t a d v, jvalue r t -> within a r -> a < d -> a < 128 ->
  (de_nested ever w x d r = Some v <-> piece A x r v).
Proof.
  induction x as [ty|e|own ps|u IH|u IH|u IH|us IH|u IH|fs IH|vs IH] using xty_ind'; intros r t a d v J Hw H1 H2; cbn [de_nested].
  - split; [intros H; eapply pi_ty; [exact J|]; apply (leaf_ty ty r a d t v J Hw H1 H2); exact H|]. intros H. inversion H as [? ? text ? J' Ha| | | | | | | | | | | | | | | |]; subst.
    apply (leaf_ty ty r a d text v J' Hw H1 H2). exact Ha.
  - split; [intros H; eapply pi_enum; [exact J|]; apply (leaf_enum e r a d t v J Hw H1 H2); exact H|]. intros H. inversion H as [|? ? text ? J' Ha| | | | | | | | | | | | | | |]; subst.
    apply (leaf_enum e r a d text v J' Hw H1 H2). exact Ha.
  - split; [intros H; eapply pi_flatten; [exact J|]; apply (leaf_flat own ps r a d t v J Hw H1 H2); exact H|]. intros H. inversion H as [| |? ? ? text ? J' Ha| | | | | | | | | | | | | |]; subst.
    apply (leaf_flat own ps r a d text v J' Hw H1 H2). exact Ha.
  - assert (G : r <> RNull -> option_map XSome (de_nested ever w u d r) = Some v <-> piece A (XOpt u) r v).
    { intros Hn. rewrite option_map_some. split.
      - intros (y & H & ->). apply pi_some; [exact Hn|]. apply (IH r t a d _ J Hw H1 H2); eassumption.
      - intros H. inversion H as [| | | |? ? y Hn' Hy| | | | | | | | | | | |]; subst; [congruence|]. exists y. split; [|reflexivity]. apply (IH r t a d _ J Hw H1 H2); eassumption. }
    destruct r; try (apply G; discriminate). split; [intros [= <-]; constructor|]. intros H. inversion H; subst; [reflexivity|congruence].
  - rewrite option_map_some. split.
    + intros (y & H & ->). apply pi_new. apply (IH r t a d _ J Hw H1 H2); eassumption.
    + intros H. inversion H as [| | | | |? ? y Hy| | | | | | | | | | |]; subst. exists y. split; [|reflexivity]. apply (IH r t a d _ J Hw H1 H2); eassumption.
  - destruct r as [| | | |l|l]; try dead.
    + apply within_arr in Hw as (b & -> & Hw). destruct (enter_in b d H1) as (e & -> & _ & He). rewrite option_map_some.
      assert (G : forall vs, read_list (fun u => de_nested ever w u e) u l = Some vs <-> Forall2 (piece A u) l vs).
      { intros vs. change (read_list (fun u => de_nested ever w u e) u l) with (each_of (de_nested ever w u e) l). rewrite each_iff. apply F2_iff_in.
        intros y z Hy. destruct (elem_text _ _ _ J Hy) as [t' J']. apply (IH y t' b e z J' (Hw y Hy) He). lia. }
      split; [intros (vs & H & ->); constructor; apply G; exact H|]. intros H. inversion H as [| | | | | |? ? vs HF| | | | | | | | | |]; subst. exists vs. split; [apply G; exact HF|reflexivity].
    + pose proof (proj1 jvalue_well _ _ J) as Hl. apply within_obj in Hw as (b & -> & _). destruct (enter_in b d H1) as (e & -> & _ & He). split.
      * destruct (objects w l) as [|bb|] eqn:E; try discriminate. intros H. apply option_map_some in H as (vs & H & ->).
        eapply pi_vec_octets; [apply objects_buffer; eassumption|]. apply octets_case. exact H.
      * intros H. inversion H as [| | | | | | |? ? bb vs Hb HF| | | | | | | | |]; subst. apply (objects_buffer l bb Hl) in Hb. rewrite Hb.
        apply octets_case in HF. rewrite HF. reflexivity.
  - rewrite Forall_forall in IH. destruct r as [| | | |l|l]; try dead.
    + apply within_arr in Hw as (b & -> & Hw). destruct (enter_in b d H1) as (e & -> & _ & He). rewrite option_map_some.
      assert (G : forall vs, read_tuple (fun u => de_nested ever w u e) us l = Some vs <-> Forall3 (piece A) us l vs).
      { intros vs. rewrite read_tuple_iff. apply F3_iff. intros u y z Hu Hy. destruct (elem_text _ _ _ J Hy) as [t' J']. apply (IH u Hu y t' b e z J' (Hw y Hy) He). lia. }
      split; [intros (vs & H & ->); constructor; apply G; exact H|]. intros H. inversion H as [| | | | | | | |? ? vs HF| | | | | | | |]; subst. exists vs. split; [apply G; exact HF|reflexivity].
    + pose proof (proj1 jvalue_well _ _ J) as Hl. apply within_obj in Hw as (b & -> & _). destruct (enter_in b d H1) as (e & -> & _ & He). split.
      * destruct (objects w l) as [|bb|] eqn:E; try discriminate. intros H. apply option_map_some in H as (vs & H & ->).
        apply in_order_case in H as (b1 & b2 & -> & H). eapply pi_tup_octets; [apply objects_buffer; eassumption|exact H].
      * intros H. inversion H as [| | | | | | | | |? ? b1 b2 vs Hb HF| | | | | | |]; subst. apply (objects_buffer l _ Hl) in Hb. rewrite Hb.
        rewrite (proj2 (in_order_case us (b1 ++ b2) vs)); [reflexivity|eauto].
  - destruct r as [| | | |l|l]; try dead. pose proof (proj1 jvalue_well _ _ J) as Hl. apply within_obj in Hw as (b & -> & Hw).
    destruct (enter_in b d H1) as (e & -> & _ & He). pose proof (objects_members l Hl) as Hm.
    pose proof (map_members (de_nested ever w u e) (piece A u) l v Hl) as G. change (map_of (de_nested ever w u e)) with (read_dict (fun u => de_nested ever w u e) u) in G.
    assert (G' : forall k y z, In (k, y) l -> de_nested ever w u e y = Some z <-> piece A u y z).
    { intros k y z Hy. destruct (mem_text _ _ _ _ J Hy) as [t' J']. apply (IH y t' b e z J' (Hw k y Hy) He). lia. }
    specialize (G G'). split.
    + destruct (objects w l) eqn:E; try discriminate. intros H. destruct (str_members l) as [m|]; [|discriminate].
      apply G in H as (ms & m' & -> & HF & HM). eapply pi_dict; [apply Hm; reflexivity|exact HF|exact HM].
    + intros H. inversion H as [| | | | | | | | | |? ? ms m Hb HF HM| | | | | |]; subst. apply Hm in Hb. rewrite Hb. destruct (str_members l) as [m'|] eqn:E; apply G; eauto.
  - rewrite Forall_forall in IH. destruct r as [| | | |l|l]; try dead.
    + apply within_arr in Hw as (b & -> & Hw). destruct (enter_in b d H1) as (e & -> & _ & He). rewrite option_map_some.
      assert (G : forall vs, read_fields_in_order (fun u => de_nested ever w u e) fs l = Some vs <-> Forall3 (fun f => piece A (snd f)) fs l vs).
      { intros vs. rewrite in_order_tuple, read_tuple_iff, F3_map. apply F3_iff. intros f y z Hf Hy. destruct (elem_text _ _ _ J Hy) as [t' J'].
        apply (IH f Hf y t' b e z J' (Hw y Hy) He). lia. }
      split; [intros (vs & H & ->); apply pi_rec_arr; apply G; exact H|]. intros H. inversion H as [| | | | | | | | | | |? ? vs HF| | | | |]; subst. exists vs. split; [apply G; exact HF|reflexivity].
    + pose proof (proj1 jvalue_well _ _ J) as Hl. apply within_obj in Hw as (b & -> & Hw). destruct (enter_in b d H1) as (e & -> & _ & He).
      pose proof (str_members_iff l (fun k x => well_key l k x Hl)) as Hs.
      assert (G : forall ms vs, str_members l = Some ms -> (read_fields (fun u => de_nested ever w u e) missing_nested ms fs = Some vs <->
        Forall2 (fun f v => (exists x, only_member ms (fst f) x /\ piece A (snd f) x v) \/
                 ~ In (fst f) (map fst ms) /\ ((exists u, snd f = XOpt u) \/ (exists t, snd f = XTy (TyOption t))) /\ v = XNone) fs vs)).
      { intros ms vs E. rewrite read_fields_iff. apply F2_iff_in. intros [k u] z Hin. cbn [fst snd]. rewrite read_field_iff, missing_iff.
        assert (K : forall y, only_member ms k y -> de_nested ever w u e y = Some z <-> piece A u y z).
        { intros y Ho. assert (Hx : In (k, y) ms) by (destruct Ho as (pre & post & -> & _); apply in_or_app; right; left; reflexivity).
          apply (str_members_in l ms k y E) in Hx as (k0 & _ & Hx). destruct (mem_text _ _ _ _ J Hx) as [t' J']. apply (IH _ Hin y t' b e z J' (Hw k0 y Hx) He). lia. }
        split; (intros [(y & Ho & H)|H]; [left; exists y; split; [exact Ho|]; apply (K y Ho); exact H|right; exact H]). }
      split.
      * destruct (objects w l) as [|bb|] eqn:E; [discriminate| |].
        -- intros H. apply option_map_some in H as (vs & H & ->). apply in_order_case in H as (b1 & b2 & -> & H).
           eapply pi_rec_octets; [apply objects_buffer; eassumption|]. exact (proj1 (F3_map snd piece_octet fs b1 vs) H).
        -- destruct (str_members l) as [ms|] eqn:Em; [|discriminate]. intros H. apply option_map_some in H as (vs & H & ->).
           eapply pi_rec; [apply objects_members; assumption|apply Hs; reflexivity|]. apply (G ms vs eq_refl). exact H.
      * intros H. inversion H as [| | | | | | | | | | | |? ? b1 b2 vs Hb HF|? ? ms vs Hb HS HF| | |]; subst.
        -- apply (objects_buffer l _ Hl) in Hb. rewrite Hb. rewrite (proj2 (in_order_case (map snd fs) (b1 ++ b2) vs)); [reflexivity|].
           exists b1, b2. split; [reflexivity|]. exact (proj2 (F3_map snd piece_octet fs b1 vs) HF).
        -- apply (objects_members l Hl) in Hb. rewrite Hb. apply Hs in HS. rewrite HS. apply (G ms vs HS) in HF. rewrite HF. reflexivity.
  - rewrite Forall_forall in IH. destruct r as [| | |b| |[|[k y] [|]]]; try dead.
    + pose proof (proj1 jvalue_well _ _ J) as Hl. cbn [well] in Hl. split.
      * destruct (unescape b) as [name|] eqn:E; [|discriminate]. intros H. apply named_variant_iff in H as (pre & u & post & -> & Hn & ->).
        apply pi_name; [apply unescape_exact; assumption|exact Hn].
      * intros H. inversion H as [| | | | | | | | | | | | | |? name ? ? ? Hb Hn| |]; subst. apply unescape_exact in Hb; [|exact Hl]. rewrite Hb. apply named_variant_iff. eauto 6.
    + pose proof (proj1 jvalue_well _ _ J) as Hl. assert (Hk : jbody k) by (eapply well_key; [exact Hl|left; reflexivity]).
      apply within_obj in Hw as (b & -> & Hw). destruct (enter_in b d H1) as (e & -> & _ & He).
      destruct (mem_text _ _ _ _ J (or_introl eq_refl)) as [t' J'].
      assert (G : forall pre name tag u post z, vs = pre ++ (name, (tag, u)) :: post -> de_nested ever w u e y = Some z <-> piece A u y z).
      { intros pre name tag u post z ->. apply (IH (name, (tag, u)) (in_elt _ _ _) y t' b e z J' (Hw k y (or_introl eq_refl)) He). lia. }
      split.
      * destruct (unescape k) as [name|] eqn:E; [|discriminate]. apply unescape_exact in E; [|exact Hk]. intros H.
        apply read_variant_iff in H as (pre & tag & u & post & Ev & Hn & H). specialize (G pre name tag u post).
        assert (K : option_map (XVariant name) (de_nested ever w u e y) = Some v -> tag <> VtUnit -> (tag = VtTuple -> exists l, y = RArr l) -> piece A (XVar vs) (RObj [(k, y)]) v).
        { intros HK Ht Ha. apply option_map_some in HK as (z & HK & ->). subst vs. apply pi_variant; auto. apply G; [reflexivity|exact HK]. }
        unfold variant_contents in H. destruct tag.
        -- destruct y; try discriminate. injection H as <-. subst vs. apply pi_unit_variant; assumption.
        -- apply K; [exact H|discriminate|discriminate].
        -- destruct y; try discriminate. apply K; [exact H|discriminate|eauto].
        -- apply K; [exact H|discriminate|discriminate].
      * intros H. inversion H as [| | | | | | | | | | | | | | |pre name u post ? Hb Hn|pre name tag u post ? ? z Hb Hn Ht Ha Hp]; subst;
          (apply unescape_exact in Hb; [|exact Hk]); rewrite Hb; apply read_variant_iff.
        -- exists pre, VtUnit, u, post. auto.
        -- exists pre, tag, u, post. split; [reflexivity|]. split; [exact Hn|]. apply (G pre name tag u post z eq_refl) in Hp. unfold variant_contents. rewrite Hp.
           destruct tag; try reflexivity; [congruence|]. destruct (Ha eq_refl) as [l ->]. reflexivity.
Qed.
End Main.

(** ** Independence of the recursion bound *)
Section Ext.
Context {T : Type}.
Variables f g : T -> raw -> option dval.
Lemma read_tuple_ext us : forall l, (forall u x, In u us -> In x l -> f u x = g u x) -> read_tuple f us l = read_tuple g us l.
Proof.
  induction us as [|u us IH]; intros [|x l] H; try reflexivity. cbn [read_tuple]. fold (read_tuple f) (read_tuple g).
  rewrite (H u x (or_introl eq_refl) (or_introl eq_refl)), IH; [reflexivity|]. intros v y Hv Hy. apply H; right; assumption.
Qed.
Lemma read_fields_ext missing m fs : (forall k u x, In (k, u) fs -> In (k, x) m -> f u x = g u x) -> read_fields f missing m fs = read_fields g missing m fs.
Proof.
  intros H. induction fs as [|[k u] fs IH]; [reflexivity|]. cbn [read_fields]. fold (read_fields f missing m) (read_fields g missing m).
  rewrite IH by (intros k' u' x Hu Hx; apply (H k' u' x); [right; exact Hu|exact Hx]).
  destruct (members_named k m) as [|x [|]] eqn:E; try reflexivity. rewrite (H k u x (or_introl eq_refl)); [reflexivity|].
  apply named_in. rewrite E. left. reflexivity.
Qed.
Lemma read_variant_ext x name vs : (forall k tag u, In (k, (tag, u)) vs -> f u x = g u x) -> read_variant f x name vs = read_variant g x name vs.
Proof.
  intros H. induction vs as [|[k [tag u]] vs IH]; [reflexivity|]. cbn [read_variant]. fold (read_variant f x name) (read_variant g x name).
  rewrite (H k tag u (or_introl eq_refl)), IH; [reflexivity|]. intros k' t' u' Hin. apply (H k' t'). right. exact Hin.
Qed.
Lemma read_octets_ext (o o' : T -> byte -> option dval) u b : (forall c, o u c = o' u c) -> read_octets o u b = read_octets o' u b.
Proof. intros H. induction b as [|c b IH]; [reflexivity|]. cbn [read_octets]. fold (read_octets o u) (read_octets o' u). rewrite H, IH. reflexivity. Qed.
Lemma in_order_ext (o o' : T -> byte -> option dval) us : (forall u c, In u us -> o u c = o' u c) -> forall b, read_octets_in_order o us b = read_octets_in_order o' us b.
Proof.
  induction us as [|u us IH]; intros H [|c b]; try reflexivity. cbn [read_octets_in_order]. fold (read_octets_in_order o) (read_octets_in_order o').
  rewrite (H u c (or_introl eq_refl)), IH; [reflexivity|]. intros v y Hv. apply H. right. exact Hv.
Qed.
End Ext.
Section Same.
Variables (rp rp' : bytes -> option value) (n : nat) (w : way).
Hypothesis Hr : same_below n rp rp'.
Lemma octet_same x c : octet_nested rp x c = octet_nested rp' x c.
Proof. destruct x as [|[]| | | | | | | |]; try reflexivity. cbn [octet_nested]. apply (try_same rp rp' n Hr). exact I. Qed.
Lemma nested_deep x : forall r a d d', short n r -> within a r -> a < d -> a < d' -> de_nested rp w x d r = de_nested rp' w x d' r.
Proof.
  induction x as [ty|e|own ps|u IH|u IH|u IH|us IH|u IH|fs IH|vs IH] using xty_ind'; intros r a d d' Hs Hw H1 H2; cbn [de_nested].
  - apply (direct_deep rp rp' n w Hr ty r a); assumption.
  - apply (enum_deep rp rp' n w Hr e r a); assumption.
  - apply (flat_deep rp rp' n w Hr own ps r a); assumption.
  - rewrite (IH r a d d' Hs Hw H1 H2). reflexivity.
  - rewrite (IH r a d d' Hs Hw H1 H2). reflexivity.
  - destruct r as [| | | |l|l]; try reflexivity.
    + apply within_arr in Hw as (b & -> & Hw). destruct (enter_in b d H1) as (e & -> & _ & He). destruct (enter_in b d' H2) as (e' & -> & _ & He').
      f_equal. apply (each_ext (de_nested rp w u e)). intros x Hx. apply (IH x b); eauto using short_elem.
    + apply within_obj in Hw as (b & -> & _). destruct (enter_in b d H1) as (e & -> & _ & He). destruct (enter_in b d' H2) as (e' & -> & _ & He').
      destruct (objects w l); try reflexivity. f_equal. apply read_octets_ext. apply octet_same.
  - rewrite Forall_forall in IH. destruct r as [| | | |l|l]; try reflexivity.
    + apply within_arr in Hw as (b & -> & Hw). destruct (enter_in b d H1) as (e & -> & _ & He). destruct (enter_in b d' H2) as (e' & -> & _ & He').
      f_equal. apply read_tuple_ext. intros u x Hu Hx. apply (IH u Hu x b); eauto using short_elem.
    + apply within_obj in Hw as (b & -> & _). destruct (enter_in b d H1) as (e & -> & _ & He). destruct (enter_in b d' H2) as (e' & -> & _ & He').
      destruct (objects w l); try reflexivity. f_equal. apply in_order_ext. intros. apply octet_same.
  - destruct r as [| | | |l|l]; try reflexivity. apply within_obj in Hw as (b & -> & Hw).
    destruct (enter_in b d H1) as (e & -> & _ & He). destruct (enter_in b d' H2) as (e' & -> & _ & He').
    destruct (objects w l); try reflexivity. destruct (str_members l) as [m|] eqn:E; [|reflexivity]. f_equal. apply (map_ext_of (de_nested rp w u e)).
    intros k x Hx. apply (str_members_in l m k x E) in Hx as (k0 & _ & Hx). apply (IH x b); eauto using short_mem.
  - rewrite Forall_forall in IH. destruct r as [| | | |l|l]; try reflexivity.
    + apply within_arr in Hw as (b & -> & Hw). destruct (enter_in b d H1) as (e & -> & _ & He). destruct (enter_in b d' H2) as (e' & -> & _ & He').
      f_equal. rewrite !in_order_tuple. apply read_tuple_ext. intros u x Hu Hx. apply in_map_iff in Hu as (f & <- & Hf). apply (IH f Hf x b); eauto using short_elem.
    + apply within_obj in Hw as (b & -> & Hw). destruct (enter_in b d H1) as (e & -> & _ & He). destruct (enter_in b d' H2) as (e' & -> & _ & He').
      destruct (objects w l); try reflexivity; [f_equal; apply in_order_ext; intros; apply octet_same|].
      destruct (str_members l) as [m|] eqn:E; [|reflexivity]. f_equal. apply read_fields_ext. intros k u x Hu Hx.
      apply (str_members_in l m k x E) in Hx as (k0 & _ & Hx). apply (IH _ Hu x b); eauto using short_mem.
  - rewrite Forall_forall in IH. destruct r as [| | | | |[|[k x] [|]]]; try reflexivity. apply within_obj in Hw as (b & -> & Hw).
    destruct (enter_in b d H1) as (e & -> & _ & He). destruct (enter_in b d' H2) as (e' & -> & _ & He'). destruct (unescape k); [|reflexivity].
    apply read_variant_ext. intros m tag u Hu. apply (IH _ Hu x b); [eapply short_mem|eapply Hw| |]; eauto; left; reflexivity.
Qed.
End Same.

(** ** C89 *)
Lemma arg_nested_ok x text r A v : jvalue r text ->
  arg_nested x (Arg text A) = Ok v <-> de_nested (reparse_of text) (way_of (Arg text A)) x 128 r = Some v.
Proof.
  intros H. unfold arg_nested, way_of, reparse_of. cbn [g_attachments g_text]. destruct A as [|s A].
  - assert (Hd : jdoc r text). { exists [], text, []. rewrite app_nil_r. repeat split; auto using ws_nil. }
    rewrite (proj2 (scan_doc_exact text r) Hd). destruct (de_nested _ _ x 128 r); split; congruence.
  - rewrite (scan_value_exact text r H). destruct (de_nested _ _ x 128 r); split; congruence.
Qed.
Theorem nested_exact x r text A v : jvalue r text -> within 127 r -> contents A <> None ->
  (arg_nested x (Arg text A) = Ok v <-> piece A x r v).
Proof.
  intros J Hw HA. rewrite (arg_nested_ok x text r A v J).
  rewrite (nested_deep _ _ _ _ (reparse_below text) x r 127 128 128 (proj1 jvalue_short _ _ J) Hw) by lia.
  change (way_of (Arg text A)) with (way_of (Arg [] A)). apply (nested_pieces A HA x r text 127); try assumption; lia.
Qed.

Lemma ordinary_octet rp x t c : ordinary_ty x = Some t -> octet_nested rp x c = visit_u8 t c.
Proof.
  destruct x; cbn [ordinary_ty octet_nested]; try discriminate; [intros [= <-]; reflexivity| | | | | | |];
    match goal with |- option_map _ ?o = _ -> _ => destruct o; [|discriminate] end; intros [= <-]; reflexivity.
Qed.
Lemma ordinary_missing x t : ordinary_ty x = Some t -> missing_nested x = missing_field t.
Proof.
  destruct x; cbn [ordinary_ty missing_nested]; try discriminate; [intros [= <-]; reflexivity| | | | | | |];
    match goal with |- option_map _ ?o = _ -> _ => destruct o; [|discriminate] end; intros [= <-]; reflexivity.
Qed.
Lemma all_some_F2 {S T} (h : S -> option T) l ts : all_some (map h l) = Some ts -> Forall2 (fun x t => h x = Some t) l ts.
Proof. apply all_some_map_F2. Qed.
Theorem ordinary_direct rp w x : forall t d r, ordinary_ty x = Some t -> de_nested rp w x d r = de_direct rp w t d r.
Proof.
  induction x as [ty|e|own ps|u IH|u IH|u IH|us IH|u IH|fs IH|vs IH] using xty_ind'; intros t d r Ht; cbn [ordinary_ty] in Ht; try discriminate.
  - injection Ht as <-. reflexivity.
  - destruct (ordinary_ty u) as [t'|]; [|discriminate]. injection Ht as <-. cbn [de_nested]. rewrite (IH t' d r eq_refl). destruct w; reflexivity.
  - destruct (ordinary_ty u) as [t'|]; [|discriminate]. injection Ht as <-. cbn [de_nested]. rewrite (IH t' d r eq_refl). destruct w; reflexivity.
  - destruct (ordinary_ty u) as [t'|] eqn:Eu; [|discriminate]. injection Ht as <-. cbn [de_nested].
    assert (G : forall e l, read_list (fun u => de_nested rp w u e) u l = each_of (de_direct rp w t' e) l) by (intros e l; apply (each_ext (de_nested rp w u e)); intros; apply IH; reflexivity).
    assert (O : forall b, read_octets (octet_nested rp) u b = visit_u8_all t' b).
    { induction b as [|c b IHb]; [reflexivity|]. cbn [read_octets visit_u8_all]. fold (read_octets (octet_nested rp) u). rewrite IHb, (ordinary_octet rp u t' c Eu). reflexivity. }
    destruct w as [|A]; cbn [de_direct] in *; [rewrite de_plain_seq|rewrite de_wrap_seq]; destruct r; try reflexivity; destruct (enter d); try reflexivity; cbn [objects].
    + rewrite G. reflexivity.
    + rewrite G. reflexivity.
    + destruct (classify_obj A l); try reflexivity. rewrite O. reflexivity.
  - destruct (all_some (map ordinary_ty us)) as [ts|] eqn:Eu; [|discriminate]. injection Ht as <-. apply all_some_F2 in Eu. cbn [de_nested].
    assert (G : forall e l, read_tuple (fun u => de_nested rp w u e) us l = zip_of (fun t => de_direct rp w t e) ts l).
    { intros e. induction Eu as [|u t us ts Hu Eu IHu]; intros [|x l]; try reflexivity. inversion IH as [|? ? I1 I2]; subst. cbn [read_tuple zip_of].
      fold (read_tuple (fun u => de_nested rp w u e)) (zip_of (fun t => de_direct rp w t e)). rewrite (I1 t e x Hu), (IHu I2). reflexivity. }
    assert (O : forall b, read_octets_in_order (octet_nested rp) us b = visit_u8_each ts b).
    { clear IH G. induction Eu as [|u t us ts Hu Eu IHu]; intros [|c b]; try reflexivity. cbn [read_octets_in_order visit_u8_each].
      fold (read_octets_in_order (octet_nested rp)). rewrite (ordinary_octet rp u t c Hu), IHu. reflexivity. }
    destruct w as [|A]; cbn [de_direct] in *; [rewrite de_plain_tuple|rewrite de_wrap_tuple]; destruct r; try reflexivity; destruct (enter d); try reflexivity; cbn [objects].
    + rewrite G. reflexivity.
    + rewrite G. reflexivity.
    + destruct (classify_obj A l); try reflexivity. rewrite O. reflexivity.
  - destruct (ordinary_ty u) as [t'|]; [|discriminate]. injection Ht as <-. cbn [de_nested].
    assert (G : forall e m, read_dict (fun u => de_nested rp w u e) u m [] = map_of (de_direct rp w t' e) m []) by (intros e m; apply (map_ext_of (de_nested rp w u e)); intros; apply IH; reflexivity).
    destruct w as [|A]; cbn [de_direct] in *; [rewrite de_plain_map|rewrite de_wrap_map]; destruct r; try reflexivity; destruct (enter d); try reflexivity; cbn [objects].
    + destruct (str_members l); [|reflexivity]. rewrite G. reflexivity.
    + destruct (classify_obj A l); try reflexivity. destruct (str_members l); [|reflexivity]. rewrite G. reflexivity.
  - destruct (all_some _) as [ts|] eqn:Eu; [|discriminate]. injection Ht as <-. apply all_some_F2 in Eu. cbn [de_nested].
    assert (G : forall e l, read_fields_in_order (fun u => de_nested rp w u e) fs l = zip_fields (fun t => de_direct rp w t e) ts l).
    { intros e. induction Eu as [|[k u] t us ts Hu Eu IHu]; intros [|x l]; try reflexivity; cbn [fst snd] in Hu;
        (destruct (ordinary_ty u) as [t'|] eqn:Et; [|discriminate]); injection Hu as <-; [reflexivity|]. inversion IH as [|? ? I1 I2]; subst. cbn [read_fields_in_order zip_fields].
      fold (read_fields_in_order (fun u => de_nested rp w u e)) (zip_fields (fun t => de_direct rp w t e)). cbn [snd] in I1. rewrite (I1 t' e x Et), (IHu I2). reflexivity. }
    assert (F : forall e m, read_fields (fun u => de_nested rp w u e) missing_nested m fs = fields_of (fun t => de_direct rp w t e) m ts).
    { intros e m. clear G. induction Eu as [|[k u] t us ts Hu Eu IHu]; [reflexivity|]; cbn [fst snd] in Hu;
        (destruct (ordinary_ty u) as [t'|] eqn:Et; [|discriminate]); injection Hu as <-. inversion IH as [|? ? I1 I2]; subst. cbn [read_fields fields_of].
      fold (read_fields (fun u => de_nested rp w u e) missing_nested m) (fields_of (fun t => de_direct rp w t e) m). cbn [snd] in I1. rewrite (IHu I2).
      unfold field_of. destruct (members_named k m) as [|x [|]]; [rewrite (ordinary_missing u t' Et)|rewrite (I1 t' e x Et)|]; reflexivity. }
    assert (O : forall b, read_octets_in_order (octet_nested rp) (map snd fs) b = visit_u8_each (map snd ts) b).
    { clear IH G F. induction Eu as [|[k u] t us ts Hu Eu IHu]; intros [|c b]; try reflexivity; cbn [fst snd] in Hu;
        (destruct (ordinary_ty u) as [t'|] eqn:Et; [|discriminate]); injection Hu as <-. cbn [map snd read_octets_in_order visit_u8_each].
      fold (read_octets_in_order (octet_nested rp)). rewrite (ordinary_octet rp u t' c Et), IHu. reflexivity. }
    destruct w as [|A]; cbn [de_direct] in *; [rewrite de_plain_struct|rewrite de_wrap_struct]; destruct r; try (destruct (enter d); reflexivity); destruct (enter d); try reflexivity; cbn [objects].
    + rewrite G. reflexivity.
    + destruct (str_members l); [|reflexivity]. rewrite F. reflexivity.
    + rewrite G. reflexivity.
    + destruct (classify_obj A l); try reflexivity; [rewrite O; reflexivity|]. destruct (str_members l); [|reflexivity]. rewrite F. reflexivity.
  - destruct (all_some _) as [ts|] eqn:Eu; [|discriminate]. injection Ht as <-. apply all_some_F2 in Eu. cbn [de_nested].
    assert (N : forall name, named_variant name vs = variant_of (fun n tag _ => match tag with VtUnit => Some (XVariant n XUnit) | _ => None end) name ts).
    { intros name. clear IH. induction Eu as [|[k [tag u]] t us ts Hu Eu IHu]; [reflexivity|]; cbn [fst snd] in Hu;
        (destruct (ordinary_ty u) as [t'|]; [|discriminate]); injection Hu as <-. cbn [named_variant variant_of]. 
      fold (@named_variant xty name) (variant_of (fun n tag _ => match tag with VtUnit => Some (XVariant n XUnit) | _ => None end) name). rewrite IHu. reflexivity. }
    assert (V : forall e x name, read_variant (fun u => de_nested rp w u e) x name vs =
      variant_of (fun n tag t => match tag with
        | VtUnit => match x with RNull => Some (XVariant n XUnit) | _ => None end
        | VtTuple => match x with RArr _ => option_map (XVariant n) (de_direct rp w t e x) | _ => None end
        | _ => option_map (XVariant n) (de_direct rp w t e x) end) name ts).
    { intros e x name. clear N. induction Eu as [|[k [tag u]] t us ts Hu Eu IHu]; [reflexivity|]; cbn [fst snd] in Hu;
        (destruct (ordinary_ty u) as [t'|] eqn:Et; [|discriminate]); injection Hu as <-. inversion IH as [|? ? I1 I2]; subst. cbn [read_variant variant_of]. cbn [snd] in I1.
      match goal with |- (if _ then _ else ?a) = (if _ then _ else ?b) => change a with (read_variant (fun u => de_nested rp w u e) x name us) end.
      rewrite (IHu I2), (I1 t' e x Et). reflexivity. }
    destruct w as [|A]; cbn [de_direct] in *; [rewrite de_plain_enum|rewrite de_wrap_enum]; destruct r as [| | |b| |[|[k x] [|]]]; try reflexivity.
    + destruct (unescape b); [|reflexivity]. apply N.
    + destruct (enter d); [|reflexivity]. destruct (unescape k); [|reflexivity]. rewrite V. apply variant_ext. intros m tag t _. destruct tag; reflexivity.
    + rewrite de_plain_enum. destruct (unescape b); [|reflexivity]. apply N.
    + destruct (enter d); [|reflexivity]. destruct (unescape k); [|reflexivity]. rewrite V. apply variant_ext. intros m tag t _. destruct tag; reflexivity.
Qed.
Theorem nested_ordinary x t g : ordinary_ty x = Some t -> arg_nested x g = arg_deserialize t g.
Proof.
  intros Hx. unfold arg_nested, arg_deserialize, from_str_typed, deserialize_with, way_of. destruct g as [text [|s A]]; cbn [g_text g_attachments].
  - destruct (scan_doc text) as [r|]; [|reflexivity]. rewrite (ordinary_direct _ Plain x t 128 r Hx). reflexivity.
  - destruct (scan_value _ text) as [[r rest]|]; [|reflexivity]. rewrite (ordinary_direct _ (Wrapped (s :: A)) x t 128 r Hx). reflexivity.
Qed.

(** ** Lists, by the texts of their elements *)
Lemma nested_alone g : (forall t, arg_nested (XTy t) g = arg_deserialize t g) /\ (forall e, arg_nested (XEnum e) g = arg_enum e g) /\
  (forall own ps, arg_nested (XFlatten own ps) g = arg_flat own ps g).
Proof. split; [intros t; apply nested_ordinary; reflexivity|]. split; reflexivity. Qed.
Lemma items_elems ts body : jitems ts body -> exists rs, jelems rs body /\ Forall2 jvalue rs ts.
Proof.
  induction 1 as [v t w1 w2 H1 H2 J|v t w1 w2 l t' H1 H2 J H IH].
  - exists [v]. split; constructor; auto.
  - destruct IH as (rs & HE & HF). exists (v :: rs). split; constructor; auto.
Qed.
Theorem nested_list u body ts A v : jitems ts body -> Forall (fun t => exists r, jvalue r t /\ within 126 r) ts -> contents A <> None ->
  (arg_nested (XVec u) (Arg ("["%byte :: body ++ ["]"%byte]) A) = Ok v <->
   exists vs, v = DeModel.XSeq vs /\ Forall2 (fun t v => arg_nested u (Arg t A) = Ok v) ts vs).
Proof.
  intros Hi Hd HA. destruct (items_elems ts body Hi) as (rs & HE & HF).
  assert (HW : Forall2 (fun r t => jvalue r t /\ within 126 r) rs ts).
  { clear Hi HE. induction HF as [|r t rs ts J HF IH]; [constructor|]. inversion Hd as [|? ? (r' & J' & W) Hd']; subst.
    rewrite <- (jvalue_unique _ _ _ J J') in W. constructor; auto. }
  assert (W : within 127 (RArr rs)) by (change (allP (within 126) rs); clear -HW; induction HW as [|r t rs ts [_ W] HW IH]; [exact I|split; assumption]).
  rewrite (nested_exact (XVec u) (RArr rs) _ A v (jv_arr rs body HE) W HA).
  assert (G : forall vs, Forall2 (piece A u) rs vs <-> Forall2 (fun t v => arg_nested u (Arg t A) = Ok v) ts vs).
  { clear -HW HA. induction HW as [|r t rs ts [J W] HW IH]; intros vs.
    - split; intros H; inversion H; constructor.
    - assert (E := fun v => nested_exact u r t A v J (within_more 126 127 r ltac:(lia) W) HA).
      split; intros H; inversion H; subst; constructor; try (apply IH; assumption); apply E; assumption. }
  split.
  - intros H. inversion H as [| | | | | |? ? vs HP| | | | | | | | | |]; subst. exists vs. split; [reflexivity|]. apply G. exact HP.
  - intros (vs & -> & H). apply pi_vec. apply G. exact H.
Qed.
