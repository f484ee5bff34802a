(** Proofs about attachments in buffers (C74-C76, C84). *)
From Verif Require Export SpecFilled FlattenProofs.

(** ** Buffers of a text and of its spelt-out form *)
Section Spelt.
Variables (A : list subslice_t) (bl : list bytes).
Hypothesis HA : contents A = Some bl.
Notation wrapped := (content_of (classify_obj A)).
Notation plain := (content_of (fun _ => OMMap)).

Lemma ordinary_map l : ordinary_first l -> classify_obj A l = OMMap.
Proof.
  intros H. destruct (classify_cases A bl HA l) as [(b & (f & x & n & -> & _) & _)|[[(k & x & l' & -> & Hb) _]|[E _]]]; [| |exact E].
  - destruct H as [_ H]. destruct (H eq_refl).
  - destruct H as [H1 H2]. destruct Hb as [Hb|[Hb _]]; [|contradiction]. apply no_backslash_in in H1. contradiction.
Qed.
Lemma stands_buffer l b : stands_for bl l b -> classify_obj A l = OMBuffer b.
Proof.
  intros Hs. destruct (classify_cases A bl HA l) as [(b' & Hs' & ->)|[[Hb _]|[_ Hm]]].
  - destruct Hs as (? & ? & ? & -> & Hx & Hn). destruct Hs' as (? & ? & ? & [= <- <-] & Hx' & Hn'). congruence.
  - destruct (stands_start bl l b Hs Hb).
  - destruct Hs as (f & y & k & -> & _). destruct (proj2 (Hm _ _ _ eq_refl)). reflexivity.
Qed.
Lemma map_ordinary l : classify_obj A l = OMMap -> ordinary_first l.
Proof.
  destruct (classify_cases A bl HA l) as [(b & _ & ->)|[[_ ->]|[_ H]]]; try discriminate. intros _.
  destruct l as [|[k x] l]; [exact I|]. destruct (H _ _ _ eq_refl) as [H1 H2]. split; [apply no_backslash_in; exact H1|exact H2].
Qed.
Lemma buffer_stands l b : classify_obj A l = OMBuffer b -> stands_for bl l b.
Proof. destruct (classify_cases A bl HA l) as [(b' & H & ->)|[[_ ->]|[-> _]]]; try discriminate. intros [= <-]. exact H. Qed.

Lemma content_spelt r : forall d r', spelt bl r r' -> wrapped d r = plain d r'.
Proof.
  induction r as [|b|x|s|l IH|l IH] using raw_ind'; intros d r' H; inversion H as [? Hx|? l' HF|? b' Hs|? l' Ho HF]; subst; try reflexivity; try contradiction.
  - cbn [content_of]. destruct (enter d) as [d'|]; [|reflexivity]. f_equal. clear H.
    induction HF as [|x y l l' Hx HF IHF]; [reflexivity|]. inversion IH as [|? ? I1 I2]; subst. rewrite (I1 d' y Hx), (IHF I2). reflexivity.
  - destruct (enter d) as [d'|] eqn:Ed; [|cbn [content_of]; rewrite Ed; reflexivity]. rewrite (octets_buffer d d' b' Ed). cbn [content_of].
    rewrite Ed, (stands_buffer _ _ Hs). reflexivity.
  - cbn [content_of]. destruct (enter d) as [d'|]; [|reflexivity]. rewrite (ordinary_map l Ho). f_equal. clear H Ho.
    induction HF as [|[k x] [k' y] l l' [Hk Hx] HF IHF]; [reflexivity|]. cbn [fst snd] in *. subst k'. inversion IH as [|? ? I1 I2]; subst. cbn [snd] in I1.
    rewrite (I1 d' y Hx), (IHF I2). reflexivity.
Qed.
Lemma content_has r : forall d c, wrapped d r = Some c -> exists r', spelt bl r r'.
Proof.
  induction r as [|b|x|s|l IH|l IH] using raw_ind'; intros d c H; try (eexists; apply sp_scalar; exact I).
  - apply content_arr in H as (d' & cs & _ & _ & HF).
    assert (exists l', Forall2 (spelt bl) l l') as [l' Hl'].
    { clear c. induction HF as [|x k l cs Hx HF IHF]; [exists []; constructor|]. inversion IH as [|? ? I1 I2]; subst.
      destruct (I1 d' k Hx) as [y Hy]. destruct (IHF I2) as [l' Hl']. exists (y :: l'). constructor; assumption. }
    exists (RArr l'). apply sp_arr. exact Hl'.
  - apply content_obj in H as (d' & _ & [(b & Hb & _)|(Hm & m & _ & HF)]).
    + exists (RArr (map byte_lit b)). apply sp_attachment. apply buffer_stands. exact Hb.
    + apply map_ordinary in Hm.
      assert (exists l', Forall2 (fun a a' => fst a = fst a' /\ spelt bl (snd a) (snd a')) l l') as [l' Hl'].
      { clear c Hm. induction HF as [|[k x] [k' c] l m [_ Hx] HF IHF]; [exists []; constructor|]. inversion IH as [|? ? I1 I2]; subst. cbn [snd] in *.
        destruct (I1 d' c Hx) as [y Hy]. destruct (IHF I2) as [l' Hl']. exists ((k, y) :: l'). constructor; [split; [reflexivity|exact Hy]|assumption]. }
      exists (RObj l'). apply sp_obj; assumption.
Qed.
End Spelt.

(** Every spelt-out form of a text has a text. *)
Lemma spelt_texts bl :
  (forall r t, jvalue r t -> forall r', spelt bl r r' -> exists t', jvalue r' t') /\
  (forall l t, jelems l t -> forall l', Forall2 (spelt bl) l l' -> Forall (fun r => exists t, jvalue r t) l') /\
  (forall l t, jmembers l t -> forall l', spelt_members bl l l' -> Forall (fun m => jbody (fst m) /\ exists t, jvalue (snd m) t) l').
Proof.
  unfold spelt_members. apply json_mutind.
  1-5: intros; match goal with H : spelt _ _ _ |- _ => inversion H; subst end; eexists; constructor; assumption.
  - intros w Hw r' H. inversion H as [|? l' HF| |]; subst; [contradiction|]. inversion HF. apply array_text. constructor.
  - intros l t Hl IH r' H. inversion H as [|? l' HF| |]; subst; [contradiction|]. apply array_text. apply IH. exact HF.
  - intros w Hw r' H. inversion H as [| |? b (? & ? & ? & ? & _)|? l' Ho HF]; subst; [contradiction|discriminate|]. inversion HF. apply object_text. constructor.
  - intros l t Hl IH r' H. inversion H as [| |? b Hs|? l' Ho HF]; subst; [contradiction| |].
    + apply array_text. apply Forall_forall. intros x Hx. apply in_map_iff in Hx as (c & <- & _). apply byte_lit_text.
    + apply object_text. apply IH. exact HF.
  - intros v t w1 w2 _ _ Hv IH l' H. inversion H as [|? y ? ? Hy HF]; subst. inversion HF; subst. constructor; [apply IH; exact Hy|constructor].
  - intros v t w1 w2 l t' _ _ Hv IH Hl IHl l' H. inversion H as [|? y ? ? Hy HF]; subst. constructor; [apply IH; exact Hy|apply IHl; exact HF].
  - intros k v t w1 w2 w3 w4 _ _ _ _ Hk Hv IH l' H. inversion H as [|? [k' y] ? ? [E Hy] HF]; subst. cbn [fst snd] in *. subst k'. inversion HF; subst.
    constructor; [cbn [fst snd]; split; [exact Hk|apply IH; exact Hy]|constructor].
  - intros k v t w1 w2 w3 w4 l t' _ _ _ _ Hk Hv IH Hl IHl l' H. inversion H as [|? [k' y] ? ? [E Hy] HF]; subst. cbn [fst snd] in *. subst k'.
    constructor; [cbn [fst snd]; split; [exact Hk|apply IH; exact Hy]|apply IHl; exact HF].
Qed.
Lemma spelt_text bl r t r' : jvalue r t -> spelt bl r r' -> exists t', jvalue r' t'.
Proof. intros H. exact (proj1 (spelt_texts bl) r t H r'). Qed.

(** ** Buffers do not depend on the recursion bound *)
Fixpoint cshort (n : nat) (c : content) : Prop :=
  match c with
  | KStr _ s => length s < n
  | KSeq l => allP (cshort n) l
  | KMap l => allP (fun '(_, x) => cshort n x) l
  | _ => True
  end.
Lemma content_short cls n r : short n r -> forall d c, content_of cls d r = Some c -> cshort n c.
Proof.
  induction r as [|b|x|s|l IH|l IH] using raw_ind'; intros Hs d c H.
  - injection H as <-. exact I.
  - injection H as <-. exact I.
  - cbn [content_of] in H. destruct (num_of x); [|discriminate]. injection H as <-. exact I.
  - cbn [content_of] in H. destruct (unescape s) as [t|] eqn:E; [|discriminate]. injection H as <-. cbn [cshort short] in *. apply unescape_length in E. lia.
  - apply content_arr in H as (d' & cs & _ & -> & HF). cbn [cshort short] in *.
    induction HF as [|x k l cs Hx HF IHF]; [exact I|]. inversion IH as [|? ? I1 I2]; subst. destruct Hs as [S1 S2]. split; [exact (I1 S1 d' k Hx)|exact (IHF I2 S2)].
  - apply content_obj in H as (d' & _ & [(b & _ & ->)|(_ & m & -> & HF)]).
    + cbn [cshort]. rewrite allP_In. intros y Hy. apply in_map_iff in Hy as (? & <- & _). exact I.
    + cbn [cshort short] in *. induction HF as [|[k x] [k' c] l m [_ Hx] HF IHF]; [exact I|]. inversion IH as [|? ? I1 I2]; subst. cbn [snd] in *.
      destruct Hs as [S1 S2]. split; [exact (I1 S1 d' c Hx)|exact (IHF I2 S2)].
Qed.
Section Content_ind.
Variable P : content -> Prop.
Hypothesis H1 : P KNull.
Hypothesis H2 : forall b, P (KBool b).
Hypothesis H3 : forall n, P (KNum n).
Hypothesis H4 : forall b s, P (KStr b s).
Hypothesis H5 : forall l, Forall P l -> P (KSeq l).
Hypothesis H6 : forall l, Forall (fun kc => P (snd kc)) l -> P (KMap l).
Fixpoint content_ind' (c : content) : P c :=
  match c with
  | KNull => H1 | KBool b => H2 b | KNum n => H3 n | KStr b s => H4 b s
  | KSeq l => H5 l ((fix go l : Forall P l := match l with [] => Forall_nil _ | x :: l' => Forall_cons x (content_ind' x) (go l') end) l)
  | KMap l => H6 l ((fix go l : Forall (fun kc => P (snd kc)) l :=
      match l with [] => Forall_nil _ | kc :: l' => Forall_cons kc (content_ind' (snd kc)) (go l') end) l)
  end.
End Content_ind.
Section Same.
Variables (rp rp' : bytes -> option value) (n : nat).
Hypothesis Hr : same_below n rp rp'.
Lemma content_value_same c : cshort n c -> content_value rp c = content_value rp' c.
Proof.
  induction c as [|b|x|b s|l IH|l IH] using content_ind'; intros Hs; try reflexivity.
  - rewrite !content_value_seq. do 2 f_equal. cbn [cshort] in Hs. rewrite allP_In in Hs. rewrite Forall_forall in IH. apply map_ext_in. auto.
  - destruct l as [|[k x] l]; [reflexivity|]. destruct (bytes_eqb k raw_token) eqn:E.
    + cbn [content_value]. rewrite E. destruct x; try reflexivity. destruct l; [|reflexivity]. cbn [cshort allP] in Hs. apply Hr. apply Hs.
    + apply bytes_eqb_neq in E. rewrite !content_value_map by (intros ? ? ? [= <- <- <-]; exact E). do 2 f_equal. cbn [cshort] in Hs. rewrite allP_In in Hs.
      rewrite Forall_forall in IH. apply map_ext_in. intros [k' y] Hy. pose proof (IH _ Hy (Hs _ Hy)) as Ey. cbn [fst snd] in *. rewrite Ey. reflexivity.
Qed.
Lemma each_c_ext f g l : (forall x, In x l -> f x = g x) -> each_c f l = each_c g l.
Proof. induction l as [|x l IH]; intros H; [reflexivity|]. cbn [each_c]. fold (each_c f) (each_c g). rewrite (H x (or_introl eq_refl)), IH; [reflexivity|]. intros y Hy. apply H. right. exact Hy. Qed.
Lemma zip_c_ext f g ts : forall l, (forall u x, In u ts -> In x l -> f u x = g u x) -> zip_c f ts l = zip_c g ts l.
Proof.
  induction ts as [|u ts IH]; intros [|x l] H; try reflexivity. cbn [zip_c]. fold (zip_c f) (zip_c g).
  rewrite (H u x (or_introl eq_refl) (or_introl eq_refl)), IH; [reflexivity|]. intros u' x' Hu Hx. apply H; right; assumption.
Qed.
Lemma zipf_c_ext f g fs : forall l, (forall a u x, In (a, u) fs -> In x l -> f u x = g u x) -> zipf_c f fs l = zipf_c g fs l.
Proof.
  induction fs as [|[a u] fs IH]; intros [|x l] H; try reflexivity. cbn [zipf_c]. fold (zipf_c f) (zipf_c g).
  rewrite (H a u x (or_introl eq_refl) (or_introl eq_refl)), IH; [reflexivity|]. intros a' u' x' Hu Hx. apply (H a'); right; assumption.
Qed.
Lemma map_c_ext f g m : (forall k x, In (k, x) m -> f x = g x) -> forall acc, map_c f m acc = map_c g m acc.
Proof.
  induction m as [|[k x] m IH]; intros H acc; [reflexivity|]. cbn [map_c]. fold (map_c f) (map_c g).
  rewrite (H k x (or_introl eq_refl)). destruct (g x); [|reflexivity]. apply IH. intros k' x' Hx. apply (H k'). right. exact Hx.
Qed.
Lemma contents_named_in f m x : In x (contents_named f m) -> exists k, In (k, x) m.
Proof. unfold contents_named. intros H. apply in_map_iff in H as ([k y] & <- & H). apply filter_In in H as [H _]. exists k. exact H. Qed.
Lemma fields_same f g m fs : (forall a u x, In (a, u) fs -> In x (contents_named a m) -> f u x = g u x) -> fields_c f m fs = fields_c g m fs.
Proof.
  induction fs as [|[a u] fs IH]; intros H; [reflexivity|]. cbn [fields_c]. fold (fields_c f m) (fields_c g m). rewrite IH by (intros a' u' x Hf Hx; apply (H a'); [right; exact Hf|exact Hx]).
  assert (field_c f m a u = field_c g m a u) as ->; [|reflexivity]. unfold field_c. destruct (contents_named a m) as [|x [|]] eqn:E; try reflexivity.
  apply (H a u x (or_introl eq_refl)). rewrite E. left. reflexivity.
Qed.
Lemma de_content_same owned t : forall c, cshort n c -> de_content rp owned t c = de_content rp' owned t c.
Proof.
  induction t as [|lo hi| | | | | | |u IH|u IH|u IH|ts IH|u IH|fs IH|vs IH| | | |lo hi u IH] using ty_ind'; intros c Hs; try reflexivity.
  - cbn [de_content]. destruct c; auto; rewrite IH by exact Hs; reflexivity.
  - cbn [de_content]. rewrite IH by exact Hs. reflexivity.
  - destruct c; try reflexivity. rewrite !dc_seq. f_equal. cbn [cshort] in Hs. rewrite allP_In in Hs. apply each_c_ext. auto.
  - destruct c; try reflexivity. rewrite !dc_tuple. f_equal. cbn [cshort] in Hs. rewrite allP_In in Hs. rewrite Forall_forall in IH. apply zip_c_ext. auto.
  - destruct c; try reflexivity. rewrite !dc_map. f_equal. cbn [cshort] in Hs. rewrite allP_In in Hs. apply map_c_ext. intros k x Hx. apply IH. exact (Hs _ Hx).
  - rewrite Forall_forall in IH. destruct c; try reflexivity; cbn [cshort] in Hs; rewrite allP_In in Hs.
    + rewrite !dc_struct_seq. f_equal. apply zipf_c_ext. intros a u x Hu Hx. apply (IH _ Hu). auto.
    + rewrite !dc_struct_map. f_equal. apply fields_same. intros a u x Hu Hx. apply contents_named_in in Hx as [k Hx]. apply (IH _ Hu). exact (Hs _ Hx).
  - destruct c as [| | | | |[|[k x] [|]]]; try reflexivity. rewrite !dc_enum_map. apply variant_ext. intros m tag u Hu. rewrite Forall_forall in IH.
    cbn [cshort allP] in Hs. specialize (IH _ Hu x (proj1 Hs)). cbn [snd] in IH. unfold variant_c. rewrite IH. reflexivity.
  - cbn [de_content]. rewrite content_value_same by exact Hs. reflexivity.
Qed.
Lemma alt_content_same owned a c : cshort n c -> alt_content rp owned a c = alt_content rp' owned a c.
Proof. intros Hs. destruct a as [|t|fs]; cbn [alt_content]; [reflexivity|apply de_content_same; exact Hs|]. destruct c; try reflexivity. apply de_content_same. exact Hs. Qed.
Lemma tagged_content_same a c : cshort n c -> tagged_content rp a c = tagged_content rp' a c.
Proof. intros Hs. destruct a as [|t|fs]; cbn [tagged_content]; [reflexivity|apply de_content_same; exact Hs|apply de_content_same; exact Hs]. Qed.
Lemma try_same alts c : cshort n c -> try_alts rp alts c = try_alts rp' alts c.
Proof. intros Hs. induction alts as [|[m a] alts IH]; [reflexivity|]. cbn [try_alts]. rewrite (alt_content_same false a c Hs), IH. reflexivity. Qed.
End Same.

(** ** C74 *)
Lemma way_wrapped text A : A <> [] -> way_of (Arg text A) = Wrapped A.
Proof. intros H. unfold way_of. cbn [g_attachments]. destruct A; [congruence|reflexivity]. Qed.
Theorem untagged_spelt alts text r A bl r' text' x : jvalue r text -> A <> [] -> contents A = Some bl -> spelt bl r r' -> jvalue r' text' ->
  arg_enum (Untagged alts) (Arg text A) = Ok x <-> arg_enum (Untagged alts) (Arg text' []) = Ok x.
Proof.
  intros Hr HA Hbl Hs Hr'. rewrite (arg_enum_ok _ _ _ _ _ Hr), (arg_enum_ok _ _ _ _ _ Hr'), (way_wrapped text A HA).
  change (way_of (Arg text' [])) with Plain. cbn [de_enum]. unfold de_untagged. cbn [objects].
  rewrite (content_spelt A bl Hbl r 128 r' Hs). destruct (content_of (fun _ => OMMap) 128 r') as [c|] eqn:E; [|reflexivity].
  rewrite (try_same _ _ _ (reparse_below text') alts c (content_short _ _ _ (proj1 jvalue_short _ _ Hr') _ _ E)).
  rewrite (try_same _ _ _ (reparse_below text) alts c); [reflexivity|].
  rewrite <- (content_spelt A bl Hbl r 128 r' Hs) in E. exact (content_short _ _ _ (proj1 jvalue_short _ _ Hr) _ _ E).
Qed.
Theorem untagged_has_spelling alts text r A bl x : jvalue r text -> A <> [] -> contents A = Some bl ->
  arg_enum (Untagged alts) (Arg text A) = Ok x -> exists r' text', spelt bl r r' /\ jvalue r' text'.
Proof.
  intros Hr HA Hbl H. apply (arg_enum_ok _ _ _ _ _ Hr) in H. rewrite (way_wrapped text A HA) in H. cbn [de_enum] in H. unfold de_untagged in H. cbn [objects] in H.
  destruct (content_of (classify_obj A) 128 r) as [c|] eqn:E; [|discriminate]. destruct (content_has A bl Hbl r 128 c E) as [r' Hs].
  destruct (spelt_text bl r text r' Hr Hs) as [t' Ht]. exists r', t'. auto.
Qed.

(** ** C76 *)
Section Loops.
Variables (A : list subslice_t) (bl : list bytes).
Hypothesis HA : contents A = Some bl.
Lemma tag_name_spelt r r' : spelt bl r r' -> tag_name r = tag_name r'.
Proof. intros H. inversion H; reflexivity. Qed.
Lemma tag_loop_spelt tag d l l' : spelt_members bl l l' -> forall found acc, tag_loop (Wrapped A) tag d l found acc = tag_loop Plain tag d l' found acc.
Proof.
  unfold spelt_members. induction 1 as [|[k x] [k' y] l l' [Hk Hx] HF IH]; intros found acc; [reflexivity|]. cbn [fst snd] in *. subst k'. cbn [tag_loop objects].
  rewrite (tag_name_spelt x y Hx), (content_spelt A bl HA x d y Hx). destruct (unescape k) as [k'|]; [|reflexivity]. destruct (bytes_eqb k' tag).
  - destruct found; [reflexivity|]. destruct (tag_name y); [apply IH|reflexivity].
  - destruct (content_of _ d y); [apply IH|reflexivity].
Qed.
Lemma contents_spelt d l l' : Forall2 (spelt bl) l l' -> contents_of (Wrapped A) d l = contents_of Plain d l'.
Proof. induction 1 as [|x y l l' Hx HF IH]; [reflexivity|]. cbn [contents_of objects]. rewrite (content_spelt A bl HA x d y Hx), IH. reflexivity. Qed.
Lemma tag_loop_spells tag d l : forall found acc r, tag_loop (Wrapped A) tag d l found acc = Some r -> exists l', spelt_members bl l l'.
Proof.
  unfold spelt_members. induction l as [|[k x] l IH]; intros found acc r H; [exists []; constructor|]. cbn [tag_loop objects] in H.
  destruct (unescape k) as [k'|]; [|discriminate]. destruct (bytes_eqb k' tag).
  - destruct found; [discriminate|]. destruct (tag_name x) as [n|] eqn:Et; [|discriminate]. destruct (IH _ _ _ H) as [l' Hl].
    exists ((k, x) :: l'). constructor; [|exact Hl]. split; [reflexivity|]. destruct x; try discriminate. apply sp_scalar. exact I.
  - destruct (content_of _ d x) as [c|] eqn:Ec; [|discriminate]. destruct (IH _ _ _ H) as [l' Hl]. destruct (content_has A bl HA x d c Ec) as [y Hy].
    exists ((k, y) :: l'). constructor; [|exact Hl]. split; [reflexivity|exact Hy].
Qed.
Lemma contents_spells d l cs : contents_of (Wrapped A) d l = Some cs -> exists l', Forall2 (spelt bl) l l'.
Proof.
  revert cs. induction l as [|x l IH]; intros cs H; [exists []; constructor|]. cbn [contents_of objects] in H.
  destruct (content_of _ d x) as [c|] eqn:Ec; [|discriminate]. destruct (contents_of _ d l) as [cs'|]; [|discriminate].
  destruct (IH cs' eq_refl) as [l' Hl]. destruct (content_has A bl HA x d c Ec) as [y Hy]. exists (y :: l'). constructor; assumption.
Qed.
End Loops.
Lemma tag_loop_short w tag n d l : allP (fun '(_, x) => short n x) l -> forall found acc m c, allP (fun '(_, x) => cshort n x) acc ->
  tag_loop w tag d l found acc = Some (m, c) -> cshort n c.
Proof.
  induction l as [|[k x] l IH]; intros Hs found acc m c Ha H; cbn [tag_loop] in H.
  - destruct found; [|discriminate]. injection H as _ <-. cbn [cshort]. rewrite allP_In in *. intros y Hy. apply in_rev in Hy. exact (Ha _ Hy).
  - destruct Hs as [S1 S2]. destruct (unescape k) as [k'|]; [|discriminate]. destruct (bytes_eqb k' tag).
    + destruct found; [discriminate|]. destruct (tag_name x); [|discriminate]. exact (IH S2 _ _ _ _ Ha H).
    + destruct (content_of _ d x) as [c'|] eqn:Ec; [|discriminate]. refine (IH S2 _ _ _ _ _ H). split; [|exact Ha].
      exact (content_short _ _ _ S1 _ _ Ec).
Qed.
Lemma contents_short w n d l : allP (short n) l -> forall cs, contents_of w d l = Some cs -> allP (cshort n) cs.
Proof.
  induction l as [|x l IH]; intros Hs cs H; cbn [contents_of] in H; [injection H as <-; exact I|]. destruct Hs as [S1 S2].
  destruct (content_of _ d x) as [c|] eqn:Ec; [|discriminate]. destruct (contents_of w d l) as [cs'|]; [|discriminate]. injection H as <-.
  split; [exact (content_short _ _ _ S1 _ _ Ec)|]. exact (IH S2 _ eq_refl).
Qed.
Lemma tagged_as_same rp rp' n alts m c : same_below n rp rp' -> cshort n c -> tagged_as rp alts m c = tagged_as rp' alts m c.
Proof. intros Hr Hs. unfold tagged_as. destruct (find_alt m alts) as [a|]; [|reflexivity]. rewrite (tagged_content_same _ _ _ Hr a c Hs). reflexivity. Qed.
Theorem tagged_spelt tag alts text r A bl r' text' x : jvalue r text -> not_attached r -> A <> [] -> contents A = Some bl -> spelt bl r r' -> jvalue r' text' ->
  arg_enum (Tagged tag alts) (Arg text A) = Ok x <-> arg_enum (Tagged tag alts) (Arg text' []) = Ok x.
Proof.
  intros Hr Hn HA Hbl Hs Hr'. rewrite (arg_enum_ok _ _ _ _ _ Hr), (arg_enum_ok _ _ _ _ _ Hr'), (way_wrapped text A HA).
  change (way_of (Arg text' [])) with Plain. cbn [de_enum]. unfold de_tagged. cbn [enter].
  pose proof (proj1 jvalue_short _ _ Hr) as S1. pose proof (proj1 jvalue_short _ _ Hr') as S2.
  inversion Hs as [? Hx|l l' HF|l b Hst|l l' Ho HF]; subst; cbn [not_attached short] in *.
  - destruct r'; try contradiction; reflexivity.
  - destruct HF as [|y y' l l' Hy HF]; [reflexivity|]. rewrite (tag_name_spelt bl y y' Hy). destruct (tag_name y') as [n|]; [|reflexivity].
    rewrite (contents_spelt A bl Hbl 127 l l' HF). destruct (contents_of Plain 127 l') as [cs|] eqn:E; [|reflexivity].
    rewrite (tagged_as_same _ _ _ alts n (KSeq cs) (reparse_below text') (contents_short _ _ _ _ (proj2 S2) _ E)).
    rewrite <- (contents_spelt A bl Hbl 127 l l' HF) in E.
    rewrite (tagged_as_same _ _ _ alts n (KSeq cs) (reparse_below text) (contents_short _ _ _ _ (proj2 S1) _ E)). reflexivity.
  - destruct Hst as (f & y & k & -> & _). destruct Hn as [_ Hn]. destruct (Hn eq_refl).
  - cbn [objects]. rewrite (ordinary_map A bl Hbl l Ho), (tag_loop_spelt A bl Hbl tag 127 l l' HF). destruct (tag_loop Plain tag 127 l' None []) as [[n c]|] eqn:E; [|reflexivity].
    rewrite (tagged_as_same _ _ _ alts n c (reparse_below text') (tag_loop_short Plain tag _ 127 l' S2 None [] n c I E)).
    rewrite <- (tag_loop_spelt A bl Hbl tag 127 l l' HF) in E.
    rewrite (tagged_as_same _ _ _ alts n c (reparse_below text) (tag_loop_short (Wrapped A) tag _ 127 l S1 None [] n c I E)). reflexivity.
Qed.
Theorem tagged_has_spelling tag alts text r A bl x : jvalue r text -> not_attached r -> A <> [] -> contents A = Some bl ->
  arg_enum (Tagged tag alts) (Arg text A) = Ok x -> exists r' text', spelt bl r r' /\ jvalue r' text'.
Proof.
  intros Hr Hn HA Hbl H. apply (arg_enum_ok _ _ _ _ _ Hr) in H. rewrite (way_wrapped text A HA) in H. cbn [de_enum] in H. unfold de_tagged in H. cbn [enter] in H.
  assert (exists r', spelt bl r r') as [r' Hs].
  { destruct r as [| | | |l|l]; try (eexists; apply sp_scalar; exact I).
    - destruct l as [|y l]; [discriminate|]. destruct (tag_name y) as [n|] eqn:Et; [|discriminate]. destruct (contents_of _ 127 l) as [cs|] eqn:E; [|discriminate].
      destruct (contents_spells A bl Hbl 127 l cs E) as [l' HF]. exists (RArr (y :: l')). apply sp_arr. constructor; [|exact HF].
      destruct y; try discriminate. apply sp_scalar. exact I.
    - cbn [not_attached objects] in *. rewrite (ordinary_map A bl Hbl l Hn) in H. destruct (tag_loop _ tag 127 l None []) as [p|] eqn:E; [|discriminate].
      destruct (tag_loop_spells A bl Hbl tag 127 l None [] p E) as [l' HF]. exists (RObj l'). apply sp_obj; assumption. }
  destruct (spelt_text bl r text r' Hr Hs) as [t' Ht]. exists r', t'. auto.
Qed.

(** ** C84 *)
Lemma collect_keep w names d m : collect w names d m = collect w [] d (filter (keep names) m).
Proof.
  induction m as [|[k x] m IH]; [reflexivity|]. rewrite keep_cons. cbn [collect]. destruct (is_named names k); [exact IH|]. cbn [collect is_named existsb]. rewrite IH. reflexivity.
Qed.
Lemma collect_short w n d m : allP (fun '(_, x) => short n x) m -> forall cs, collect w [] d m = Some cs -> allP (fun '(_, x) => cshort n x) cs.
Proof.
  induction m as [|[k x] m IH]; intros Hs cs H; cbn [collect is_named existsb] in H; [injection H as <-; exact I|]. destruct Hs as [S1 S2].
  destruct (content_of _ d x) as [c|] eqn:Ec; [|discriminate]. destruct (collect w [] d m) as [cs'|]; [|discriminate]. injection H as <-.
  split; [exact (content_short _ _ _ S1 _ _ Ec)|]. exact (IH S2 _ eq_refl).
Qed.
Lemma str_members_spelt A bl (HA : contents A = Some bl) l l' : spelt_members bl l l' ->
  match str_members l, str_members l' with
  | Some m, Some m' => forall d, collect (Wrapped A) [] d m = collect Plain [] d m'
  | None, None => True
  | _, _ => False
  end.
Proof.
  unfold spelt_members. induction 1 as [|[k x] [k' y] l l' [Hk Hx] HF IH]; [intros d; reflexivity|]. cbn [fst snd] in *. subst k'. cbn [str_members].
  destruct (unescape k) as [k'|]; [|exact I]. destruct (str_members l) as [m|], (str_members l') as [m'|]; try contradiction; [|exact I].
  intros d. cbn [collect is_named existsb objects]. rewrite (content_spelt A bl HA x d y Hx), IH. reflexivity.
Qed.
Lemma str_members_short n l m : str_members l = Some m -> short n (RObj l) -> allP (fun '(_, x) => short n x) m.
Proof.
  intros E Hs. cbn [short] in Hs. rewrite allP_In in *. intros [k x] Hx. apply (str_members_in l m k x E) in Hx as (k0 & _ & Hx). exact (Hs _ Hx).
Qed.
Lemma take_same rp rp' n ps : same_below n rp rp' -> forall cs, allP (fun '(_, x) => cshort n x) cs -> take_parts rp ps cs = take_parts rp' ps cs.
Proof.
  intros Hr. induction ps as [|[fs|t] ps IH]; intros cs Hs; [reflexivity| |]; cbn [take_parts].
  - rewrite (de_content_same rp rp' n Hr), IH; [reflexivity| |]; cbn [cshort]; rewrite allP_In in *; intros y Hy; apply filter_In in Hy as [Hy _]; exact (Hs _ Hy).
  - rewrite (de_content_same rp rp' n Hr), IH; [reflexivity|exact Hs|exact Hs].
Qed.
Theorem flat_spelt own ps l text A bl l' rest' x : jvalue (RObj l) text -> ordinary_first l -> A <> [] -> contents A = Some bl ->
  spelt_members bl (without (map fst own) l) l' -> jvalue (RObj l') rest' ->
  (arg_flat own ps (Arg text A) = Ok x <->
   exists vs us, x = XStruct (vs ++ us) /\ arg_deserialize (TyStruct own) (Arg text A) = Ok (XStruct vs) /\
     arg_flat [] ps (Arg rest' []) = Ok (XStruct us)).
Proof.
  intros Hr Ho HA Hbl HF Hr'. rewrite (arg_flat_ok own ps text (RObj l) A x Hr).
  assert (Ho' : A <> [] -> ordinary_first l) by (intros _; exact Ho).
  destruct (str_members l) as [m|] eqn:Em.
  2:{ unfold de_flat. cbn [enter]. rewrite (objects_map A text l Ho'), Em. split; [discriminate|]. intros (vs & us & _ & H & _).
      apply (arg_direct_ok _ _ _ _ _ Hr) in H. rewrite direct_struct in H. cbn [enter] in H. rewrite (objects_map A text l Ho'), Em in H. discriminate H. }
  pose proof (fun vs => struct_read l text A m Hr Ho' Em own (XStruct vs)) as S.
  pose proof (members_without (map fst own) l m Em) as Ew. pose proof (str_members_spelt A bl Hbl _ _ HF) as HC. rewrite Ew in HC.
  destruct (str_members l') as [m'|] eqn:Em'; [|contradiction]. cbv beta iota in HC.
  assert (P : forall us, arg_flat [] ps (Arg rest' []) = Ok (XStruct us) <-> (match collect (way_of (Arg text A)) (map fst own) 127 m with Some cs => take_parts (reparse_of text) ps cs | None => None end) = Some us).
  { intros us. rewrite (arg_flat_ok [] ps rest' (RObj l') [] _ Hr'). change (way_of (Arg rest' [])) with Plain. rewrite (way_wrapped text A HA).
    unfold de_flat. cbn [enter objects map own_fields]. rewrite Em'. rewrite (collect_keep (Wrapped A) (map fst own)), (HC 127).
    destruct (collect Plain [] 127 m') as [cs|] eqn:Ec; [|split; discriminate].
    rewrite (take_same _ _ _ ps (reparse_below rest') cs (collect_short _ _ _ _ (str_members_short _ _ _ Em' (proj1 jvalue_short _ _ Hr')) _ Ec)).
    rewrite <- (HC 127) in Ec.
    rewrite (take_same _ _ _ ps (reparse_below text) cs).
    - destruct (take_parts ever ps cs); cbn [option_map app]; split; congruence.
    - refine (collect_short _ _ _ _ _ _ Ec). refine (str_members_short _ _ _ Ew _). apply without_short. exact Hr. }
  unfold de_flat. cbn [enter]. rewrite (objects_map A text l Ho'), Em, own_fields_of.
  destruct (fields_of _ m own) as [vs|].
  - split.
    + destruct (collect _ _ 127 m) as [cs|]; [|discriminate]. destruct (take_parts _ ps cs) as [us|]; [|discriminate]. intros [= <-]. exists vs, us.
      split; [reflexivity|]. split; [apply S; reflexivity|]. apply P. reflexivity.
    + intros (vs' & us & -> & H1 & H2). apply S in H1. cbn in H1. injection H1 as ->. apply P in H2.
      destruct (collect _ _ 127 m) as [cs|]; [|discriminate]. rewrite H2. reflexivity.
  - split; [discriminate|]. intros (vs & us & _ & H & _). apply S in H. discriminate H.
Qed.
Lemma collect_spells A bl (HA : contents A = Some bl) d l m cs : str_members l = Some m -> collect (Wrapped A) [] d m = Some cs -> exists l', spelt_members bl l l'.
Proof.
  unfold spelt_members. revert m cs. induction l as [|[k x] l IH]; intros m cs E H; [exists []; constructor|]. cbn [str_members] in E. destruct (unescape k) as [k'|]; [|discriminate].
  destruct (str_members l) as [m'|]; [|discriminate]. injection E as <-. cbn [collect is_named existsb objects] in H.
  destruct (content_of _ d x) as [c|] eqn:Ec; [|discriminate]. destruct (collect _ [] d m') as [cs'|] eqn:Em; [|discriminate].
  destruct (IH m' cs' eq_refl Em) as [l' Hl]. destruct (content_has A bl HA x d c Ec) as [y Hy]. exists ((k, y) :: l'). constructor; [|exact Hl]. split; [reflexivity|exact Hy].
Qed.
Lemma object_members l t : jvalue (RObj l) t -> l = [] \/ exists t', jmembers l t'.
Proof. intros H. inversion H; subst; eauto. Qed.
Theorem flat_has_spelling own ps l text A bl x : jvalue (RObj l) text -> ordinary_first l -> A <> [] -> contents A = Some bl ->
  arg_flat own ps (Arg text A) = Ok x -> exists l' rest', spelt_members bl (without (map fst own) l) l' /\ jvalue (RObj l') rest'.
Proof.
  intros Hr Ho HA Hbl H. apply (arg_flat_ok _ _ _ _ _ _ Hr) in H. unfold de_flat in H. cbn [enter] in H. rewrite (objects_map A text l (fun _ => Ho)) in H.
  destruct (str_members l) as [m|] eqn:Em; [|discriminate]. destruct (own_fields _ _ 127 m own); [|discriminate].
  destruct (collect _ _ 127 m) as [cs|] eqn:Ec; [|discriminate]. rewrite (way_wrapped text A HA), collect_keep in Ec.
  destruct (collect_spells A bl Hbl 127 _ _ cs (members_without (map fst own) l m Em) Ec) as [l' Hl].
  destruct (jvalue_without (map fst own) l text Hr) as [rest Hj].
  assert (exists t, jvalue (RObj l') t) as [t Ht].
  { destruct (object_members _ _ Hj) as [E|[t Hm]].
    - rewrite E in Hl. inversion Hl. apply object_text. constructor.
    - apply object_text. exact (proj2 (proj2 (spelt_texts bl)) _ _ Hm _ Hl). }
  exists l', t. auto.
Qed.

(** ** C75: the content before the tag *)
Lemma relevant_app tag cont m1 m2 : relevant tag cont (m1 ++ m2) = relevant tag cont m1 ++ relevant tag cont m2.
Proof. apply filter_app. Qed.
Lemma relevant_out tag cont l m : str_members l = Some m -> Forall (fun kx => unescape (fst kx) <> Some tag /\ unescape (fst kx) <> Some cont) l -> relevant tag cont m = [].
Proof.
  intros E H. assert (K : forall k x, In (k, x) m -> k <> tag /\ k <> cont).
  { intros k x Hx. apply (str_members_in l m k x E) in Hx as (k0 & Hk & Hx). rewrite Forall_forall in H. destruct (H _ Hx) as [H1 H2]. cbn [fst] in *. split; congruence. }
  clear E H. induction m as [|[k x] m IH]; [reflexivity|]. destruct (K k x (or_introl eq_refl)) as [K1 K2]. apply bytes_eqb_neq in K1, K2.
  unfold relevant in *. cbn [filter fst]. rewrite K1, K2. cbn [orb]. apply IH. intros k' x' Hx. apply (K k' x'). right. exact Hx.
Qed.
Lemma content_first_members tag cont l1 k y l2 k' b l3 : unescape k = Some cont -> unescape k' = Some tag ->
  Forall (fun kx => unescape (fst kx) <> Some tag /\ unescape (fst kx) <> Some cont) (l1 ++ l2 ++ l3) ->
  match str_members (l1 ++ (k, y) :: l2 ++ (k', RStr b) :: l3) with
  | Some m => relevant tag cont m = [(cont, y); (tag, RStr b)]
  | None => True
  end.
Proof.
  intros Hk Hk' HF. apply Forall_app in HF as [F1 HF]. apply Forall_app in HF as [F2 F3].
  rewrite str_members_app. cbn [str_members]. rewrite Hk, str_members_app. cbn [str_members]. rewrite Hk'.
  destruct (str_members l1) as [m1|] eqn:E1; [|exact I]. destruct (str_members l2) as [m2|] eqn:E2; [|exact I]. destruct (str_members l3) as [m3|] eqn:E3; [|exact I].
  rewrite relevant_app, (relevant_out tag cont l1 m1 E1 F1). change ((cont, y) :: m2 ++ (tag, RStr b) :: m3) with ([(cont, y)] ++ m2 ++ [(tag, RStr b)] ++ m3).
  rewrite !relevant_app, (relevant_out tag cont l2 m2 E2 F2), (relevant_out tag cont l3 m3 E3 F3). unfold relevant. cbn [filter fst]. rewrite !bytes_eqb_refl.
  rewrite !Bool.orb_true_r. reflexivity.
Qed.
Lemma members_same_names l1 k y y' l2 : str_members (l1 ++ (k, y) :: l2) = None <-> str_members (l1 ++ (k, y') :: l2) = None.
Proof. rewrite !str_members_app. cbn [str_members]. destruct (str_members l1); [|tauto]. destruct (unescape k); [|tauto]. destruct (str_members l2); split; congruence. Qed.
Lemma adjacent_tag_text rp w rp' w' alts d b : adjacent_tag rp w alts d (RStr b) = adjacent_tag rp' w' alts d (RStr b).
Proof. unfold adjacent_tag. rewrite !direct_enum. reflexivity. Qed.
Lemma adjacent_content_first rp w tag cont alts d' l y b m : tag <> cont -> objects w l = OMMap -> str_members l = Some m -> relevant tag cont m = [(cont, y); (tag, RStr b)] ->
  enter (S d') = Some d' -> de_adjacent rp w tag cont alts (S d') (RObj l) =
  match content_of (objects w) d' y, adjacent_tag rp w alts d' (RStr b) with
  | Some c, Some n => adjacent_as alts n (fun a => alt_content rp true a c)
  | _, _ => None
  end.
Proof.
  intros Hne Ho Em Er Ed. unfold de_adjacent. rewrite Ed, Ho, Em, Er. rewrite bytes_eqb_refl.
  replace (bytes_eqb cont tag) with false by (symmetry; apply bytes_eqb_neq; congruence). reflexivity.
Qed.
Theorem adjacent_spelt tag cont alts text l A bl y y' l' text' x : tag <> cont -> jvalue (RObj l) text -> ordinary_first l -> A <> [] -> contents A = Some bl ->
  spelt bl y y' -> content_ahead tag cont y y' l l' -> jvalue (RObj l') text' ->
  arg_enum (Adjacent tag cont alts) (Arg text A) = Ok x <-> arg_enum (Adjacent tag cont alts) (Arg text' []) = Ok x.
Proof.
  intros Hne Hr Ho HA Hbl Hs (l1 & k & l2 & k' & b & l3 & -> & -> & Hk & Hk' & HF) Hr'.
  rewrite (arg_enum_ok _ _ _ _ _ Hr), (arg_enum_ok _ _ _ _ _ Hr'), (way_wrapped text A HA). change (way_of (Arg text' [])) with Plain. cbn [de_enum].
  pose proof (content_first_members tag cont l1 k y l2 k' b l3 Hk Hk' HF) as M. pose proof (content_first_members tag cont l1 k y' l2 k' b l3 Hk Hk' HF) as M'.
  pose proof (members_same_names l1 k y y' (l2 ++ (k', RStr b) :: l3)) as [N1 N2].
  assert (Sy : short (length text) y). { pose proof (proj1 jvalue_short _ _ Hr) as S. cbn [short] in S. rewrite allP_In in S. apply (S (k, y)). apply in_app_iff. right. left. reflexivity. }
  assert (Sy' : short (length text') y'). { pose proof (proj1 jvalue_short _ _ Hr') as S. cbn [short] in S. rewrite allP_In in S. apply (S (k, y')). apply in_app_iff. right. left. reflexivity. }
  destruct (str_members (l1 ++ (k, y) :: l2 ++ (k', RStr b) :: l3)) as [m|] eqn:Em.
  - destruct (str_members (l1 ++ (k, y') :: l2 ++ (k', RStr b) :: l3)) as [m'|] eqn:Em'; [|discriminate (N2 eq_refl)].
    rewrite (adjacent_content_first _ (Wrapped A) tag cont alts 127 _ y b m Hne (ordinary_map A bl Hbl _ Ho) Em M eq_refl).
    rewrite (adjacent_content_first _ Plain tag cont alts 127 _ y' b m' Hne eq_refl Em' M' eq_refl). cbn [objects].
    rewrite (adjacent_tag_text (reparse_of text) (Wrapped A) (reparse_of text') Plain). pose proof (content_spelt A bl Hbl y 127 y' Hs) as E.
    destruct (content_of (fun _ => OMMap) 127 y') as [c|] eqn:Ec; [|rewrite E; reflexivity]. rewrite E.
    destruct (adjacent_tag _ _ alts 127 (RStr b)) as [n|]; [|reflexivity].
    rewrite (adjacent_as_ext alts n (fun a => alt_content (reparse_of text) true a c) (fun a => alt_content (reparse_of text') true a c)); [reflexivity|].
    intros a _. rewrite (alt_content_same _ _ _ (reparse_below text) true a c (content_short _ _ _ Sy _ _ E)).
    rewrite (alt_content_same _ _ _ (reparse_below text') true a c (content_short _ _ _ Sy' _ _ Ec)). reflexivity.
  - unfold de_adjacent. cbn [enter objects]. rewrite (N1 eq_refl), Em. destruct (classify_obj A _); split; discriminate.
Qed.
Lemma member_texts l t : jmembers l t -> Forall (fun m => jbody (fst m) /\ exists t, jvalue (snd m) t) l.
Proof. induction 1; constructor; cbn [fst snd]; eauto. Qed.
Theorem adjacent_has_spelling tag cont alts text l A bl y x : tag <> cont -> jvalue (RObj l) text -> ordinary_first l -> A <> [] -> contents A = Some bl ->
  content_ahead tag cont y y l l -> arg_enum (Adjacent tag cont alts) (Arg text A) = Ok x ->
  exists y' l' text', spelt bl y y' /\ content_ahead tag cont y y' l l' /\ jvalue (RObj l') text'.
Proof.
  intros Hne Hr Ho HA Hbl (l1 & k & l2 & k' & b & l3 & -> & _ & Hk & Hk' & HF) H.
  apply (arg_enum_ok _ _ _ _ _ Hr) in H. rewrite (way_wrapped text A HA) in H. cbn [de_enum] in H.
  pose proof (content_first_members tag cont l1 k y l2 k' b l3 Hk Hk' HF) as M.
  destruct (str_members (l1 ++ (k, y) :: l2 ++ (k', RStr b) :: l3)) as [m|] eqn:Em.
  2:{ unfold de_adjacent in H. cbn [enter objects] in H. rewrite Em in H. destruct (classify_obj A _); discriminate. }
  rewrite (adjacent_content_first _ (Wrapped A) tag cont alts 127 _ y b m Hne (ordinary_map A bl Hbl _ Ho) Em M eq_refl) in H. cbn [objects] in H.
  destruct (content_of (classify_obj A) 127 y) as [c|] eqn:Ec; [|discriminate]. destruct (content_has A bl Hbl y 127 c Ec) as [y' Hy].
  destruct (object_members _ _ Hr) as [E|[t Hm]]; [destruct l1; discriminate|]. apply member_texts in Hm.
  apply Forall_app in Hm as [F1 F2]. inversion F2 as [|? ? [Fb [ty Fy]] F3]; subst. cbn [fst snd] in *.
  assert (exists t', jvalue (RObj (l1 ++ (k, y') :: l2 ++ (k', RStr b) :: l3)) t') as [t' Ht].
  { apply object_text. apply Forall_app. split; [exact F1|]. constructor; [cbn [fst snd]; split; [exact Fb|exact (spelt_text bl y ty y' Fy Hy)]|exact F3]. }
  exists y', (l1 ++ (k, y') :: l2 ++ (k', RStr b) :: l3), t'. split; [exact Hy|]. split; [|exact Ht]. exists l1, k, l2, k', b, l3. auto 10.
Qed.

(** ** C74: exactly *)
Lemma alike_plain t : no_int_map t -> forall r, alike false false t r.
Proof.
  assert (Na : forall r, ~ attached false r) by (intros r [H _]; discriminate H).
  induction t as [|lo hi| | | | | | |u IH|u IH|u IH|ts IH|u IH|fs IH|vs IH| | | |lo hi u IH] using ty_ind'; cbn [no_int_map]; intros Hn r; cbn [alike]; try exact I; auto.
  - discriminate.
  - split; [intros H; destruct (Na _ H)|]. destruct r; try exact I. apply allP_In. auto.
  - split; [apply Na|]. destruct r as [| | | |l|]; try exact I. revert l. induction ts as [|u ts IHts]; intros [|x l]; try exact I.
    inversion IH as [|? ? I1 I2]; subst. destruct Hn as [N1 N2]. split; [apply I1; exact N1|exact (IHts I2 N2 l)].
  - destruct r; try exact I. apply allP_In. intros [k x] _. auto.
  - split; [apply Na|]. destruct r as [| | | |l|l]; try exact I.
    + revert l. induction fs as [|[f u] fs IHfs]; intros [|x l]; try exact I. inversion IH as [|? ? I1 I2]; subst. destruct Hn as [N1 N2]. split; [apply I1; exact N1|exact (IHfs I2 N2 l)].
    + induction fs as [|[f u] fs IHfs]; [exact I|]. inversion IH as [|? ? I1 I2]; subst. destruct Hn as [N1 N2]. split; [|exact (IHfs I2 N2)]. apply allP_In. intros [k x] _ _. apply I1. exact N1.
  - destruct r as [| | | | |[|[k x] [|]]]; try exact I. induction vs as [|[n [tag u]] vs IHvs]; [exact I|]. inversion IH as [|? ? I1 I2]; subst. destruct Hn as [N1 N2]. split; [|exact (IHvs I2 N2)].
    intros _. destruct tag; [discriminate|exact (I1 N1 x)|split; [apply Na|exact (I1 N1 x)]|exact (I1 N1 x)].
  - contradiction.
Qed.
Lemma spelt_no_token bl r : forall r', spelt bl r r' -> no_token r -> no_token r'.
Proof.
  induction r as [|b|x|s|l IH|l IH] using raw_ind'; intros r' H Hn; inversion H as [? Hx|? l' HF|? b' Hs|? l' Ho HF]; subst; try exact I; try contradiction.
  - cbn [no_token] in *. clear H. induction HF as [|x y l l' Hx HF IHF]; [exact I|]. inversion IH; subst. destruct Hn as [N1 N2]. split; auto.
  - cbn [no_token]. apply allP_In. intros y Hy. apply in_map_iff in Hy as (? & <- & _). exact I.
  - cbn [no_token] in *. destruct Hn as [N1 N2]. split.
    + destruct HF as [|[k x] [k' y] l l' [Hk _] _]; [exact I|]. cbn [fst] in Hk. subst k'. exact N1.
    + clear H N1 Ho. induction HF as [|[k x] [k' y] l l' [_ Hx] HF IHF]; [exact I|]. inversion IH; subst. destruct N2 as [N1 N2]. cbn [snd] in *. split; auto.
Qed.
Theorem untagged_exactly alts text r A bl x : jvalue r text -> no_token r -> A <> [] -> contents A = Some bl -> Forall (fun na => alt_no_int_map (snd na)) alts ->
  arg_enum (Untagged alts) (Arg text A) = Ok x <->
  exists r' text' v, spelt bl r r' /\ jvalue r' text' /\ arg_deserialize TyValue (Arg text' []) = Ok v /\ first_reading alts r' (Arg text' []) x.
Proof.
  intros Hr Hn HA Hbl Hal.
  assert (Al : forall r', Forall (fun na => alt_alike (has_some (@nil subslice_t)) false (snd na) r') alts).
  { intros r'. eapply Forall_impl; [|exact Hal]. intros [n a] H. cbn [snd] in *. destruct a; cbn [alt_alike alt_no_int_map] in *; [exact I|apply alike_plain; exact H|apply (alike_plain (TyStruct fs)); exact H]. }
  split.
  - intros H. destruct (untagged_has_spelling alts text r A bl x Hr HA Hbl H) as (r' & t' & Hs & Ht).
    apply (untagged_spelt alts text r A bl r' t' x Hr HA Hbl Hs Ht) in H.
    destruct (untagged_needs_value alts t' r' [] x Ht (spelt_no_token bl r r' Hs Hn) H) as [v Hv]. exists r', t', (XValue v). split; [exact Hs|]. split; [exact Ht|]. split; [exact Hv|].
    exact (proj1 (untagged_first alts t' r' [] _ x Ht Hv (Al r')) H).
  - intros (r' & t' & v & Hs & Ht & Hv & Hf). apply (untagged_spelt alts text r A bl r' t' x Hr HA Hbl Hs Ht).
    exact (proj2 (untagged_first alts t' r' [] _ x Ht Hv (Al r')) Hf).
Qed.
