(** Proofs about adjacently tagged enums in both modes (C86). *)
From Verif Require Export SpecModeAdj ModeProofs.

Lemma alt_agree_any rp w owned a d r c : content_of (objects w) d r = Some c -> alt_alike (bin_of w) owned a r ->
  alt_content rp owned a c = alt_direct rp w a d r.
Proof.
  intros Hc Ha. destruct a as [|t|fs]; cbn [alt_content alt_direct alt_alike] in *.
  - destruct r as [|b|n|s|l|l]; try (injection Hc as <-; reflexivity).
    + cbn [content_of] in Hc. destruct (num_of n); [injection Hc as <-; reflexivity|discriminate].
    + cbn [content_of] in Hc. destruct (unescape s); [injection Hc as <-; reflexivity|discriminate].
    + apply content_arr in Hc as (? & ? & _ & -> & _). reflexivity.
    + apply content_obj in Hc as (? & _ & [(? & _ & ->)|(_ & ? & -> & _)]); reflexivity.
  - apply content_agree; assumption.
  - rewrite (content_agree rp w owned (TyStruct fs) d r c Hc Ha).
    destruct r as [|b|n|s|l|l]; try (injection Hc as <-; reflexivity).
    + cbn [content_of] in Hc. destruct (num_of n); [injection Hc as <-; reflexivity|discriminate].
    + cbn [content_of] in Hc. destruct (unescape s); [injection Hc as <-; reflexivity|discriminate].
    + apply content_arr in Hc as (? & ? & _ & -> & _). reflexivity.
    + cbn [alike] in Ha. apply content_obj in Hc as (? & _ & [(b & Hb & ->)|(Hm & ? & -> & _)]).
      * destruct (proj1 Ha). apply (attached_buffer w l b Hb).
      * rewrite Hm. reflexivity.
Qed.
Lemma alt_plain a r : alt_no_int_map a -> alt_alike false false a r.
Proof. destruct a as [|t|fs]; cbn [alt_no_int_map alt_alike]; intros H; [exact I|apply alike_plain; exact H|apply (alike_plain (TyStruct fs)); exact H]. Qed.
Lemma unit_names_alike bin (alts : list (bytes * alt)) r : alike bin false (TyEnum (map (fun na => (fst na, (VtUnit, TyUnit))) alts)) r.
Proof.
  cbn [alike]. destruct r as [| | | | |[|[k x] [|]]]; try exact I. induction alts as [|[n a] alts IH]; [exact I|]. cbn [map fst].
  split; [intros _ X; discriminate X|exact IH].
Qed.
Lemma members_spelt bl l l' : spelt_members bl l l' ->
  match str_members l, str_members l' with
  | Some m, Some m' => Forall2 (fun a a' => fst a = fst a' /\ spelt bl (snd a) (snd a')) m m'
  | None, None => True
  | _, _ => False
  end.
Proof.
  unfold spelt_members. induction 1 as [|[k x] [k' y] l l' [Hk Hx] HF IH]; [constructor|]. cbn [fst snd] in *. subst k'. cbn [str_members].
  destruct (unescape k) as [k'|]; [|exact I]. destruct (str_members l) as [m|], (str_members l') as [m'|]; try contradiction; [|exact I].
  constructor; [cbn [fst snd]; auto|exact IH].
Qed.
Lemma relevant_spelt bl tag cont m m' : Forall2 (fun a a' => fst a = fst a' /\ spelt bl (snd a) (snd a')) m m' ->
  Forall2 (fun a a' => fst a = fst a' /\ spelt bl (snd a) (snd a')) (relevant tag cont m) (relevant tag cont m').
Proof.
  unfold relevant. induction 1 as [|[k x] [k' y] l l' [Hk Hx] HF IH]; [constructor|]. cbn [fst snd filter] in *. subst k'.
  destruct (bytes_eqb k tag || bytes_eqb k cont)%bool; [constructor; auto|exact IH].
Qed.
(** The members behind the relevant ones. *)
Lemma filter_first {T} (f : T -> bool) l a q : filter f l = a :: q -> exists l1 l2, l = l1 ++ a :: l2 /\ filter f l2 = q.
Proof.
  induction l as [|b l IH]; [discriminate|]. cbn [filter]. destruct (f b) eqn:E.
  - intros H. injection H as -> <-. exists [], l. auto.
  - intros H. destruct (IH H) as (l1 & l2 & -> & <-). exists (b :: l1), l2. auto.
Qed.
Lemma str_members_split l : forall m1 k x m2, str_members l = Some (m1 ++ (k, x) :: m2) ->
  exists l1 k0 l2, l = l1 ++ (k0, x) :: l2 /\ unescape k0 = Some k /\ str_members l2 = Some m2.
Proof.
  induction l as [|[k1 x1] l IH]; intros m1 k x m2 H; [destruct m1; discriminate|]. cbn [str_members] in H.
  destruct (unescape k1) as [k1'|] eqn:Ek; [|discriminate]. destruct (str_members l) as [m|] eqn:Em; [|discriminate]. destruct m1 as [|p m1].
  - cbn [app] in H. injection H as <- <- <-. exists [], k1, l. auto.
  - cbn [app] in H. injection H as _ H. subst m. destruct (IH m1 k x m2 eq_refl) as (l1 & k0 & l2 & -> & E1 & E2). exists ((k1, x1) :: l1), k0, l2. auto.
Qed.
Lemma follows_members tag cont l m k1 x1 k2 x2 : str_members l = Some m -> relevant tag cont m = [(k1, x1); (k2, x2)] -> k1 = tag -> k2 = cont ->
  content_follows tag cont (RObj l) x2.
Proof.
  intros Em Hr -> ->. unfold relevant in Hr. destruct (filter_first _ _ _ _ Hr) as (m1 & m2 & -> & Hr2). destruct (filter_first _ _ _ _ Hr2) as (m3 & m4 & -> & _).
  destruct (str_members_split _ _ _ _ _ Em) as (l1 & k0 & l2 & -> & E1 & Em2). destruct (str_members_split _ _ _ _ _ Em2) as (l3 & k0' & l4 & -> & E2 & _).
  exists l1, k0, x1, l3, k0', l4. auto.
Qed.
Lemma relevant_in tag cont m k x : In (k, x) (relevant tag cont m) -> In (k, x) m /\ (k = tag \/ k = cont).
Proof.
  intros H. apply filter_In in H as [H E]. split; [exact H|]. cbn [fst] in E. apply Bool.orb_true_iff in E as [E|E]; apply bytes_eqb_eq in E; auto.
Qed.

Section Adjacent.
Variables (A : list subslice_t) (bl : list bytes) (tb tt : bytes).
Hypothesis HA : A <> [].
Hypothesis Hbl : contents A = Some bl.
Notation rpb := (reparse_of tb).
Notation rpt := (reparse_of tt).
(** Two values at the same place of the two texts. *)
Definition paired (d : nat) (xb xt : raw) : Prop :=
  spelt bl xb xt /\ short (length tb) xb /\ short (length tt) xt /\ exists c, content_of (fun _ => OMMap) d xt = Some c.
Lemma paired_content d xb xt : paired d xb xt -> exists c, content_of (classify_obj A) d xb = Some c /\ content_of (fun _ => OMMap) d xt = Some c /\
  cshort (length tb) c /\ cshort (length tt) c.
Proof.
  intros (Hs & Sb & St & c & Hc). exists c. pose proof Hc as Hc'. rewrite <- (content_spelt A bl Hbl xb d xt Hs) in Hc'.
  split; [exact Hc'|]. split; [exact Hc|]. split; [exact (content_short _ _ _ Sb _ _ Hc')|exact (content_short _ _ _ St _ _ Hc)].
Qed.
Lemma alt_pair a d xb xt : paired d xb xt -> alt_no_int_map a -> alt_alike true false a xb ->
  alt_direct rpb (Wrapped A) a d xb = alt_direct rpt Plain a d xt.
Proof.
  intros Hp Hn Ha. destruct (paired_content _ _ _ Hp) as (c & Cb & Ct & Sb & St).
  rewrite <- (alt_agree_any rpb (Wrapped A) false a d xb c Cb Ha), <- (alt_agree_any rpt Plain false a d xt c Ct (alt_plain a xt Hn)).
  rewrite (alt_content_same _ _ _ (reparse_below tb) false a c Sb), (alt_content_same _ _ _ (reparse_below tt) false a c St). reflexivity.
Qed.
Lemma tag_pair alts d xb xt : paired d xb xt -> adjacent_tag rpb (Wrapped A) alts d xb = adjacent_tag rpt Plain alts d xt.
Proof.
  intros Hp. destruct (paired_content _ _ _ Hp) as (c & Cb & Ct & Sb & St). unfold adjacent_tag.
  rewrite <- (content_agree rpb (Wrapped A) false _ d xb c Cb (unit_names_alike true alts xb)), <- (content_agree rpt Plain false _ d xt c Ct (unit_names_alike false alts xt)).
  rewrite (de_content_same _ _ _ (reparse_below tb) false _ c Sb), (de_content_same _ _ _ (reparse_below tt) false _ c St). reflexivity.
Qed.
Lemma as_ext_named alts n f g : (forall a, In (n, a) alts -> f a = g a) -> adjacent_as alts n f = adjacent_as alts n g.
Proof. apply adjacent_as_ext. Qed.
Variables (rb rt : raw).
Hypothesis Jb : jvalue rb tb.
Hypothesis Jt : jvalue rt tt.
Hypothesis Hs : spelt bl rb rt.
Theorem adjacent_modes tag cont alts y x : arg_deserialize TyValue (Arg tt []) = Ok y -> nothing_special_adjacent tag cont alts (Arg tb A) ->
  arg_enum (Adjacent tag cont alts) (Arg tt []) = Ok x <-> arg_enum (Adjacent tag cont alts) (Arg tb A) = Ok x.
Proof.
  intros Hy Hsp. specialize (Hsp rb). cbn [g_text] in Hsp. specialize (fun y => Hsp y Jb).
  destruct (value_arg_buffers _ _ _ _ Jt Hy) as [c Hc]. change (objects (way_of (Arg tt []))) with (fun _ : list (bytes * raw) => OMMap) in Hc.
  pose proof (proj1 jvalue_short _ _ Jb) as Sb. pose proof (proj1 jvalue_short _ _ Jt) as St.
  rewrite (arg_enum_ok _ _ _ _ _ Jt), (arg_enum_ok _ _ _ _ _ Jb), (way_wrapped tb A HA). change (way_of (Arg tt [])) with Plain. cbn [de_enum].
  enough (E : de_adjacent rpb (Wrapped A) tag cont alts 128 rb = de_adjacent rpt Plain tag cont alts 128 rt) by (rewrite E; reflexivity).
  assert (Follow : forall xb xt n, content_follows tag cont rb xb -> paired 127 xb xt ->
    adjacent_as alts n (fun a => alt_direct rpb (Wrapped A) a 127 xb) = adjacent_as alts n (fun a => alt_direct rpt Plain a 127 xt)).
  { intros xb xt n Hf Hp. apply adjacent_as_ext. intros a Ha. specialize (Hsp xb Hf). rewrite Forall_forall in Hsp. destruct (Hsp _ Ha) as [N1 N2]. apply alt_pair; assumption. }
  destruct Hs as [r Hx|lb lt HF|lb b Hst|lb lt Ho HF].
  - destruct r; try contradiction; reflexivity.
  - apply content_arr in Hc as (d' & cs & [= <-] & -> & Hcs). cbn [short] in Sb, St.
    destruct HF as [|xb xt lb lt Hx HF]; [reflexivity|]. destruct HF as [|yb yt lb lt Hyy HF]; [reflexivity|]. destruct HF as [|zb zt lb lt Hz HF]; [|reflexivity].
    inversion Hcs as [|? c1 ? cs1 C1 Hcs1]; subst. inversion Hcs1 as [|? c2 ? cs2 C2 Hcs2]; subst.
    destruct Sb as (Sx & Sy & _). destruct St as (Tx & Ty & _). unfold de_adjacent. cbn [enter].
    rewrite (tag_pair alts 127 xb xt (conj Hx (conj Sx (conj Tx (ex_intro _ c1 C1))))). destruct (adjacent_tag rpt Plain alts 127 xt) as [n|]; [|reflexivity].
    apply Follow; [exists xb; reflexivity|exact (conj Hyy (conj Sy (conj Ty (ex_intro _ c2 C2))))].
  - unfold de_adjacent. cbn [enter objects]. rewrite (stands_buffer A bl Hbl _ _ Hst).
    destruct b as [|b1 [|b2 [|b3 b]]]; try reflexivity.
  - apply content_obj in Hc as (d' & [= <-] & [(b & Hb & _)|(_ & cm & -> & Hcm)]); [discriminate|].
    unfold de_adjacent. cbn [enter objects]. rewrite (ordinary_map A bl Hbl _ Ho). pose proof (members_spelt bl _ _ HF) as HM.
    destruct (str_members lb) as [m|] eqn:Em, (str_members lt) as [m'|] eqn:Em'; try contradiction; [|reflexivity].
    assert (Pair : forall k xb k' xt, In (k, xb) m -> In (k', xt) m' -> spelt bl xb xt -> paired 127 xb xt).
    { intros k xb k' xt I1 I2 Hx. pose proof (str_members_short _ _ _ Em Sb) as S1. pose proof (str_members_short _ _ _ Em' St) as S2. rewrite allP_In in S1, S2.
      split; [exact Hx|]. split; [exact (S1 _ I1)|]. split; [exact (S2 _ I2)|]. destruct (proj1 (str_members_in _ _ _ _ Em') I2) as (k0 & _ & I3).
      clear -Hcm I3. induction Hcm as [|p q l l' [_ Hp] _ IH]; [destruct I3|]. destruct I3 as [->|I3]; [eauto|exact (IH I3)]. }
    pose proof (relevant_spelt bl tag cont _ _ HM) as HR.
    destruct (relevant tag cont m) as [|[k1 x1] q] eqn:Er; inversion HR as [|? [k1' x1'] ? q' [Ek1 Hx1] HR1 Ea Eb]; subst; [reflexivity|]. cbn [fst snd] in Ek1, Hx1. subst k1'. symmetry in Eb.
    destruct (relevant_in tag cont m k1 x1) as [I1 _]; [rewrite Er; left; reflexivity|]. destruct (relevant_in tag cont m' k1 x1') as [I1' _]; [rewrite Eb; left; reflexivity|].
    destruct HR1 as [|[k2 x2] [k2' x2'] q q' [Ek2 Hx2] HR2].
    { destruct (bytes_eqb k1 tag); [|reflexivity]. rewrite (tag_pair alts 127 x1 x1' (Pair _ _ _ _ I1 I1' Hx1)). reflexivity. }
    cbn [fst snd] in Ek2, Hx2. subst k2'. destruct HR2 as [|? ? ? ? ? ?]; [|reflexivity].
    destruct (relevant_in tag cont m k2 x2) as [I2 K2]; [rewrite Er; right; left; reflexivity|]. destruct (relevant_in tag cont m' k2 x2') as [I2' _]; [rewrite Eb; right; left; reflexivity|].
    pose proof (Pair _ _ _ _ I1 I1' Hx1) as P1. pose proof (Pair _ _ _ _ I2 I2' Hx2) as P2.
    destruct (bytes_eqb k1 tag) eqn:B1.
    + destruct (bytes_eqb k2 tag) eqn:B2; [reflexivity|]. rewrite (tag_pair alts 127 x1 x1' P1). destruct (adjacent_tag rpt Plain alts 127 x1') as [n|]; [|reflexivity].
      apply bytes_eqb_eq in B1. apply bytes_eqb_neq in B2. destruct K2 as [K2|K2]; [contradiction|]. apply Follow; [|exact P2].
      exact (follows_members tag cont lb m k1 x1 k2 x2 Em Er B1 K2).
    + destruct (bytes_eqb k2 tag); [|reflexivity]. rewrite (tag_pair alts 127 x2 x2' P2).
      destruct (paired_content _ _ _ P1) as (c & Cb & Ct & Shb & Sht). rewrite Cb, Ct. destruct (adjacent_tag rpt Plain alts 127 x2') as [n|]; [|reflexivity].
      apply adjacent_as_ext. intros a _. rewrite (alt_content_same _ _ _ (reparse_below tb) true a c Shb), (alt_content_same _ _ _ (reparse_below tt) true a c Sht). reflexivity.
Qed.
End Adjacent.

Section Packet.
Variables (src : source) (ns : bytes) (args : list sval).
Hypothesis Hm : either_mode src ns args.
Variables (pt pb : packet) (i : nat) (gt gb : arg_t).
Hypothesis Hboth : sent_both src ns args pt pb.
Hypothesis Ht : argument pt i gt.
Hypothesis Hb : argument pb i gb.
Lemma C86_adjacent_lemma tag cont alts x : nothing_special_adjacent tag cont alts gb ->
  arg_enum (Adjacent tag cont alts) gt = Ok x <-> arg_enum (Adjacent tag cont alts) gb = Ok x.
Proof.
  intros Hsp. destruct (mode_pair src ns args Hm pt pb i gt gb Hboth Ht Hb) as (v & A & bl & rb & rt & y & _ & Et & Eb & Hbl & Jb & Jt & Hs & E & _ & Hy & _).
  destruct A as [|s A]; [rewrite E by reflexivity; reflexivity|]. rewrite Et in Hy. rewrite Eb in Hsp. rewrite Et, Eb.
  eapply adjacent_modes; [discriminate|exact Hbl|exact Jb|exact Jt|exact Hs|exact Hy|exact Hsp].
Qed.
Lemma C86_adjacent_bytesless_lemma tag cont alts x v : made_from src args i v -> blobs v = [] -> Forall (fun na => alt_no_int_map (snd na)) alts ->
  arg_enum (Adjacent tag cont alts) gt = Ok x <-> arg_enum (Adjacent tag cont alts) gb = Ok x.
Proof.
  intros Hv He Hi. apply C86_adjacent_lemma. intros r z Jr Hf.
  destruct (mode_pair src ns args Hm pt pb i gt gb Hboth Ht Hb) as (v' & A & bl & rb & rt & y & Hv' & Et & Eb & Hbl & Jb & Jt & Hs & E & Hna & Hy & Ex).
  unfold made_from in Hv, Hv'. rewrite Hv in Hv'. injection Hv' as <-. rewrite (Ex He) in Jb, Jr.
  pose proof (jvalue_unique _ _ _ Jr Jt) as ->. rewrite (jvalue_unique _ _ _ Jb Jt) in Hs.
  assert (Hz : spelt bl z z).
  { destruct rt as [| | | |l|l]; try contradiction.
    - destruct Hf as [w ->]. inversion Hs as [? Hx|? l' HF| |]; subst; [contradiction|]. inversion HF as [|? ? ? ? _ HF2]; subst. inversion HF2; subst. assumption.
    - destruct Hf as (l1 & k & w & l2 & k' & l3 & -> & _). inversion Hs as [? Hx| | |? l' Ho HF]; subst; [contradiction|].
      assert (G : forall (l : list (bytes * raw)), Forall2 (fun a a' => fst a = fst a' /\ spelt bl (snd a) (snd a')) l l -> forall p, In p l -> spelt bl (snd p) (snd p)).
      { clear. intros l HF. remember l as l' eqn:El in HF at 2. assert (G : forall p, In p l -> l = l' -> spelt bl (snd p) (snd p)); [|intros p Hp; exact (G p Hp (eq_sym El))].
        induction HF as [|a a' q q' [_ H1] HF IH]; intros p Hp E; [destruct Hp|]. injection E as <- <-. destruct Hp as [<-|Hp]; [exact H1|exact (IH eq_refl p Hp eq_refl)]. }
      apply (G _ HF (k', z)). apply in_app_iff. right. right. apply in_app_iff. right. left. reflexivity. }
  eapply Forall_impl; [|exact Hi]. intros [n a] Ha. cbn [snd] in *. split; [exact Ha|].
  destruct a as [|t|fs]; cbn [alt_alike alt_no_int_map] in *; [exact I|apply (spelt_same_alike bl); assumption|apply (spelt_same_alike bl (TyStruct fs)); assumption].
Qed.
End Packet.
