(** The frames of a packet determine the packet (C85). *)
From Verif Require Export SpecWire BuildFacts.
From Verif Require Import LostProofs.
From Coq Require Import Lia.

Lemma same_length_apart {T} (a a' b b' : list T) : length a = length a' -> a ++ b = a' ++ b' -> a = a' /\ b = b'.
Proof.
  revert a'. induction a as [|x a IH]; intros [|y a'] L E; cbn in *; try discriminate; [auto|].
  injection L as L. injection E as -> E. destruct (IH a' L E) as [-> ->]. auto.
Qed.
Lemma digits_apart d d' r r' : forallb is_digit d = true -> forallb is_digit d' = true ->
  match r with x :: _ => is_digit x = false | [] => True end -> match r' with x :: _ => is_digit x = false | [] => True end ->
  d ++ r = d' ++ r' -> d = d' /\ r = r'.
Proof.
  intros Hd Hd' Hr Hr' E. pose proof (span_make is_digit d r Hd Hr) as S1. pose proof (span_make is_digit d' r' Hd' Hr') as S2.
  rewrite E, S2 in S1. injection S1 as -> ->. auto.
Qed.
(** The arguments, if there are any, are a JSON array. *)
Definition arrayed (w : wire) : Prop :=
  w_args w = None \/ exists u ts, w_args w = Some ("["%byte :: u ++ ["]"%byte]) /\ safe 1 u /\ jarray ts ("["%byte :: u ++ ["]"%byte]).
Lemma arrayed_head w : arrayed w -> match opt_text (fun a => a) (w_args w) with x :: _ => is_digit x = false | [] => True end.
Proof. intros [->|(u & ts & -> & _)]; [exact I|reflexivity]. Qed.
Lemma opt_dec_inj o o' : opt_text dec o = opt_text dec o' -> o = o'.
Proof.
  destruct o as [n|], o' as [n'|]; cbn [opt_text]; intros E; [apply dec_inj in E; congruence| | |reflexivity]; exfalso; [apply (dec_nonempty n)|apply (dec_nonempty n')]; congruence.
Qed.
Lemma not_longer w w' : wire_ok w -> wire_ok w' -> arrayed w -> arrayed w' -> wire_text w = wire_text w' -> ns_length w' <= ns_length w.
Proof.
  intros Hok Hok' A A' E. destruct (le_lt_dec (ns_length w') (ns_length w)) as [|Hlt]; [assumption|exfalso].
  destruct A as [Ea|(u & ts & Ea & Hs & Hj)].
  - destruct (wire_text_parts w w' Hok Hok' E) as (_ & _ & Ep). rewrite Ea in Ep. cbn [opt_text] in Ep. rewrite app_nil_r in Ep.
    unfold ns_length in Hlt. destruct (w_ns w') as [ns'|] eqn:En'; [|cbn in Hlt; lia]. destruct (proj1 Hok' ns' En') as [(c1 & r1 & Ens') _].
    destruct (w_ns w) as [ns|]; cbn [opt_text app] in *.
    + rewrite <- !app_assoc in Ep. change (bs ",") with [","%byte] in Ep. apply prefix_app in Ep as [(z & Ez & _)|(x & Ex & Ep)]; [rewrite Ez, app_length in Hlt; lia|].
      destruct x as [|c x]; [rewrite app_nil_r in Ex; subst; lia|]. cbn [app] in Ep. injection Ep as _ Ep.
      pose proof (id_digits (w_id w)) as D. rewrite Ep, forallb_app in D. cbn [app forallb] in D. change (is_digit ","%byte) with false in D. cbn [andb] in D. rewrite andb_false_r in D. discriminate.
    + pose proof (id_digits (w_id w)) as D. rewrite Ep, Ens' in D. discriminate.
  - destruct (longer_ns w w' _ Hok Hok' Ea E Hlt) as (x & a' & ns' & _ & Ea' & Ex & Hx & _). apply Hx.
    destruct A' as [E0|(u' & ts' & E0 & _ & Hj')]; [congruence|]. rewrite E0 in Ea'. injection Ea' as <-. eapply no_array_suffix; eassumption.
Qed.
Lemma wire_injective w w' : wire_ok w -> wire_ok w' -> arrayed w -> arrayed w' -> wire_text w = wire_text w' -> w = w'.
Proof.
  intros Hok Hok' A A' E. assert (L : ns_length w = ns_length w') by (apply Nat.le_antisymm; apply not_longer; auto).
  destruct (wire_text_parts w w' Hok Hok' E) as (Ek & Ec & Ep).
  assert (X : w_ns w = w_ns w' /\ opt_text dec (w_id w) ++ opt_text (fun a => a) (w_args w) = opt_text dec (w_id w') ++ opt_text (fun a => a) (w_args w')).
  { unfold ns_length in L. destruct (w_ns w) as [ns|] eqn:En, (w_ns w') as [ns'|] eqn:En'; cbn [opt_text app] in *.
    - rewrite <- !app_assoc in Ep. apply same_length_apart in Ep; [|exact L]. destruct Ep as [-> Ep]. apply app_inv_head in Ep. auto.
    - exfalso. destruct (proj1 Hok ns En) as [(c & r & ->) _]. discriminate.
    - exfalso. destruct (proj1 Hok' ns' En') as [(c & r & ->) _]. discriminate.
    - auto. }
  destruct X as [En X]. apply digits_apart in X; [|apply id_digits|apply id_digits|apply arrayed_head; assumption|apply arrayed_head; assumption]. destruct X as [Ei Ea]. apply opt_dec_inj in Ei.
  assert (w_args w = w_args w').
  { destruct A as [E1|(u & ts & E1 & _)], A' as [E2|(u' & ts' & E2 & _)]; rewrite E1, E2 in *; cbn [opt_text] in Ea; congruence. }
  destruct w, w'; cbn in *; congruence.
Qed.

(** ** The arguments can be read off the text *)
Definition trees (ts : list bytes) : Prop := Forall no_newline ts /\ exists rs, Forall2 jvalue rs ts.
Lemma tail_head l ts : match opt_text (fun a => a) (arg_text l ts) with x :: _ => is_digit x = false | [] => True end.
Proof.
  unfold arg_text, opening. destruct l as [|v l]; [exact I|]. cbn [opt_text]. destruct (serialises v); [reflexivity|]. destruct ts; reflexivity.
Qed.
Lemma array_apart ts ts' : trees ts -> trees ts' -> seps true ts = seps true ts' -> ts = ts'.
Proof.
  intros [_ [rs H]] [_ [rs' H']] E. eapply jarray_unique; [apply (jarray_seps rs ts H)|]. rewrite E. apply (jarray_seps rs' ts' H').
Qed.
Lemma tail_apart l l' ts ts' : trees ts -> trees ts' -> (l = [] -> ts = []) -> (l' = [] -> ts' = []) ->
  opt_text (fun a => a) (arg_text l ts) = opt_text (fun a => a) (arg_text l' ts') -> ts = ts'.
Proof.
  intros T T' N N'. unfold arg_text, opening. destruct l as [|v l], l' as [|v' l']; cbn [opt_text].
  - rewrite N, N' by reflexivity. reflexivity.
  - intros E. destruct (if serialises v' then _ else _); discriminate.
  - intros E. destruct (if serialises v then _ else _); discriminate.
  - destruct (serialises v), (serialises v'); cbn [app]; intros E.
    + injection E as E. apply app_inj_tail in E as [E _]. apply array_apart; assumption.
    + destruct ts'; discriminate.
    + destruct ts; discriminate.
    + apply app_inj_tail in E as [E _]. destruct ts as [|t ts], ts' as [|t' ts']; cbn [seps comma_unless app] in E; try discriminate; [reflexivity|].
      injection E as E. apply array_apart; try assumption; exact E.
Qed.
Lemma frame_inj b b' : frame b = frame b' -> b = b'.
Proof. intros [= ->]. reflexivity. Qed.
Lemma frames_inj bl : forall bl', map frame bl = map frame bl' -> bl = bl'.
Proof.
  induction bl as [|b bl IH]; intros [|b' bl'] E; cbn [map] in E; try discriminate; [reflexivity|].
  injection E as -> E. rewrite (IH bl' E). reflexivity.
Qed.
Lemma ok_inj {E T} (l : list T) : forall l', map (@Ok E T) l = map Ok l' -> l = l'.
Proof. induction l as [|x l IH]; intros [|y l'] H; cbn [map] in H; try discriminate; [reflexivity|]. injection H as -> H. rewrite (IH l' H). reflexivity. Qed.
Lemma atts_whole bl : atts_of bl (map sub_from bl).
Proof.
  unfold atts_of. induction bl as [|b bl IH]; [reflexivity|]. cbn [map all_some]. rewrite (proj1 (deref_whole b)), IH. reflexivity.
Qed.

(** ** One packet *)
Definition ns_of (x : parcel) : bytes := let '(_, ns, _, _) := x in ns.
Lemma kind_apart src src' bin bin' : type_digit (out_kind src bin) = type_digit (out_kind src' bin') -> src_kind src = src_kind src' /\ bin = bin'.
Proof. destruct src, src', bin, bin'; cbn; intros H; try discriminate; auto. Qed.
Lemma ns_opt_inj ns ns' : ns_opt ns = ns_opt ns' -> ns = ns'.
Proof. intros E. rewrite <- (ns_opt_back ns), E. apply ns_opt_back. Qed.
Section Two.
Variables (src src' : source) (ns ns' : bytes) (bin bin' : bool) (args args' : list sval) (ts ts' : list bytes).
Let l := all_args src args.
Let l' := all_args src' args'.
Hypothesis Hx : parcel_ok (src, ns, bin, args).
Hypothesis Hy : parcel_ok (src', ns', bin', args').
Hypothesis W : written bin (kept l) ts.
Hypothesis W' : written bin' (kept l') ts'.
Hypothesis Ef : map frame (out_blobs bin l) = map frame (out_blobs bin' l').
Lemma trees_x : trees ts /\ (l = [] -> ts = []).
Proof.
  destruct Hx as (_ & Hu & _). split; [apply (packet_trees src bin args ts); [apply usable_kept; exact Hu|exact W]|].
  intros E. pose proof W as W0. rewrite E in W0. destruct bin; inversion W0; reflexivity.
Qed.
Lemma trees_y : trees ts' /\ (l' = [] -> ts' = []).
Proof.
  destruct Hy as (_ & Hu & _). split; [apply (packet_trees src' bin' args' ts'); [apply usable_kept; exact Hu|exact W']|].
  intros E. pose proof W' as W0. rewrite E in W0. destruct bin'; inversion W0; reflexivity.
Qed.
Lemma same_meant : type_digit (out_kind src bin) = type_digit (out_kind src' bin') -> ns = ns' -> src_id src = src_id src' ->
  opt_text (fun a => a) (arg_text l ts) = opt_text (fun a => a) (arg_text l' ts') ->
  meant (src, ns, bin, args) = meant (src', ns', bin', args').
Proof.
  intros Ek En Ei Ea. apply kind_apart in Ek as [Ek Eb]. cbn [meant]. rewrite Ek, En, Ei.
  assert (ET : ts = ts') by (eapply tail_apart; [apply trees_x|apply trees_y|apply trees_x|apply trees_y|exact Ea]).
  assert (EB : out_blobs bin l = out_blobs bin' l') by (apply frames_inj; exact Ef).
  destruct Hx as (_ & Hu & Hb). destruct Hy as (_ & Hu' & Hb').
  pose proof (written_values bin l ts _ W Hu Hb (atts_whole _)) as V. pose proof (written_values bin' l' ts' _ W' Hu' Hb' (atts_whole _)) as V'.
  rewrite EB, ET, V' in V. apply ok_inj in V. fold l l'. unfold pkt_values. rewrite V, Eb. reflexivity.
Qed.
Lemma apart_starts : first_ok src args -> first_ok src' args' ->
  wire_text (out_wire src ns bin l ts) = wire_text (out_wire src' ns' bin' l' ts') ->
  meant (src, ns, bin, args) = meant (src', ns', bin', args').
Proof.
  intros F F' E.
  assert (G : forall s n b a t, ns_ok n -> first_ok s a -> trees t -> wire_ok (out_wire s n b (all_args s a) t) /\ arrayed (out_wire s n b (all_args s a) t)).
  { clear. intros s n b a t Hn F [Ht [rs Hj]].
    assert (Hw : starts s a \/ all_args s a = []) by (destruct s, a; cbn in *; auto).
    destruct Hw as [Hs|He].
    - split; [apply out_wire_ok; assumption|]. right. destruct (starts_first s a Hs) as (v & q & Eq & Ev).
      exists (seps true t), t. cbn [out_wire w_args]. split; [eapply first_text; eauto|]. split; [eapply seps_safe; eauto|eapply jarray_seps; eauto].
    - unfold out_wire, arg_text. rewrite He. split; [split; cbn [w_ns w_args]; [intros x X; eapply ns_opt_ok; eauto|discriminate]|left; reflexivity]. }
  destruct (G src ns bin args ts (proj1 Hx) F (proj1 trees_x)) as [O A]. destruct (G src' ns' bin' args' ts' (proj1 Hy) F' (proj1 trees_y)) as [O' A'].
  pose proof (wire_injective _ _ O O' A A' E) as EW. unfold out_wire in EW. injection EW as Ek Ec En Ei Ea.
  apply same_meant; [rewrite Ek; reflexivity|apply ns_opt_inj; exact En|exact Ei|unfold l, l'; rewrite Ea; reflexivity].
Qed.
Lemma apart_ns : ns = ns' ->
  wire_text (out_wire src ns bin l ts) = wire_text (out_wire src' ns' bin' l' ts') ->
  meant (src, ns, bin, args) = meant (src', ns', bin', args').
Proof.
  intros En E. unfold wire_text, out_wire in E. cbn [w_kind w_count w_ns w_id w_args] in E. injection E as Ek E.
  pose proof (kind_apart _ _ _ _ Ek) as [_ Eb]. pose proof Ef as Ef'. rewrite Eb in E, Ef'. apply frames_inj in Ef'. rewrite Ef', En in E. apply app_inv_head in E.
  apply app_inv_head in E. apply digits_apart in E; [|apply id_digits|apply id_digits|apply tail_head|apply tail_head].
  destruct E as [Ei Ea]. apply opt_dec_inj in Ei. apply same_meant; assumption.
Qed.
End Two.
Definition tellable (x y : parcel) : Prop := (parcel_starts x /\ parcel_starts y) \/ ns_of x = ns_of y.
Lemma head_apart a b m m' : WText ("4"%byte :: a) :: m = WText ("4"%byte :: b) :: m' -> a = b /\ m = m'.
Proof. intros [= -> ->]. auto. Qed.
Lemma one_apart x y f f' : parcel_ok x -> parcel_ok y -> tellable x y -> frames_of x = Some f -> frames_of y = Some f' ->
  exists t t' bl bl', f = WText t :: map frame bl /\ f' = WText t' :: map frame bl' /\ (f = f' -> meant x = meant y).
Proof.
  destruct x as [[[src ns] bin] args], y as [[[src' ns'] bin'] args']. intros Hx Hy T. cbn [frames_of].
  destruct (build_shape src ns bin args) as (ts & -> & W). destruct (build_shape src' ns' bin' args') as (ts' & -> & W').
  intros [= <-] [= <-]. do 4 eexists. split; [reflexivity|]. split; [reflexivity|]. intros E. apply head_apart in E as [E Ef].
  destruct T as [[F F']|En]; [eapply (apart_starts src src' ns ns' bin bin' args args' ts ts'); assumption|eapply (apart_ns src src' ns ns' bin bin' args args' ts ts'); assumption].
Qed.

(** ** Any number of packets *)
Definition text_first (r : list wsmsg) : Prop := match r with [] => True | m :: _ => exists t, m = WText t end.
Lemma cut_frames bl : forall bl' r r', text_first r -> text_first r' -> map frame bl ++ r = map frame bl' ++ r' -> bl = bl' /\ r = r'.
Proof.
  induction bl as [|b bl IH]; intros [|b' bl'] r r' T T' E; cbn [map app] in E; [auto| | |].
  - subst r. destruct T as [t T]. discriminate.
  - subst r'. destruct T' as [t T']. discriminate.
  - injection E as -> E. destruct (IH bl' r r' T T' E) as [-> ->]. auto.
Qed.
Lemma frames_shape x f : frames_of x = Some f -> exists t bl, f = WText t :: map frame bl.
Proof.
  destruct x as [[[src ns] bin] args]. cbn [frames_of]. destruct (build_shape src ns bin args) as (ts & -> & _). intros [= <-]. eauto.
Qed.
Lemma concat_text_first xs fss : Forall2 (fun x f => frames_of x = Some f) xs fss -> text_first (concat fss).
Proof. intros [|x f xs' fss' H _]; [exact I|]. destruct (frames_shape x f H) as (t & bl & ->). cbn. eauto. Qed.
Lemma all_apart xs : forall ys fs, Forall parcel_ok xs -> Forall parcel_ok ys -> (forall x y, In x xs -> In y ys -> tellable x y) ->
  on_the_wire xs fs -> on_the_wire ys fs -> map meant xs = map meant ys.
Proof.
  induction xs as [|x xs IH]; intros [|y ys] fs Hx Hy T (fss & H & E) (fss' & H' & E').
  - reflexivity.
  - exfalso. inversion H; subst fss. inversion H' as [|y0 f ys0 fss0 Hf Hr]; subst. destruct (frames_shape y f Hf) as (t & bl & ->). discriminate.
  - exfalso. inversion H'; subst fss'. inversion H as [|x0 f xs0 fss0 Hf Hr]; subst. destruct (frames_shape x f Hf) as (t & bl & ->). discriminate.
  - inversion H as [|x0 f xs0 gs Hf Hr]; subst x0 xs0 fss. inversion H' as [|y0 f' ys0 gs' Hf' Hr']; subst y0 ys0 fss'.
    inversion Hx as [|? ? Hx1 Hx2]; inversion Hy as [|? ? Hy1 Hy2]; subst.
    destruct (one_apart x y f f' Hx1 Hy1 (T x y (or_introl eq_refl) (or_introl eq_refl)) Hf Hf') as (t & t' & bl & bl' & -> & -> & M).
    cbn [concat app] in E'. injection E' as -> E'. apply cut_frames in E'; [|eapply concat_text_first; eassumption|eapply concat_text_first; eassumption].
    destruct E' as [-> E']. cbn [map]. f_equal; [apply M; reflexivity|].
    apply (IH ys (concat gs)); auto; [intros; apply T; right; assumption|exists gs; auto|exists gs'; auto].
Qed.
Lemma C85_apart xs ys fs : Forall parcel_ok xs -> Forall parcel_ok ys -> Forall parcel_starts xs -> Forall parcel_starts ys ->
  on_the_wire xs fs -> on_the_wire ys fs -> map meant xs = map meant ys.
Proof.
  intros Hx Hy Sx Sy. apply all_apart; auto. intros x y Ix Iy. left. rewrite Forall_forall in Sx, Sy. auto.
Qed.
Lemma C85_one_ns ns xs ys fs : Forall parcel_ok xs -> Forall parcel_ok ys -> Forall (in_ns ns) xs -> Forall (in_ns ns) ys ->
  on_the_wire xs fs -> on_the_wire ys fs -> map meant xs = map meant ys.
Proof.
  intros Hx Hy Sx Sy. apply all_apart; auto. intros x y Ix Iy. right. rewrite Forall_forall in Sx, Sy.
  specialize (Sx x Ix). specialize (Sy y Iy). destruct x as [[[? ?] ?] ?], y as [[[? ?] ?] ?]. cbn in *. congruence.
Qed.

(** ** Two acks that cannot be told apart *)
Definition twin1 : parcel := (OfAck 5, bs "/a", false, [SFail; SInt 6]).
Definition twin2 : parcel := (OfAck 6, bs "/a,5", false, [SFail]).
Lemma twins_ok : parcel_ok twin1 /\ parcel_ok twin2.
Proof.
  cbn [parcel_ok twin1 twin2 all_args].
  split; (split; [apply ns_ok_check; reflexivity|split; [|discriminate]]).
  - constructor; [discriminate|constructor; [|constructor]]. intros _. split; [vm_compute; intuition discriminate|cbn; lia].
  - constructor; [discriminate|constructor].
Qed.
Lemma C85_refutation : ~ C85_full.
Proof.
  intros H. assert (E : map meant [twin1] = map meant [twin2]).
  { apply (H [twin1] [twin2] [WText (bs "43/a,5,6]")]).
    - constructor; [apply twins_ok|constructor].
    - constructor; [apply twins_ok|constructor].
    - exists [[WText (bs "43/a,5,6]")]]. split; [constructor; [vm_compute; reflexivity|constructor]|reflexivity].
    - exists [[WText (bs "43/a,5,6]")]]. split; [constructor; [vm_compute; reflexivity|constructor]|reflexivity]. }
  vm_compute in E. discriminate.
Qed.
