(** Parts of a string (C06). *)
From Verif Require Export SpecEngine SpecUtf8.
From Verif Require Import EngineProofs CharProofs.

Lemma cont_iff c : is_cont c = true <-> (128 <= bN c < 192)%N.
Proof. unfold is_cont. rewrite andb_true_iff, N.leb_le, N.ltb_lt. reflexivity. Qed.
Lemma char_shape n u : utf8_char n u -> exists a r, u = a :: r /\ is_cont a = false /\ Forall (fun c => is_cont c = true) r.
Proof.
  assert (F : forall c, ~ (128 <= bN c < 192)%N -> is_cont c = false).
  { intros c H. destruct (is_cont c) eqn:E; [|reflexivity]. apply cont_iff in E. contradiction. }
  intros [a H|m a b x y -> H1 H2 Ha Hb|m a b c x y z -> H1 _ H2 H3 Ha Hb Hc|m a b c d x y z t -> H1 H2 H3 H4 Ha Hb Hc Hd];
    eexists; eexists; (split; [reflexivity|split; [apply F; lia|]]); repeat constructor; apply cont_iff; lia.
Qed.
Lemma char_boundary n u rest i : utf8_char n u -> 0 < i -> i < length u -> is_boundary (u ++ rest) i = false.
Proof.
  intros Hu H0 Hi. destruct (char_shape n u Hu) as (a & r & -> & _ & Hr). destruct i as [|i]; [lia|].
  unfold is_boundary. cbn [app nth_error length] in *. rewrite nth_error_app1 by lia.
  destruct (nth_error r i) as [c|] eqn:E; [|apply nth_error_None in E; lia]. apply nth_error_In in E.
  rewrite Forall_forall in Hr. rewrite (Hr c E). reflexivity.
Qed.
Lemma boundary_after n u rest i : utf8_char n u ->
  length u < i -> is_boundary (u ++ rest) i = is_boundary rest (i - length u).
Proof.
  intros _ Hi. unfold is_boundary. rewrite nth_error_app2 by lia. destruct (nth_error rest (i - length u)).
  - replace (i =? 0) with false by (symmetry; apply Nat.eqb_neq; lia).
    replace (i - length u =? 0) with false by (symmetry; apply Nat.eqb_neq; lia). reflexivity.
  - rewrite app_length. apply eq_true_iff_eq. rewrite !Nat.eqb_eq. lia.
Qed.
Lemma boundary_split l : Forall (fun u => exists n, utf8_char n u) l -> forall i, is_boundary (concat l) i = true ->
  exists l1 l2, l = l1 ++ l2 /\ i = length (concat l1).
Proof.
  induction 1 as [|u l [n Hu] Hl IH]; intros i Hi.
  - exists [], []. split; [reflexivity|]. unfold is_boundary in Hi. destruct i; [reflexivity|discriminate].
  - destruct i as [|i]; [exists [], (u :: l); auto|]. cbn [concat] in Hi.
    destruct (Nat.lt_trichotomy (S i) (length u)) as [H|[H|H]].
    + rewrite (char_boundary n) in Hi; [discriminate|assumption|lia|assumption].
    + exists [u], l. cbn [concat]. rewrite app_nil_r. auto.
    + rewrite (boundary_after n) in Hi by auto. destruct (IH _ Hi) as (l1 & l2 & -> & E). exists (u :: l1), l2.
      split; [reflexivity|]. cbn [concat]. rewrite app_length. lia.
Qed.
Lemma boundary_of p q : characters q -> is_boundary (p ++ q) (length p) = true.
Proof.
  intros (l & Hl & ->). unfold is_boundary. rewrite nth_error_app2, Nat.sub_diag by lia. destruct Hl as [|u l [n Hu] _].
  - cbn. rewrite app_nil_r. apply Nat.eqb_refl.
  - destruct (char_shape n u Hu) as (a & r & -> & Ha & _). cbn [concat app nth_error]. rewrite Ha. apply orb_true_r.
Qed.
Lemma characters_of l : Forall (fun u => exists n, utf8_char n u) l -> characters (concat l).
Proof. intros H. exists l. auto. Qed.
Lemma characters_app p q : characters p -> characters q -> characters (p ++ q).
Proof. intros (l1 & H1 & ->) (l2 & H2 & ->). exists (l1 ++ l2). rewrite concat_app. split; [apply Forall_app; auto|reflexivity]. Qed.
Lemma concat_prefix (a b c d : list bytes) : a ++ b = c ++ d -> length (concat a) <= length (concat c) ->
  Forall (fun u => u <> []) (a ++ b) -> exists m, c = a ++ m /\ b = m ++ d.
Proof.
  revert c. induction a as [|x a IH]; intros c E Hl Hne; [exists c; auto|]. destruct c as [|y c]; cbn [app] in *.
  - cbn [concat length] in Hl. rewrite app_length in Hl. inversion Hne; subst. destruct x; [congruence|cbn in Hl; lia].
  - injection E as <- E. cbn [concat] in Hl. rewrite !app_length in Hl. inversion Hne; subst.
    destruct (IH c E) as (m & -> & ->); [lia|assumption|]. exists m. auto.
Qed.

Lemma str_slice_characters d r v : characters d ->
  (str_slice d r = Some v <-> whole_part d (fst r) (snd r) v).
Proof.
  intros (l & Hl & ->). unfold whole_part. split.
  - intros H. apply str_slice_inv in H as (H1 & H2 & B1 & B2 & ->).
    destruct (boundary_split l Hl _ B1) as (a & b & E1 & Ea). destruct (boundary_split l Hl _ B2) as (c & d & E2 & Ec).
    assert (Hne : Forall (fun u => u <> []) l).
    { apply Forall_forall. intros u Hu. rewrite Forall_forall in Hl. destruct (Hl u Hu) as [n Hn].
      destruct (char_shape n u Hn) as (x & y & -> & _). discriminate. }
    destruct (concat_prefix a b c d) as (m & -> & ->); [congruence|lia|rewrite <- E1; exact Hne|]. subst l.
    rewrite !Forall_app in Hl. destruct Hl as (Ha & Hm & Hd). exists (concat a), (concat d).
    rewrite concat_app, app_length in Ec. rewrite !concat_app. unfold slice.
    rewrite Ea, skipn_app, skipn_all, Nat.sub_diag. cbn [skipn app]. rewrite Ec.
    replace (length (concat a) + length (concat m) - length (concat a)) with (length (concat m)) by lia.
    rewrite firstn_app, firstn_all, Nat.sub_diag. cbn [firstn]. rewrite app_nil_r.
    auto 10 using characters_of.
  - intros (p & q & E & Hx & Hy & Hp & Hv & Hq). rewrite E. unfold str_slice. rewrite <- Hx in *.
    replace (snd r) with (length (p ++ v)) by (rewrite app_length; lia).
    assert (B1 : is_boundary (p ++ v ++ q) (length p) = true) by (apply boundary_of, characters_app; assumption).
    assert (B2 : is_boundary (p ++ v ++ q) (length (p ++ v)) = true) by (rewrite app_assoc; apply boundary_of; assumption).
    rewrite B1, B2, !app_length. replace (length p <=? length p + length v) with true by (symmetry; apply Nat.leb_le; lia).
    replace (length p + length v <=? length p + (length v + length q)) with true by (symmetry; apply Nat.leb_le; lia).
    cbn [andb]. unfold slice. rewrite skipn_app, skipn_all, Nat.sub_diag. cbn [skipn app].
    replace (length p + length v - length p) with (length v) by lia. rewrite firstn_app, firstn_all, Nat.sub_diag. cbn [firstn].
    rewrite app_nil_r. reflexivity.
Qed.
Theorem string_parts d x y v : characters d -> (sub_deref_str (sub_new d (x, y)) = Some v <-> whole_part d x y v).
Proof. intros H. exact (str_slice_characters d (x, y) v H). Qed.
Theorem string_parts_of_parts s u r v : characters u -> sub_deref_str s = Some u ->
  (sub_deref_str (sub_subslice s r) = Some v <-> whole_part u (fst r) (Nat.min (snd r) (length u)) v).
Proof. intros H Hs. rewrite (subslice_str s u r Hs). apply (str_slice_characters u (fst r, Nat.min (snd r) (length u)) v H). Qed.
