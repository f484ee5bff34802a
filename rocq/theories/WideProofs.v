(** Proofs about 128-bit integers (C83). *)
From Verif Require Export SpecWide RawArgProofs.
From Verif Require Import AdjacentProofs BuildFacts ReadProofs OpenProofs.

Lemma wide_in_range k z : wide_in k z = true <-> wide_range k z.
Proof. unfold wide_in, wide_range. destruct k; rewrite andb_true_iff, Z.leb_le, Z.ltb_lt; reflexivity. Qed.
Lemma int_part_dec i : int_part i -> i = dec (undec i).
Proof. intros H. symmetry. apply dec_undec, int_part_canon, H. Qed.

(** ** Reading *)
Definition rest_of (n : numlit) : bytes :=
  match nl_frac n with Some f => "."%byte :: f | None => [] end ++ match nl_exp n with Some (e, sg, d) => e :: sg ++ d | None => [] end.
Lemma rest_start n : numlit_ok n -> match rest_of n with c :: _ => is_digit c = false /\ is_ws c = false | [] => nl_frac n = None /\ nl_exp n = None end.
Proof.
  intros (_ & Hf & He). unfold rest_of. destruct (nl_frac n); [split; reflexivity|]. destruct (nl_exp n) as [[[e sg] d]|]; [|split; reflexivity].
  destruct He as [[<-|[<-|[]]] _]; split; reflexivity.
Qed.
Definition signed (neg : bool) (i : bytes) : Z := (if neg then - Z.of_N (undec i) else Z.of_N (undec i))%Z.
Lemma take_wide_num k n : numlit_ok n -> take_wide k (numlit_text n) =
  match k, nl_neg n with
  | U128, true => None
  | _, _ => if wide_in k (signed (nl_neg n) (nl_int n)) then Some (signed (nl_neg n) (nl_int n), rest_of n) else None
  end.
Proof.
  intros Ok. pose proof (jvalue_skip (RNum n) (numlit_text n) [] (jv_num n Ok)) as S. rewrite app_nil_r in S. unfold take_wide. rewrite S.
  assert (E : scan_int (nl_int n ++ rest_of n) = Some (nl_int n, rest_of n)).
  { apply scan_int_app; [apply Ok|]. pose proof (rest_start n Ok) as R. destruct (rest_of n); [trivial|apply R]. }
  assert (T : numlit_text n = (if nl_neg n then ["-"%byte] else []) ++ nl_int n ++ rest_of n) by reflexivity.
  rewrite T. destruct (nl_neg n) eqn:Hn; cbn [app].
  - change ("-"%byte =b "-") with true. cbn match. destruct k; [|reflexivity]. rewrite E. reflexivity.
  - destruct (int_part_head (nl_int n) (proj1 Ok)) as (c & r & Ei & Hc). rewrite Ei in *. cbn [app] in *.
    assert (c =b "-" = false) as ->. { destruct (c =b "-") eqn:Q; [|reflexivity]. apply byte_eqb_eq in Q. subst c. discriminate. }
    rewrite E. destruct k; reflexivity.
Qed.
Lemma take_wide_other k r t : jvalue r t -> (forall n, r <> RNum n) -> take_wide k t = None.
Proof.
  intros Hj Hn. pose proof (jvalue_skip r t [] Hj) as S. rewrite app_nil_r in S. unfold take_wide. rewrite S.
  inversion Hj; subst; try (destruct (Hn n eq_refl); fail); destruct k; reflexivity.
Qed.
Lemma num_text n t : jvalue (RNum n) t -> numlit_ok n /\ t = numlit_text n.
Proof. intros H. inversion H; subst. auto. Qed.
Lemma wide_reading r k g z : jvalue r (g_text g) ->
  (arg_wide k g = Ok z <-> integer_part k r z /\ (g_attachments g = [] -> whole_number r) /\ wide_range k z).
Proof.
  intros Hj. unfold arg_wide. assert (D : (exists n, r = RNum n) \/ forall n, r <> RNum n) by (destruct r; eauto; right; discriminate).
  destruct D as [[n ->]|Hn].
  2:{ rewrite (take_wide_other k r _ Hj Hn). split; [destruct (g_attachments g); discriminate|]. intros ((neg & n & f & e & -> & _) & _). destruct (Hn _ eq_refl). }
  destruct (num_text _ _ Hj) as [Hok E2]. rewrite E2. rewrite (take_wide_num k n Hok). destruct n as [neg i f e]. cbn [nl_neg nl_int] in *.
  assert (W : skip_ws (rest_of (NumLit neg i f e)) = [] <-> f = None /\ e = None).
  { pose proof (rest_start _ Hok) as R. destruct (rest_of (NumLit neg i f e)) as [|c rest] eqn:Er; [tauto|]. cbn [skip_ws]. rewrite (proj2 R).
    split; [discriminate|]. intros [-> ->]. discriminate Er. }
  assert (P : forall z, integer_part k (RNum (NumLit neg i f e)) z <-> (k = U128 -> neg = false) /\ z = signed neg i).
  { intros y. split.
    - intros (neg' & n & f' & e' & [= <- -> <- <-] & Hk & ->). split; [exact Hk|]. unfold signed. rewrite undec_dec. reflexivity.
    - intros [Hk ->]. exists neg, (undec i), f, e. rewrite <- (int_part_dec i) by apply Hok. auto. }
  rewrite P. clear P.
  assert (Q : whole_number (RNum (NumLit neg i f e)) <-> f = None /\ e = None).
  { split; [intros (? & ? & [= _ _ -> ->]); auto|]. intros [-> ->]. exists neg, i. reflexivity. }
  rewrite Q, <- W. clear Q W.
  assert (Go : forall r, r = (match (if wide_in k (signed neg i) then Some (signed neg i, rest_of (NumLit neg i f e)) else None), g_attachments g with
      | Some (z, rest), [] => match skip_ws rest with [] => Ok z | _ => Err (AJsonDeError (numlit_text (NumLit neg i f e))) end
      | Some (z, _), _ => Ok z | None, _ => Err (AJsonDeError (numlit_text (NumLit neg i f e))) end) ->
    (r = Ok z <-> z = signed neg i /\ (g_attachments g = [] -> skip_ws (rest_of (NumLit neg i f e)) = []) /\ wide_range k z)).
  { intros y ->. destruct (wide_in k (signed neg i)) eqn:Ew.
    - apply wide_in_range in Ew. destruct (g_attachments g); [destruct (skip_ws _)|].
      + split; [intros [= <-]; auto|]. intros [-> _]. reflexivity.
      + split; [discriminate|]. intros (_ & H & _). discriminate (H eq_refl).
      + split; [intros [= <-]; repeat split; auto; discriminate|]. intros [-> _]. reflexivity.
    - split; [destruct (g_attachments g); discriminate|]. intros (-> & _ & H). apply wide_in_range in H. congruence. }
  destruct k, neg.
  - rewrite (Go _ eq_refl). intuition discriminate.
  - rewrite (Go _ eq_refl). intuition discriminate.
  - split; [destruct (g_attachments g); discriminate|]. intros ([H _] & _). discriminate (H eq_refl).
  - rewrite (Go _ eq_refl). intuition.
Qed.
Lemma wide_outcome k g : arg_wide k g <> Panic.
Proof. unfold arg_wide. destruct (take_wide k (g_text g)) as [[z rest]|], (g_attachments g); try destruct (skip_ws rest); discriminate. Qed.
Lemma wide_exact m t l g r k z : sub_deref_str m = Some t -> Forall emsg_ok l -> argument_of m l g -> jvalue r (g_text g) ->
  (arg_wide k g = Ok z <-> integer_part k r z /\ (g_attachments g = [] -> whole_number r) /\ wide_range k z) /\ arg_wide k g <> Panic.
Proof. intros _ _ _ Hj. split; [apply wide_reading; exact Hj|apply wide_outcome]. Qed.

(** ** The trip *)
Lemma wide_text z : jvalue (RNum (int_lit (z <? 0)%Z (Z.to_N (Z.abs z)))) (decZ z).
Proof. rewrite decZ_text. apply jv_num, int_lit_ok. Qed.
Lemma wide_text_part k z : wide_range k z -> integer_part k (RNum (int_lit (z <? 0)%Z (Z.to_N (Z.abs z)))) z.
Proof.
  intros H. exists (z <? 0)%Z, (Z.to_N (Z.abs z)), None, None. split; [reflexivity|]. split.
  - intros ->. apply Z.ltb_ge. apply H.
  - destruct (Z.ltb_spec z 0); rewrite Z2N.id; lia.
Qed.
Lemma wide_text_reads k z g : g_text g = decZ z -> (wide_range k z -> arg_wide k g = Ok z) /\ (~ wide_range k z -> exists e, arg_wide k g = Err e).
Proof.
  intros E. assert (J : jvalue (RNum (int_lit (z <? 0)%Z (Z.to_N (Z.abs z)))) (g_text g)) by (rewrite E; apply wide_text). split.
  - intros H. apply (wide_reading _ k g z J). split; [apply wide_text_part; exact H|]. split; [|exact H]. intros _. eexists _, _. reflexivity.
  - intros H. destruct (arg_wide k g) as [y|e|] eqn:R; [|eauto|destruct (wide_outcome k g R)]. exfalso. apply (wide_reading _ k g y J) in R as ((neg & n & f & e & Er & Hk & ->) & _ & Hw).
    apply H. unfold int_lit in Er. injection Er as <- Hn _ _. apply dec_inj in Hn. subst n. destruct (Z.ltb_spec z 0); rewrite Z2N.id in Hw by lia.
    + replace (- Z.abs z)%Z with z in Hw by lia. exact Hw.
    + rewrite Z.abs_eq in Hw by lia. exact Hw.
Qed.
(** Integers written out. *)
Definition spell (i : item) : item := match i with IVal (SInt z) => IRaw (decZ z) | _ => i end.
Lemma spell_item b i : fst (serialize_item b (spell i)) = fst (serialize_item b i).
Proof. destruct i as [v|t]; [|reflexivity]. destruct v; try reflexivity. cbn. unfold serialize_raw, serialize_arg. destruct b as [buf a first]. cbn. destruct a; cbn; rewrite <- app_assoc; reflexivity. Qed.
Lemma spell_items l : forall b, serialize_items b (map spell l) = serialize_items b l.
Proof. induction l as [|i l IH]; intros b; [reflexivity|]. unfold serialize_items in *. cbn [map fold_left]. rewrite spell_item. apply IH. Qed.
Lemma spell_built src ns bin l : build_items src ns bin (map spell l) = build_items src ns bin l.
Proof. unfold build_items. destruct (fresh src ns bin); [|reflexivity]. rewrite spell_items. reflexivity. Qed.
Lemma spell_succeeds i : succeeds (spell i) = succeeds i.
Proof. destruct i as [[]|]; reflexivity. Qed.
Lemma spell_kept l : kept_items (map spell l) = map spell (kept_items l).
Proof. unfold kept_items. induction l as [|i l IH]; [reflexivity|]. cbn. rewrite spell_succeeds, IH. destruct (succeeds i); reflexivity. Qed.
Lemma spell_blobs l : flat_map item_blobs (map spell l) = flat_map item_blobs l.
Proof. induction l as [|i l IH]; [reflexivity|]. cbn. rewrite IH. destruct i as [[]|]; reflexivity. Qed.
Lemma spell_all src l : all_items src (map spell l) = map spell (all_items src l).
Proof. destruct src; reflexivity. Qed.
Lemma spell_starts src l : item_starts src (map spell l) <-> item_starts src l.
Proof. destruct src; [reflexivity|]. destruct l as [|i l]; [reflexivity|]. cbn. rewrite spell_succeeds. reflexivity. Qed.
Lemma spell_usable bin i : wide_usable bin i -> item_usable bin (spell i).
Proof. destruct i as [[]|]; try exact (fun H => H). intros _. eexists. apply wide_text. Qed.
Lemma spell_line l : Forall on_one_line (map spell l) <-> Forall on_one_line l.
Proof.
  induction l as [|i l IH]; [split; constructor|]. cbn [map]. split; intros H; inversion H as [|? ? H1 H2]; subst; constructor; try (apply IH; exact H2).
  - destruct i as [[]|]; try exact H1; exact I.
  - destruct i as [[]|]; try exact H1. cbn [spell on_one_line]. destruct z; cbn [decZ]; try apply no_newline_cons; try apply dec_no_newline; vm_compute; intuition discriminate.
Qed.
Lemma wide_arguments h src ns bin items : opened h -> ~ closed h -> ns_ok ns -> fits (src_id src) ->
  item_starts src items -> Forall (wide_usable bin) (all_items src items) ->
  (bin = true -> (N.of_nat (length (flat_map item_blobs (kept_items (all_items src items)))) <= u64_max)%N) ->
  exists fs, build_items src ns bin items = Some fs /\
    (forall p, arrives h fs p -> exists gs,
       presents p (src_kind src) ns (src_id src) gs (built_blobs bin (all_items src items)) /\
       Forall2 (wide_shown bin) (kept_items (all_items src items)) gs) /\
    (ns = bs "/" -> ((exists p, arrives h fs p) <-> Forall on_one_line items)).
Proof.
  intros Ho Hc Hns Hid Hs Hu Hn. destruct (mixed_arguments h src ns bin (map spell items) Ho Hc Hns Hid) as (fs & E & Hall & Hr).
  - apply spell_starts. exact Hs.
  - rewrite spell_all. split; [apply Forall_map; revert Hu; apply Forall_impl; apply spell_usable|]. rewrite spell_kept, spell_blobs. exact Hn.
  - rewrite spell_built in E. exists fs. split; [exact E|]. split.
    + intros p Hp. destruct (Hall p Hp) as (gs & HP & HF). exists gs. rewrite spell_all in HP, HF. split.
      * unfold built_blobs in *. rewrite spell_kept, spell_blobs in HP. exact HP.
      * rewrite spell_kept in HF. clear - HF. remember (map spell (kept_items (all_items src items))) as l eqn:El. revert El. generalize (kept_items (all_items src items)).
        induction HF as [|i g l gs Hg HF IH]; intros [|j l0] El; try discriminate El; constructor; injection El as -> ->; auto. destruct j as [[]|]; try exact Hg.
        intros k. apply wide_text_reads. apply Hg.
    + intros Hroot. rewrite (Hr Hroot). apply spell_line.
Qed.
