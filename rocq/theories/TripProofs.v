(** What was written for a value of a type is read back as that value (C52). *)
From Verif Require Export TreeProofs InlineProofs.
Notation list_max := SpecSer.list_max.

(** ** Keys and strings *)
Lemma esc_plain c : (32 <= bN c)%N -> c <> x22 -> c <> x5c -> esc_byte c = [c].
Proof.
  intros H1 H2 H3.
  assert (X : ((negb (32 <=? bN c)%N) || (c =b x22) || (c =b x5c) || bytes_eqb (esc_byte c) [c]) = true).
  { apply (byte_forall (fun c => (negb (32 <=? bN c)%N) || (c =b x22) || (c =b x5c) || bytes_eqb (esc_byte c) [c])). vm_compute. reflexivity. }
  apply N.leb_le in H1. apply byte_eqb_neq in H2, H3. rewrite H1, H2, H3 in X. cbn in X. apply bytes_eqb_eq. exact X.
Qed.
Lemma escape_plain s : unescaped s -> escape s = s /\ no_backslash s = true.
Proof.
  induction 1 as [|c s (H1 & H2 & H3) H [I1 I2]]; [auto|]. rewrite escape_cons, esc_plain, I1 by assumption. split; [reflexivity|].
  cbn [no_backslash forallb]. unfold no_backslash in I2. rewrite I2, andb_true_r. apply negb_true_iff. apply byte_eqb_neq. exact H3.
Qed.
Lemma str_members_escaped {A} (l : list (bytes * A)) rs : map fst rs = map (fun kx => escape (fst kx)) l ->
  str_members rs = Some (combine (map fst l) (map snd rs)).
Proof.
  revert l. induction rs as [|[k r] rs IH]; intros [|[k' x] l] H; try discriminate; [reflexivity|].
  cbn [map fst snd] in H. injection H as -> H. cbn [str_members map combine fst snd]. rewrite unescape_escape, (IH l H). reflexivity.
Qed.

Section Trip.
Variable rp : bytes -> option value.
Variable bin : bool.
(** The attachments, or [None] for the reader that ignores them. *)
Variable rd : option (list subslice_t).
Definition reader (t : ty) (d : nat) (r : raw) : option dval :=
  match rd with None => de_plain rp t d r | Some A => de_wrap rp A t d r end.
Definition fit (n : nat) (bl : list bytes) : Prop :=
  match rd with None => bin = true -> bl = [] | Some A => bin = true /\ holds A n bl end.
Lemma fit_app n a b : fit n (a ++ b) -> fit n a /\ fit (n + length a) b.
Proof.
  unfold fit. destruct rd as [A|].
  - intros [H1 H2]. apply holds_app in H2 as [H2 H3]. auto.
  - intros H. split; intros Hb; apply H in Hb; apply app_eq_nil in Hb; tauto.
Qed.

(** *** [Value] *)
Lemma value_no_blobs x : blobs (value_writes x) = [].
Proof.
  induction x as [|b|n|s|l IH|m IH] using value_ind'; try reflexivity; [destruct n; reflexivity|..]; cbn [value_writes blobs].
  - replace (blob_seq (map value_writes l)) with false; [clear -IH; induction IH as [|y l H1 H IH']; [reflexivity|]; cbn [map flat_map]; rewrite H1; exact IH'|].
    destruct l as [|y l]; [reflexivity|]. cbn. destruct y as [| |[]| | |]; reflexivity.
  - induction IH as [|[k y] m H1 H IH']; [reflexivity|]. cbn [map flat_map] in *. cbn [snd] in H1. rewrite H1. exact IH'.
Qed.
Lemma value_seq l : blob_seq (map value_writes l) = false /\ mixed_seq (map value_writes l) = false.
Proof. destruct l as [|y l]; [auto|]. destruct y as [| |[]| | |]; cbn; auto. Qed.
Lemma value_json x : value_ok x -> json_of (value_writes x) = Some x.
Proof.
  induction x as [|b|n|s|l IH|m IH] using value_ind'; try reflexivity; cbn [value_ok]; intros H.
  - destruct n as [n|z|t]; try reflexivity.
    + cbn. replace (Z.of_N n <? 0)%Z with false by (symmetry; apply Z.ltb_ge; lia). rewrite N2Z.id. reflexivity.
    + cbn. replace (z <? 0)%Z with true by (symmetry; apply Z.ltb_lt; lia). reflexivity.
  - cbn [value_writes json_of]. rewrite map_map.
    assert (E : all_some (map (fun y => json_of (value_writes y)) l) = Some l); [|rewrite E; reflexivity].
    induction IH as [|y l H1 H2 IH']; [reflexivity|]. cbn [allP] in H. destruct H as [Ha Hb]. cbn [map all_some]. rewrite H1, IH' by assumption. reflexivity.
  - cbn [value_writes json_of]. rewrite map_map. destruct H as [Ho H].
    assert (E : all_some (map (fun z : bytes * value => let '(k, x) := let '(k, y) := z in (SStr k, value_writes y) in pair_opt (key_of k) (json_of x)) m) = Some m).
    { clear Ho. induction IH as [|[k y] m H1 H2 IH']; [reflexivity|]. cbn [allP] in H. destruct H as [Ha Hb]. cbn [map all_some key_of]. cbn [snd] in H1.
      rewrite H1, IH' by assumption. reflexivity. }
    rewrite E. cbn [option_map]. unfold obj_of. rewrite (collected m m) by (assumption || reflexivity). reflexivity.
Qed.
Lemma value_read x : value_ok x -> val_ok (value_writes x) -> (bin = true -> value_plain x) -> forall n text, W bin n (value_writes x) text ->
  exists r, jvalue r text /\ (forall d, nesting (value_writes x) < d -> val_of rp d r = Some x) /\ (bin = true -> ordinary r) /\ (x <> VNull -> r <> RNull).
Proof.
  induction x as [|b|m|s|l IH|m IH] using value_ind'; intros Hok Hv Hpl n text Hw.
  - exists RNull. apply (W_leaf _ _ _ _ (bs "null")) in Hw; try reflexivity. subst. split; [constructor|]. cbn. auto.
  - exists (RBool b). apply (W_leaf _ _ _ _ (if b then bs "true" else bs "false")) in Hw; try reflexivity. subst. split; [destruct b; constructor|]. cbn. split; [auto|split; [auto|discriminate]].
  - assert (exists i, jvalue (RNum i) text /\ num_of i = Some m) as (i & J & E).
    { destruct m as [k|z|t]; cbn [value_writes val_ok value_ok] in *.
      - apply (W_leaf _ _ _ _ (decZ (Z.of_N k))) in Hw; try reflexivity. subst. eexists. rewrite decZ_text. split; [apply jv_num, int_lit_ok|].
        rewrite decZ_num by exact Hv. replace (Z.of_N k <? 0)%Z with false by (symmetry; apply Z.ltb_ge; lia). rewrite N2Z.id. reflexivity.
      - apply (W_leaf _ _ _ _ (decZ z)) in Hw; try reflexivity. subst. eexists. rewrite decZ_text. split; [apply jv_num, int_lit_ok|].
        rewrite decZ_num by exact Hv. replace (z <? 0)%Z with true by (symmetry; apply Z.ltb_lt; lia). reflexivity.
      - apply (W_leaf _ _ _ _ (numlit_text t)) in Hw; try reflexivity. subst. destruct Hv as [H1 H2]. exists t. split; [apply jv_num; exact H1|exact H2]. }
    exists (RNum i). split; [exact J|]. split; [intros d _; cbn; rewrite E; reflexivity|]. cbn. split; [auto|discriminate].
  - apply (W_leaf _ _ _ _ (json_str s)) in Hw; try reflexivity. subst. exists (RStr (escape s)). split; [apply json_str_value|].
    split; [intros d _; cbn; rewrite unescape_escape; reflexivity|]. cbn. split; [auto|discriminate].
  - cbn [value_writes val_ok value_ok value_plain] in *. destruct (value_seq l) as [B1 B2].
    apply (W_array _ _ _ (map value_writes l)) in Hw as (ts & -> & Hts);
      [|reflexivity|intros _ s; rewrite wser_SSeq, wser_seq_cases, B1, B2; reflexivity|cbn [json_of]; apply opt_map_none].
    assert (exists rs, Forall2 jvalue rs ts /\ (forall d, list_max (map nesting (map value_writes l)) < d -> all_some (map (val_of rp d) rs) = Some l) /\
      (bin = true -> allP ordinary rs)) as (rs & J & V & O).
    { clear B1 B2. revert n ts Hts. induction IH as [|y l H1 H2 IH']; intros n ts Hts; inversion Hts as [|? ? ? t ts' Ht Hts']; subst.
      - exists []. split; [constructor|]. cbn. auto.
      - cbn [allP] in *. destruct Hok as [Hok1 Hok2]. destruct Hv as [Hv1 Hv2]. rewrite value_no_blobs in Hts'.
        destruct (H1 Hok1 Hv1 (fun e => proj1 (Hpl e)) _ _ Ht) as (r & J & V & O & _).
        destruct (IH' Hok2 Hv2 (fun e => proj2 (Hpl e)) _ _ Hts') as (rs & J' & V' & O').
        exists (r :: rs). split; [constructor; assumption|]. split.
        + intros d Hd. cbn [map list_max fold_right] in Hd. fold (list_max (map nesting (map value_writes l))) in Hd.
          cbn [map all_some]. rewrite V, V' by lia. reflexivity.
        + intros e. cbn. auto. }
    exists (RArr rs). split; [apply jarr_seps; exact J|]. split; [|split; [exact O|discriminate]].
    intros d Hd. cbn [nesting] in Hd. destruct d as [|[|d]]; [lia|lia|]. rewrite val_of_arr, V by lia. reflexivity.
  - cbn [value_writes val_ok value_ok value_plain] in *. destruct Hok as [Ho Hok]. destruct Hv as [Hf Hv].
    apply (W_object _ _ _ (map (fun '(k, y) => (SStr k, value_writes y)) m)) in Hw as (ts & -> & Hts);
      [|reflexivity|reflexivity|cbn [json_of]; rewrite opt_map_none, entry_map; auto].
    assert (exists rs, Forall2 jmember rs ts /\ map fst rs = map (fun kx => escape (fst kx)) m /\
      (forall d, list_max (map (fun '(_, x) => nesting x) (map (fun '(k, y) => (SStr k, value_writes y)) m)) < d -> all_some (map (val_member rp d) rs) = Some m) /\
      (bin = true -> allP (fun '(_, x) => ordinary x) rs)) as (rs & J & K & V & O).
    { clear Ho Hf. assert (Hpl' : bin = true -> allP (fun '(_, y) => value_plain y) m) by (intros e; apply Hpl; exact e). clear Hpl.
      revert n ts Hts. induction IH as [|[k y] m H1 H2 IH']; intros n ts Hts; inversion Hts as [|? ? ? ? kt t ts' Ek Ht Hts']; subst.
      - exists []. split; [constructor|]. cbn. auto.
      - cbn [allP snd] in *. destruct Hok as [Hok1 Hok2]. destruct Hv as [[_ Hv1] Hv2]. rewrite value_no_blobs in Hts'.
        destruct (H1 Hok1 Hv1 (fun e => proj1 (Hpl' e)) _ _ Ht) as (r & J & V & O & _).
        destruct (IH' Hok2 Hv2 (fun e => proj2 (Hpl' e)) _ _ Hts') as (rs & J' & K' & V' & O').
        cbn [key_text] in Ek. injection Ek as <-.
        exists ((escape k, r) :: rs). split; [constructor; [|assumption]|].
        { exists t. cbn [fst snd]. split; [unfold json_str; cbn [app]; rewrite <- app_assoc; reflexivity|]. split; [apply escape_body|exact J]. }
        split; [cbn; rewrite K'; reflexivity|]. split.
        + intros d Hd. cbn [map list_max fold_right] in Hd. fold (list_max (map (fun '(_, x) => nesting x) (map (fun '(k, y) => (SStr k, value_writes y)) m))) in Hd.
          cbn [map all_some]. unfold val_member at 1. cbn [fst snd]. rewrite unescape_escape, V, V' by lia. reflexivity.
        + intros e. cbn. auto. }
    exists (RObj rs). split; [apply jobj_seps; exact J|]. split; [|split; [|discriminate]].
    + intros d Hd. cbn [nesting] in Hd. destruct d as [|[|d]]; [lia|lia|]. rewrite val_of_obj.
      * rewrite V by lia. cbn [option_map]. unfold obj_of. rewrite (collected m m) by (assumption || reflexivity). reflexivity.
      * intros k z l' k' -> Hk. destruct m as [|[k0 x0] m]; [discriminate|]. cbn [map fst] in K. injection K as -> _.
        rewrite unescape_escape in Hk. injection Hk as <-. cbn in Hf. exact Hf.
    + intros e. cbn [ordinary]. split; [|apply O; exact e]. specialize (Hpl e). destruct Hpl as [Hpl _].
      destruct m as [|[k0 x0] m]; [destruct rs; [exact I|discriminate]|]. destruct rs as [|[k r] rs]; [discriminate|].
      cbn [map fst] in K. injection K as -> _. cbn in Hpl. destruct Hpl as [P1 P2]. destruct (escape_plain _ P1) as [E1 E2]. cbn. rewrite E1. auto.
Qed.

(** *** Byte strings *)
Lemma reads_buffer A n b : (N.of_nat n <= u64_max)%N -> att A n b ->
  classify_obj A [(key_placeholder, RBool true); (key_num, RNum (int_lit false (N.of_nat n)))] = OMBuffer b.
Proof.
  intros Hn (s & H1 & H2). unfold classify_obj. destruct no_backslash_keys as [-> ->]. rewrite !bytes_eqb_refl. cbn [negb andb u64_of_raw].
  rewrite num_of_nat by exact Hn. assert (n < length A) by (apply nth_error_Some; congruence).
  replace (N.of_nat n <? N.of_nat (length A))%N with true by (symmetry; apply N.ltb_lt; lia). rewrite Nat2N.id, H1, H2. reflexivity.
Qed.
Definition u8_xs (b : bytes) : list dval := map (fun c => XInt (Z.of_N (bN c))) b.
Lemma u8_in c : int_in 0 255 (NPos (bN c)) = Some (XInt (Z.of_N (bN c))).
Proof.
  unfold int_in. cbn [num_Z]. pose proof (bN_bound c). replace ((0 <=? Z.of_N (bN c)) && (Z.of_N (bN c) <=? 255))%Z with true; [reflexivity|].
  symmetry. apply andb_true_iff. split; apply Z.leb_le; lia.
Qed.
Lemma visit_u8s b : visit_u8_all (TyInt 0 255) b = Some (u8_xs b).
Proof. induction b as [|c b IH]; [reflexivity|]. cbn [visit_u8_all visit_u8]. rewrite u8_in, IH. reflexivity. Qed.
Lemma encodes_u8 u x c : encodes u x (SU8 c) -> u = TyInt 0 255 /\ x = XInt (Z.of_N (bN c)).
Proof. intros H. inversion H; subst; auto. destruct x0 as [| |[]| | |]; discriminate. Qed.
Lemma u8_encodes x v : encodes (TyInt 0 255) x v -> exists c, v = SU8 c /\ x = XInt (Z.of_N (bN c)).
Proof. intros H. inversion H; subst; [eauto|lia]. Qed.
Lemma seq_cases u xs vs : Forall2 (encodes u) xs vs ->
  mixed_seq vs = false /\ (blob_seq vs = true -> u = TyInt 0 255 /\ exists b, b <> [] /\ vs = map SU8 b /\ xs = u8_xs b).
Proof.
  assert (G : forall xs vs, Forall2 (encodes (TyInt 0 255)) xs vs -> exists b, vs = map SU8 b /\ xs = u8_xs b).
  { induction 1 as [|x v xs' vs' Hx H (b & -> & ->)]; [exists []; auto|]. apply u8_encodes in Hx as (c & -> & ->). exists (c :: b). auto. }
  assert (U : forall b, forallb is_u8 (map SU8 b) = true) by (induction b; cbn; auto).
  intros H. destruct vs as [|v vs]; [split; [reflexivity|discriminate]|].
  destruct (is_u8 v) eqn:E.
  - destruct v; try discriminate E. inversion H as [|? ? ? ? Hx _]; subst. apply encodes_u8 in Hx as [-> _].
    destruct (G _ _ H) as (b' & Eb & Ex). rewrite Eb. split.
    + destruct b'; [discriminate|]. cbn. rewrite U. reflexivity.
    + intros _. split; [reflexivity|]. exists b'. split; [destruct b'; discriminate|]. auto.
  - cbn [mixed_seq blob_seq forallb]. rewrite E. cbn. split; [reflexivity|discriminate].
Qed.
Lemma u8s_map b : u8s (map SU8 b) = b.
Proof. induction b as [|c b IH]; [reflexivity|]. cbn. f_equal. exact IH. Qed.
Lemma u8_forall b : forallb is_u8 (map SU8 b) = true.
Proof. induction b; cbn; auto. Qed.
Lemma u8_blob b : b <> [] -> blob_seq (map SU8 b) = true.
Proof. destruct b; [congruence|]. intros _. cbn. apply u8_forall. Qed.
Lemma wrap_u8s b s : b <> [] -> wrap_ser (SSeq (map SU8 b)) s = ((fst s ++ placeholder_text (length (snd s)), snd s ++ [frame b]), OOk).
Proof. intros H. rewrite wser_SSeq, wser_seq_cases, u8_blob, u8s_map by exact H. reflexivity. Qed.
Lemma entry_text k t : json_str k ++ ":"%byte :: t = x22 :: escape k ++ x22 :: ":"%byte :: t.
Proof. unfold json_str. cbn [app]. rewrite <- app_assoc. reflexivity. Qed.

(** *** All types *)
Definition is_tuple (v : sval) : bool := match v with STuple _ => true | _ => false end.
Definition trip (t : ty) (x : dval) (v : sval) : Prop :=
  recoverable bin t x -> val_ok v -> forall n text, W bin n v text -> fit n (blobs v) -> (bin = true -> N.of_nat (n + length (blobs v)) <= u64_max)%N ->
  exists r, jvalue r text /\ (forall d, nesting v < d -> reader t d r = Some x) /\ (null_like x = false -> r <> RNull) /\
    (is_tuple v = true -> exists l, r = RArr l).
Definition round (t : ty) : Prop := forall x v, encodes t x v -> trip t x v.

Lemma trip_leaf t x v text0 r : (forall o, json_ser v o = (o ++ text0, OOk)) -> (forall s, wrap_ser v s = (wput text0 s, OOk)) ->
  (val_ok v -> jvalue r text0) -> (recoverable bin t x -> val_ok v -> forall d, reader t d r = Some x) -> (null_like x = false -> r <> RNull) -> is_tuple v = false -> trip t x v.
Proof.
  intros H1 H2 H3 H4 H5 H6 Hr Hv n text Hw _ _. apply (W_leaf _ _ _ _ text0) in Hw; [|assumption..]. subst text. exists r. split; [auto|]. split; [auto|]. split; [auto|]. rewrite H6. discriminate.
Qed.
Lemma reader_same t d r : (forall A, de_wrap rp A t d r = de_plain rp t d r) -> reader t d r = de_plain rp t d r.
Proof. intros H. unfold reader. destruct rd; auto. Qed.

Lemma list_trip (R : list dval -> list raw -> nat -> Prop) ts : forall xs vs, Forall round ts -> Forall3 encodes ts xs vs ->
  Forall2 (recoverable bin) ts xs -> allP val_ok vs -> forall n texts, Wlist bin n vs texts -> fit n (flat_map blobs vs) ->
  (bin = true -> N.of_nat (n + length (flat_map blobs vs)) <= u64_max)%N ->
  exists rs, Forall2 jvalue rs texts /\ forall d, list_max (map nesting vs) < d -> zip_of (fun u => reader u d) ts rs = Some xs.
Proof.
  clear R. induction ts as [|t ts IH]; intros xs vs Ht He Hr Hv n texts Hw Hf Hn; inversion He as [|? x v ? xs' vs' He1 He2]; subst;
    inversion Hw as [|? ? ? text texts' Hw1 Hw2]; subst.
  - exists []. split; [constructor|reflexivity].
  - inversion Ht as [|? ? Ht1 Ht2]; subst. inversion Hr as [|? ? ? ? Hr1 Hr2]; subst. cbn [allP] in Hv. destruct Hv as [Hv1 Hv2].
    cbn [flat_map] in Hf, Hn. apply fit_app in Hf as [Hf1 Hf2]. rewrite app_length in Hn.
    destruct (Ht1 _ _ He1 Hr1 Hv1 _ _ Hw1 Hf1 ltac:(intros e; specialize (Hn e); lia)) as (r & J & V & _).
    destruct (IH _ _ Ht2 He2 Hr2 Hv2 _ _ Hw2 Hf2 ltac:(intros e; specialize (Hn e); rewrite <- Nat.add_assoc; lia)) as (rs & J' & V').
    exists (r :: rs). split; [constructor; assumption|]. intros d Hd. cbn [map list_max fold_right] in Hd. fold (list_max (map nesting vs')) in Hd.
    cbn [zip_of]. rewrite V by lia. rewrite V' by lia. reflexivity.
Qed.
Lemma each_zip f u rs : forall xs, each_of f rs = Some xs <-> zip_of (fun _ => f) (repeat u (length rs)) rs = Some xs.
Proof.
  induction rs as [|r rs IH]; intros xs; [reflexivity|]. cbn [each_of zip_of repeat length]. destruct (f r) as [x|]; [|split; discriminate].
  destruct (each_of f rs) as [ys|] eqn:E1; destruct (zip_of _ _ rs) as [zs|] eqn:E2; try reflexivity.
  - pose proof (proj1 (IH ys) eq_refl) as X. injection X as ->. reflexivity.
  - pose proof (proj1 (IH ys) eq_refl). discriminate.
  - pose proof (proj2 (IH zs) eq_refl). discriminate.
Qed.
Lemma elem_trip u : round u -> forall xs vs, Forall2 (encodes u) xs vs ->
  Forall (recoverable bin u) xs -> allP val_ok vs -> forall n texts, Wlist bin n vs texts -> fit n (flat_map blobs vs) ->
  (bin = true -> N.of_nat (n + length (flat_map blobs vs)) <= u64_max)%N ->
  exists rs, Forall2 jvalue rs texts /\ forall d, list_max (map nesting vs) < d -> each_of (reader u d) rs = Some xs.
Proof.
  intros Hu. induction 1 as [|x v xs vs He1 He2 IH]; intros Hr Hv n texts Hw Hf Hn; inversion Hw as [|? ? ? text texts' Hw1 Hw2]; subst.
  - exists []. split; [constructor|reflexivity].
  - inversion Hr as [|? ? Hr1 Hr2]; subst. cbn [allP] in Hv. destruct Hv as [Hv1 Hv2].
    cbn [flat_map] in Hf, Hn. apply fit_app in Hf as [Hf1 Hf2]. rewrite app_length in Hn.
    destruct (Hu _ _ He1 Hr1 Hv1 _ _ Hw1 Hf1 ltac:(intros e; specialize (Hn e); lia)) as (r & J & V & _).
    destruct (IH Hr2 Hv2 _ _ Hw2 Hf2 ltac:(intros e; specialize (Hn e); rewrite <- Nat.add_assoc; lia)) as (rs & J' & V').
    exists (r :: rs). split; [constructor; assumption|]. intros d Hd. cbn [map list_max fold_right] in Hd. fold (list_max (map nesting vs)) in Hd.
    cbn [each_of]. rewrite V by lia. rewrite V' by lia. reflexivity.
Qed.
(** Objects: member texts, in order. *)
Lemma map_trip u : round u -> forall m vs, Forall2 (fun kx kv => fst kv = SStr (fst kx) /\ encodes u (snd kx) (snd kv)) m vs ->
  Forall (fun kx => recoverable bin u (snd kx)) m -> allP (fun '(k, x) => key_ok k /\ val_ok x) vs -> forall n texts, Wents bin n vs texts ->
  fit n (flat_map (fun '(_, x) => blobs x) vs) -> (bin = true -> N.of_nat (n + length (flat_map (fun '(_, x) => blobs x) vs)) <= u64_max)%N ->
  exists rs, Forall2 jmember rs texts /\ map fst rs = map (fun kx => escape (fst kx)) m /\
    forall d, list_max (map (fun '(_, x) => nesting x) vs) < d ->
      forall acc, map_of (reader u d) (combine (map fst m) (map snd rs)) acc = Some (fold_left (fun a kv => obj_insert (fst kv) (snd kv) a) m acc).
Proof.
  intros Hu. induction 1 as [|[k x] [k' v] m vs [E He1] He2 IH]; intros Hr Hv n texts Hw Hf Hn; inversion Hw as [|? ? ? ? kt text texts' Ek Hw1 Hw2]; subst.
  - exists []. split; [constructor|]. split; reflexivity.
  - cbn [fst snd] in *. subst k'. cbn [key_text] in Ek. injection Ek as <-.
    inversion Hr as [|? ? Hr1 Hr2]; subst. cbn [snd] in Hr1. cbn [allP] in Hv. destruct Hv as [[_ Hv1] Hv2].
    cbn [flat_map] in Hf, Hn. apply fit_app in Hf as [Hf1 Hf2]. rewrite app_length in Hn.
    destruct (Hu _ _ He1 Hr1 Hv1 _ _ Hw1 Hf1 ltac:(intros e; specialize (Hn e); lia)) as (r & J & V & _).
    destruct (IH Hr2 Hv2 _ _ Hw2 Hf2 ltac:(intros e; specialize (Hn e); rewrite <- Nat.add_assoc; lia)) as (rs & J' & K' & V').
    exists ((escape k, r) :: rs). split; [constructor; [|assumption]|].
    { exists text. cbn [fst snd]. split; [apply entry_text|]. split; [apply escape_body|exact J]. }
    split; [cbn; rewrite K'; reflexivity|].
    intros d Hd acc. cbn [map list_max fold_right] in Hd. fold (list_max (map (fun '(_, x) => nesting x) vs)) in Hd.
    cbn [map combine fst snd map_of fold_left]. rewrite V by lia. apply V'. lia.
Qed.
(** Integers as keys. *)
Lemma int_key_text lo hi z n : (lo <= z <= hi)%Z -> num_of n = Some (if (z <? 0)%Z then NNeg z else NPos (Z.to_N z)) -> numlit_ok n ->
  int_key lo hi (numlit_text n) = Some z.
Proof.
  intros Hz Hn Ho. unfold int_key. rewrite <- (app_nil_r (numlit_text n)), scan_num_app by (reflexivity || exact Ho). rewrite Hn.
  assert (E : num_Z (if (z <? 0)%Z then NNeg z else NPos (Z.to_N z)) = Some z).
  { destruct (Z.ltb_spec z 0); [reflexivity|]. cbn [num_Z]. rewrite Z2N.id by lia. reflexivity. }
  unfold int_in. rewrite E. replace ((lo <=? z) && (z <=? hi))%Z with true; [reflexivity|].
  symmetry. apply andb_true_iff. split; apply Z.leb_le; lia.
Qed.
Lemma int_body neg n : jbody (numlit_text (int_lit neg n)).
Proof.
  apply plain_body, num_plain, num_chars, int_lit_ok.
Qed.
Lemma int_written lo hi z k : (- 2 ^ 63 <= lo)%Z -> (hi <= Z.of_N u64_max)%Z -> int_writes lo hi z k ->
  exists t, key_text k = Some (x22 :: t ++ [x22]) /\ jbody t /\ int_key lo hi t = Some z.
Proof.
  intros Hlo Hhi [Hz [[_ (c & -> & ->)]|[_ ->]]].
  - exists (dec (bN c)). split; [reflexivity|]. rewrite <- int_lit_text. split; [apply int_body|].
    apply int_key_text; [exact Hz| |apply int_lit_ok]. rewrite u8_num. destruct (Z.ltb_spec (Z.of_N (bN c)) 0); [lia|]. rewrite N2Z.id. reflexivity.
  - exists (decZ z). split; [reflexivity|]. rewrite decZ_text. split; [apply int_body|].
    apply int_key_text; [exact Hz| |apply int_lit_ok]. apply decZ_num. lia.
Qed.
Lemma int_map_trip lo hi u : (- 2 ^ 63 <= lo)%Z -> (hi <= Z.of_N u64_max)%Z -> round u -> forall m vs,
  Forall2 (fun kx kv => int_writes lo hi (fst kx) (fst kv) /\ encodes u (snd kx) (snd kv)) m vs ->
  Forall (fun kx => recoverable bin u (snd kx)) m -> allP (fun '(k, x) => key_ok k /\ val_ok x) vs -> forall n texts, Wents bin n vs texts ->
  fit n (flat_map (fun '(_, x) => blobs x) vs) -> (bin = true -> N.of_nat (n + length (flat_map (fun '(_, x) => blobs x) vs)) <= u64_max)%N ->
  exists rs, Forall2 jmember rs texts /\
    forall d, list_max (map (fun '(_, x) => nesting x) vs) < d ->
      forall acc, int_map_of lo hi (reader u d) rs acc = Some (fold_left (fun a kv => int_insert (fst kv) (snd kv) a) m acc).
Proof.
  intros Hlo Hhi Hu. induction 1 as [|[k x] [k' v] m vs [E He1] He2 IH]; intros Hr Hv n texts Hw Hf Hn; inversion Hw as [|? ? ? ? kt text texts' Ek Hw1 Hw2]; subst.
  - exists []. split; [constructor|reflexivity].
  - cbn [fst snd] in *. destruct (int_written lo hi k k' Hlo Hhi E) as (kt' & Ek' & Jk & Rk). rewrite Ek' in Ek. injection Ek as Ek. subst kt.
    inversion Hr as [|? ? Hr1 Hr2]; subst. cbn [snd] in Hr1. cbn [allP] in Hv. destruct Hv as [[_ Hv1] Hv2].
    cbn [flat_map] in Hf, Hn. apply fit_app in Hf as [Hf1 Hf2]. rewrite app_length in Hn.
    destruct (Hu _ _ He1 Hr1 Hv1 _ _ Hw1 Hf1 ltac:(intros e; specialize (Hn e); lia)) as (r & J & V & _).
    destruct (IH Hr2 Hv2 _ _ Hw2 Hf2 ltac:(intros e; specialize (Hn e); rewrite <- Nat.add_assoc; lia)) as (rs & J' & V').
    exists ((kt', r) :: rs). split; [constructor; [|assumption]|].
    { exists text. cbn [fst snd]. split; [cbn [app]; rewrite <- app_assoc; reflexivity|]. split; [exact Jk|exact J]. }
    intros d Hd acc. cbn [map list_max fold_right] in Hd. fold (list_max (map (fun '(_, x) => nesting x) vs)) in Hd.
    cbn [int_map_of fold_left fst snd]. rewrite Rk, V by lia. apply V'. lia.
Qed.
Lemma fields_trip fs : forall xs vs, Forall (fun f => round (snd f)) fs ->
  Forall3 (fun f x kv => fst kv = fst f /\ encodes (snd f) x (snd kv)) fs xs vs ->
  Forall2 (fun f x => recoverable bin (snd f) x) fs xs -> allP (fun '(_, x) => val_ok x) vs -> forall n texts, Wents bin n (as_entries vs) texts ->
  fit n (flat_map (fun '(_, x) => blobs x) vs) -> (bin = true -> N.of_nat (n + length (flat_map (fun '(_, x) => blobs x) vs)) <= u64_max)%N ->
  exists rs, Forall2 jmember rs texts /\ map fst rs = map (fun kx => escape (fst kx)) fs /\
    forall d, list_max (map (fun '(_, x) => nesting x) vs) < d -> zip_of (fun u => reader u d) (map snd fs) (map snd rs) = Some xs.
Proof.
  induction fs as [|[k t] fs IH]; intros xs vs Ht He Hr Hv n texts Hw Hf Hn; inversion He as [|? x [k' v] ? xs' vs' [E He1] He2]; subst; cbn [as_entries map] in Hw;
    inversion Hw as [|? ? ? ? kt text texts' Ek Hw1 Hw2]; subst.
  - exists []. split; [constructor|]. split; reflexivity.
  - cbn [fst snd] in *. subst k'. cbn [key_text] in Ek. injection Ek as <-.
    inversion Ht as [|? ? Ht1 Ht2]; subst. cbn [snd] in Ht1. inversion Hr as [|? ? ? ? Hr1 Hr2]; subst. cbn [snd] in Hr1. cbn [allP] in Hv. destruct Hv as [Hv1 Hv2].
    cbn [flat_map] in Hf, Hn. apply fit_app in Hf as [Hf1 Hf2]. rewrite app_length in Hn.
    destruct (Ht1 _ _ He1 Hr1 Hv1 _ _ Hw1 Hf1 ltac:(intros e; specialize (Hn e); lia)) as (r & J & V & _).
    destruct (IH _ _ Ht2 He2 Hr2 Hv2 _ _ Hw2 Hf2 ltac:(intros e; specialize (Hn e); rewrite <- Nat.add_assoc; lia)) as (rs & J' & K' & V').
    exists ((escape k, r) :: rs). split; [constructor; [|assumption]|].
    { exists text. cbn [fst snd]. split; [apply entry_text|]. split; [apply escape_body|exact J]. }
    split; [cbn; rewrite K'; reflexivity|].
    intros d Hd. cbn [map list_max fold_right] in Hd. fold (list_max (map (fun '(_, x) => nesting x) vs')) in Hd.
    cbn [map fst snd zip_of]. rewrite V by lia. rewrite V' by lia. reflexivity.
Qed.
(** Distinct names: each field finds its own member. *)
Lemma named_one (m : list (bytes * raw)) k r : NoDup (map fst m) -> In (k, r) m -> members_named k m = [r].
Proof.
  unfold members_named. induction m as [|[k' r'] m IH]; intros Hn Hin; [contradiction|]. cbn [map fst] in Hn. inversion Hn as [|? ? H1 H2]; subst.
  cbn [filter fst]. destruct Hin as [[= -> ->]|Hin].
  - rewrite bytes_eqb_refl. cbn [map snd]. f_equal.
    replace (filter (fun p => bytes_eqb k (fst p)) m) with (@nil (bytes * raw)); [reflexivity|]. symmetry.
    clear -H1. induction m as [|[a b] m IH]; [reflexivity|]. cbn [filter fst]. cbn in H1. destruct (bytes_eqb k a) eqn:E; [apply bytes_eqb_eq in E; subst; tauto|].
    apply IH. tauto.
  - destruct (bytes_eqb k k') eqn:E; [|apply IH; assumption]. apply bytes_eqb_eq in E. subst k'. exfalso. apply H1. apply (in_map fst) in Hin. exact Hin.
Qed.
Lemma fields_zip f (m : list (bytes * raw)) fs rs xs : NoDup (map fst m) -> (forall k u r, In (k, u, r) (combine fs rs) -> In (k, r) m) ->
  zip_of f (map snd fs) rs = Some xs -> fields_of f m fs = Some xs.
Proof.
  intros Hn. revert rs xs. induction fs as [|[k u] fs IH]; intros rs xs Hin H; destruct rs as [|r rs]; try discriminate; [exact H|].
  cbn [map snd zip_of] in H. destruct (f u r) as [x|] eqn:E; [|discriminate]. destruct (zip_of f (map snd fs) rs) as [ys|] eqn:E2; [|discriminate].
  injection H as <-. cbn [fields_of]. unfold field_of. rewrite (named_one m k r Hn) by (apply (Hin k u r); left; reflexivity). rewrite E.
  rewrite (IH rs ys); [reflexivity| |exact E2]. intros k' u' r' H'. apply (Hin k' u' r'). right. exact H'.
Qed.
Lemma combine_names (fs : list (bytes * ty)) rs : length rs = length fs ->
  map fst (combine (map fst fs) rs) = map fst fs /\ (forall k u (r : raw), In (k, u, r) (combine fs rs) -> In (k, r) (combine (map fst fs) rs)).
Proof.
  revert rs. induction fs as [|[k u] fs IH]; intros [|r rs] H; try discriminate; [cbn; auto|]. cbn in H. injection H as H. destruct (IH rs H) as [I1 I2].
  cbn. rewrite I1. split; [reflexivity|]. intros k' u' r' [[= -> -> ->]|H']; [auto|]. right. eapply I2. exact H'.
Qed.
(** Enums. *)
Lemma variant_found f name es tag u : NoDup (map fst es) -> In (name, (tag, u)) es -> variant_of f name es = f name tag u.
Proof.
  induction es as [|[n [tag' u']] es IH]; intros Hn Hin; [contradiction|]. cbn [map fst] in Hn. inversion Hn as [|? ? H1 H2]; subst.
  cbn [variant_of]. destruct Hin as [[= -> -> ->]|Hin]; [rewrite bytes_eqb_refl; reflexivity|].
  destruct (bytes_eqb n name) eqn:E; [|apply IH; assumption]. apply bytes_eqb_eq in E. subst n. exfalso. apply H1. apply (in_map fst) in Hin. exact Hin.
Qed.
Lemma same_variant (es : list (bytes * (vtag * ty))) n a b : NoDup (map fst es) -> In (n, a) es -> In (n, b) es -> a = b.
Proof.
  induction es as [|[m c] es IH]; intros Hn Ha Hb; [contradiction|]. cbn [map fst] in Hn. inversion Hn as [|? ? H1 H2]; subst.
  destruct Ha as [Ha|Ha], Hb as [Hb|Hb]; auto; [congruence|..]; exfalso; apply H1.
  - injection Ha as -> _. apply (in_map fst) in Hb. exact Hb.
  - injection Hb as -> _. apply (in_map fst) in Ha. exact Ha.
Qed.

(** *** One step of the reader *)
Lemma fit_bin n bl : fit n bl -> rd <> None -> bin = true.
Proof. unfold fit. destruct rd; [tauto|congruence]. Qed.
Lemma reader_seq u d l : reader (TySeq u) (S (S d)) (RArr l) = option_map XSeq (each_of (reader u (S d)) l).
Proof. unfold reader. destruct rd; reflexivity. Qed.
Lemma reader_tuple ts d l : reader (TyTuple ts) (S (S d)) (RArr l) = option_map XTuple (zip_of (fun u => reader u (S d)) ts l).
Proof. unfold reader. destruct rd; reflexivity. Qed.
Lemma reader_option u d r : r <> RNull -> reader (TyOption u) d r = option_map XSome (reader u d r).
Proof. unfold reader. intros H. destruct rd; destruct r; try reflexivity; congruence. Qed.
Lemma reader_newtype u d r : reader (TyNewtype u) d r = option_map XNewtype (reader u d r).
Proof. unfold reader. destruct rd; reflexivity. Qed.
Lemma reader_map u d l m : (rd <> None -> ordinary_first l) -> str_members l = Some m ->
  reader (TyMap u) (S (S d)) (RObj l) = option_map XMap (map_of (reader u (S d)) m []).
Proof.
  unfold reader. intros Ho Hm. destruct rd as [A|].
  - rewrite de_wrap_map. cbn [enter]. rewrite classify_ordinary, Hm by (apply Ho; discriminate). reflexivity.
  - rewrite de_plain_map. cbn [enter]. rewrite Hm. reflexivity.
Qed.
Lemma reader_struct fs d l m : (rd <> None -> ordinary_first l) -> str_members l = Some m ->
  reader (TyStruct fs) (S (S d)) (RObj l) = option_map XStruct (fields_of (fun u => reader u (S d)) m fs).
Proof.
  unfold reader. intros Ho Hm. destruct rd as [A|].
  - rewrite de_wrap_struct. cbn [enter]. rewrite classify_ordinary, Hm by (apply Ho; discriminate). reflexivity.
  - rewrite de_plain_struct. cbn [enter]. rewrite Hm. reflexivity.
Qed.
Lemma reader_name es n u d : NoDup (map fst es) -> In (n, (VtUnit, u)) es -> reader (TyEnum es) d (RStr (escape n)) = Some (XVariant n XUnit).
Proof.
  intros Hn Hin. transitivity (de_plain rp (TyEnum es) d (RStr (escape n))); [unfold reader; destruct rd; reflexivity|].
  rewrite de_plain_enum, unescape_escape, (variant_found _ n es VtUnit u Hn Hin). reflexivity.
Qed.
Lemma reader_tag es n tag u d r : NoDup (map fst es) -> In (n, (tag, u)) es -> tag <> VtUnit -> (tag = VtTuple -> exists l, r = RArr l) ->
  reader (TyEnum es) (S (S d)) (RObj [(escape n, r)]) = option_map (XVariant n) (reader u (S d) r).
Proof.
  intros Hn Hin Ht Hl. unfold reader. destruct rd as [A|].
  - rewrite de_wrap_enum. cbn [enter]. rewrite unescape_escape, (variant_found _ n es tag u Hn Hin). unfold variant_wrap.
    destruct tag; try reflexivity; [congruence|]. destruct (Hl eq_refl) as [l ->]. reflexivity.
  - rewrite de_plain_enum. cbn [enter]. rewrite unescape_escape, (variant_found _ n es tag u Hn Hin). unfold variant_plain.
    destruct tag; try reflexivity; [congruence|]. destruct (Hl eq_refl) as [l ->]. reflexivity.
Qed.
Lemma variant_trip es n tag u x v w : NoDup (map fst es) -> In (n, (tag, u)) es -> tag <> VtUnit -> (tag = VtTuple -> is_tuple w = true) ->
  (forall o, json_ser v o = ser_variant n (json_ser w) o) -> (forall s, wrap_ser v s = wser_variant n (wrap_ser w) s) ->
  (json_of v <> None -> json_of w <> None) -> blobs v = blobs w -> nesting v = S (nesting w) -> is_tuple v = false -> (val_ok v -> val_ok w) ->
  trip u x w -> trip (TyEnum es) (XVariant n x) v.
Proof.
  intros Hn Hin Ht Hl H1 H2 H3 H4 H5 H6 H7 Hw Hr Hv k text HW Hf Hk. rewrite H4 in *.
  apply (W_variant _ _ _ n w) in HW as (t' & -> & HW); [|assumption..].
  assert (Hr' : recoverable bin u x).
  { inversion Hr as [| | | | | | | | | | | | | |? ? u0 Hu0|? ? tag' u' ? Hin' Ht' Hx| | | |]; subst.
    - pose proof (same_variant es n _ _ Hn Hin Hu0). congruence.
    - pose proof (same_variant es n _ _ Hn Hin Hin') as E. injection E as -> ->. exact Hx. }
  destruct (Hw Hr' (H7 Hv) _ _ HW Hf Hk) as (r & J & V & _ & T). exists (RObj [(escape n, r)]). split; [apply variant_text; exact J|].
  split; [|split; [discriminate|rewrite H6; discriminate]].
  intros d Hd. rewrite H5 in Hd. destruct d as [|[|d]]; [lia|lia|].
  rewrite (reader_tag es n tag u d r Hn Hin Ht) by auto. rewrite V by lia. reflexivity.
Qed.

Lemma round_all t : ty_ok t -> round t.
Proof.
  induction t as [|lo hi| | | | | | |u IH|u IH|u IH|ts IH|u IH|fs IH|es IH| | | |lo hi u IH] using ty_ind'; intros Hok x v He.
  - inversion He; subst. apply (trip_leaf _ _ _ (if b then bs "true" else bs "false") (RBool b)); try reflexivity; try discriminate.
    + intros _. destruct b; constructor.
    + intros _ _ d. unfold reader. destruct rd; reflexivity.
  - inversion He; subst.
    + apply (trip_leaf _ _ _ (dec (bN c)) (RNum (int_lit false (bN c)))); try reflexivity; try discriminate.
      * intros _. rewrite <- int_lit_text. apply jv_num, int_lit_ok.
      * intros _ _ d. rewrite reader_same by reflexivity. cbn [de_plain]. rewrite u8_num. apply u8_in.
    + apply (trip_leaf _ _ _ (decZ z) (RNum (int_lit (z <? 0)%Z (Z.to_N (Z.abs z))))); try reflexivity; try discriminate.
      * intros _. rewrite decZ_text. apply jv_num, int_lit_ok.
      * intros _ Hv d. rewrite reader_same by reflexivity. cbn [de_plain]. rewrite decZ_num by exact Hv.
        assert (E : num_Z (if (z <? 0)%Z then NNeg z else NPos (Z.to_N z)) = Some z).
        { destruct (Z.ltb_spec z 0); [reflexivity|]. cbn [num_Z]. rewrite Z2N.id by lia. reflexivity. }
        unfold int_in. rewrite E. replace ((lo <=? z) && (z <=? hi))%Z with true; [reflexivity|].
        symmetry. apply andb_true_iff. split; apply Z.leb_le; lia.
  - inversion He; subst. apply (trip_leaf _ _ _ (numlit_text l) (RNum l)); try reflexivity; try discriminate.
    + intros [H _]. apply jv_num. exact H.
    + intros _ [_ H] d. rewrite reader_same by reflexivity. cbn. rewrite H. reflexivity.
  - inversion He; subst. apply (trip_leaf _ _ _ (json_str s) (RStr (escape s))); try reflexivity; try discriminate.
    + intros _. apply json_str_value.
    + intros _ _ d. rewrite reader_same by reflexivity. cbn. rewrite unescape_escape. reflexivity.
  - inversion He; subst. apply (trip_leaf _ _ _ (json_str s) (RStr (escape s))); try reflexivity; try discriminate.
    + intros _. apply json_str_value.
    + intros Hr _ d. inversion Hr as [| | | |? Hu| | | | | | | | | | | | | | |]; subst. destruct (escape_plain _ Hu) as [E1 E2].
      rewrite reader_same by reflexivity. cbn. rewrite E1, E2. reflexivity.
  - assert (exists b, x = XBytes b /\ blobs v = (if (match b with [] => true | _ => false end) then blobs v else [b]) /\ nesting v >= 1 /\
      (b <> [] -> forall s, wrap_ser v s = ((fst s ++ placeholder_text (length (snd s)), snd s ++ [frame b]), OOk)) /\ is_tuple v = false) as (b & -> & Hb & Hn & Hw & Ht).
    { inversion He; subst; exists b; split; try reflexivity.
      - split; [destruct b as [|c b]; [reflexivity|]; cbn [blobs]; rewrite u8_blob, u8s_map by discriminate; reflexivity|].
        split; [cbn; lia|]. split; [|reflexivity]. intros Hb s. apply wrap_u8s. exact Hb.
      - split; [destruct b; reflexivity|]. split; [cbn; lia|]. split; reflexivity. }
    intros Hr Hv n text HW Hf Hk. inversion Hr as [| | | | |? Eb Hne| | | | | | | | | | | | | |]; subst.
    replace (match b with [] => true | _ => false end) with false in Hb by (destruct b; [congruence|reflexivity]). rewrite Hb in *.
    rewrite Eb in HW. apply (W_bytes _ _ b) in HW; [|apply Hw; exact Hne]. subst text. exists (praw n). split; [apply placeholder_jvalue|].
    split; [|split; [discriminate|rewrite Ht; discriminate]].
    intros d Hd. destruct d as [|[|d]]; [lia|lia|]. unfold reader. unfold fit in Hf. destruct rd as [A|]; [|specialize (Hf Eb); discriminate].
    destruct Hf as [_ Hf]. specialize (Hf 0 b eq_refl). rewrite Nat.add_0_r in Hf. unfold praw. cbn [de_wrap enter].
    rewrite (reads_buffer A n b) by (assumption || (specialize (Hk Eb); cbn in Hk; lia)). reflexivity.
  - inversion He; subst; (apply (trip_leaf _ _ _ (bs "null") RNull); try reflexivity; try discriminate; [constructor|intros; rewrite reader_same; reflexivity]).
  - inversion He.
  - cbn [ty_ok] in Hok. inversion He as [| | | | | | | | | | |? x' v' He'| | | | | | | | | | | | | |]; subst.
    + apply (trip_leaf _ _ _ (bs "null") RNull); try reflexivity; try discriminate; [constructor|]. intros _ _ d. unfold reader. destruct rd; reflexivity.
    + intros Hr Hv n text HW Hf Hk. inversion Hr as [| | | | | | | |? ? Hnull Hr'| | | | | | | | | | |]; subst.
      destruct (IH Hok x' v' He' Hr' Hv n text HW Hf Hk) as (r & J & V & N & _). exists r. split; [exact J|]. split; [|split; [auto|discriminate]].
      intros d Hd. rewrite reader_option by auto. rewrite V by exact Hd. reflexivity.
  - cbn [ty_ok] in Hok. inversion He as [| | | | | | | | | | | |? x' v' He'| | | | | | | | | | | | |]; subst.
    intros Hr Hv n text HW Hf Hk. inversion Hr as [| | | | | | | | |? ? Hr'| | | | | | | | | |]; subst.
    destruct (IH Hok x' v' He' Hr' Hv n text HW Hf Hk) as (r & J & V & N & _). exists r. split; [exact J|]. split; [|split; [exact N|discriminate]].
    intros d Hd. rewrite reader_newtype. rewrite V by exact Hd. reflexivity.
  - cbn [ty_ok] in Hok. inversion He as [| | | | | | | | | | | | |? xs vs He'| | | | | | | | | | | |]; subst.
    intros Hr Hv n text HW Hf Hk. inversion Hr as [| | | | | | | | | |? ? Hr'| | | | | | | | |]; subst. destruct (seq_cases u xs vs He') as [Hm Hb].
    destruct (bin && blob_seq vs) eqn:EB.
    + apply andb_prop in EB as [Eb Ebl]. destruct (Hb Ebl) as (-> & b & Hne & -> & ->).
      assert (B : blobs (SSeq (map SU8 b)) = [b]) by (cbn [blobs]; rewrite u8_blob, u8s_map by exact Hne; reflexivity). rewrite B in *.
      rewrite Eb in HW. apply (W_bytes _ _ b) in HW; [|intros s; apply wrap_u8s; exact Hne]. subst text. exists (praw n). split; [apply placeholder_jvalue|].
      split; [|split; [discriminate|discriminate]].
      intros d Hd. cbn [nesting] in Hd. destruct d as [|[|d]]; [lia|lia|]. unfold reader. unfold fit in Hf. destruct rd as [A|]; [|specialize (Hf Eb); discriminate].
      destruct Hf as [_ Hf]. specialize (Hf 0 b eq_refl). rewrite Nat.add_0_r in Hf. unfold praw. rewrite de_wrap_seq. cbn [enter].
      rewrite (reads_buffer A n b) by (assumption || (specialize (Hk Eb); cbn in Hk; lia)). rewrite visit_u8s. reflexivity.
    + assert (G : exists texts, text = "["%byte :: seps true texts ++ ["]"%byte] /\ Wlist bin n vs texts).
      { apply (W_array _ _ (SSeq vs)); [reflexivity| |cbn [json_of]; apply opt_map_none|exact HW].
        intros Eb s. rewrite Eb in EB. cbn in EB. rewrite wser_SSeq, wser_seq_cases, EB, Hm. reflexivity. }
      destruct G as (texts & -> & HW').
      assert (Hf' : fit n (flat_map blobs vs) /\ (bin = true -> N.of_nat (n + length (flat_map blobs vs)) <= u64_max)%N).
      { cbn [blobs] in Hf, Hk. destruct (blob_seq vs) eqn:Ebl; [|auto]. rewrite andb_true_r in EB.
        destruct (Hb eq_refl) as (-> & b & _ & -> & ->).
        replace (flat_map blobs (map SU8 b)) with (@nil bytes) by (clear; induction b; cbn; auto). split; [|cbn in *; lia].
        unfold fit in *. destruct rd; [destruct Hf; congruence|reflexivity]. }
      destruct Hf' as [Hf' Hk'].
      destruct (elem_trip u (IH Hok) xs vs He' Hr' Hv n texts HW' Hf' Hk') as (rs & J & V). exists (RArr rs). split; [apply jarr_seps; exact J|].
      split; [|split; [discriminate|discriminate]].
      intros d Hd. cbn [nesting] in Hd. destruct d as [|[|d]]; [lia|lia|]. rewrite reader_seq. rewrite V by lia. reflexivity.
  - cbn [ty_ok] in Hok. assert (R : Forall round ts).
    { rewrite allP_Forall in Hok. rewrite Forall_forall in *. auto. }
    assert (exists xs vs, x = XTuple xs /\ Forall3 encodes ts xs vs /\ (v = STuple vs \/ v = STupleStruct vs)) as (xs & vs & -> & He' & Ev) by (inversion He; subst; eauto 8).
    intros Hr Hv n text HW Hf Hk. inversion Hr as [| | | | | | | | | | |? ? Hr'| | | | | | | |]; subst.
    assert (G : exists texts, text = "["%byte :: seps true texts ++ ["]"%byte] /\ Wlist bin n vs texts).
    { destruct Ev as [->| ->]; (eapply W_array; [| | |exact HW]; [reflexivity|reflexivity|cbn [json_of]; apply opt_map_none]). }
    destruct G as (texts & -> & HW').
    assert (Hv' : allP val_ok vs) by (destruct Ev; subst; exact Hv).
    assert (Hb : blobs v = flat_map blobs vs) by (destruct Ev; subst; reflexivity). rewrite Hb in *.
    assert (Hn : nesting v = S (list_max (map nesting vs))) by (destruct Ev; subst; reflexivity).
    destruct (list_trip (fun _ _ _ => True) ts xs vs R He' Hr' Hv' n texts HW' Hf Hk) as (rs & J & V). exists (RArr rs). split; [apply jarr_seps; exact J|].
    split; [|split; [discriminate|eauto]].
    intros d Hd. rewrite Hn in Hd. destruct d as [|[|d]]; [lia|lia|]. rewrite reader_tuple. rewrite V by lia. reflexivity.
  - cbn [ty_ok] in Hok. inversion He as [| | | | | | | | | | | | | | | |? m m' vs Ho Hp He'| | | | | | | | |]; subst.
    intros Hr Hv n text HW Hf Hk. inversion Hr as [| | | | | | | | | | | |? ? Hpl Hr'| | | | | | |]; subst. cbn [val_ok] in Hv. destruct Hv as [_ Hv].
    apply (W_object _ _ _ vs) in HW as (texts & -> & HW); [|reflexivity|reflexivity|cbn [json_of]; rewrite opt_map_none, entry_map; auto].
    destruct (map_trip u (IH Hok) m' vs He') with (n := n) (texts := texts) as (rs & J & K & V); try assumption.
    { rewrite Forall_forall in *. intros kx Hin. apply Hr'. eapply Permutation_in; [symmetry; exact Hp|exact Hin]. }
    exists (RObj rs). split; [apply jobj_seps; exact J|]. split; [|split; [discriminate|discriminate]].
    intros d Hd. cbn [nesting] in Hd. destruct d as [|[|d]]; [lia|lia|].
    rewrite (reader_map u d rs (combine (map fst m') (map snd rs))); [| |apply str_members_escaped; exact K].
    + rewrite V by lia. cbn [option_map]. rewrite (collected m m' Ho Hp). reflexivity.
    + intros Hrd. specialize (Hpl (fit_bin _ _ Hf Hrd)). destruct rs as [|[k r] rs]; [exact I|]. destruct m' as [|[k' x'] m']; [discriminate|].
      cbn [map fst] in K. injection K as -> _. rewrite Forall_forall in Hpl. destruct (Hpl (k', x')) as [P1 P2]; [eapply Permutation_in; [symmetry; exact Hp|left; reflexivity]|].
      cbn [fst] in *. destruct (escape_plain _ P1) as [E1 E2]. cbn. rewrite E1. auto.
  - cbn [ty_ok] in Hok. destruct Hok as [Hnd Hok]. assert (R : Forall (fun f => round (snd f)) fs).
    { rewrite allP_Forall in Hok. rewrite Forall_forall in *. intros [k u] Hin. apply (IH _ Hin). apply (Hok _ Hin). }
    inversion He as [| | | | | | | | | | | | | | | | |? xs vs He'| | | | | | | |]; subst.
    intros Hr Hv n text HW Hf Hk. inversion Hr as [| | | | | | | | | | | | |? ? Hpl Hr'| | | | | |]; subst. cbn [val_ok] in Hv. destruct Hv as [_ Hv].
    apply (W_object _ _ _ (as_entries vs)) in HW as (texts & -> & HW); [|apply ser_struct|apply wser_struct|cbn [json_of]; rewrite opt_map_none, entry_as; auto].
    destruct (fields_trip fs xs vs R He' Hr' Hv n texts HW Hf Hk) as (rs & J & K & V).
    exists (RObj rs). split; [apply jobj_seps; exact J|]. split; [|split; [discriminate|discriminate]].
    intros d Hd. cbn [nesting] in Hd. destruct d as [|[|d]]; [lia|lia|].
    assert (L : length (map snd rs) = length fs) by (rewrite map_length, <- (map_length fst rs), K, map_length; reflexivity).
    destruct (combine_names fs (map snd rs) L) as [C1 C2].
    rewrite (reader_struct fs d rs (combine (map fst fs) (map snd rs))); [| |apply str_members_escaped; exact K].
    + rewrite (fields_zip _ _ fs (map snd rs) xs); [reflexivity|rewrite C1; exact Hnd|exact C2|apply V; lia].
    + intros Hrd. specialize (Hpl (fit_bin _ _ Hf Hrd)). destruct rs as [|[k r] rs]; [exact I|]. destruct fs as [|[k' x'] fs]; [discriminate|].
      cbn [map fst] in K. injection K as -> _. destruct Hpl as [P1 P2]. destruct (escape_plain _ P1) as [E1 E2]. cbn. rewrite E1. auto.
  - cbn [ty_ok] in Hok. destruct Hok as [Hnd Hok].
    assert (R : forall n tag u, In (n, (tag, u)) es -> round u).
    { intros n tag u Hin. rewrite allP_Forall in Hok. rewrite Forall_forall in *. apply (IH _ Hin). apply (Hok _ Hin). }
    inversion He; subst.
    + apply (trip_leaf _ _ _ (json_str n) (RStr (escape n))); try reflexivity; try discriminate; [intros _; apply json_str_value|].
      intros _ _ d. eapply reader_name; eassumption.
    + match goal with H : In (_, (VtNewtype, ?u)) es, H' : encodes ?u ?x0 ?v0 |- _ =>
        apply (variant_trip es n VtNewtype u x0 _ v0 Hnd H); try reflexivity; try discriminate; [|intros [_ X]; exact X|exact (R _ _ _ H _ _ H')] end.
      cbn [json_of]. rewrite opt_map_none. auto.
    + match goal with H : In (_, (VtTuple, ?u)) es, H' : encodes ?u ?x0 ?v0 |- _ =>
        apply (variant_trip es n VtTuple u x0 _ v0 Hnd H); try reflexivity; try discriminate; [|intros [_ X]; exact X|exact (R _ _ _ H _ _ H')] end.
      cbn [json_of]. rewrite !opt_map_none. auto.
    + match goal with H : In (_, (VtStruct, ?u)) es, H' : encodes ?u ?x0 ?v0 |- _ =>
        apply (variant_trip es n VtStruct u x0 _ v0 Hnd H); try reflexivity; try discriminate; [|intros [_ X]; exact X|exact (R _ _ _ H _ _ H')] end.
      cbn [json_of]. rewrite !opt_map_none. auto.
  - inversion He as [| | | | | | | | | | | | | | | | | | | | | |y Hy| | |]; subst. intros Hr Hv n text HW Hf Hk.
    inversion Hr as [| | | | | | | | | | | | | | | |? Hpl| | |]; subst.
    destruct (value_read y Hy Hv Hpl n text HW) as (r & J & V & O & N). exists r. split; [exact J|]. split.
    + intros d Hd. specialize (V d Hd). unfold reader. destruct rd as [A|] eqn:Er.
      * cbn [de_wrap]. rewrite val_wrap_ordinary; [rewrite V; reflexivity|]. apply O. apply (fit_bin _ _ Hf). rewrite Er. discriminate.
      * cbn [de_plain]. rewrite V. reflexivity.
    + split; [|destruct y as [| |[]| | |]; discriminate]. intros Hnull. apply N. intros ->. discriminate.
  - inversion He as [| | | | | | | | | | | | | | | | | | | | | | |m s Hs| |]; subst.
    apply (trip_leaf _ _ _ (json_str s) (RStr (escape s))); try reflexivity; try discriminate.
    + intros _. apply json_str_value.
    + intros _ _ d. rewrite reader_same by reflexivity. cbn. rewrite unescape_escape. rewrite (proj2 (one_char_exact s)) by eauto. reflexivity.
  - inversion He as [| | | | | | | | | | | | | | | | | | | | | | | |b|]; subst. intros Hr Hv n text HW Hf Hk. destruct bin eqn:Eb.
    + apply (W_bytes _ _ b) in HW; [|reflexivity]. subst text. exists (praw n). split; [apply placeholder_jvalue|].
      split; [|split; [discriminate|discriminate]].
      intros d Hd. cbn [nesting] in Hd. destruct d as [|[|d]]; [lia|lia|]. unfold reader. unfold fit in Hf. destruct rd as [A|]; [|rewrite Eb in Hf; specialize (Hf eq_refl); discriminate].
      destruct Hf as [_ Hf]. specialize (Hf 0 b eq_refl). rewrite Nat.add_0_r in Hf. unfold praw. cbn [de_wrap enter].
      rewrite (reads_buffer A n b) by (assumption || (specialize (Hk eq_refl); cbn in Hk; lia)). reflexivity.
    + apply (W_text false) in HW. cbn [json_ser app fst] in HW. subst text.
      exists (RArr (map byte_lit b)). split; [apply u8_list_value|]. split; [|split; [discriminate|discriminate]].
      intros d Hd. cbn [nesting] in Hd. rewrite reader_same by reflexivity. cbn [de_plain]. destruct d as [|[|d]]; [lia|lia|]. cbn [enter].
      rewrite octets_bytes. reflexivity.
  - cbn [ty_ok] in Hok. destruct Hok as (Hlo & Hhi & Hok). inversion He as [| | | | | | | | | | | | | | | | | | | | | | | | |? ? ? m m' vs Ho Hp He']; subst.
    intros Hr Hv n text HW Hf Hk. inversion Hr as [| | | | | | | | | | | | | | | | | | |? ? ? ? Hem Hr']; subst. cbn [val_ok] in Hv. destruct Hv as [_ Hv].
    apply (W_object _ _ _ vs) in HW as (texts & -> & HW); [|reflexivity|reflexivity|cbn [json_of]; rewrite opt_map_none, entry_map; auto].
    destruct (int_map_trip lo hi u Hlo Hhi (IH Hok) m' vs He') with (n := n) (texts := texts) as (rs & J & V); try assumption.
    { rewrite Forall_forall in *. intros kx Hin. apply Hr'. eapply Permutation_in; [symmetry; exact Hp|exact Hin]. }
    exists (RObj rs). split; [apply jobj_seps; exact J|]. split; [|split; [discriminate|discriminate]].
    intros d Hd. cbn [nesting] in Hd. destruct d as [|[|d]]; [lia|lia|].
    specialize (V (S d) ltac:(lia) []). rewrite (int_collected m m' Ho Hp) in V. unfold reader in *. destruct rd as [A|] eqn:Er.
    + assert (m = []) by (apply Hem; apply (fit_bin _ _ Hf); rewrite Er; discriminate). subst m.
      apply Permutation_nil in Hp. subst m'. inversion He'; subst. inversion HW; subst. inversion J; subst. reflexivity.
    + rewrite de_plain_int_map. cbn [enter]. cbv beta in V. change (de_plain rp u (S d)) with (fun r => de_plain rp u (S d) r). rewrite V. reflexivity.
Qed.
End Trip.
