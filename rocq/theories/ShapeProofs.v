(** Typed reading gives exactly what a text is worth (C62). *)
From Verif Require Export AgreeProofs Utf8Proofs OctetProofs SpecShape.

(** ** Loops *)
Lemma each_iff f l : forall vs, each_of f l = Some vs <-> Forall2 (fun x v => f x = Some v) l vs.
Proof.
  induction l as [|x l IH]; intros vs; cbn [each_of].
  - split; [intros [= <-]; constructor|]. intros H. inversion H. reflexivity.
  - fold (each_of f). split.
    + destruct (f x) as [v|] eqn:E; [|discriminate]. destruct (each_of f l) as [ws|] eqn:El; [|discriminate]. intros [= <-].
      constructor; [exact E|]. apply IH. reflexivity.
    + intros H. inversion H as [|? v ? ws H1 H2]; subst. rewrite H1. apply IH in H2. rewrite H2. reflexivity.
Qed.
Lemma zip_iff f ts : forall l vs, zip_of f ts l = Some vs <-> Forall3 (fun u x v => f u x = Some v) ts l vs.
Proof.
  induction ts as [|u ts IH]; intros [|x l] vs; cbn [zip_of].
  - split; [intros [= <-]; constructor|]. intros H. inversion H. reflexivity.
  - split; [discriminate|]. intros H. inversion H.
  - split; [discriminate|]. intros H. inversion H.
  - fold (zip_of f). split.
    + destruct (f u x) as [v|] eqn:E; [|discriminate]. destruct (zip_of f ts l) as [ws|] eqn:El; [|discriminate]. intros [= <-].
      constructor; [exact E|]. apply IH. exact El.
    + intros H. inversion H as [|? ? v ? ? ws H1 H2]; subst. rewrite H1. apply IH in H2. rewrite H2. reflexivity.
Qed.
Lemma F3_map {A B C D} (g : D -> A) (R : A -> B -> C -> Prop) la : forall lb lc, Forall3 R (map g la) lb lc <-> Forall3 (fun a => R (g a)) la lb lc.
Proof.
  induction la as [|a la IH]; intros lb lc; split; intros H; inversion H; subst; constructor; auto; apply IH; assumption.
Qed.
Lemma F3_iff {A B C} (P Q : A -> B -> C -> Prop) la : forall lb lc, (forall a b c, In a la -> In b lb -> P a b c <-> Q a b c) -> (Forall3 P la lb lc <-> Forall3 Q la lb lc).
Proof.
  induction la as [|a la IH]; intros lb lc H.
  - split; intros X; inversion X; constructor.
  - split; intros X; inversion X as [|? b c ? lb' lc' X1 X2]; subst; (constructor; [apply (H a b c); [left; reflexivity|left; reflexivity|exact X1]|]);
      (refine (proj1 (IH lb' lc' _) X2) || refine (proj2 (IH lb' lc' _) X2)); intros; apply H; right; assumption.
Qed.
Lemma F2_iff_in {A B} (P Q : A -> B -> Prop) l r : (forall a b, In a l -> P a b <-> Q a b) -> (Forall2 P l r <-> Forall2 Q l r).
Proof. intros H. apply F2_iff. apply Forall_forall. intros a Ha b. apply H. exact Ha. Qed.
Lemma map_iff f m : forall acc r, map_of f m acc = Some r <->
  exists ms, Forall2 (fun a b => fst a = fst b /\ f (snd a) = Some (snd b)) m ms /\
    r = fold_left (fun m kv => obj_insert (fst kv) (snd kv) m) ms acc.
Proof.
  induction m as [|[k x] m IH]; intros acc r; cbn [map_of].
  - split; [intros [= <-]; exists []; split; [constructor|reflexivity]|]. intros (ms & H & ->). inversion H. reflexivity.
  - fold (map_of f). split.
    + destruct (f x) as [v|] eqn:E; [|discriminate]. intros H. apply IH in H as (ms & H & ->). exists ((k, v) :: ms).
      split; [constructor; auto|reflexivity].
    + intros (ms & H & ->). inversion H as [|? [k' v] ? ms' [H1 H2] H3]; subst. cbn [fst snd] in *. subst k'. rewrite H2. apply IH. eauto.
Qed.
Lemma str_members_iff l : (forall k x, In (k, x) l -> jbody k) -> forall m,
  str_members l = Some m <-> Forall2 (fun a b => string_means (fst a) (fst b) /\ snd a = snd b) l m.
Proof.
  induction l as [|[k x] l IH]; intros Hk m; cbn [str_members].
  - split; [intros [= <-]; constructor|]. intros H. inversion H. reflexivity.
  - assert (IH' := IH (fun k x H => Hk k x (or_intror H))). pose proof (Hk k x (or_introl eq_refl)) as Hj. split.
    + destruct (unescape k) as [k'|] eqn:E; [|discriminate]. destruct (str_members l) as [m'|] eqn:El; [|discriminate]. intros [= <-].
      constructor; [split; [apply unescape_exact; assumption|reflexivity]|]. apply IH'. reflexivity.
    + intros H. inversion H as [|? [k' x'] ? m' [H1 H2] H3]; subst. cbn [fst snd] in *. subst x'. apply (unescape_exact k k' Hj) in H1. rewrite H1.
      apply IH' in H3. rewrite H3. reflexivity.
Qed.
Lemma members_none n (m : list (bytes * raw)) : members_named n m = [] <-> ~ In n (map fst m).
Proof.
  unfold members_named. induction m as [|[k x] m IH]; cbn; [split; auto|]. destruct (bytes_eqb n k) eqn:E; cbn.
  - apply bytes_eqb_eq in E. subst. split; [discriminate|]. intros H. destruct H. auto.
  - apply bytes_eqb_neq in E. rewrite IH. split; [intros H [X|X]; [congruence|auto]|auto].
Qed.
Lemma members_one n x (m : list (bytes * raw)) : members_named n m = [x] <-> only_member m n x.
Proof.
  unfold only_member. induction m as [|[k y] m IH].
  - split; [discriminate|]. intros (pre & post & E & _). destruct pre; discriminate.
  - unfold members_named in *. cbn [filter fst]. destruct (bytes_eqb n k) eqn:E.
    + apply bytes_eqb_eq in E. subst k. cbn [map snd]. change (map snd (filter _ m)) with (members_named n m). split.
      * intros [= -> H]. apply members_none in H. exists [], m. split; [reflexivity|]. split; [intros []|exact H].
      * intros (pre & post & X & H1 & H2). destruct pre as [|[k' y'] pre]; [|injection X as <- <- _; destruct H1; left; reflexivity].
        cbn in X. injection X as <- <-. apply members_none in H2. rewrite H2. reflexivity.
    + apply bytes_eqb_neq in E. rewrite IH. split.
      * intros (pre & post & -> & H1 & H2). exists ((k, y) :: pre), post. split; [reflexivity|]. split; [|exact H2]. intros [X|X]; [cbn in X; congruence|auto].
      * intros (pre & post & X & H1 & H2). destruct pre as [|[k' y'] pre]; [injection X as X _; congruence|]. cbn in X. injection X as <- <- ->.
        exists pre, post. split; [reflexivity|]. split; [|exact H2]. intros Hin. apply H1. right. exact Hin.
Qed.
Lemma field_iff f m n u v : field_of f m n u = Some v <->
  (exists x, only_member m n x /\ f u x = Some v) \/ ~ In n (map fst m) /\ (exists u', u = TyOption u') /\ v = XNone.
Proof.
  unfold field_of. split.
  - destruct (members_named n m) as [|x [|]] eqn:E; [| |discriminate].
    + intros H. right. split; [apply members_none; exact E|]. destruct u; try discriminate. injection H as <-. eauto.
    + intros H. left. exists x. split; [apply members_one; exact E|exact H].
  - intros [(x & H1 & H2)|(H1 & (u' & ->) & ->)].
    + apply members_one in H1. rewrite H1. exact H2.
    + apply members_none in H1. rewrite H1. reflexivity.
Qed.
Lemma fields_iff f m fs : forall vs, fields_of f m fs = Some vs <-> Forall2 (fun fd v => field_of f m (fst fd) (snd fd) = Some v) fs vs.
Proof.
  induction fs as [|[n u] fs IH]; intros vs; cbn [fields_of].
  - split; [intros [= <-]; constructor|]. intros H. inversion H. reflexivity.
  - fold (fields_of f m). split.
    + destruct (field_of f m n u) as [v|] eqn:E; [|discriminate]. destruct (fields_of f m fs) as [ws|] eqn:El; [|discriminate]. intros [= <-].
      constructor; [exact E|]. apply IH. reflexivity.
    + intros H. inversion H as [|? v ? ws H1 H2]; subst. cbn [fst snd] in H1. rewrite H1. apply IH in H2. rewrite H2. reflexivity.
Qed.
Lemma variant_iff f name vs v : variant_of f name vs = Some v <->
  exists pre tag u post, vs = pre ++ (name, (tag, u)) :: post /\ ~ In name (map fst pre) /\ f name tag u = Some v.
Proof.
  induction vs as [|[n [tag u]] vs IH]; cbn [variant_of].
  - split; [discriminate|]. intros (pre & ? & ? & ? & E & _). destruct pre; discriminate.
  - fold (variant_of f name). destruct (bytes_eqb n name) eqn:E.
    + apply bytes_eqb_eq in E. subst n. split.
      * intros H. exists [], tag, u, vs. split; [reflexivity|]. split; [intros []|exact H].
      * intros (pre & tag' & u' & post & X & H1 & H2). destruct pre as [|[k w] pre]; cbn in X.
        -- injection X as <- <- <-. exact H2.
        -- injection X as <- _ _. destruct H1. left. reflexivity.
    + apply bytes_eqb_neq in E. rewrite IH. split.
      * intros (pre & tag' & u' & post & -> & H1 & H2). exists ((n, (tag, u)) :: pre), tag', u', post. split; [reflexivity|].
        split; [|exact H2]. intros [X|X]; [cbn in X; congruence|auto].
      * intros (pre & tag' & u' & post & X & H1 & H2). destruct pre as [|[k w] pre]; cbn in X; [injection X as X _; congruence|].
        injection X as <- <- ->. exists pre, tag', u', post. split; [reflexivity|]. split; [|exact H2]. intros Hin. apply H1. right. exact Hin.
Qed.
Lemma int_in_iff lo hi y v : int_in lo hi y = Some v <->
  exists z, v = XInt z /\ (lo <= z <= hi)%Z /\ ((exists k, y = NPos k /\ z = Z.of_N k) \/ y = NNeg z).
Proof.
  unfold int_in. split.
  - destruct (num_Z y) as [z|] eqn:E; [|discriminate]. destruct ((lo <=? z)%Z && (z <=? hi)%Z) eqn:B; [|discriminate]. intros [= <-].
    apply andb_true_iff in B as [B1 B2]. apply Z.leb_le in B1, B2. exists z. split; [reflexivity|]. split; [lia|].
    destruct y; cbn in E; try discriminate; injection E as <-; eauto.
  - intros (z & -> & [B1 B2] & [(k & -> & ->)| ->]); cbn [num_Z]; apply Z.leb_le in B1, B2; rewrite B1, B2; reflexivity.
Qed.
Lemma visit_iff u c v : visit_u8 u c = Some v <-> byte_worth u c v.
Proof.
  split.
  - destruct u; try discriminate; cbn [visit_u8].
    + intros H. apply int_in_iff in H as (z & -> & B & [(k & E & ->)|E]); [|discriminate]. injection E as <-. constructor. exact B.
    + intros [= <-]. constructor.
    + intros [= <-]. constructor.
    + intros [= <-]. constructor.
  - intros H. inversion H; subst; cbn [visit_u8]; try reflexivity. apply int_in_iff. eauto 7.
Qed.
Lemma visit_all_iff u b : forall vs, visit_u8_all u b = Some vs <-> Forall2 (byte_worth u) b vs.
Proof.
  induction b as [|c b IH]; intros vs; cbn [visit_u8_all].
  - split; [intros [= <-]; constructor|]. intros H. inversion H. reflexivity.
  - split.
    + destruct (visit_u8 u c) as [v|] eqn:E; [|discriminate]. destruct (visit_u8_all u b) as [ws|]; [|discriminate]. intros [= <-].
      constructor; [apply visit_iff; exact E|]. apply IH. reflexivity.
    + intros H. inversion H as [|? v ? ws H1 H2]; subst. apply visit_iff in H1. rewrite H1. apply IH in H2. rewrite H2. reflexivity.
Qed.
Lemma visit_each_iff ts : forall b vs, visit_u8_each ts b = Some vs <-> exists b1 b2, b = b1 ++ b2 /\ Forall3 byte_worth ts b1 vs.
Proof.
  induction ts as [|u ts IH]; intros b vs; cbn [visit_u8_each].
  - split; [intros [= <-]; exists [], b; split; [reflexivity|constructor]|]. intros (b1 & b2 & -> & H). inversion H. reflexivity.
  - destruct b as [|c b].
    + split; [discriminate|]. intros (b1 & b2 & E & H). inversion H; subst; discriminate.
    + split.
      * destruct (visit_u8 u c) as [v|] eqn:E; [|discriminate]. destruct (visit_u8_each ts b) as [ws|] eqn:Ew; [|discriminate]. intros [= <-].
        apply IH in Ew as (b1 & b2 & -> & H). exists (c :: b1), b2. split; [reflexivity|]. constructor; [apply visit_iff; exact E|exact H].
      * intros (b1 & b2 & E & H). inversion H as [|? c' v ? b1' ws H1 H2]; subst. cbn in E. injection E as <- ->. apply visit_iff in H1. rewrite H1.
        rewrite (proj2 (IH (b1' ++ b2) ws)); [reflexivity|eauto].
Qed.
Lemma F2_compose {A B C} (P : A -> A -> Prop) (R : B -> C -> Prop) (l : list (A * B)) (ms : list (A * C)) :
  (exists m, Forall2 (fun a b => P (fst a) (fst b) /\ snd a = snd b) l m /\ Forall2 (fun a b => fst a = fst b /\ R (snd a) (snd b)) m ms) <->
  Forall2 (fun a b => P (fst a) (fst b) /\ R (snd a) (snd b)) l ms.
Proof.
  revert ms. induction l as [|[a b] l IH]; intros ms; split.
  - intros (m & H1 & H2). inversion H1; subst. inversion H2. constructor.
  - intros H. inversion H. exists []. split; constructor.
  - intros (m & H1 & H2). inversion H1 as [|? [a' b'] ? m' [P1 P2] H3]; subst. inversion H2 as [|? [a'' c] ? ms' [P3 P4] H4]; subst. cbn [fst snd] in *. subst.
    constructor; [auto|]. apply IH. eauto.
  - intros H. inversion H as [|? [a' c] ? ms' [P1 P2] H3]; subst. apply IH in H3 as (m & H4 & H5). cbn [fst snd] in *.
    exists ((a', b) :: m). split; constructor; auto.
Qed.

Lemma well_key l k x : well (RObj l) -> In (k, x) l -> jbody k.
Proof. cbn [well]. rewrite allP_In. intros H Hin. apply (H _ Hin). Qed.
Lemma well_mem l k x : well (RObj l) -> In (k, x) l -> well x.
Proof. cbn [well]. rewrite allP_In. intros H Hin. apply (H _ Hin). Qed.
Lemma well_elem l x : well (RArr l) -> In x l -> well x.
Proof. cbn [well]. rewrite allP_In. auto. Qed.
Lemma short_mem N l k x : short N (RObj l) -> In (k, x) l -> short N x.
Proof. cbn [short]. rewrite allP_In. intros H Hin. apply (H _ Hin). Qed.
Lemma short_elem N l x : short N (RArr l) -> In x l -> short N x.
Proof. cbn [short]. rewrite allP_In. auto. Qed.
Lemma option_map_some {A B} (f : A -> B) o v : option_map f o = Some v <-> exists w, o = Some w /\ v = f w.
Proof. destruct o; cbn; split; [intros [= <-]; eauto|intros (w & [= <-] & ->); reflexivity|discriminate|intros (w & E & _); discriminate]. Qed.

Section Worth.
Variables (rp : bytes -> option value) (N : nat).
Hypothesis Hrp : forall t v, length t < N -> rp t = Some v <-> exists r', jdoc r' t /\ means 127 r' v.

(** The members of an object read as a map, or as the fields of a struct. *)
Lemma map_members (f : raw -> option dval) (R : raw -> dval -> Prop) l v : well (RObj l) ->
  (forall k x w, In (k, x) l -> f x = Some w <-> R x w) ->
  (match str_members l with None => None | Some m => option_map XMap (map_of f m []) end = Some v <->
   exists ms m, v = XMap m /\ Forall2 (fun a b => string_means (fst a) (fst b) /\ R (snd a) (snd b)) l ms /\ map_of_members ms m).
Proof.
  intros Hw HR. pose proof (str_members_iff l (fun k x => well_key l k x Hw)) as Hs. split.
  - destruct (str_members l) as [m0|] eqn:E; [|discriminate]. intros H. apply option_map_some in H as (m & H & ->).
    apply map_iff in H as (ms & H & ->). exists ms, (inserted ms). split; [reflexivity|]. split; [|apply inserted_members].
    assert (G : Forall2 (fun a b => string_means (fst a) (fst b) /\ f (snd a) = Some (snd b)) l ms).
    { apply (F2_compose string_means (fun a b => f a = Some b)). exists m0. split; [apply Hs; reflexivity|exact H]. }
    revert G. apply F2_iff_in. intros [k x] [k' w] Hin. cbn [fst snd]. rewrite (HR k x w Hin). reflexivity.
  - intros (ms & m & -> & H & Hm).
    assert (G : Forall2 (fun a b => string_means (fst a) (fst b) /\ f (snd a) = Some (snd b)) l ms).
    { revert H. apply F2_iff_in. intros [k x] [k' w] Hin. cbn [fst snd]. rewrite (HR k x w Hin). reflexivity. }
    apply (F2_compose string_means (fun a b => f a = Some b)) in G as (m0 & H1 & H2). apply Hs in H1. rewrite H1.
    apply option_map_some. exists m. split; [|reflexivity]. apply map_iff. exists ms. split; [exact H2|].
    apply (members_unique ms); [exact Hm|apply inserted_members].
Qed.
Lemma struct_members (f : ty -> raw -> option dval) (R : ty -> raw -> dval -> Prop) l fs v : well (RObj l) ->
  (forall n u k x w, In (n, u) fs -> In (k, x) l -> f u x = Some w <-> R u x w) ->
  (match str_members l with None => None | Some m => option_map XStruct (fields_of f m fs) end = Some v <->
   exists ms vs, v = XStruct vs /\ Forall2 (fun a b => string_means (fst a) (fst b) /\ snd a = snd b) l ms /\
     Forall2 (fun f v => (exists x, only_member ms (fst f) x /\ R (snd f) x v) \/
                         ~ In (fst f) (map fst ms) /\ (exists u, snd f = TyOption u) /\ v = XNone) fs vs).
Proof.
  intros Hw HR. pose proof (str_members_iff l (fun k x => well_key l k x Hw)) as Hs.
  assert (G : forall ms vs, str_members l = Some ms -> (fields_of f ms fs = Some vs <->
    Forall2 (fun f v => (exists x, only_member ms (fst f) x /\ R (snd f) x v) \/
                         ~ In (fst f) (map fst ms) /\ (exists u, snd f = TyOption u) /\ v = XNone) fs vs)).
  { intros ms vs E. rewrite fields_iff. apply F2_iff_in. intros [n u] w Hin. cbn [fst snd]. rewrite field_iff.
    assert (K : (exists x, only_member ms n x /\ f u x = Some w) <-> (exists x, only_member ms n x /\ R u x w)).
    { assert (K0 : forall x, only_member ms n x -> f u x = Some w <-> R u x w).
      { intros x Ho. assert (Hx : In (n, x) ms) by (destruct Ho as (pre & post & -> & _); apply in_or_app; right; left; reflexivity).
        apply (str_members_in l ms n x E) in Hx as (k & _ & Hx). eapply HR; eauto. }
      split; intros (x & Ho & H); exists x; (split; [exact Ho|]); apply (K0 x Ho); exact H. }
    rewrite K. reflexivity. }
  split.
  - destruct (str_members l) as [ms|] eqn:E; [|discriminate]. intros H. apply option_map_some in H as (vs & H & ->).
    exists ms, vs. split; [reflexivity|]. split; [apply Hs; reflexivity|]. apply (G ms vs eq_refl). exact H.
  - intros (ms & vs & -> & H1 & H2). apply Hs in H1. rewrite H1. apply option_map_some. exists vs. split; [|reflexivity]. apply (G ms vs H1). exact H2.
Qed.
Lemma num_in lo hi x v : numlit_ok x ->
  (match num_of x with Some y => int_in lo hi y | None => None end = Some v <->
   exists z, v = XInt z /\ (lo <= z <= hi)%Z /\ ((exists k, number_means x (NPos k) /\ z = Z.of_N k) \/ number_means x (NNeg z))).
Proof.
  intros Hx. pose proof (fun y => num_exact x y Hx) as E. split.
  - destruct (num_of x) as [y|]; [|discriminate]. intros H. apply int_in_iff in H as (z & -> & B & [(k & -> & ->)| ->]).
    + eexists. split; [reflexivity|]. split; [exact B|]. left. exists k. split; [apply E|]; reflexivity.
    + eexists. split; [reflexivity|]. split; [exact B|]. right. apply E. reflexivity.
  - intros (z & -> & B & [(k & H & ->)|H]); apply E in H; rewrite H; apply int_in_iff; eauto 8.
Qed.

Lemma int_key_iff lo hi k z : int_key lo hi k = Some z <-> key_int k z /\ (lo <= z <= hi)%Z.
Proof.
  unfold int_key, key_int. split.
  - destruct (scan_num k) as [[x [|]]|] eqn:E; try discriminate. apply scan_num_sound in E as [Hx ->]. rewrite app_nil_r. intros H.
    assert (G : match num_of x with Some y => int_in lo hi y | None => None end = Some (XInt z)).
    { destruct (num_of x) as [y|]; [|discriminate]. destruct (int_in lo hi y) as [[]|]; try discriminate. congruence. }
    apply num_in in G as (z' & [= <-] & B & H'); [|exact Hx]. split; [|exact B]. exists x. auto.
  - intros [(x & Hx & -> & H) B]. pose proof (scan_num_app x [] Hx eq_refl) as E. rewrite app_nil_r in E. rewrite E.
    assert (G : match num_of x with Some y => int_in lo hi y | None => None end = Some (XInt z)).
    { apply num_in; [exact Hx|]. exists z. auto. }
    destruct (num_of x) as [y|]; [|discriminate]. rewrite G. reflexivity.
Qed.
Lemma char_case b s v : jbody b -> unescape b = Some s -> ((if one_char s then Some (XStr s) else None) = Some v <-> v = XStr s /\ exists c, utf8_char c s).
Proof.
  intros _ _. pose proof (one_char_exact s) as E. destruct (one_char s).
  - split; [intros [= <-]; split; [reflexivity|apply E; reflexivity]|]. intros [-> _]. reflexivity.
  - split; [discriminate|]. intros [_ H]. apply E in H. discriminate.
Qed.
Lemma char_worth bl n r v : well r -> (de_plain rp TyChar (S n) r = Some v <-> worth bl n TyChar r v).
Proof.
  intros Hw. destruct r as [| | |b| |]; try (split; [discriminate|intros H; solve [inversion H]]). cbn [de_plain]. cbn [well] in Hw. split.
  - destruct (unescape b) as [s|] eqn:E; [|discriminate]. intros H. apply (char_case b s v Hw E) in H as [-> [c H]].
    eapply wo_char; [apply unescape_exact; eassumption|exact H].
  - intros H. inversion H; subst. match goal with X : string_means b _ |- _ => apply unescape_exact in X; [|exact Hw]; rewrite X; apply (char_case b _ _ Hw X) end. eauto.
Qed.

Lemma worth_value r : forall n v, means n r v <-> means_with None n r v.
Proof.
  induction r as [|b|x|s|l IH|l IH] using raw_ind'; intros n v.
  1-4: split; intros H; inversion H; subst; constructor; assumption.
  - rewrite Forall_forall in IH. split; intros H; inversion H; subst; constructor; (eapply F2_iff_in; [|eassumption]); intros a b Ha; cbn beta; rewrite (IH a Ha); reflexivity.
  - rewrite Forall_forall in IH.
    assert (G : forall n ms, Forall2 (fun a b => string_means (fst a) (fst b) /\ means n (snd a) (snd b)) l ms <->
                Forall2 (fun a b => string_means (fst a) (fst b) /\ means_with None n (snd a) (snd b)) l ms).
    { intros n0 ms. apply F2_iff_in. intros a b Ha. rewrite (IH a Ha). reflexivity. }
    split; intros H; inversion H; subst.
    + eapply mw_obj; [left; reflexivity|eassumption|apply G; eassumption|assumption].
    + eapply mw_private; try eassumption. left. reflexivity.
    + destruct H2.
    + eapply me_obj; [eassumption|apply G; eassumption|assumption].
    + eapply me_private; eassumption.
Qed.
Lemma enter_S n : enter (S n) = match n with S _ => Some n | O => None end.
Proof. destruct n; reflexivity. Qed.
Ltac dead := let H := fresh in split; [discriminate|intros H; solve [inversion H]].
Lemma plain_worth t : forall n r v, short N r -> well r -> (de_plain rp t (S n) r = Some v <-> worth None n t r v).
Proof.
  induction t as [|lo hi| | | | | | |u IH|u IH|u IH|ts IH|u IH|fs IH|vs IH| | | |lo hi u IH] using ty_ind'; intros n r v Hs Hw.
  - destruct r; try dead. cbn [de_plain]. split; [intros [= <-]; constructor|]. intros H. inversion H. reflexivity.
  - destruct r; try dead. cbn [de_plain]. rewrite num_in by exact Hw. split.
    + intros (z & -> & B & [(k & H & ->)|H]); [apply wo_pos|apply wo_neg]; assumption.
    + intros H. inversion H; subst; eexists; (split; [reflexivity|]); (split; [eassumption|]); eauto.
  - destruct r; try dead. cbn [de_plain]. cbn [well] in Hw. split.
    + destruct (num_of n0) as [y|] eqn:E; [|discriminate]. intros [= <-]. constructor. apply num_exact; assumption.
    + intros H. inversion H as [ | | |? ? y Hy| | | | | | | | | | | | | | | | | | | | | | | | | | | | | | ]; subst. apply num_exact in Hy; [|exact Hw]. rewrite Hy. reflexivity.
  - destruct r as [| | |b| |]; try dead. 2:{ split; [discriminate|]. intros H. inversion H; subst; match goal with X : attachment None _ _ |- _ => destruct X end. }
    cbn [de_plain]. cbn [well] in Hw. rewrite option_map_some. split.
    + intros (s & E & ->). constructor. apply unescape_exact; assumption.
    + intros H. inversion H; subst. eexists. split; [apply unescape_exact; eassumption|reflexivity].
  - destruct r as [| | |b| |]; try dead. 2:{ split; [discriminate|]. intros H. inversion H; subst; match goal with X : attachment None _ _ |- _ => destruct X end. }
    cbn [de_plain]. split.
    + destruct (no_backslash b) eqn:E; [|discriminate]. intros [= <-]. constructor. apply no_backslash_in. exact E.
    + intros H. inversion H as [ | | | | |? ? Hb| | | | | | | | | | | | | | | | | | | | | | | | | | | | ]; subst. apply no_backslash_in in Hb. rewrite Hb. reflexivity.
  - destruct r as [| | |b| |]; try dead. 2:{ split; [discriminate|]. intros H. inversion H; subst; match goal with X : attachment None _ _ |- _ => destruct X end. }
    cbn [de_plain]. split.
    + destruct (no_backslash b) eqn:E; [|discriminate]. intros [= <-]. constructor. apply no_backslash_in. exact E.
    + intros H. inversion H as [ | | | | | |? ? Hb| | | | | | | | | | | | | | | | | | | | | | | | | | | ]; subst. apply no_backslash_in in Hb. rewrite Hb. reflexivity.
  - destruct r; try dead. cbn [de_plain]. split; [intros [= <-]; constructor|]. intros H. inversion H. reflexivity.
  - cbn [de_plain]. split; [intros [= <-]; constructor|]. intros H. inversion H. reflexivity.
  - cbn [de_plain]. assert (G : r <> RNull -> option_map XSome (de_plain rp u (S n) r) = Some v <-> worth None n (TyOption u) r v).
    { intros Hr. rewrite option_map_some. split.
      - intros (w & H & ->). apply wo_some; [exact Hr|]. apply IH; assumption.
      - intros H. inversion H; subst; [congruence|]. eexists. split; [|reflexivity]. apply IH; assumption. }
    destruct r; try (apply G; discriminate). split; [intros [= <-]; constructor|]. intros H. inversion H; subst; [reflexivity|congruence].
  - cbn [de_plain]. rewrite option_map_some. split.
    + intros (w & H & ->). apply wo_newtype. apply IH; assumption.
    + intros H. inversion H; subst. eexists. split; [|reflexivity]. apply IH; assumption.
  - rewrite de_plain_seq, enter_S. destruct r as [| | | |l|l]; try dead. 2:{ split; [destruct n; discriminate|]. intros H. inversion H; subst; match goal with X : attachment None _ _ |- _ => destruct X end. }
    destruct n as [|n]; [dead|]. rewrite option_map_some.
    assert (G : forall vs, each_of (de_plain rp u (S n)) l = Some vs <-> Forall2 (worth None n u) l vs).
    { intros vs. rewrite each_iff. apply F2_iff_in. intros a b Ha. apply IH; [eapply short_elem|eapply well_elem]; eauto. }
    split; [intros (vs & H & ->); constructor; apply G; exact H|]. intros H. inversion H; subst. eexists. split; [apply G; eassumption|reflexivity].
  - rewrite de_plain_tuple, enter_S. destruct r as [| | | |l|l]; try dead. 2:{ split; [destruct n; discriminate|]. intros H. inversion H; subst; match goal with X : attachment None _ _ |- _ => destruct X end. }
    destruct n as [|n]; [dead|]. rewrite option_map_some. rewrite Forall_forall in IH.
    assert (G : forall vs, zip_of (fun u => de_plain rp u (S n)) ts l = Some vs <-> Forall3 (worth None n) ts l vs).
    { intros vs. rewrite zip_iff. apply F3_iff. intros a b c Ha Hb. apply IH; [exact Ha|eapply short_elem|eapply well_elem]; eauto. }
    split; [intros (vs & H & ->); constructor; apply G; exact H|]. intros H. inversion H; subst. eexists. split; [apply G; eassumption|reflexivity].
  - rewrite de_plain_map, enter_S. destruct r as [| | | |l|l]; try dead. destruct n as [|n]; [dead|].
    rewrite (map_members _ (worth None n u) l v Hw); [|intros k x w Hin; apply IH; [eapply short_mem|eapply well_mem]; eauto]. split.
    + intros (ms & m & -> & H1 & H2). eapply wo_map; eauto. left. reflexivity.
    + intros H. inversion H; subst. eauto.
  - rewrite de_plain_struct, enter_S. destruct n as [|n].
    { split; [discriminate|]. intros H. inversion H. }
    rewrite Forall_forall in IH. destruct r as [| | | |l|l]; try dead.
    + rewrite zip_fields_eq, option_map_some.
      assert (G : forall vs, zip_of (fun u => de_plain rp u (S n)) (map snd fs) l = Some vs <-> Forall3 (fun f => worth None n (snd f)) fs l vs).
      { intros vs. rewrite zip_iff, F3_map. apply F3_iff. intros a b c Ha Hb. apply (IH a Ha); [eapply short_elem|eapply well_elem]; eauto. }
      split; [intros (vs & H & ->); apply wo_struct_arr; apply G; exact H|]. intros H. inversion H; subst. eexists. split; [apply G; eassumption|reflexivity].
    + rewrite (struct_members _ (worth None n) l fs v Hw); [|intros f u k x w Hf Hin; apply (IH _ Hf); [eapply short_mem|eapply well_mem]; eauto]. split.
      * intros (ms & vs & -> & H1 & H2). eapply wo_struct; eauto. left. reflexivity.
      * intros H. inversion H; subst; [eauto|]. match goal with X : attachment None _ _ |- _ => destruct X end.
  - rewrite de_plain_enum, enter_S. rewrite Forall_forall in IH. destruct r as [| | |b| |[|[k x] [|]]]; try dead.
    + cbn [well] in Hw. split.
      * destruct (unescape b) as [e|] eqn:E; [|discriminate]. intros H. apply variant_iff in H as (pre & tag & u & post & -> & Hn & H).
        destruct tag; try discriminate. injection H as <-. apply wo_name; [apply unescape_exact; assumption|exact Hn].
      * intros H. inversion H; subst. erewrite (proj2 (unescape_exact _ _ Hw)) by eassumption. apply variant_iff. eauto 8.
    + assert (Hk : jbody k) by (eapply well_key; [exact Hw|left; reflexivity]). destruct n as [|n]; [dead|]. split.
      * destruct (unescape k) as [e|] eqn:E; [|discriminate]. intros H. apply variant_iff in H as (pre & tag & u & post & -> & Hn & H).
        apply unescape_exact in E; [|exact Hk].
        assert (G : forall w, de_plain rp u (S n) x = Some w <-> worth None n u x w).
        { intros w. apply (IH (e, (tag, u))); [apply in_or_app; right; left; reflexivity|eapply short_mem|eapply well_mem]; eauto; left; reflexivity. }
        unfold variant_plain in H. destruct tag.
        -- destruct x; try discriminate. injection H as <-. apply wo_unit_variant; assumption.
        -- apply option_map_some in H as (w & H & ->). apply wo_variant; [assumption|assumption|discriminate|discriminate|apply G; exact H].
        -- destruct x; try discriminate. apply option_map_some in H as (w & H & ->). apply wo_variant; [assumption|assumption|discriminate|eauto|apply G; exact H].
        -- apply option_map_some in H as (w & H & ->). apply wo_variant; [assumption|assumption|discriminate|discriminate|apply G; exact H].
      * intros H. inversion H as [ | | | | | | | | | | | | | | | | |
          |? pre e u post ? Hm Hn|? pre e tag u post ? ? w Hm Hn Ht Hx Hu| | | | | | | | | | | | | | ]; subst;
          apply (unescape_exact _ _ Hk) in Hm; rewrite Hm; apply variant_iff; do 4 eexists; (split; [reflexivity|]); (split; [exact Hn|]); [reflexivity|].
        assert (G : option_map (XVariant e) (de_plain rp u (S n) x) = Some (XVariant e w)).
        { apply option_map_some. exists w. split; [|reflexivity]. apply (IH (e, (tag, u))); [apply in_or_app; right; left; reflexivity|eapply short_mem|eapply well_mem|exact Hu]; eauto; left; reflexivity. }
        unfold variant_plain. destruct tag; auto; [congruence|]. destruct (Hx eq_refl) as [l ->]. exact G.
  - cbn [de_plain]. rewrite option_map_some. split.
    + intros (w & H & ->). constructor. apply worth_value. apply (val_of_means rp N r Hs Hw Hrp). exact H.
    + intros H. inversion H; subst. eexists. split; [|reflexivity]. apply (val_of_means rp N r Hs Hw Hrp). apply worth_value. assumption.
  - apply char_worth. exact Hw.
  - destruct r as [| | |b|l|l]; try dead. 3:{ split; [discriminate|]. intros H. inversion H; subst; match goal with X : attachment None _ _ |- _ => destruct X end. }
    + cbn [de_plain]. cbn [well] in Hw. rewrite option_map_some. split.
      * intros (s & E & ->). apply wo_octets; [reflexivity|]. apply octets_exact; assumption.
      * intros H. inversion H; subst; [|congruence]. eexists. split; [apply octets_exact; eassumption|reflexivity].
    + cbn [de_plain]. rewrite enter_S. destruct n as [|n]; [dead|]. rewrite option_map_some. split.
      * intros (s & E & ->). apply wo_octets_arr. apply octets_iff; assumption.
      * intros H. inversion H; subst. eexists. split; [apply octets_iff; eassumption|reflexivity].
  - rewrite de_plain_int_map, enter_S. destruct r as [| | | |l|l]; try dead. destruct n as [|n]; [dead|]. rewrite option_map_some.
    assert (G : forall ms, Forall2 (fun a b => int_key lo hi (fst a) = Some (fst b) /\ de_plain rp u (S n) (snd a) = Some (snd b)) l ms <->
      Forall2 (fun a b => key_int (fst a) (fst b) /\ (lo <= fst b <= hi)%Z /\ worth None n u (snd a) (snd b)) l ms).
    { intros ms. apply F2_iff_in. intros [k x] [z w] Hin. cbn [fst snd]. rewrite int_key_iff, (IH n x w); [tauto|eapply short_mem|eapply well_mem]; eauto. }
    split.
    + intros (m & H & ->). apply int_map_iff in H as (ms & H & ->). apply (wo_int_map _ n lo hi u l ms); [reflexivity|apply G; exact H|apply int_inserted_members].
    + intros H. inversion H; subst; [|congruence]. eexists. split; [|reflexivity]. apply int_map_iff. eexists. split; [apply G; eassumption|].
      eapply int_members_unique; [eassumption|apply int_inserted_members].
Qed.

(** ** With attachments *)
Variables (A : list subslice_t) (bl : list bytes).
Hypothesis HA : contents A = Some bl.
Lemma attachment_stands l b : well (RObj l) -> (attachment (Some bl) l b <-> stands_for bl l b).
Proof.
  intros Hw. split; intros (f & x & k & -> & Hx & Hb); exists f, x, k; (split; [reflexivity|]); (split; [|exact Hb]);
    (apply num_exact; [|exact Hx]); apply (well_mem _ key_num (RNum x) Hw); right; left; reflexivity.
Qed.
Lemma classify_buffer l b : well (RObj l) -> (classify_obj A l = OMBuffer b <-> attachment (Some bl) l b).
Proof.
  intros Hw. rewrite (attachment_stands l b Hw). destruct (classify_cases A bl HA l) as [(b' & H & E)|[[H E]|[E H]]]; rewrite E.
  - split; [intros [= <-]; exact H|]. intros H'. f_equal. destruct H as (f & x & k & -> & Hx & Hb). destruct H' as (f' & x' & k' & [= <- <-] & Hx' & Hb').
    rewrite Hx in Hx'. injection Hx' as <-. congruence.
  - split; [discriminate|]. intros H'. destruct (stands_start _ _ _ H' H).
  - split; [discriminate|]. intros (f & x & k & -> & _). destruct (H _ _ _ eq_refl) as [_ X]. congruence.
Qed.
Lemma classify_members l : well (RObj l) -> (classify_obj A l = OMMap <-> by_members (Some bl) l).
Proof.
  intros Hw. unfold by_members. destruct (classify_cases A bl HA l) as [(b' & H & E)|[[H E]|[E H]]]; rewrite E.
  - split; [discriminate|]. intros [X|X]; [discriminate|]. destruct H as (f & x & k & -> & _). destruct (X _ _ _ eq_refl) as [_ Y]. congruence.
  - split; [discriminate|]. intros [X|X]; [discriminate|]. destruct H as (k & x & l' & -> & H). destruct (X _ _ _ eq_refl) as [Y Z]. destruct H as [H|[H _]]; contradiction.
  - split; [auto|reflexivity].
Qed.
(** Either of them decides how the object is read. *)
Ltac classified l Hw := pose proof (fun b => classify_buffer l b Hw) as Hcb; pose proof (classify_members l Hw) as Hcm.
Lemma buffer_case {T} l (f : bytes -> option T) v : well (RObj l) ->
  (match classify_obj A l with OMBuffer b => f b | _ => None end = Some v <-> exists b, attachment (Some bl) l b /\ f b = Some v).
Proof.
  intros Hw. classified l Hw. split.
  - destruct (classify_obj A l) as [|b|]; try discriminate. intros H. exists b. split; [apply Hcb; reflexivity|exact H].
  - intros (b & H & E). apply Hcb in H. rewrite H. exact E.
Qed.
Lemma members_case {T} l (o : option T) v : well (RObj l) ->
  (match classify_obj A l with OMMap => o | _ => None end = Some v <-> by_members (Some bl) l /\ o = Some v).
Proof.
  intros Hw. classified l Hw. split.
  - destruct (classify_obj A l) as [|b|]; try discriminate. intros H. split; [apply Hcm; reflexivity|exact H].
  - intros [H E]. apply Hcm in H. rewrite H. exact E.
Qed.
Lemma both_case {T} l (o : option T) (f : bytes -> option T) v : well (RObj l) ->
  (match classify_obj A l with OMError => None | OMBuffer b => f b | OMMap => o end = Some v <->
   (by_members (Some bl) l /\ o = Some v) \/ exists b, attachment (Some bl) l b /\ f b = Some v).
Proof.
  intros Hw. classified l Hw. split.
  - destruct (classify_obj A l) as [|b|]; try discriminate.
    + intros H. right. exists b. split; [apply Hcb; reflexivity|exact H].
    + intros H. left. split; [apply Hcm; reflexivity|exact H].
  - intros [[H E]|(b & H & E)]; [apply Hcm in H|apply Hcb in H]; rewrite H; exact E.
Qed.
Lemma utf8_case b v x : (if utf8_valid b then Some x else None) = Some v <-> characters b /\ v = x :> dval.
Proof.
  pose proof (utf8_characters b) as H. destruct (utf8_valid b).
  - split; [intros [= <-]; split; [apply H|]; reflexivity|]. intros [_ ->]. reflexivity.
  - split; [discriminate|]. intros [X _]. apply H in X. discriminate.
Qed.

Lemma wrap_means r : short N r -> well r -> forall n v, val_wrap rp A (S n) r = Some v <-> means_with (Some bl) n r v.
Proof.
  induction r as [|b|x|s|l IH|l IH] using raw_ind'; intros Hs Hw n v.
  - cbn [val_wrap]. split; [intros [= <-]; constructor|]. intros H. inversion H. reflexivity.
  - cbn [val_wrap]. split; [intros [= <-]; constructor|]. intros H. inversion H. reflexivity.
  - cbn [val_wrap]. cbn [well] in Hw. split.
    + destruct (num_of x) as [y|] eqn:E; [|discriminate]. intros [= <-]. constructor. apply num_exact; assumption.
    + intros H. inversion H as [| |? ? y Hy| | | | |]; subst. apply num_exact in Hy; [|exact Hw]. rewrite Hy. reflexivity.
  - cbn [val_wrap]. cbn [well] in Hw. split.
    + destruct (unescape s) as [y|] eqn:E; [|discriminate]. intros [= <-]. constructor. apply unescape_exact; assumption.
    + intros H. inversion H as [| | |? ? y Hy| | | |]; subst. apply unescape_exact in Hy; [|exact Hw]. rewrite Hy. reflexivity.
  - destruct n as [|n]; [cbn [val_wrap]; dead|]. rewrite val_wrap_arr, option_map_some. rewrite Forall_forall in IH.
    assert (G : forall vs, all_some (map (val_wrap rp A (S n)) l) = Some vs <-> Forall2 (means_with (Some bl) n) l vs).
    { intros vs. rewrite all_some_map_F2. apply F2_iff_in. intros a b Ha. apply (IH a Ha); [eapply short_elem|eapply well_elem]; eauto. }
    split; [intros (vs & H & ->); constructor; apply G; exact H|]. intros H. inversion H; subst. eexists. split; [apply G; eassumption|reflexivity].
  - destruct n as [|n]; [cbn [val_wrap]; dead|]. rewrite Forall_forall in IH.
    assert (G : forall ms, all_some (map (wrap_member rp A (S n)) l) = Some ms <->
      Forall2 (fun a b => string_means (fst a) (fst b) /\ means_with (Some bl) n (snd a) (snd b)) l ms).
    { intros ms. rewrite all_some_map_F2. apply F2_iff_in. intros [k x] [k' w] Hin. unfold wrap_member. cbn [fst snd].
      pose proof (well_key _ _ _ Hw Hin) as Hk. rewrite <- (unescape_exact k k' Hk).
      rewrite <- (IH (k, x) Hin (short_mem _ _ _ _ Hs Hin) (well_mem _ _ _ Hw Hin) n w). cbn [snd].
      destruct (unescape k) as [y|]; destruct (val_wrap rp A (S n) x) as [z|]; cbn [pair_opt]; split; try discriminate; try (intros [? ?]; discriminate).
      - intros [= <- <-]. auto.
      - intros [[= <-] [= <-]]. reflexivity. }
    rewrite val_wrap_obj, both_case by exact Hw.
    assert (Hp : forall k x l', l = (k, x) :: l' -> (unescape k = Some raw_token <-> string_means k raw_token)).
    { intros k x l' ->. apply unescape_exact. eapply well_key; [exact Hw|left; reflexivity]. }
    split.
    + intros [[Hm H]|(b & Ha & [= <-])]; [|apply mw_attachment; exact Ha].
      destruct (private_dec l) as [(k & x & l' & -> & Hk)|Hk].
      * rewrite Hk, bytes_eqb_refl in H. destruct x as [| | |b| |]; try discriminate. destruct l'; [|discriminate].
        destruct (unescape b) as [t|] eqn:Et; [|discriminate]. pose proof (Hp _ _ _ eq_refl) as Hp'. apply Hp' in Hk.
        assert (Hb : jbody b) by (apply (well_mem _ k (RStr b) Hw); left; reflexivity).
        assert (Hl : length t < N).
        { apply unescape_length in Et. cbn in Hs. lia. }
        apply (Hrp t v Hl) in H as (r' & Hd & Hv). eapply mw_private; eauto. apply unescape_exact; assumption.
      * assert (Hk' : forall k x l', l = (k, x) :: l' -> ~ string_means k raw_token).
        { intros k x l' E X. apply (Hp _ _ _ E) in X. exact (Hk _ _ _ E X). }
        pose proof (val_wrap_map rp A n l (proj2 (classify_members l Hw) Hm) Hk) as Ev.
        rewrite val_wrap_obj, (proj2 (classify_members l Hw) Hm) in Ev. rewrite Ev in H.
        apply option_map_some in H as (ms & H & ->). eapply mw_obj; [exact Hm|exact Hk'|apply G; exact H|apply obj_of_members].
    + intros H. inversion H as [| | | | |? ? b Ha|? ? ms m Hm Hk Hf Ho|? k b t r' ? Hm Hk Hb Hd Hv]; subst.
      * right. exists b. split; [exact Ha|reflexivity].
      * left. split; [exact Hm|].
        assert (Hk' : forall k x l', l = (k, x) :: l' -> unescape k <> Some raw_token).
        { intros k x l' E X. apply (Hp _ _ _ E) in X. exact (Hk _ _ _ E X). }
        pose proof (val_wrap_map rp A n l (proj2 (classify_members l Hw) Hm) Hk') as Ev.
        rewrite val_wrap_obj, (proj2 (classify_members l Hw) Hm) in Ev. rewrite Ev.
        apply option_map_some. exists ms. split; [apply G; exact Hf|]. f_equal. apply (members_unique ms); [exact Ho|apply obj_of_members].
      * left. split; [exact Hm|]. apply (Hp _ _ _ eq_refl) in Hk. rewrite Hk, bytes_eqb_refl.
        assert (Hb' : jbody b) by (apply (well_mem _ k (RStr b) Hw); left; reflexivity). apply (unescape_exact _ _ Hb') in Hb. rewrite Hb.
        apply Hrp; [|eauto]. apply unescape_length in Hb. cbn in Hs. lia.
Qed.
Lemma wrap_worth t : forall n r v, short N r -> well r -> (de_wrap rp A t (S n) r = Some v <-> worth (Some bl) n t r v).
Proof.
  induction t as [|lo hi| | | | | | |u IH|u IH|u IH|ts IH|u IH|fs IH|vs IH| | | |lo hi u IH] using ty_ind'; intros n r v Hs Hw.
  - destruct r; try dead. cbn [de_wrap de_plain]. split; [intros [= <-]; constructor|]. intros H. inversion H. reflexivity.
  - destruct r; try dead. cbn [de_wrap de_plain]. rewrite num_in by exact Hw. split.
    + intros (z & -> & B & [(k & H & ->)|H]); [apply wo_pos|apply wo_neg]; assumption.
    + intros H. inversion H; subst; eexists; (split; [reflexivity|]); (split; [eassumption|]); eauto.
  - destruct r; try dead. cbn [de_wrap de_plain]. cbn [well] in Hw. split.
    + destruct (num_of n0) as [y|] eqn:E; [|discriminate]. intros [= <-]. constructor. apply num_exact; assumption.
    + intros H. inversion H as [ | | |? ? y Hy| | | | | | | | | | | | | | | | | | | | | | | | | | | | | | ]; subst. apply num_exact in Hy; [|exact Hw]. rewrite Hy. reflexivity.
  - destruct r as [| | |b| |l]; try dead. 2:{ cbn [de_wrap]. rewrite enter_S. destruct n as [|n]; [dead|]. rewrite buffer_case by exact Hw. split.
      - intros (b & Ha & H). apply utf8_case in H as [Hc ->]. apply wo_a_string; assumption.
      - intros H. inversion H; subst. eexists. split; [eassumption|]. apply utf8_case. auto. }
    cbn [de_wrap de_plain]. cbn [well] in Hw. rewrite option_map_some. split.
    + intros (s & E & ->). constructor. apply unescape_exact; assumption.
    + intros H. inversion H; subst. eexists. split; [apply unescape_exact; eassumption|reflexivity].
  - destruct r as [| | |b| |l]; try dead. 2:{ cbn [de_wrap]. rewrite enter_S. destruct n as [|n]; [dead|]. rewrite buffer_case by exact Hw. split.
      - intros (b & Ha & H). apply utf8_case in H as [Hc ->]. apply wo_a_str; assumption.
      - intros H. inversion H; subst. eexists. split; [eassumption|]. apply utf8_case. auto. }
    cbn [de_wrap de_plain]. split.
    + destruct (no_backslash b) eqn:E; [|discriminate]. intros [= <-]. constructor. apply no_backslash_in. exact E.
    + intros H. inversion H as [ | | | | |? ? Hb| | | | | | | | | | | | | | | | | | | | | | | | | | | | ]; subst. apply no_backslash_in in Hb. rewrite Hb. reflexivity.
  - destruct r as [| | |b| |l]; try dead. 2:{ cbn [de_wrap]. rewrite enter_S. destruct n as [|n]; [dead|]. rewrite buffer_case by exact Hw. split.
      - intros (b & Ha & [= <-]). apply wo_a_bytes; assumption.
      - intros H. inversion H; subst. eexists. split; [eassumption|reflexivity]. }
    cbn [de_wrap de_plain]. split.
    + destruct (no_backslash b) eqn:E; [|discriminate]. intros [= <-]. constructor. apply no_backslash_in. exact E.
    + intros H. inversion H as [ | | | | | |? ? Hb| | | | | | | | | | | | | | | | | | | | | | | | | | | ]; subst. apply no_backslash_in in Hb. rewrite Hb. reflexivity.
  - destruct r; try dead. cbn [de_wrap de_plain]. split; [intros [= <-]; constructor|]. intros H. inversion H. reflexivity.
  - cbn [de_wrap de_plain]. split; [intros [= <-]; constructor|]. intros H. inversion H. reflexivity.
  - cbn [de_wrap]. assert (G : r <> RNull -> option_map XSome (de_wrap rp A u (S n) r) = Some v <-> worth (Some bl) n (TyOption u) r v).
    { intros Hr. rewrite option_map_some. split.
      - intros (w & H & ->). apply wo_some; [exact Hr|]. apply IH; assumption.
      - intros H. inversion H; subst; [congruence|]. eexists. split; [|reflexivity]. apply IH; assumption. }
    destruct r; try (apply G; discriminate). split; [intros [= <-]; constructor|]. intros H. inversion H; subst; [reflexivity|congruence].
  - cbn [de_wrap]. rewrite option_map_some. split.
    + intros (w & H & ->). apply wo_newtype. apply IH; assumption.
    + intros H. inversion H; subst. eexists. split; [|reflexivity]. apply IH; assumption.
  - rewrite de_wrap_seq, enter_S. destruct r as [| | | |l|l]; try dead. 2:{ destruct n as [|n]; [dead|]. rewrite buffer_case by exact Hw. split.
      - intros (b & Ha & H). apply option_map_some in H as (ws & H & ->). apply visit_all_iff in H. eapply wo_a_seq; eauto.
      - intros H. inversion H; subst. eexists. split; [eassumption|]. apply option_map_some. eexists. split; [apply visit_all_iff; eassumption|reflexivity]. }
    destruct n as [|n]; [dead|]. rewrite option_map_some.
    assert (G : forall vs, each_of (de_wrap rp A u (S n)) l = Some vs <-> Forall2 (worth (Some bl) n u) l vs).
    { intros vs. rewrite each_iff. apply F2_iff_in. intros a b Ha. apply IH; [eapply short_elem|eapply well_elem]; eauto. }
    split; [intros (vs & H & ->); constructor; apply G; exact H|]. intros H. inversion H; subst. eexists. split; [apply G; eassumption|reflexivity].
  - rewrite de_wrap_tuple, enter_S. destruct r as [| | | |l|l]; try dead. 2:{ destruct n as [|n]; [dead|]. rewrite buffer_case by exact Hw. split.
      - intros (b & Ha & H). apply option_map_some in H as (ws & H & ->). apply visit_each_iff in H as (b1 & b2 & -> & H). eapply wo_a_tuple; eauto.
      - intros H. inversion H; subst. eexists. split; [eassumption|]. apply option_map_some. eexists. split; [apply visit_each_iff; eauto|reflexivity]. }
    destruct n as [|n]; [dead|]. rewrite option_map_some. rewrite Forall_forall in IH.
    assert (G : forall vs, zip_of (fun u => de_wrap rp A u (S n)) ts l = Some vs <-> Forall3 (worth (Some bl) n) ts l vs).
    { intros vs. rewrite zip_iff. apply F3_iff. intros a b c Ha Hb. apply IH; [exact Ha|eapply short_elem|eapply well_elem]; eauto. }
    split; [intros (vs & H & ->); constructor; apply G; exact H|]. intros H. inversion H; subst. eexists. split; [apply G; eassumption|reflexivity].
  - rewrite de_wrap_map, enter_S. destruct r as [| | | |l|l]; try dead. destruct n as [|n]; [dead|].
    rewrite members_case by exact Hw. rewrite (map_members _ (worth (Some bl) n u) l v Hw); [|intros k x w Hin; apply IH; [eapply short_mem|eapply well_mem]; eauto]. split.
    + intros (Hm & ms & m & -> & H1 & H2). eapply wo_map; eauto.
    + intros H. inversion H; subst. split; [assumption|]. eauto.
  - rewrite de_wrap_struct, enter_S. destruct n as [|n].
    { split; [discriminate|]. intros H. inversion H. }
    rewrite Forall_forall in IH. destruct r as [| | | |l|l]; try dead.
    + rewrite zip_fields_eq, option_map_some.
      assert (G : forall vs, zip_of (fun u => de_wrap rp A u (S n)) (map snd fs) l = Some vs <-> Forall3 (fun f => worth (Some bl) n (snd f)) fs l vs).
      { intros vs. rewrite zip_iff, F3_map. apply F3_iff. intros a b c Ha Hb. apply (IH a Ha); [eapply short_elem|eapply well_elem]; eauto. }
      split; [intros (vs & H & ->); apply wo_struct_arr; apply G; exact H|]. intros H. inversion H; subst. eexists. split; [apply G; eassumption|reflexivity].
    + rewrite both_case by exact Hw. rewrite (struct_members _ (worth (Some bl) n) l fs v Hw); [|intros f u k x w Hf Hin; apply (IH _ Hf); [eapply short_mem|eapply well_mem]; eauto]. split.
      * intros [(Hm & ms & vs & -> & H1 & H2)|(b & Ha & H)]; [eapply wo_struct; eauto|].
        apply option_map_some in H as (ws & H & ->). apply visit_each_iff in H as (b1 & b2 & -> & H). rewrite F3_map in H. eapply wo_a_struct; eauto.
      * intros H. inversion H; subst; [left; split; [assumption|]; eauto|]. right. eexists. split; [eassumption|]. apply option_map_some. eexists.
        split; [|reflexivity]. apply visit_each_iff. do 2 eexists. split; [reflexivity|]. rewrite F3_map. assumption.
  - rewrite de_wrap_enum, enter_S. rewrite Forall_forall in IH. destruct r as [| | |b| |[|[k x] [|]]]; try dead.
    + rewrite de_plain_enum. cbn [well] in Hw. split.
      * destruct (unescape b) as [e|] eqn:E; [|discriminate]. intros H. apply variant_iff in H as (pre & tag & u & post & -> & Hn & H).
        destruct tag; try discriminate. injection H as <-. apply wo_name; [apply unescape_exact; assumption|exact Hn].
      * intros H. inversion H; subst. erewrite (proj2 (unescape_exact _ _ Hw)) by eassumption. apply variant_iff. eauto 8.
    + assert (Hk : jbody k) by (eapply well_key; [exact Hw|left; reflexivity]). destruct n as [|n]; [dead|]. split.
      * destruct (unescape k) as [e|] eqn:E; [|discriminate]. intros H. apply variant_iff in H as (pre & tag & u & post & -> & Hn & H).
        apply unescape_exact in E; [|exact Hk].
        assert (G : forall w, de_wrap rp A u (S n) x = Some w <-> worth (Some bl) n u x w).
        { intros w. apply (IH (e, (tag, u))); [apply in_or_app; right; left; reflexivity|eapply short_mem|eapply well_mem]; eauto; left; reflexivity. }
        unfold variant_wrap in H. destruct tag.
        -- destruct x; try discriminate. injection H as <-. apply wo_unit_variant; assumption.
        -- apply option_map_some in H as (w & H & ->). apply wo_variant; [assumption|assumption|discriminate|discriminate|apply G; exact H].
        -- destruct x; try discriminate. apply option_map_some in H as (w & H & ->). apply wo_variant; [assumption|assumption|discriminate|eauto|apply G; exact H].
        -- apply option_map_some in H as (w & H & ->). apply wo_variant; [assumption|assumption|discriminate|discriminate|apply G; exact H].
      * intros H. inversion H as [ | | | | | | | | | | | | | | | | |
          |? pre e u post ? Hm Hn|? pre e tag u post ? ? w Hm Hn Ht Hx Hu| | | | | | | | | | | | | | ]; subst;
          apply (unescape_exact _ _ Hk) in Hm; rewrite Hm; apply variant_iff; do 4 eexists; (split; [reflexivity|]); (split; [exact Hn|]); [reflexivity|].
        assert (G : option_map (XVariant e) (de_wrap rp A u (S n) x) = Some (XVariant e w)).
        { apply option_map_some. exists w. split; [|reflexivity]. apply (IH (e, (tag, u))); [apply in_or_app; right; left; reflexivity|eapply short_mem|eapply well_mem|exact Hu]; eauto; left; reflexivity. }
        unfold variant_wrap. destruct tag; auto; [congruence|]. destruct (Hx eq_refl) as [l ->]. exact G.
  - cbn [de_wrap]. rewrite option_map_some. split.
    + intros (w & H & ->). constructor. apply wrap_means; assumption.
    + intros H. inversion H; subst. eexists. split; [|reflexivity]. apply wrap_means; assumption.
  - apply char_worth. exact Hw.
  - destruct r as [| | |b|l|l]; try dead. 3:{ cbn [de_wrap]. rewrite enter_S. destruct n as [|n]; [dead|]. rewrite buffer_case by exact Hw. split.
      - intros (b & Ha & [= <-]). apply wo_a_octets; assumption.
      - intros H. inversion H; subst. eexists. split; [eassumption|reflexivity]. }
    + cbn [de_wrap]. cbn [well] in Hw. rewrite option_map_some. split.
      * intros (s & E & ->). apply wo_octets_str; [discriminate|]. apply unescape_exact; assumption.
      * intros H. inversion H; subst; [congruence|]. eexists. split; [apply unescape_exact; eassumption|reflexivity].
    + cbn [de_wrap de_plain]. rewrite enter_S. destruct n as [|n]; [dead|]. rewrite option_map_some. split.
      * intros (s & E & ->). apply wo_octets_arr. apply octets_iff; assumption.
      * intros H. inversion H; subst. eexists. split; [apply octets_iff; eassumption|reflexivity].
  - cbn [de_wrap]. rewrite enter_S. destruct r as [| | | |l|l]; try dead. destruct n as [|n]; [dead|]. split.
    + destruct (classify_obj A l); try discriminate. destruct l; [|discriminate]. intros [= <-]. apply wo_int_map_empty. discriminate.
    + intros H. inversion H; subst; [congruence|reflexivity].
Qed.
End Worth.

(** ** Arguments *)
Lemma worth_exact t text r A v : jvalue r text -> contents A <> None ->
  (arg_deserialize t (Arg text A) = Ok v <-> worth (seen_with A) 127 t r v).
Proof.
  intros Hr HA. pose proof (jvalue_doc r text Hr) as Hd. pose proof (jdoc_short r text Hd) as Hs. pose proof (proj1 jvalue_well r text Hr) as Hw.
  destruct A as [|a A].
  - rewrite (arg_none t text r Hr). cbn [seen_with].
    rewrite <- (plain_worth from_str_value (length text) (fun t v _ => from_str_means t v) t 127 r v Hs Hw).
    destruct (de_plain from_str_value t 128 r); split; intros [= <-]; reflexivity.
  - rewrite (arg_some t text r (a :: A) Hr) by discriminate. cbn [seen_with]. destruct (contents (a :: A)) as [bl|] eqn:E; [|congruence].
    assert (Hrp : forall t v, length t < length text -> from_str_value_n (S (length text)) t = Some v <-> exists r', jdoc r' t /\ means 127 r' v).
    { intros u w Hu. rewrite <- from_str_means. rewrite (from_str_stable (S (length u)) (S (length text)) (S (length u)) u); [reflexivity| | |]; lia. }
    rewrite <- (wrap_worth (from_str_value_n (S (length text))) (length text) Hrp (a :: A) bl E t 127 r v Hs Hw).
    destruct (de_wrap (from_str_value_n (S (length text))) (a :: A) t 128 r); split; intros [= <-]; reflexivity.
Qed.
Lemma worth_unique t text r A v w : jvalue r text -> contents A <> None ->
  worth (seen_with A) 127 t r v -> worth (seen_with A) 127 t r w -> v = w.
Proof. intros Hr HA Hv Hw. apply (worth_exact t text r A) in Hv, Hw; try assumption. congruence. Qed.
Lemma worth_error t text r A : jvalue r text -> contents A <> None ->
  (forall v, ~ worth (seen_with A) 127 t r v) -> arg_deserialize t (Arg text A) = Err (AJsonDeError text).
Proof.
  intros Hr HA H. destruct (arg_deserialize t (Arg text A)) as [v|e|] eqn:E.
  - apply (worth_exact t text r A) in E; try assumption. destruct (H v E).
  - unfold arg_deserialize in E. cbn [g_attachments g_text] in E. destruct (match A with [] => _ | _ => _ end); [discriminate|]. injection E as <-. reflexivity.
  - unfold arg_deserialize in E. cbn [g_attachments g_text] in E. destruct (match A with [] => _ | _ => _ end); discriminate.
Qed.
Lemma argument_worth m t l g : sub_deref_str m = Some t -> Forall emsg_ok l -> argument_of m l g ->
  exists r, jvalue r (g_text g) /\ forall u v, arg_deserialize u g = Ok v <-> worth (seen_with (g_attachments g)) 127 u r v.
Proof.
  intros Hm Hl Hg. destruct (argument_facts m t l g Hm Hl Hg) as [[r Hr] (bl & Hbl & _)]. exists r. split; [exact Hr|].
  intros u v. destruct g as [text A]. cbn [g_text g_attachments] in *. apply worth_exact; [exact Hr|congruence].
Qed.
Lemma missing_rejected fs text l A f u : jvalue (RObj l) text -> contents A <> None ->
  In (f, u) fs -> (forall u', u <> TyOption u') -> (forall b, ~ attachment (seen_with A) l b) ->
  (forall k x, In (k, x) l -> ~ string_means k f) ->
  arg_deserialize (TyStruct fs) (Arg text A) = Err (AJsonDeError text).
Proof.
  intros Hr HA Hf Hu Hb Hk. apply (worth_error _ _ (RObj l)); [exact Hr|exact HA|]. intros v H.
  inversion H as [ | | | | | | | | | | | | | | | |? ? ? ms vs Hm Hs Hv| | | | | | | | | | | | | | | | |? ? ? ? ? ? Ha]; subst; [|exact (Hb _ Ha)].
  destruct (F2_left _ _ _ _ Hv Hf) as (w & _ & [(x & Ho & _)|(_ & (u' & E) & _)]); [|exact (Hu u' E)].
  assert (Hx : In (f, x) ms) by (destruct Ho as (pre & post & -> & _); apply in_or_app; right; left; reflexivity).
  destruct (F2_right _ _ _ _ Hs Hx) as ([k y] & Hin & E1 & _). exact (Hk k y Hin E1).
Qed.
