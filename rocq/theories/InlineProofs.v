(** Attachments read as if written inline (C24, C26). *)
From Verif Require Export TypedProofs.

Lemma ordinary_not_placeholder l : ordinary_first l -> placeholder_num l = None.
Proof.
  destruct l as [|[k x] l]; [reflexivity|]. intros [_ H]. apply bytes_eqb_neq in H. unfold placeholder_num.
  destruct x as [|[|]| | | |]; try reflexivity. destruct l as [|[n y] [|]]; try reflexivity; destruct y; try reflexivity. rewrite H. reflexivity.
Qed.
Lemma placeholder_shape l k : placeholder_num l = Some k ->
  exists x, l = [(key_placeholder, RBool true); (key_num, RNum x)] /\ num_of x = Some (NPos k).
Proof.
  unfold placeholder_num. destruct l as [|[p [|[|]| | | |]] [|[n [| |x| | |]] [|]]]; try discriminate.
  destruct (bytes_eqb p key_placeholder) eqn:E1; [|discriminate]. destruct (bytes_eqb n key_num) eqn:E2; [|discriminate].
  apply bytes_eqb_eq in E1, E2. subst. cbn [andb]. destruct (num_of x) as [[m| |]|] eqn:E; try discriminate. intros [= <-]. eauto.
Qed.
Lemma no_backslash_keys : no_backslash key_placeholder = true /\ no_backslash key_num = true.
Proof. split; vm_compute; reflexivity. Qed.

(** A string with a meaning is, as a byte string, that meaning. *)
Lemma unescape_both_n n : forall b s, length b <= n -> unescape b = Some s -> unescape_octets b = Some s.
Proof.
  induction n as [|n IH]; intros b s Hl H.
  - destruct b; [exact H|cbn in Hl; lia].
  - destruct b as [|c r]; [exact H|]. cbn [length] in Hl. cbn [unescape unescape_octets] in *. destruct (c =b backslash).
    2: { destruct (unescape r) as [t|] eqn:E; [|discriminate]. rewrite (IH r t) by (assumption || lia). exact H. }
    destruct r as [|e r1]; [discriminate|]. cbn [length] in Hl. destruct (simple_esc e).
    { destruct (unescape r1) as [t|] eqn:E; [|discriminate]. rewrite (IH r1 t) by (assumption || lia). exact H. }
    destruct r1 as [|h1 [|h2 [|h3 [|h4 r2]]]]; try discriminate. cbn [length] in Hl. cbv zeta in *.
    destruct ((56320 <=? hex4 h1 h2 h3 h4)%N && (hex4 h1 h2 h3 h4 <=? 57343)%N) eqn:E1; [discriminate|].
    destruct ((hex4 h1 h2 h3 h4 <? 55296)%N || (56319 <? hex4 h1 h2 h3 h4)%N) eqn:E2.
    { destruct (unescape r2) as [t|] eqn:E; [|discriminate]. rewrite (IH r2 t) by (assumption || lia). exact H. }
    destruct r2 as [|b1 [|u1 [|g1 [|g2 [|g3 [|g4 r3]]]]]]; try discriminate. cbn [length] in Hl.
    destruct ((b1 =b backslash) && (u1 =b "u")); [|discriminate]. cbn [andb].
    destruct ((hex4 g1 g2 g3 g4 <? 56320)%N || (57343 <? hex4 g1 g2 g3 g4)%N) eqn:E3; [discriminate|].
    apply orb_false_iff in E3 as [X1 X2]. apply N.ltb_ge in X1, X2.
    rewrite (proj2 (N.leb_le _ _) X1), (proj2 (N.leb_le _ _) X2). cbn [andb].
    destruct (unescape r3) as [t|] eqn:E; [|discriminate]. rewrite (IH r3 t) by (assumption || lia). exact H.
Qed.
Lemma unescape_both b s : unescape b = Some s -> unescape_octets b = Some s.
Proof. apply (unescape_both_n (length b)). lia. Qed.

Section Inline.
Variables (A : list subslice_t) (bl : list bytes).
Hypothesis HA : contents A = Some bl.

Lemma classify_placeholder l k : placeholder_num l = Some k ->
  classify_obj A l = match nth_error bl (N.to_nat k) with Some b => OMBuffer b | None => OMError end.
Proof.
  intros H. destruct (placeholder_shape l k H) as (x & -> & Hx). unfold classify_obj. destruct no_backslash_keys as [-> ->].
  rewrite !bytes_eqb_refl. cbn [negb andb u64_of_raw]. rewrite Hx. rewrite (contents_nth A bl _ HA).
  destruct (N.ltb_spec k (N.of_nat (length A))) as [Hk|Hk].
  - destruct (nth_error A (N.to_nat k)) as [s|]; [|reflexivity]. destruct (sub_deref_vec s); reflexivity.
  - replace (nth_error A (N.to_nat k)) with (@None subslice_t) by (symmetry; apply nth_error_None; lia). reflexivity.
Qed.

Definition inl_members (l : list (bytes * raw)) : option (list (bytes * raw)) :=
  all_some (map (fun '(k, x) => option_map (pair k) (inline bl x)) l).
Lemma inline_obj l : inline bl (RObj l) =
  match placeholder_num l with
  | Some k => option_map (fun b => RArr (map byte_lit b)) (nth_error bl (N.to_nat k))
  | None => option_map RObj (inl_members l)
  end.
Proof. reflexivity. Qed.
Lemma inline_arr l : inline bl (RArr l) = option_map RArr (all_some (map (inline bl) l)).
Proof. reflexivity. Qed.
Lemma inl_members_cons k x l : inl_members ((k, x) :: l) =
  match inline bl x, inl_members l with Some y, Some m => Some ((k, y) :: m) | _, _ => None end.
Proof. unfold inl_members. cbn [map all_some]. destruct (inline bl x); cbn [option_map]; [|reflexivity]. destruct (all_some _); reflexivity. Qed.
Lemma inl_none l : inl_members l = None -> exists k x, In (k, x) l /\ inline bl x = None.
Proof.
  induction l as [|[k x] l IH]; [discriminate|]. rewrite inl_members_cons. destruct (inline bl x) eqn:E.
  - destruct (inl_members l); [discriminate|]. intros _. destruct (IH eq_refl) as (k' & y & H1 & H2). exists k', y. split; [right|]; assumption.
  - intros _. exists k, x. split; [left; reflexivity|exact E].
Qed.

(** Loops. *)
Definition via (f : raw -> option dval) (x : raw) : option dval := match inline bl x with Some y => f y | None => None end.
Lemma each_inline f g l : (forall x, In x l -> f x = via g x) ->
  each_of f l = match all_some (map (inline bl) l) with Some l' => each_of g l' | None => None end.
Proof.
  intros H. induction l as [|x l IH]; [reflexivity|]. cbn [each_of map all_some]. fold (each_of f).
  rewrite (H x (or_introl eq_refl)), IH by (intros y Hy; apply H; right; exact Hy). unfold via.
  destruct (inline bl x) as [y|]; [|reflexivity]. destruct (all_some (map (inline bl) l)) as [l'|]; cbn [option_map each_of]; fold (each_of g).
  - reflexivity.
  - destruct (g y); reflexivity.
Qed.
Lemma zip_inline f g ts : forall l, (forall u x, In (u, x) (combine ts l) -> f u x = via (g u) x) ->
  zip_of f ts l = match all_some (map (inline bl) l) with Some l' => zip_of g ts l' | None => None end \/
  length ts <> length l.
Proof.
  induction ts as [|u ts IH]; intros [|x l] H; cbn [length]; auto.
  destruct (IH l) as [E|E]; [intros v y Hv; apply H; right; exact Hv| |right; lia].
  left. cbn [zip_of map all_some]. fold (zip_of f). rewrite (H u x (or_introl eq_refl)), E. unfold via.
  destruct (inline bl x) as [y|]; [|reflexivity]. destruct (all_some (map (inline bl) l)) as [l'|]; cbn [option_map zip_of]; fold (zip_of g).
  - reflexivity.
  - destruct (g u y); reflexivity.
Qed.
Lemma zip_length f ts : forall l, length ts <> length l -> zip_of f ts l = None.
Proof.
  induction ts as [|u ts IH]; intros [|x l] H; cbn [length] in H; try reflexivity; [lia|].
  cbn [zip_of]. fold (zip_of f). rewrite IH by lia. destruct (f u x); reflexivity.
Qed.
Lemma zip_inline' f g ts l : (forall u x, In (u, x) (combine ts l) -> f u x = via (g u) x) ->
  zip_of f ts l = match all_some (map (inline bl) l) with Some l' => zip_of g ts l' | None => None end.
Proof.
  intros H. destruct (zip_inline f g ts l H) as [E|E]; [exact E|]. rewrite zip_length by exact E.
  destruct (all_some (map (inline bl) l)) as [l'|] eqn:El; [|reflexivity]. apply all_some_length in El. rewrite map_length in El.
  rewrite zip_length by lia. reflexivity.
Qed.
Lemma map_inline f g m : (forall k x, In (k, x) m -> f x = via g x) -> forall acc,
  map_of f m acc = match inl_members m with Some m' => map_of g m' acc | None => None end.
Proof.
  intros H. induction m as [|[k x] m IH]; intros acc; [reflexivity|]. cbn [map_of]. fold (map_of f).
  rewrite (H k x (or_introl eq_refl)), inl_members_cons. unfold via.
  destruct (inline bl x) as [y|]; [|reflexivity].
  assert (E : forall acc, map_of f m acc = match inl_members m with Some m' => map_of g m' acc | None => None end)
    by (apply IH; intros k' z Hz; apply (H k'); right; exact Hz).
  destruct (inl_members m) as [m'|].
  - cbn [map_of]. fold (map_of g). destruct (g y); [apply E|reflexivity].
  - destruct (g y); [apply E|reflexivity].
Qed.
Lemma str_members_inline l : match inl_members l with
  | Some l' => str_members l' = match str_members l with Some m => inl_members m | None => None end
  | None => match str_members l with Some m => inl_members m = None | None => True end
  end.
Proof.
  induction l as [|[k x] l IH]; [reflexivity|]. rewrite inl_members_cons. cbn [str_members].
  destruct (inline bl x) as [y|] eqn:Ex.
  - destruct (inl_members l) as [l'|].
    + cbn [str_members]. destruct (unescape k) as [k'|]; [|reflexivity]. destruct (str_members l) as [m|].
      * rewrite IH. rewrite inl_members_cons, Ex. reflexivity.
      * rewrite IH. reflexivity.
    + destruct (unescape k); [|exact I]. destruct (str_members l) as [m|]; [|exact I]. rewrite inl_members_cons, Ex, IH. reflexivity.
  - destruct (unescape k); [|exact I]. destruct (str_members l) as [m|]; [|exact I]. rewrite inl_members_cons, Ex. reflexivity.
Qed.
Lemma named_inline n m m' : inl_members m = Some m' -> all_some (map (inline bl) (members_named n m)) = Some (members_named n m').
Proof.
  revert m'. induction m as [|[k x] m IH]; intros m' H.
  - injection H as <-. reflexivity.
  - rewrite inl_members_cons in H. destruct (inline bl x) as [y|] eqn:Ex; [|discriminate].
    destruct (inl_members m) as [m1|]; [|discriminate]. injection H as <-. specialize (IH m1 eq_refl).
    unfold members_named in *. cbn [filter fst]. destruct (bytes_eqb n k); [|exact IH].
    cbn [map all_some snd]. rewrite Ex, IH. reflexivity.
Qed.
Lemma field_inline f g m m' n u : inl_members m = Some m' -> (forall x, In (n, x) m -> f u x = via (g u) x) ->
  field_of f m n u = field_of g m' n u.
Proof.
  intros Hm H. pose proof (named_inline n m m' Hm) as E. unfold field_of.
  destruct (members_named n m) as [|x [|y l]] eqn:En; cbn [map all_some] in E.
  - injection E as <-. reflexivity.
  - rewrite H by (apply named_in; rewrite En; left; reflexivity). unfold via.
    destruct (inline bl x); [|discriminate]. injection E as <-. reflexivity.
  - destruct (inline bl x); [|discriminate]. destruct (inline bl y); [|discriminate].
    destruct (all_some (map (inline bl) l)); [|discriminate]. injection E as <-. reflexivity.
Qed.
Lemma fields_inline f g m m' fs : inl_members m = Some m' -> (forall n u x, In (n, u) fs -> In (n, x) m -> f u x = via (g u) x) ->
  fields_of f m fs = fields_of g m' fs.
Proof.
  intros Hm H. induction fs as [|[n u] fs IH]; [reflexivity|]. cbn [fields_of]. fold (fields_of f m) (fields_of g m').
  rewrite (field_inline f g m m' n u Hm) by (intros x Hx; apply (H n u x); [left; reflexivity|exact Hx]).
  rewrite IH; [reflexivity|]. intros n' u' x Hu Hx. apply (H n' u' x); [right; exact Hu|exact Hx].
Qed.
Lemma fields_none f m fs n u : In (n, u) fs -> field_of f m n u = None -> fields_of f m fs = None.
Proof.
  induction fs as [|[k v] fs IH]; [contradiction|]. cbn [fields_of]. fold (fields_of f m). intros [[= -> ->]|H] E.
  - rewrite E. reflexivity.
  - rewrite IH by assumption. destruct (field_of f m k v); reflexivity.
Qed.

Lemma byte_lit_value rp d c : val_of rp d (byte_lit c) = Some (VNum (NPos (bN c))).
Proof. unfold byte_lit. cbn [val_of]. change (NumLit false (dec (bN c)) None None) with (int_lit false (bN c)). rewrite u8_num. reflexivity. Qed.
Lemma visit_byte rp u d c : is_wrapper u = false -> visit_u8 u c = de_plain rp u d (byte_lit c).
Proof.
  intros H. destruct u; try discriminate; try reflexivity;
    try (unfold byte_lit; cbn [visit_u8 de_plain]; change (NumLit false (dec (bN c)) None None) with (int_lit false (bN c)); rewrite u8_num; reflexivity).
  - cbn [visit_u8]. rewrite de_plain_struct. destruct (enter d); reflexivity.
  - cbn [visit_u8 de_plain]. rewrite byte_lit_value. reflexivity.
Qed.
Lemma visit_all rp u d b : is_wrapper u = false -> visit_u8_all u b = each_of (de_plain rp u d) (map byte_lit b).
Proof.
  intros H. induction b as [|c b IH]; [reflexivity|]. cbn [visit_u8_all map each_of]. fold (each_of (de_plain rp u d)).
  rewrite IH, (visit_byte rp u d c H). reflexivity.
Qed.

Lemma val_inline rp r : wrap_ok r -> forall d, val_wrap rp A d r = match inline bl r with Some r' => val_of rp d r' | None => None end.
Proof.
  induction r as [|b|x|s|l IH|l IH] using raw_ind'; intros Ho d; try reflexivity.
  - rewrite inline_arr. destruct d as [|[|d]]; try (destruct (all_some _); reflexivity). rewrite val_wrap_arr. cbn [wrap_ok] in Ho.
    assert (E : all_some (map (val_wrap rp A (S d)) l) =
      match all_some (map (inline bl) l) with Some l' => all_some (map (val_of rp (S d)) l') | None => None end).
    { clear - IH Ho. induction IH as [|x l Hx IH I]; [reflexivity|]. cbn [allP] in Ho. destruct Ho as [H1 H2].
      cbn [map all_some]. rewrite (Hx H1), (I H2). destruct (inline bl x) as [y|]; [|reflexivity].
      destruct (all_some (map (inline bl) l)) as [l'|]; cbn [option_map map all_some]; [reflexivity|].
      destruct (val_of rp (S d) y); reflexivity. }
    rewrite E. destruct (all_some (map (inline bl) l)); cbn [option_map]; [|reflexivity]. rewrite val_of_arr. reflexivity.
  - rewrite inline_obj. destruct (placeholder_num l) as [k|] eqn:Ep.
    + destruct d as [|[|d]]; try (destruct (nth_error bl (N.to_nat k)); reflexivity).
      rewrite val_wrap_obj, (classify_placeholder l k Ep). destruct (nth_error bl (N.to_nat k)) as [b|]; [|reflexivity].
      cbn [option_map]. rewrite val_of_arr, map_map. unfold bytes_value.
      assert (E : forall c : bytes, all_some (map (fun x => val_of rp (S d) (byte_lit x)) c) = Some (map (fun c => VNum (NPos (bN c))) c)).
      { induction c as [|x c I]; [reflexivity|]. cbn [map all_some]. rewrite byte_lit_value, I. reflexivity. }
      rewrite E. reflexivity.
    + cbn [wrap_ok] in Ho. destruct Ho as [Ho|[Hf Hl]]; [congruence|].
      destruct d as [|[|d]]; try (destruct (inl_members l); reflexivity).
      assert (Hkeys : forall l', inl_members l = Some l' -> map fst l' = map fst l).
      { clear. induction l as [|[k x] l I]; intros l' H; [injection H as <-; reflexivity|]. rewrite inl_members_cons in H.
        destruct (inline bl x); [|discriminate]. destruct (inl_members l) as [m|]; [|discriminate]. injection H as <-. cbn. f_equal. auto. }
      destruct (private_dec l) as [(k & x & l1 & -> & Hk)|Hk].
      * rewrite val_wrap_obj, classify_ordinary by exact Hf. rewrite Hk, bytes_eqb_refl.
        rewrite inl_members_cons. destruct x as [| | |b|xs|ms].
        -- cbn [inline]. destruct (inl_members l1); cbn [option_map]; [|reflexivity]. rewrite val_of_private by exact Hk. reflexivity.
        -- cbn [inline]. destruct (inl_members l1); cbn [option_map]; [|reflexivity]. rewrite val_of_private by exact Hk. reflexivity.
        -- cbn [inline]. destruct (inl_members l1); cbn [option_map]; [|reflexivity]. rewrite val_of_private by exact Hk. reflexivity.
        -- cbn [inline]. destruct l1 as [|[k1 x1] l1]; [cbn; rewrite Hk, bytes_eqb_refl; reflexivity|].
           rewrite inl_members_cons. destruct (inline bl x1); [|reflexivity]. destruct (inl_members l1); cbn [option_map]; [|reflexivity].
           rewrite val_of_private by exact Hk. reflexivity.
        -- rewrite inline_arr. destruct (all_some (map (inline bl) xs)); cbn [option_map]; [|reflexivity].
           destruct (inl_members l1); cbn [option_map]; [|reflexivity]. rewrite val_of_private by exact Hk. reflexivity.
        -- destruct (inline bl (RObj ms)) as [y|] eqn:Ey; [|reflexivity]. destruct (inl_members l1) as [m1|]; cbn [option_map]; [|reflexivity].
           rewrite val_of_private by exact Hk. rewrite inline_obj in Ey.
           destruct (placeholder_num ms); [destruct (nth_error bl (N.to_nat n))|destruct (inl_members ms)]; try discriminate; injection Ey as <-; reflexivity.
      * rewrite val_wrap_map by (auto using classify_ordinary).
        assert (E : all_some (map (wrap_member rp A (S d)) l) =
          match inl_members l with Some l' => all_some (map (val_member rp (S d)) l') | None => None end).
        { clear - IH Hl. induction IH as [|[k x] l Hx IH I]; [reflexivity|]. cbn [allP] in Hl. destruct Hl as [H1 H2].
          cbn [map all_some snd] in *. rewrite inl_members_cons. unfold wrap_member at 1. cbn [fst snd]. rewrite (Hx H1), (I H2).
          destruct (inline bl x) as [y|]; [|destruct (unescape k); reflexivity].
          destruct (inl_members l) as [l'|]; cbn [map all_some].
          - unfold val_member at 2. cbn [fst snd]. reflexivity.
          - destruct (unescape k); [|reflexivity]. destruct (val_of rp (S d) y); reflexivity. }
        rewrite E. destruct (inl_members l) as [l'|] eqn:El; [|reflexivity]. cbn [option_map].
        rewrite val_of_obj'; [reflexivity|]. intros k x l1 ->. specialize (Hkeys _ eq_refl). cbn [map fst] in Hkeys.
        destruct l as [|[k0 x0] l0]; [discriminate|]. cbn [map fst] in Hkeys. injection Hkeys as -> _. exact (Hk _ _ _ eq_refl).
Qed.

Lemma inline_compound r r' : (match r with RArr _ | RObj _ => True | _ => False end) -> inline bl r = Some r' ->
  match r' with RArr _ | RObj _ => True | _ => False end.
Proof.
  destruct r; try contradiction; intros _ H.
  - rewrite inline_arr in H. destruct (all_some _); [|discriminate]. injection H as <-. exact I.
  - rewrite inline_obj in H. destruct (placeholder_num l); [destruct (nth_error _ _)|destruct (inl_members l)]; try discriminate; injection H as <-; exact I.
Qed.
Lemma octets_bytes b : octets_of (map byte_lit b) = Some b.
Proof.
  induction b as [|c b IH]; [reflexivity|]. cbn [map octets_of]. rewrite IH. unfold octet_of, byte_lit. cbn [u64_of_raw].
  change (NumLit false (dec (bN c)) None None) with (int_lit false (bN c)). rewrite u8_num.
  pose proof (Byte.to_N_bounded c) as B. destruct (N.ltb_spec (bN c) 256) as [_|H]; [|unfold bN in H; lia]. rewrite byte_of_bN. reflexivity.
Qed.
Lemma octets_inline l l' : all_some (map (inline bl) l) = Some l' -> octets_of l' = octets_of l.
Proof.
  revert l'. induction l as [|x l IH]; intros l' H; cbn [map all_some] in H; [injection H as <-; reflexivity|].
  destruct (inline bl x) as [x'|] eqn:E; [|discriminate]. destruct (all_some (map (inline bl) l)) as [l1|] eqn:El; [|discriminate].
  injection H as <-. cbn [octets_of]. rewrite (IH l1 eq_refl).
  assert (Ex : octet_of x' = octet_of x).
  { destruct x as [| | | |xs|xs]; cbn [inline] in E; try (injection E as <-; reflexivity).
    - pose proof (inline_compound (RArr xs) x' I E) as C. destruct x'; try contradiction; reflexivity.
    - pose proof (inline_compound (RObj xs) x' I E) as C. destruct x'; try contradiction; reflexivity. }
  rewrite Ex. reflexivity.
Qed.
Lemma octets_out l : all_some (map (inline bl) l) = None -> octets_of l = None.
Proof.
  induction l as [|x l IH]; intros H; cbn [map all_some] in H; [discriminate|]. cbn [octets_of].
  destruct (inline bl x) as [x'|] eqn:E.
  - destruct (all_some (map (inline bl) l)); [discriminate|]. rewrite IH by reflexivity. destruct (octet_of x); reflexivity.
  - destruct x; try discriminate; reflexivity.
Qed.
Lemma inline_scalar_none rp t d r : (match r with RArr _ | RObj _ => True | _ => False end) ->
  match t with TyBool | TyInt _ _ | TyF64 | TyUnit | TyString | TyStr | TyBytes | TyChar => True | _ => False end ->
  de_plain rp t d r = None.
Proof. destruct r; try contradiction; destruct t; try contradiction; reflexivity. Qed.
Lemma not_placeholder l : ~ is_placeholder (RObj l) -> placeholder_num l = None.
Proof. intros H. destruct (placeholder_num l) eqn:E; [|reflexivity]. exfalso. apply H. exists l. split; congruence. Qed.
Lemma wrap_ok_ordinary l : wrap_ok (RObj l) -> placeholder_num l = None -> ordinary_first l /\ allP (fun '(_, x) => wrap_ok x) l.
Proof. intros [H|H]; [congruence|auto]. Qed.

Theorem de_inline rp t : forall d r, wrap_ok r -> suits bl t r ->
  de_wrap rp A t d r = match inline bl r with Some r' => de_plain rp t d r' | None => None end.
Proof.
  assert (Hscalar : forall t d r,
    match t with TyBool | TyInt _ _ | TyF64 | TyUnit | TyString | TyStr | TyBytes | TyChar => True | _ => False end ->
    de_plain rp t d r = match inline bl r with Some r' => de_plain rp t d r' | None => None end).
  { intros t' d r Ht. destruct r; try reflexivity.
    - rewrite inline_scalar_none by (exact I || exact Ht). destruct (inline bl (RArr l)) as [r'|] eqn:E; [|reflexivity].
      symmetry. apply inline_scalar_none; [|exact Ht]. eapply inline_compound; [|exact E]. exact I.
    - rewrite inline_scalar_none by (exact I || exact Ht). destruct (inline bl (RObj l)) as [r'|] eqn:E; [|reflexivity].
      symmetry. apply inline_scalar_none; [|exact Ht]. eapply inline_compound; [|exact E]. exact I. }
  assert (Hstr : forall t d l, (t = TyString \/ t = TyStr \/ t = TyBytes) -> wrap_ok (RObj l) -> ~ is_placeholder (RObj l) ->
    de_wrap rp A t d (RObj l) = None).
  { intros t' d l Ht Hw Hp. apply not_placeholder in Hp. destruct (wrap_ok_ordinary l Hw Hp) as [Hf _].
    destruct Ht as [->|[->| ->]]; cbn [de_wrap]; rewrite classify_ordinary by exact Hf; destruct (enter d); reflexivity. }
  induction t as [|lo hi| | | | | | |u IH|u IH|u IH|ts IH|u IH|fs IH|vs IH| | | |lo hi u IH] using ty_ind'; intros d r Hw Hs;
    try (apply Hscalar; exact I).
  - cbn [suits] in Hs. destruct r; try (apply Hscalar; exact I). rewrite Hstr by auto.
    rewrite <- Hscalar by exact I. reflexivity.
  - cbn [suits] in Hs. destruct r; try (apply Hscalar; exact I). rewrite Hstr by auto.
    rewrite <- Hscalar by exact I. reflexivity.
  - cbn [suits] in Hs. destruct r; try (apply Hscalar; exact I). rewrite Hstr by auto.
    rewrite <- Hscalar by exact I. reflexivity.
  - cbn [suits] in Hs. cbn [de_wrap de_plain]. destruct (inline bl r); [reflexivity|congruence].
  - cbn [suits] in Hs. cbn [de_wrap]. destruct r as [| | | |l|l]; try reflexivity; try (rewrite (IH d _ Hw Hs); reflexivity).
    + rewrite (IH d _ Hw Hs). destruct (inline bl (RArr l)) as [r'|] eqn:E; [|reflexivity].
      assert (C := inline_compound (RArr l) r' I E). destruct r'; try contradiction; reflexivity.
    + rewrite (IH d _ Hw Hs). destruct (inline bl (RObj l)) as [r'|] eqn:E; [|reflexivity].
      assert (C := inline_compound (RObj l) r' I E). destruct r'; try contradiction; reflexivity.
  - cbn [suits] in Hs. cbn [de_wrap de_plain]. rewrite (IH d _ Hw Hs). destruct (inline bl r); reflexivity.
  - cbn [suits] in Hs. destruct Hs as [Hp Hs]. rewrite de_wrap_seq. destruct r as [| | | |l|l]; try reflexivity.
    + rewrite inline_arr. destruct (enter d) as [d'|] eqn:Ed.
      * rewrite (each_inline _ (de_plain rp u d') l).
        -- destruct (all_some (map (inline bl) l)); [|reflexivity]. cbn [option_map]. rewrite de_plain_seq, Ed. reflexivity.
        -- intros x Hx. cbn [wrap_ok] in Hw. rewrite allP_In in Hw, Hs. apply IH; auto.
      * destruct (all_some (map (inline bl) l)); [|reflexivity]. cbn [option_map]. rewrite de_plain_seq, Ed. reflexivity.
    + rewrite inline_obj. destruct (placeholder_num l) as [k|] eqn:Ep.
      * rewrite (classify_placeholder l k Ep). destruct (nth_error bl (N.to_nat k)) as [b|]; cbn [option_map].
        -- rewrite de_plain_seq. destruct (enter d) as [d'|]; [|reflexivity]. f_equal. apply visit_all. apply Hp. exists l. split; congruence.
        -- destruct (enter d); reflexivity.
      * destruct (wrap_ok_ordinary l Hw Ep) as [Hf _]. rewrite classify_ordinary by exact Hf.
        destruct (inl_members l); cbn [option_map]; destruct (enter d) eqn:Ed; reflexivity.
  - cbn [suits] in Hs. destruct Hs as [Hp Hs]. rewrite de_wrap_tuple. destruct r as [| | | |l|l]; try reflexivity.
    + rewrite inline_arr. destruct (enter d) as [d'|] eqn:Ed.
      * rewrite (zip_inline' _ (fun u => de_plain rp u d') ts l).
        -- destruct (all_some (map (inline bl) l)); [|reflexivity]. cbn [option_map]. rewrite de_plain_tuple, Ed. reflexivity.
        -- cbn [wrap_ok] in Hw. clear Hp. revert l Hw Hs. induction IH as [|u ts Hu IH I]; intros [|x l] Hw Hs v y Hin; try contradiction.
           cbn [allP] in Hw. destruct Hw as [W1 W2]. destruct Hs as [S1 S2]. destruct Hin as [[= <- <-]|Hin]; [apply Hu; assumption|].
           apply (I l); assumption.
      * destruct (all_some (map (inline bl) l)); [|reflexivity]. cbn [option_map]. rewrite de_plain_tuple, Ed. reflexivity.
    + apply not_placeholder in Hp. rewrite inline_obj, Hp. destruct (wrap_ok_ordinary l Hw Hp) as [Hf _].
      rewrite classify_ordinary by exact Hf. destruct (inl_members l); cbn [option_map]; destruct (enter d) eqn:Ed; reflexivity.
  - cbn [suits] in Hs. rewrite de_wrap_map. destruct r as [| | | |l|l]; try reflexivity.
    + rewrite inline_arr. destruct (all_some (map (inline bl) l)); reflexivity.
    + rewrite inline_obj. destruct (placeholder_num l) as [k|] eqn:Ep.
      * rewrite (classify_placeholder l k Ep). destruct (nth_error bl (N.to_nat k)); cbn [option_map]; destruct (enter d); reflexivity.
      * destruct (wrap_ok_ordinary l Hw Ep) as [Hf Hl]. rewrite classify_ordinary by exact Hf.
        pose proof (str_members_inline l) as Hsm. destruct (enter d) as [d'|] eqn:Ed.
        -- destruct (str_members l) as [m|] eqn:Em.
           ++ assert (Hloop : map_of (de_wrap rp A u d') m [] = match inl_members m with Some m' => map_of (de_plain rp u d') m' [] | None => None end).
              { apply map_inline. intros k x Hx. apply (str_members_in l m k x Em) in Hx as (k0 & _ & Hx).
                rewrite allP_In in Hl, Hs. apply IH; [exact (Hl _ Hx)|exact (Hs _ Hx)]. }
              rewrite Hloop. destruct (inl_members l) as [l'|]; cbn [option_map].
              ** rewrite de_plain_map, Ed, Hsm. destruct (inl_members m); reflexivity.
              ** rewrite Hsm. reflexivity.
           ++ destruct (inl_members l) as [l'|]; cbn [option_map]; [|reflexivity]. rewrite de_plain_map, Ed, Hsm. reflexivity.
        -- destruct (inl_members l); cbn [option_map]; [|reflexivity]. rewrite de_plain_map, Ed. reflexivity.
  - cbn [suits] in Hs. destruct Hs as [Hp Hs]. rewrite de_wrap_struct. destruct (enter d) as [d'|] eqn:Ed.
    2: { destruct (inline bl r); [|reflexivity]. rewrite de_plain_struct, Ed. reflexivity. }
    destruct r as [| | | |l|l]; try (cbn [inline]; rewrite de_plain_struct, Ed; reflexivity).
    + rewrite inline_arr, zip_fields_eq. rewrite (zip_inline' _ (fun u => de_plain rp u d') (map snd fs) l).
      * destruct (all_some (map (inline bl) l)); [|reflexivity]. cbn [option_map]. rewrite de_plain_struct, Ed, zip_fields_eq. reflexivity.
      * cbn [wrap_ok] in Hw. clear Hp. revert l Hw Hs. induction IH as [|[n u] fs Hu IH I]; intros [|x l] Hw Hs v y Hin; try contradiction.
        cbn [allP] in Hw. destruct Hw as [W1 W2]. destruct Hs as [S1 S2]. destruct Hin as [[= <- <-]|Hin]; [apply Hu; assumption|].
        apply (I l); assumption.
    + apply not_placeholder in Hp. rewrite inline_obj, Hp. destruct (wrap_ok_ordinary l Hw Hp) as [Hf Hl].
      rewrite classify_ordinary by exact Hf. destruct Hs as [Hskip Hs].
      assert (HQ : forall n u k x, In (n, u) fs -> In (k, x) l -> unescape k = Some n -> de_wrap rp A u d' x = via (de_plain rp u d') x).
      { intros n u k x Hu Hx Hk. rewrite Forall_forall in IH. apply (IH _ Hu).
        - rewrite allP_In in Hl. exact (Hl _ Hx).
        - clear - Hs Hu Hx Hk. induction fs as [|[f v] fs I]; [contradiction|]. destruct Hs as [S1 S2].
          destruct Hu as [[= -> ->]|Hu]; [|auto]. rewrite allP_In in S1. exact (S1 _ Hx Hk). }
      pose proof (str_members_inline l) as Hsm. destruct (inl_members l) as [l'|] eqn:El; cbn [option_map].
      * rewrite de_plain_struct, Ed, Hsm. destruct (str_members l) as [m|] eqn:Em; [|reflexivity].
        destruct (inl_members m) as [m'|] eqn:Emm.
        -- f_equal. apply fields_inline; [exact Emm|]. intros n u x Hu Hx. apply (str_members_in l m n x Em) in Hx as (k & Hk & Hx).
           eapply HQ; eauto.
        -- exfalso. apply inl_none in Emm as (n & x & Hx & Hn). apply (str_members_in l m n x Em) in Hx as (k & Hk & Hx).
           clear - El Hx Hn. revert l' El. induction l as [|[k0 x0] l I]; [contradiction|]. intros l' El. rewrite inl_members_cons in El.
           destruct (inline bl x0) eqn:E0; [|discriminate]. destruct (inl_members l) as [l1|] eqn:E1; [|discriminate].
           destruct Hx as [[= -> ->]|Hx]; [congruence|]. apply (I Hx l1 eq_refl).
      * destruct (str_members l) as [m|] eqn:Em; [|reflexivity].
        apply inl_none in El as (k & x & Hx & Hn). rewrite allP_In in Hskip. specialize (Hskip _ Hx). cbn beta iota in Hskip.
        destruct (unescape k) as [n|] eqn:Ek.
        2: { exfalso. apply Hskip; [|exact Hn]. intros f Hff. discriminate. }
        destruct (in_dec (list_eq_dec Byte.byte_eq_dec) n (map fst fs)) as [Hin|Hin].
        2: { exfalso. apply Hskip; [|exact Hn]. intros f [= <-]. exact Hin. }
        apply in_map_iff in Hin as ([n' u] & E & Hu). cbn [fst] in E. subst n'.
        rewrite (fields_none _ m fs n u Hu); [reflexivity|]. unfold field_of.
        assert (Hx' : In x (members_named n m)). { apply named_in. apply (str_members_in l m n x Em). exists k. auto. }
        destruct (members_named n m) as [|y [|z rest]]; [destruct Hx'| |reflexivity].
        destruct Hx' as [->|[]]. rewrite (HQ n u k x Hu Hx Ek). unfold via. rewrite Hn. reflexivity.
  - cbn [suits] in Hs. rewrite de_wrap_enum. destruct r as [| | |b|l|l]; try reflexivity.
    + rewrite inline_arr. destruct (all_some _); reflexivity.
    + destruct l as [|[k x] [|kx2 l]].
      * reflexivity.
      * rewrite inline_obj. replace (placeholder_num [(k, x)]) with (@None N) by (destruct x as [|[|]| | | |]; reflexivity).
        cbn [wrap_ok] in Hw. destruct Hw as [Hw|[_ [Hw _]]]; [destruct x as [|[|]| | | |]; cbn in Hw; congruence|].
        rewrite inl_members_cons. unfold inl_members at 1. cbn [map all_some].
        destruct (enter d) as [d'|] eqn:Ed.
        2: { destruct (inline bl x); cbn [option_map]; [|reflexivity]. rewrite de_plain_enum, Ed. reflexivity. }
        destruct (unescape k) as [name|] eqn:Ek.
        2: { destruct (inline bl x); cbn [option_map]; [|reflexivity]. rewrite de_plain_enum, Ed, Ek. reflexivity. }
        assert (HV : forall n tag u, In (n, (tag, u)) vs -> variant_wrap A rp d' x n tag u =
          match inline bl x with Some y => variant_plain rp d' y n tag u | None => None end).
        { intros n tag u Hu. rewrite Forall_forall in IH. specialize (IH _ Hu). cbn [snd] in IH.
          assert (Hsu : match tag with VtUnit => True | VtTuple => ~ is_placeholder x /\ suits bl u x | _ => suits bl u x end).
          { clear - Hs Hu. induction vs as [|[n1 [t1 u1]] vs I]; [contradiction|]. destruct Hs as [S1 S2].
            destruct Hu as [Hu|Hu]; [injection Hu as -> -> ->; destruct tag; exact S1|exact (I S2 Hu)]. }
          unfold variant_wrap, variant_plain. destruct tag.
          - destruct x as [| | | |xs|xs]; try reflexivity.
            + destruct (inline bl (RArr xs)) as [y|] eqn:E; [|reflexivity]. assert (C := inline_compound (RArr xs) y I E). destruct y; try contradiction; reflexivity.
            + destruct (inline bl (RObj xs)) as [y|] eqn:E; [|reflexivity]. assert (C := inline_compound (RObj xs) y I E). destruct y; try contradiction; reflexivity.
          - rewrite (IH d' x Hw Hsu). destruct (inline bl x); reflexivity.
          - destruct Hsu as [Hnp Hsu]. destruct x as [| | | |xs|xs]; try reflexivity.
            + rewrite (IH d' _ Hw Hsu). rewrite inline_arr. destruct (all_some _); reflexivity.
            + apply not_placeholder in Hnp. rewrite inline_obj, Hnp. destruct (inl_members xs); reflexivity.
          - rewrite (IH d' x Hw Hsu). destruct (inline bl x); reflexivity. }
        rewrite (variant_ext _ (fun n tag u => match inline bl x with Some y => variant_plain rp d' y n tag u | None => None end) name vs HV). destruct (inline bl x) as [y|]; cbn [option_map].
        -- rewrite de_plain_enum, Ed, Ek. reflexivity.
        -- clear. induction vs as [|[n [tag u]] vs I]; [reflexivity|]. cbn [variant_of]. destruct (bytes_eqb n name); [reflexivity|exact I].
      * rewrite inline_obj. destruct (placeholder_num ((k, x) :: kx2 :: l)).
        -- destruct (nth_error bl (N.to_nat n)); reflexivity.
        -- rewrite inl_members_cons. destruct (inline bl x); [|reflexivity]. destruct kx2 as [k2 x2]. rewrite inl_members_cons.
           destruct (inline bl x2); [|reflexivity]. destruct (inl_members l); reflexivity.
  - cbn [de_wrap]. rewrite val_inline by exact Hw. destruct (inline bl r); reflexivity.
  - cbn [suits] in Hs. destruct r as [| | |b|l|l]; try reflexivity.
    + cbn [de_wrap inline de_plain]. destruct (unescape b) as [s|] eqn:E; [|congruence]. rewrite (unescape_both b s E). reflexivity.
    + cbn [de_wrap]. rewrite inline_arr. cbn [de_plain]. destruct (all_some (map (inline bl) l)) as [l'|] eqn:E; cbn [option_map].
      * rewrite (octets_inline l l' E). reflexivity.
      * rewrite (octets_out l E). destruct (enter d); reflexivity.
    + cbn [de_wrap]. rewrite inline_obj. destruct (placeholder_num l) as [k|] eqn:Ep.
      * rewrite (classify_placeholder l k Ep). destruct (nth_error bl (N.to_nat k)) as [b|]; cbn [option_map de_plain].
        -- rewrite octets_bytes. destruct (enter d); reflexivity.
        -- destruct (enter d); reflexivity.
      * destruct (wrap_ok_ordinary l Hw Ep) as [Hf _]. rewrite classify_ordinary by exact Hf.
        destruct (inl_members l); cbn [option_map]; destruct (enter d); reflexivity.
  - cbn [suits] in Hs. cbn [de_wrap]. destruct r as [| | | |l|l]; try reflexivity.
    + rewrite inline_arr. destruct (all_some (map (inline bl) l)); reflexivity.
    + destruct l as [|m l]; [change (inline bl (RObj [])) with (Some (RObj [])); cbv iota; rewrite de_plain_int_map; destruct (enter d); reflexivity|].
      destruct Hs as (l0 & [= <-] & Hp). rewrite inline_obj. destruct (placeholder_num (m :: l)) as [k|] eqn:Ep; [|congruence].
      rewrite (classify_placeholder _ k Ep). destruct (nth_error bl (N.to_nat k)); cbn [option_map]; destruct (enter d); reflexivity.
Qed.
End Inline.
