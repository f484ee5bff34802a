(** Proofs about structs with flattened fields (C84). *)
From Verif Require Export SpecFlatten AdjacentProofs.

(** ** Members *)
Definition keep (names : list bytes) {T} (kx : bytes * T) : bool := negb (is_named names (fst kx)).
Lemma named_in_spec names k : is_named names k = true <-> In k names.
Proof.
  unfold is_named. rewrite existsb_exists. split; [intros (x & Hx & E); apply bytes_eqb_eq in E; subst; exact Hx|].
  intros H. exists k. split; [exact H|apply bytes_eqb_refl].
Qed.
Lemma named_in_not names k : is_named names k = false <-> ~ In k names.
Proof. rewrite <- named_in_spec. destruct (is_named names k); split; congruence. Qed.
Lemma members_without names l : forall m, str_members l = Some m -> str_members (without names l) = Some (filter (keep names) m).
Proof.
  unfold without. induction l as [|[k x] l IH]; intros m E; [injection E as <-; reflexivity|]. cbn [str_members filter fst] in *.
  destruct (unescape k) as [k'|] eqn:Ek; [|discriminate]. destruct (str_members l) as [m'|]; [|discriminate]. injection E as <-.
  specialize (IH m' eq_refl). cbn [filter]. unfold keep at 1. cbn [fst]. fold (is_named names k'). destruct (negb (is_named names k')); [|exact IH].
  cbn [str_members]. rewrite Ek, IH. reflexivity.
Qed.
Lemma named_keep names f m : ~ In f names -> members_named f (filter (keep names) m) = members_named f m.
Proof.
  intros Hf. induction m as [|[k x] m IH]; [reflexivity|]. cbn [filter]. unfold keep at 1. cbn [fst]. rewrite named_cons.
  destruct (is_named names k) eqn:E; cbn [negb]; [|rewrite named_cons, IH; reflexivity].
  rewrite IH. apply named_in_spec in E. destruct (bytes_eqb f k) eqn:Ef; [|reflexivity]. apply bytes_eqb_eq in Ef. congruence.
Qed.
Lemma named_mine names f (cs : list (bytes * content)) : In f names -> contents_named f (filter (fun kc => is_named names (fst kc)) cs) = contents_named f cs.
Proof.
  intros Hf. unfold contents_named. f_equal. induction cs as [|[k x] cs IH]; [reflexivity|]. cbn [filter fst].
  destruct (is_named names k) eqn:E.
  - cbn [filter fst]. rewrite IH. reflexivity.
  - rewrite IH. apply named_in_not in E. destruct (bytes_eqb f k) eqn:Ef; [|reflexivity]. apply bytes_eqb_eq in Ef. congruence.
Qed.
Lemma keep_cons {T} a k (x : T) m : filter (keep a) ((k, x) :: m) = if is_named a k then filter (keep a) m else (k, x) :: filter (keep a) m.
Proof. cbn [filter]. unfold keep at 1. cbn [fst]. destruct (is_named a k); reflexivity. Qed.
Lemma is_named_app a b k : is_named (a ++ b) k = is_named a k || is_named b k.
Proof. apply existsb_app. Qed.
Lemma keep_app {T} a b (m : list (bytes * T)) : filter (keep b) (filter (keep a) m) = filter (keep (a ++ b)) m.
Proof.
  induction m as [|[k x] m IH]; [reflexivity|]. rewrite !keep_cons, is_named_app. destruct (is_named a k); cbn [orb]; [exact IH|].
  rewrite keep_cons, IH. reflexivity.
Qed.
Lemma pairs_keep w d names ml m : Forall2 (fun kx kc => fst kx = fst kc /\ content_of (objects w) d (snd kx) = Some (snd kc)) ml m ->
  Forall2 (fun kx kc => fst kx = fst kc /\ content_of (objects w) d (snd kx) = Some (snd kc)) (filter (keep names) ml) (filter (keep names) m).
Proof.
  induction 1 as [|[k x] [k' c] ml m [H1 H2] HF IH]; [constructor|]. cbn [fst] in H1. subst k'. rewrite !keep_cons.
  destruct (is_named names k); [exact IH|]. constructor; [split; [reflexivity|exact H2]|exact IH].
Qed.
Lemma collect_pairs w names d m : forall cs, collect w names d m = Some cs <->
  Forall2 (fun kx kc => fst kx = fst kc /\ content_of (objects w) d (snd kx) = Some (snd kc)) (filter (keep names) m) cs.
Proof.
  induction m as [|[k x] m IH]; intros cs; cbn [collect filter].
  - split; [intros [= <-]; constructor|]. intros H. inversion H. reflexivity.
  - unfold keep at 1. cbn [fst]. destruct (is_named names k); cbn [negb]; [apply IH|]. split.
    + destruct (content_of (objects w) d x) as [c|] eqn:Ec; [|discriminate]. destruct (collect w names d m) as [cs'|]; [|discriminate].
      intros [= <-]. constructor; [split; [reflexivity|exact Ec]|]. apply IH. reflexivity.
    + intros H. inversion H as [|? [k' c] ? cs' [H1 H2] HF]; subst. cbn [fst snd] in *. subst k'. rewrite H2.
      rewrite (proj2 (IH cs') HF). reflexivity.
Qed.
Lemma own_fields_of rp w d m own : own_fields rp w d m own = fields_of (fun u => de_direct rp w u d) m own.
Proof. induction own as [|[f u] own IH]; [reflexivity|]. cbn [own_fields fields_of]. rewrite IH. reflexivity. Qed.

(** A text of the object without some members. *)
Lemma jmembers_filter f l t : jmembers l t -> filter f l = [] \/ exists t', jmembers (filter f l) t'.
Proof.
  induction 1 as [k v t w1 w2 w3 w4 H1 H2 H3 H4 Hk Hv|k v t w1 w2 w3 w4 l t' H1 H2 H3 H4 Hk Hv Hl IH]; cbn [filter]; destruct (f (k, v)); auto.
  - right. eexists. apply jm_one; eassumption.
  - right. destruct IH as [->|[t2 IH]]; eexists; [apply jm_one|eapply jm_cons]; eassumption.
Qed.
Lemma jvalue_without names l text : jvalue (RObj l) text -> exists rest, jvalue (RObj (without names l)) rest.
Proof.
  intros H. assert (E : exists r, jvalue (RObj []) r) by (exists ("{"%byte :: [] ++ ["}"%byte]); constructor; apply ws_nil).
  inversion H as [| | | | | | |w Hw|l' t Ht]; subst; [exact E|].
  unfold without. destruct (jmembers_filter (fun kx => match unescape (fst kx) with Some k => negb (existsb (bytes_eqb k) names) | None => true end) l t Ht) as [->|[t' Ht']];
    [exact E|]. eexists. apply jv_obj. exact Ht'.
Qed.

(** ** The flattened fields *)
Lemma fields_c_ext f m m' fs : (forall n, In n (map fst fs) -> contents_named n m = contents_named n m') -> fields_c f m fs = fields_c f m' fs.
Proof.
  induction fs as [|[n u] fs IH]; intros H; [reflexivity|]. cbn [fields_c]. fold (fields_c f m) (fields_c f m').
  unfold field_c. rewrite (H n) by (left; reflexivity). rewrite IH by (intros; apply H; right; assumption). reflexivity.
Qed.
Lemma fields_of_ext f m m' fs : (forall n, In n (map fst fs) -> members_named n m = members_named n m') -> fields_of f m fs = fields_of f m' fs.
Proof.
  induction fs as [|[n u] fs IH]; intros H; [reflexivity|]. cbn [fields_of]. fold (fields_of f m) (fields_of f m').
  unfold field_of. rewrite (H n) by (left; reflexivity). rewrite IH by (intros; apply H; right; assumption). reflexivity.
Qed.
Section Object.
Variables (l : list (bytes * raw)) (text : bytes) (A : list subslice_t) (m : list (bytes * raw)).
Hypothesis Hj : jvalue (RObj l) text.
Hypothesis Ho : A <> [] -> ordinary_first l.
Hypothesis Hm : str_members l = Some m.
Notation w := (way_of (Arg text A)).
Notation rp := (reparse_of text).

Lemma struct_read fs u : arg_deserialize (TyStruct fs) (Arg text A) = Ok u <->
  option_map XStruct (fields_of (fun t => de_direct rp w t 127) m fs) = Some u.
Proof.
  rewrite (arg_direct_ok _ _ _ _ _ Hj), direct_struct. cbn [enter]. rewrite (objects_map A text l Ho), Hm. reflexivity.
Qed.
Lemma without_short names : short (length text) (RObj (without names l)).
Proof.
  pose proof (proj1 jvalue_short _ _ Hj) as Hs. cbn [short] in *. rewrite allP_In in *. intros y Hy. apply Hs. apply filter_In in Hy. tauto.
Qed.
Lemma map_read names rest t u : (A <> [] -> ordinary_first (without names l)) -> jvalue (RObj (without names l)) rest ->
  (arg_deserialize (TyMap t) (Arg rest A) = Ok u <->
   option_map XMap (map_of (de_direct rp w t 127) (filter (keep names) m) []) = Some u).
Proof.
  intros Ho' Hr. rewrite (arg_direct_ok _ _ _ _ _ Hr). change (way_of (Arg rest A)) with w.
  rewrite direct_ever by exact (proj1 jvalue_short _ _ Hr). rewrite <- (direct_ever text) by apply without_short.
  rewrite direct_map. cbn [enter]. rewrite (objects_map A text _ Ho'), (members_without _ _ _ Hm). reflexivity.
Qed.
Lemma parts_exact ps : forall seen cs us, parts_alike A l seen ps ->
  Forall2 (fun kx kc => fst kx = fst kc /\ content_of (objects w) 127 (snd kx) = Some (snd kc)) (filter (keep seen) m) cs ->
  (take_parts rp ps cs = Some us <-> parts_read A text l seen ps us).
Proof.
  induction ps as [|[fs|t] ps IH]; intros seen cs us Ha HF; cbn [take_parts parts_read parts_alike] in *.
  - destruct us; split; intros; try reflexivity; try discriminate; tauto.
  - destruct Ha as (Hn & Hal & Ha). rewrite Forall_forall in Hn. specialize (IH (seen ++ map fst fs)).
    pose proof (pairs_keep _ _ (map fst fs) _ _ HF) as HF'. rewrite keep_app in HF'. specialize (IH _ (tl us) Ha HF').
    rewrite dc_struct_map. rewrite (fields_c_ext _ _ cs) by (intros; apply named_mine; assumption).
    rewrite (fields_agree rp w true 127 (filter (keep seen) m) cs fs HF); [|apply Forall_forall; intros; apply content_agree|].
    2:{ intros f u x Hf Hx. apply filter_In in Hx as [Hx _]. apply (str_members_in l m f x Hm) in Hx as (k & Hk & Hx). rewrite <- (bin_way text A) in Hal.
        exact (alike_field _ _ fs l f u k x Hal Hf Hx Hk). }
    rewrite (fields_of_ext _ (filter (keep seen) m) m) by (intros n Hin; apply named_keep; auto).
    change (fun kc : bytes * content => negb (is_named (map fst fs) (fst kc))) with (@keep (map fst fs) content).
    destruct us as [|u us].
    + split; [|tauto]. destruct (fields_of _ m fs); [|discriminate]. cbn [option_map]. destruct (take_parts _ ps _); discriminate.
    + rewrite (struct_read fs u). cbn [tl] in IH. rewrite <- IH. destruct (option_map XStruct (fields_of _ m fs)) as [v|]; [|split; [discriminate|intros [X _]; discriminate X]].
      destruct (take_parts rp ps _) as [vs|]; [|split; [discriminate|intros [_ X]; discriminate X]]. split; [intros [= -> ->]; auto|]. intros [[= ->] [= ->]]. reflexivity.
  - destruct Ha as (Ho' & Hal & Ha). specialize (IH seen cs (tl us) Ha HF). rewrite dc_map.
    rewrite (map_agree rp w false t 127 (filter (keep seen) m) cs (content_agree _ _ _ t) HF).
    2:{ intros k x Hx. apply filter_In in Hx as [Hx Hk]. apply (str_members_in l m k x Hm) in Hx as (k0 & Hk0 & Hx). rewrite bin_way.
        cbn [alike] in Hal. rewrite allP_In in Hal. apply (Hal (k0, x)). unfold without. apply filter_In. split; [exact Hx|]. cbn [fst]. rewrite Hk0. exact Hk. }
    destruct us as [|u us].
    + split; [|tauto]. destruct (option_map _ _); [|discriminate]. destruct (take_parts _ ps _); discriminate.
    + cbn [tl] in IH. rewrite <- IH. destruct (jvalue_without seen l text Hj) as [rest0 Hr0]. 
      assert (X : (exists rest, jvalue (RObj (without seen l)) rest /\ arg_deserialize (TyMap t) (Arg rest A) = Ok u) <->
        option_map XMap (map_of (de_direct rp w t 127) (filter (keep seen) m) []) = Some u).
      { split; [intros (rest & Hr & H); exact (proj1 (map_read seen rest t u Ho' Hr) H)|]. intros H. exists rest0. split; [exact Hr0|]. apply (map_read seen rest0 t u Ho' Hr0). exact H. }
      rewrite X. destruct (option_map XMap _) as [v|]; [|split; [discriminate|intros [Y _]; discriminate Y]].
      destruct (take_parts rp ps _) as [vs|]; [|split; [discriminate|intros [_ Y]; discriminate Y]]. split; [intros [= -> ->]; auto|]. intros [[= ->] [= ->]]. reflexivity.
Qed.
End Object.

(** ** C84 *)
Lemma arg_flat_ok own ps text r A v : jvalue r text ->
  arg_flat own ps (Arg text A) = Ok v <-> de_flat (reparse_of text) (way_of (Arg text A)) own ps 128 r = Some v.
Proof.
  intros H. unfold arg_flat, way_of, reparse_of. cbn [g_attachments g_text]. destruct A as [|s A].
  - assert (Hd : jdoc r text). { exists [], text, []. rewrite app_nil_r. repeat split; auto using ws_nil. }
    rewrite (proj2 (scan_doc_exact text r) Hd). destruct (de_flat _ _ own ps 128 r); split; congruence.
  - rewrite (scan_value_exact text r H). destruct (de_flat _ _ own ps 128 r); split; congruence.
Qed.
Lemma pairs_names w d l m0 : Forall2 (fun kx kc => unescape (fst kx) = Some (fst kc) /\ content_of (objects w) d (snd kx) = Some (snd kc)) l m0 ->
  forall m, str_members l = Some m -> Forall2 (fun kx kc => fst kx = fst kc /\ content_of (objects w) d (snd kx) = Some (snd kc)) m m0.
Proof.
  induction 1 as [|[k x] [k' c] l m0 [H1 H2] HF IH]; intros m E; cbn [str_members fst snd] in *; [injection E as <-; constructor|].
  rewrite H1 in E. destruct (str_members l) as [m'|]; [|discriminate]. injection E as <-. constructor; [split; [reflexivity|exact H2]|]. apply IH. reflexivity.
Qed.
Lemma others_collected own l m text A : jvalue (RObj l) text -> str_members l = Some m -> others_are_values A own l ->
  exists cs, collect (way_of (Arg text A)) (map fst own) 127 m = Some cs.
Proof.
  intros Hj Hm [Ho (rest & v & Hr & Hv)]. apply (arg_direct_ok _ _ _ _ _ Hr) in Hv. change (way_of (Arg rest A)) with (way_of (Arg text A)) in Hv.
  destruct (map_values_content _ _ 128 127 _ _ eq_refl (objects_map A text _ Ho) Hv) as [cs HF].
  exists cs. apply collect_pairs. apply (pairs_names _ _ _ _ HF). apply members_without. exact Hm.
Qed.
Theorem flat_exact own ps l text A x : jvalue (RObj l) text -> (A <> [] -> ordinary_first l) -> others_are_values A own l ->
  parts_alike A l (map fst own) ps ->
  (arg_flat own ps (Arg text A) = Ok x <->
   exists vs us, x = XStruct (vs ++ us) /\ arg_deserialize (TyStruct own) (Arg text A) = Ok (XStruct vs) /\
     parts_read A text l (map fst own) ps us).
Proof.
  intros Hj Ho Hv Ha. rewrite (arg_flat_ok own ps text (RObj l) A x Hj). unfold de_flat. cbn [enter]. rewrite (objects_map A text l Ho).
  destruct (str_members l) as [m|] eqn:Hm.
  2:{ split; [discriminate|]. intros (vs & us & _ & H & _). apply (arg_direct_ok _ _ _ _ _ Hj) in H. rewrite direct_struct in H. cbn [enter] in H.
      rewrite (objects_map A text l Ho), Hm in H. discriminate H. }
  destruct (others_collected own l m text A Hj Hm Hv) as [cs Hcs]. rewrite Hcs, own_fields_of. apply collect_pairs in Hcs.
  pose proof (fun us => parts_exact l text A m Hj Ho Hm ps (map fst own) cs us Ha Hcs) as P.
  pose proof (fun vs => struct_read l text A m Hj Ho Hm own (XStruct vs)) as S.
  destruct (fields_of _ m own) as [vs|].
  - split.
    + destruct (take_parts _ ps cs) as [us|] eqn:Et; [|discriminate]. intros [= <-]. exists vs, us. split; [reflexivity|]. split; [apply S; reflexivity|].
      apply P. reflexivity.
    + intros (vs' & us & -> & H1 & H2). apply S in H1. cbn in H1. injection H1 as ->. apply P in H2. rewrite H2. reflexivity.
  - split; [discriminate|]. intros (vs & us & _ & H & _). apply S in H. discriminate H.
Qed.

Lemma fields_of_app f m a b : fields_of f m (a ++ b) =
  match fields_of f m a, fields_of f m b with Some x, Some y => Some (x ++ y) | _, _ => None end.
Proof.
  induction a as [|[n u] a IH]; cbn [app fields_of]; fold (fields_of f m); [destruct (fields_of f m b); reflexivity|]. rewrite IH.
  destruct (field_of f m n u); [|reflexivity]. destruct (fields_of f m a); [|reflexivity]. destruct (fields_of f m b); reflexivity.
Qed.
Lemma fields_of_length f m fs : forall vs, fields_of f m fs = Some vs -> length vs = length fs.
Proof.
  induction fs as [|[n u] fs IH]; intros vs H; cbn [fields_of] in H; fold (fields_of f m) in H; [injection H as <-; reflexivity|].
  destruct (field_of f m n u); [|discriminate]. destruct (fields_of f m fs) as [vs'|]; [|discriminate]. injection H as <-. cbn. rewrite (IH vs' eq_refl). reflexivity.
Qed.
Lemma app_inj_length {T} (a a' b b' : list T) : length a = length a' -> a ++ b = a' ++ b' -> a = a' /\ b = b'.
Proof. revert a'. induction a as [|x a IH]; intros [|x' a'] Hl H; try discriminate; [auto|]. injection Hl as Hl. injection H as -> H. destruct (IH a' Hl H). subst. auto. Qed.
Theorem flat_inlined own fs l text A vs us : jvalue (RObj l) text -> (A <> [] -> ordinary_first l) -> others_are_values A own l ->
  NoDup (map fst (own ++ fs)) -> alike (has_some A) true (TyStruct fs) (RObj l) -> length vs = length own ->
  (arg_flat own [PStruct fs] (Arg text A) = Ok (XStruct (vs ++ [XStruct us])) <->
   arg_deserialize (TyStruct (own ++ fs)) (Arg text A) = Ok (XStruct (vs ++ us))).
Proof.
  intros Hj Ho Hv Hn Ha Hl. rewrite (flat_exact own [PStruct fs] l text A _ Hj Ho Hv).
  2:{ cbn [parts_alike]. split; [|split; [exact Ha|exact I]]. apply Forall_forall. intros f Hf Hf'. rewrite map_app in Hn. clear - Hn Hf Hf'.
      induction (map fst own) as [|g o IH]; [destruct Hf'|]. inversion Hn as [|? ? H1 H2]; subst. destruct Hf' as [->|Hf']; [|auto]. apply H1. apply in_or_app. auto. }
  rewrite (arg_direct_ok _ _ _ _ _ Hj), direct_struct. cbn [enter]. rewrite (objects_map A text l Ho).
  destruct (str_members l) as [m|] eqn:Hm.
  2:{ split; [|discriminate]. intros (vs' & us' & _ & H & _). apply (arg_direct_ok _ _ _ _ _ Hj) in H. rewrite direct_struct in H. cbn [enter] in H.
      rewrite (objects_map A text l Ho), Hm in H. discriminate H. }
  rewrite fields_of_app. pose proof (fun gs y => struct_read l text A m Hj Ho Hm gs (XStruct y)) as S. split.
  - intros (vs' & us' & E & H1 & H2). destruct us' as [|u [|? ?]]; cbn [parts_read] in H2; [destruct H2| |destruct H2 as [_ []]]. destruct H2 as [H2 _].
    assert (E' := E). injection E' as E'. apply app_inj_tail in E' as [<- <-]. apply S in H1. apply S in H2.
    destruct (fields_of _ m own) as [a|]; [|discriminate H1]. destruct (fields_of _ m fs) as [b|]; [|discriminate H2]. cbn in H1, H2 |- *. congruence.
  - intros H. destruct (fields_of _ m own) as [a|] eqn:Ea; [|discriminate H]. destruct (fields_of _ m fs) as [b|] eqn:Eb; [|discriminate H].
    cbn [option_map] in H. injection H as H. apply app_inj_length in H as [-> ->]; [|rewrite (fields_of_length _ _ _ _ Ea); auto].
    exists vs, [XStruct us]. split; [reflexivity|]. split; [apply S; rewrite Ea; reflexivity|]. split; [apply S; rewrite Eb; reflexivity|exact I].
Qed.

(** Objects only; and every member that is not a field of the struct itself must be a value. *)
Theorem flat_only_objects own ps r text A x : jvalue r text -> arg_flat own ps (Arg text A) = Ok x ->
  exists l, r = RObj l /\ ~ attached (has_some A) r.
Proof.
  intros Hj H. apply (arg_flat_ok _ _ _ _ _ _ Hj) in H. unfold de_flat in H. destruct r as [| | | | |l]; try discriminate. cbn [enter] in H.
  exists l. split; [reflexivity|]. intros Ha. rewrite <- (bin_way text A) in Ha. apply attached_not_map in Ha.
  destruct (objects _ l); try discriminate. congruence.
Qed.
Theorem flat_needs_values own ps l text rest A x : jvalue (RObj l) text -> arg_flat own ps (Arg text A) = Ok x ->
  jvalue (RObj (without (map fst own) l)) rest -> (A <> [] -> ordinary_first (without (map fst own) l)) -> allP (fun '(_, y) => no_token y) l ->
  exists v, arg_deserialize (TyMap TyValue) (Arg rest A) = Ok v.
Proof.
  intros Hj H Hr Ho Ht. apply (arg_flat_ok _ _ _ _ _ _ Hj) in H. unfold de_flat in H. cbn [enter] in H.
  destruct (objects _ l) as [| |]; try discriminate. destruct (str_members l) as [m|] eqn:Hm; [|discriminate].
  destruct (own_fields _ _ 127 m own); [|discriminate]. destruct (collect _ (map fst own) 127 m) as [cs|] eqn:Hc; [|discriminate].
  apply collect_pairs in Hc. change (way_of (Arg text A)) with (way_of (Arg rest A)) in Hc.
  assert (E : exists v, de_direct (reparse_of rest) (way_of (Arg rest A)) (TyMap TyValue) 128 (RObj (without (map fst own) l)) = Some v).
  { rewrite direct_map. cbn [enter]. rewrite (objects_map A rest _ Ho), (members_without _ _ _ Hm).
    assert (X : forall k y, In (k, y) (filter (keep (map fst own)) m) -> no_token y).
    { intros k y Hy. apply filter_In in Hy as [Hy _]. apply (str_members_in l m k y Hm) in Hy as (k0 & _ & Hy). rewrite allP_In in Ht. exact (Ht _ Hy). }
    clear H. revert X. generalize (@nil (bytes * dval)). induction Hc as [|[k y] [k' c] ml cs' [_ H2] HF IH]; intros acc X; [eexists; reflexivity|].
    cbn [map_of]. fold (map_of (de_direct (reparse_of rest) (way_of (Arg rest A)) TyValue 127)).
    destruct (content_value_some (reparse_of rest) (way_of (Arg rest A)) y (X k y (or_introl eq_refl)) 127 c H2) as [v Hv].
    rewrite direct_value. unfold val_direct in Hv. rewrite Hv. cbn [option_map]. apply IH. intros k0 y0 Hy. apply (X k0). right. exact Hy. }
  destruct E as [v Hv]. exists v. apply (arg_direct_ok _ _ _ _ _ Hr). exact Hv.
Qed.
