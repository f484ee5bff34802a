(** Exactly what becomes of a received value that is sent on (C65). *)
From Verif Require Export RelayProofs.
From Coq Require Import Lia.

(** [reread n v w]: [v] is written, and what is written is read as [w].  An object whose least key is the
    private key is read as the JSON text it holds, if that key is its only one. *)
Inductive reread : nat -> value -> value -> Prop :=
| rr_null n : reread n VNull VNull
| rr_bool n b : reread n (VBool b) (VBool b)
| rr_num n x : reread n (VNum x) (VNum x)
| rr_str n s : reread n (VStr s) (VStr s)
| rr_arr n l l' : Forall2 (reread n) l l' -> reread (S n) (VArr l) (VArr l')
| rr_obj n m m' : (forall k x r, m = (k, x) :: r -> k <> raw_token) ->
    Forall2 (fun a b => fst a = fst b /\ reread n (snd a) (snd b)) m m' -> reread (S n) (VObj m) (VObj m')
| rr_private n t r w : jdoc r t -> means 127 r w -> reread (S n) (VObj [(raw_token, VStr t)]) w.

(** ** The text of a value *)
Fixpoint vtext (v : value) : bytes :=
  match v with
  | VNull => bs "null"
  | VBool b => if b then bs "true" else bs "false"
  | VNum (NPos n) => decZ (Z.of_N n)
  | VNum (NNeg z) => decZ z
  | VNum (NFloat x) => numlit_text x
  | VStr s => json_str s
  | VArr l => "["%byte :: seps true (map vtext l) ++ ["]"%byte]
  | VObj m => "{"%byte :: seps true (map (fun '(k, x) => json_str k ++ ":"%byte :: vtext x) m) ++ ["}"%byte]
  end.
Fixpoint vtree (v : value) : raw :=
  match v with
  | VNull => RNull
  | VBool b => RBool b
  | VNum (NPos n) => RNum (int_lit false n)
  | VNum (NNeg z) => RNum (int_lit (z <? 0)%Z (Z.to_N (Z.abs z)))
  | VNum (NFloat x) => RNum x
  | VStr s => RStr (escape s)
  | VArr l => RArr (map vtree l)
  | VObj m => RObj (map (fun '(k, x) => (escape k, vtree x)) m)
  end.
Fixpoint value_ind' (P : value -> Prop) (Hn : P VNull) (Hb : forall b, P (VBool b)) (Hx : forall x, P (VNum x)) (Hs : forall s, P (VStr s))
  (Ha : forall l, Forall P l -> P (VArr l)) (Ho : forall m, Forall (fun kx => P (snd kx)) m -> P (VObj m)) (v : value) : P v :=
  let IH := value_ind' P Hn Hb Hx Hs Ha Ho in
  match v with
  | VNull => Hn | VBool b => Hb b | VNum x => Hx x | VStr s => Hs s
  | VArr l => Ha l ((fix go l := match l return Forall P l with [] => Forall_nil _ | x :: l' => Forall_cons _ (IH x) (go l') end) l)
  | VObj m => Ho m ((fix go m := match m return Forall (fun kx => P (snd kx)) m with [] => Forall_nil _ | kx :: m' => Forall_cons _ (IH (snd kx)) (go m') end) m)
  end.

Lemma vtext_ser v : forall o, json_ser (value_writes v) o = (o ++ vtext v, OOk).
Proof.
  induction v as [|b|[n|z|x]|s|l IH|m IH] using value_ind'; intros o; try reflexivity; try (destruct b; reflexivity).
  - cbn [value_writes]. rewrite ser_seq. unfold ser_array.
    assert (E : forall first o, ser_elems first (map value_writes l) o = (o ++ seps first (map vtext l), OOk)).
    { clear o. induction IH as [|x l Hx H IHl]; intros first o; [cbn; rewrite app_nil_r; reflexivity|]. cbn [map seps ser_elems]. fold ser_elems. rewrite Hx. cbn [obind]. rewrite IHl, <- !app_assoc. reflexivity. }
    rewrite E. cbn [obind]. unfold close. cbn [vtext]. rewrite <- !app_assoc. reflexivity.
  - cbn [value_writes]. rewrite ser_map. unfold ser_object.
    assert (E : forall first o, ser_entries first (map (fun '(k, y) => (SStr k, value_writes y)) m) o = (o ++ seps first (map (fun '(k, x) => json_str k ++ ":"%byte :: vtext x) m), OOk)).
    { clear o. induction IH as [|[k x] m Hx H IHl]; intros first o; [cbn; rewrite app_nil_r; reflexivity|]. cbn [map seps ser_entries key_text]. fold ser_entries. cbn [snd] in Hx. rewrite Hx. cbn [obind]. rewrite IHl. f_equal. repeat (rewrite <- ?app_assoc; cbn [app]). reflexivity. }
    rewrite E. cbn [obind]. unfold close. cbn [vtext]. rewrite <- !app_assoc. reflexivity.
Qed.
Lemma wput_wput a b s : wput b (wput a s) = wput (a ++ b) s.
Proof. unfold wput. cbn. rewrite app_assoc. reflexivity. Qed.
Lemma wput_nil s : wput [] s = s.
Proof. destruct s. unfold wput. cbn [fst snd]. rewrite app_nil_r. reflexivity. Qed.
Lemma elem_u8_value v : elem_u8 (value_writes v) = None.
Proof. destruct v as [| |[]| | |]; reflexivity. Qed.
Lemma vtext_wrap v : forall s, wrap_ser (value_writes v) s = (wput (vtext v) s, OOk).
Proof.
  induction v as [|b|[n|z|x]|s|l IH|m IH] using value_ind'; intros st; try reflexivity; try (destruct b; reflexivity).
  - assert (E : forall first s, (fix elems (first : bool) (l : list sval) (s : wst) : wst * outcome :=
       match l with [] => (s, OOk) | x :: l' => obind (wrap_ser x (wput (comma_unless first) s)) (elems false l') end) first (map value_writes l) s = (wput (seps first (map vtext l)) s, OOk)).
    { clear st. induction IH as [|x l Hx H IHl]; intros first s; [cbn [map seps]; rewrite wput_nil; reflexivity|]. cbn [map seps]. rewrite Hx. cbn [obind]. rewrite IHl, !wput_wput, <- ?app_assoc. reflexivity. }
    destruct l as [|x l]; [reflexivity|]. cbn [value_writes map wrap_ser]. rewrite elem_u8_value. inversion IH; subst. rewrite H1. cbn [obind].
    assert (E' := E true). cbn [map] in E'. 
    specialize (E' (wput ["["%byte] st)). rewrite H1 in E'. cbn [obind] in E'. cbn [comma_unless u8_elems app]. rewrite !wput_wput in *. cbn [app comma_unless] in *. rewrite E'. cbn [obind vtext map]. rewrite !wput_wput. reflexivity.
  - cbn [value_writes wrap_ser].
    assert (E : forall first s, (fix entries (first : bool) (l : list (sval * sval)) (s : wst) : wst * outcome :=
         match l with
         | [] => (s, OOk)
         | (k, x) :: l' =>
             obind (wrap_key k (wput (comma_unless first) s)) (fun s =>
             obind (wrap_ser x (wput [":"%byte] s)) (entries false l'))
         end) first (map (fun '(k, y) => (SStr k, value_writes y)) m) s = (wput (seps first (map (fun '(k, x) => json_str k ++ ":"%byte :: vtext x) m)) s, OOk)).
    { clear st. induction IH as [|[k x] m Hx H IHl]; intros first s; [cbn [map seps]; rewrite wput_nil; reflexivity|]. cbn [map seps wrap_key key_text snd] in *. cbn [obind]. rewrite Hx. cbn [obind]. rewrite IHl, !wput_wput. f_equal. f_equal. repeat (rewrite <- ?app_assoc; cbn [app]). reflexivity. }
    rewrite E. cbn [obind vtext]. rewrite !wput_wput. reflexivity.
Qed.

(** What was read, reprinted. *)
Fixpoint printed (v : value) : Prop :=
  match v with
  | VNum (NPos n) => (n <= u64_max)%N
  | VNum (NNeg z) => (- 2 ^ 63 <= z < 0)%Z
  | VNum (NFloat x) => float_ok x
  | VArr l => allP printed l
  | VObj m => in_key_order m /\ allP (fun '(_, x) => printed x) m
  | _ => True
  end.
Lemma reprints_printed : forall v v', reprints v v' -> sound v -> printed v'.
Proof.
  fix IH 3. intros v v' H. destruct H as [|b|n|z|x y Hy|s|l l' Hl|m m' Hl]; cbn [sound printed]; auto.
  - induction Hl as [|x y l l' Hx Hl IHl]; cbn [allP]; [trivial|]. intros [B1 B2]. split; [exact (IH _ _ Hx B1)|exact (IHl B2)].
  - intros [Ho Hs]. split; [exact (same_keys_order _ _ _ Hl Ho)|]. clear Ho. induction Hl as [|[k x] [k' y] l l' Hx Hl IHl]; cbn [allP]; [trivial|].
    cbn [fst snd] in Hx. destruct Hx as [_ Hx]. destruct Hs as [B1 B2]. split; [exact (IH _ _ Hx B1)|exact (IHl B2)].
Qed.
Lemma reprints_relayable : forall v v', reprints v v' -> levels v' = levels v /\ (openly v' <-> openly v).
Proof.
  fix IH 3. intros v v' H. destruct H as [|b|n|z|x y Hy|s|l l' Hl|m m' Hl]; cbn [levels openly]; try tauto.
  - induction Hl as [|x y l l' Hx Hl IHl]; cbn [allP map]; [tauto|]. rewrite !max_cons. destruct (IH _ _ Hx) as [A B], IHl as [C D]. split; [lia|tauto].
  - assert (X : S (SpecSer.list_max (map (fun '(_, x) => levels x) m')) = S (SpecSer.list_max (map (fun '(_, x) => levels x) m)) /\ (allP (fun '(_, x) => openly x) m' <-> allP (fun '(_, x) => openly x) m)).
    { induction Hl as [|[k x] [k' y] l l' Hx Hl IHl]; cbn [allP map fst snd] in *; [tauto|]. destruct Hx as [_ Hx]. rewrite !max_cons. destruct (IH _ _ Hx) as [A B], IHl as [C D]. split; [lia|tauto]. }
    destruct X as [X1 X2]. split; [exact X1|]. rewrite X2. destruct Hl as [|[k x] [k' y] l l' [E _] Hl]; [tauto|]. cbn [fst] in E. subst. tauto.
Qed.
Lemma printed_ok : forall v, printed v -> value_ok v.
Proof.
  induction v as [|b|[n|z|x]|s|l IH|m IH] using value_ind'; cbn [printed value_ok]; auto.
  - lia.
  - rewrite !allP_Forall. intros H. rewrite Forall_forall in *. auto.
  - intros [Ho H]. split; [exact Ho|]. rewrite allP_Forall, Forall_forall in *. intros [k x] Hi. exact (IH (k, x) Hi (H (k, x) Hi)).
Qed.
Lemma vtext_tree : forall v, printed v -> jvalue (vtree v) (vtext v) /\ no_newline (vtext v).
Proof.
  induction v as [|b|[n|z|x]|s|l IH|m IH] using value_ind'; cbn [printed vtree vtext]; intros H.
  - split; [constructor|apply no_newline_forallb; reflexivity].
  - destruct b; (split; [constructor|apply no_newline_forallb; reflexivity]).
  - rewrite decZ_text. replace (Z.of_N n <? 0)%Z with false by (symmetry; apply Z.ltb_ge; lia). replace (Z.to_N (Z.abs (Z.of_N n))) with n by lia.
    split; [apply jv_num, int_lit_ok|apply num_no_newline, int_lit_ok].
  - rewrite decZ_text. split; [apply jv_num, int_lit_ok|apply num_no_newline, int_lit_ok].
  - destruct H as [H _]. split; [apply jv_num, H|apply num_no_newline, H].
  - split; [apply json_str_value|apply json_str_no_newline].
  - rewrite allP_Forall in H. split.
    + apply jarr_seps. induction IH as [|x l Hx IH IHl]; cbn [map]; inversion H; subst; constructor; [apply Hx; assumption|auto].
    + apply no_newline_cons; [reflexivity|]. apply no_newline_app; [|apply no_newline_forallb; reflexivity]. apply seps_no_newline.
      induction IH as [|x l Hx IH IHl]; cbn [map]; inversion H; subst; constructor; [apply Hx; assumption|auto].
  - destruct H as [_ H]. rewrite allP_Forall in H. split.
    + apply jobj_seps. induction IH as [|[k x] m Hx IH IHl]; cbn [map]; inversion H; subst; constructor; [|auto].
      exists (vtext x). cbn [fst snd] in *. split; [|split; [apply escape_body|apply Hx; assumption]]. unfold json_str. cbn [app]. rewrite <- app_assoc. reflexivity.
    + apply no_newline_cons; [reflexivity|]. apply no_newline_app; [|apply no_newline_forallb; reflexivity]. apply seps_no_newline.
      induction IH as [|[k x] m Hx IH IHl]; cbn [map]; inversion H; subst; constructor; [|auto].
      apply no_newline_app; [apply json_str_no_newline|]. apply no_newline_cons; [reflexivity|]. cbn [snd] in Hx. apply Hx. assumption.
Qed.

(** ** What that text is read as *)
Lemma escape_means s : string_means (escape s) s.
Proof. apply unescape_exact; [apply escape_body|apply unescape_escape]. Qed.
Lemma escape_means_is s t : string_means (escape s) t -> t = s.
Proof. intros H. apply means_unescape in H. rewrite unescape_escape in H. congruence. Qed.
Lemma ordered_members {T} (m : list (bytes * T)) : in_key_order m -> map_of_members m m.
Proof.
  intros Ho. split; [apply sorted_iff; exact Ho|]. pose proof (order_nodup _ Ho) as Hd. intros k v. split.
  - intros Hi. apply in_split in Hi as (pre & post & ->). exists pre, post. split; [reflexivity|].
    rewrite map_app in Hd. cbn [map fst] in Hd. apply NoDup_remove_2 in Hd. intros Hn. apply Hd. apply in_or_app. right. exact Hn.
  - intros (pre & post & -> & _). apply in_elt.
Qed.
Lemma num_tree x : printed (VNum x) -> forall n w, means n (vtree (VNum x)) w <-> w = VNum x.
Proof.
  assert (G : forall l y, numlit_ok l -> num_of l = Some y -> forall n w, means n (RNum l) w <-> w = VNum y).
  { intros l y Hl Hy n w. split; [intros M; inversion M; subst; f_equal; apply (num_exact _ _ Hl) in H1; congruence|intros ->; constructor; apply num_exact; assumption]. }
  destruct x as [k|z|l]; cbn [printed vtree]; intros H.
  - apply G; [apply int_lit_ok|]. apply num_of_nat. exact H.
  - apply G; [apply int_lit_ok|]. rewrite decZ_num by (unfold u64_max; lia). replace (z <? 0)%Z with true by (symmetry; apply Z.ltb_lt; lia). reflexivity.
  - destruct H as [H1 H2]. apply G; assumption.
Qed.
Lemma tree_means : forall v, printed v -> forall n w, means n (vtree v) w <-> reread n v w.
Proof.
  induction v as [|b|x|s|l IH|m IH] using value_ind'; intros P n w.
  - split; intros M; inversion M; subst; constructor.
  - split; intros M; inversion M; subst; constructor.
  - rewrite num_tree by exact P. split; [intros ->; constructor|intros M; inversion M; reflexivity].
  - cbn [vtree]. split; intros M; inversion M; subst; [apply escape_means_is in H1; subst; constructor|constructor; apply escape_means].
  - cbn [vtree printed] in *. rewrite allP_Forall in P.
    assert (E : forall n vs, Forall2 (means n) (map vtree l) vs <-> Forall2 (reread n) l vs).
    { clear n w. intros n. induction IH as [|x l Hx IH IHl]; intros vs; cbn [map]; [split; intros F; inversion F; constructor|]. inversion P; subst.
      split; intros F; inversion F; subst; constructor; try (apply Hx; assumption); apply IHl; assumption. }
    split; intros M; inversion M; subst; constructor; apply E; assumption.
  - cbn [vtree printed] in *. destruct P as [Ho P]. rewrite allP_Forall in P.
    assert (E : forall n ms, Forall2 (fun a b => string_means (fst a) (fst b) /\ means n (snd a) (snd b)) (map (fun '(k, x) => (escape k, vtree x)) m) ms <->
      Forall2 (fun a b => fst a = fst b /\ reread n (snd a) (snd b)) m ms).
    { clear n w Ho. intros n. induction IH as [|[k x] m Hx IH IHl]; intros ms; cbn [map]; [split; intros F; inversion F; constructor|]. inversion P; subst. cbn [snd] in Hx.
      split; intros F; inversion F as [|? [k' y] ? ? [F1 F2] F3]; subst; cbn [fst snd] in *; constructor; cbn [fst snd].
      - split; [symmetry; apply escape_means_is; exact F1|apply Hx; assumption].
      - apply IHl; assumption.
      - subst k'. split; [apply escape_means|apply Hx; assumption].
      - apply IHl; assumption. }
    split; intros M.
    + inversion M as [| | | | |n' l' ms m' Hf Hl Hm|n' k b t r w' Hk Hb Hd Hv]; subst.
      * apply E in Hl. assert (m' = ms) as ->.
        { eapply members_unique; [exact Hm|]. apply ordered_members. exact (same_keys_order _ _ _ Hl Ho). }
        constructor; [|exact Hl]. intros k x r ->. cbn [map] in Hf. intros ->. exact (Hf _ _ _ eq_refl (escape_means _)).
      * destruct m as [|[k0 x] [|]]; try discriminate. cbn [map] in *. match goal with H : [_] = [_] |- _ => injection H as Hk0 Hx end. subst k. apply escape_means_is in Hk. subst k0.
        destruct x as [| |[]|s| |]; try discriminate. cbn [vtree] in Hx. assert (b = escape s) as -> by congruence. apply escape_means_is in Hb. subst t. econstructor; eassumption.
    + inversion M as [| | | | |n' l' m' Hf Hl|n' t r w' Hd Hv]; subst.
      * apply E in Hl as F. econstructor; [|exact F|].
        -- intros k x l' El. destruct m as [|[k0 x0] m]; [discriminate|]. cbn [map] in El. injection El as <- _ _. intros Hk. apply escape_means_is in Hk. apply (Hf _ _ _ eq_refl). congruence.
        -- apply ordered_members. exact (same_keys_order _ _ _ Hl Ho).
      * cbn [map vtree]. econstructor; [apply escape_means|apply escape_means|eassumption|eassumption].
Qed.

(** ** Which values are read as themselves *)
Lemma last_binding {T} k (ms : list (bytes * T)) : In k (map fst ms) -> exists pre v post, ms = pre ++ (k, v) :: post /\ ~ In k (map fst post).
Proof.
  induction ms as [|[k1 v1] ms IH]; [intros []|]. cbn [map fst]. intros Hi.
  destruct (in_dec (list_eq_dec byte_eq_dec) k (map fst ms)) as [H|H].
  - destruct (IH H) as (pre & v & post & -> & Hp). exists ((k1, v1) :: pre), v, post. auto.
  - destruct Hi as [->|Hi]; [|contradiction]. exists [], v1, ms. auto.
Qed.
Lemma means_not_private : forall n r v, means n r v -> forall x, v <> VObj [(raw_token, x)].
Proof.
  fix IH 4. intros n r v H. destruct H as [n|n b|n x y Hy|n b s Hs|n l vs Hl|n l ms m Hf Hl Hm|n k b t r v Hk Hb Hd Hv]; intros x0 E; try discriminate.
  - injection E as ->. destruct Hl as [|[k x] [k' y] l ms [Hk _] Hl].
    + destruct Hm as [_ Hm]. destruct (proj1 (Hm raw_token x0) (or_introl eq_refl)) as (pre & post & E & _). destruct pre; discriminate.
    + cbn [fst snd] in Hk. destruct (last_binding k' ((k', y) :: ms) (or_introl eq_refl)) as (pre & v & post & E & Hp).
      destruct Hm as [_ Hm]. destruct (proj2 (Hm k' v) (ex_intro _ pre (ex_intro _ post (conj E Hp)))) as [E'|[]]. injection E' as <- _.
      exact (Hf _ _ _ eq_refl Hk).
  - exact (IH _ _ _ Hv x0 E).
Qed.
Lemma reread_same : forall v n, reread n v v <-> openly v /\ levels v <= n.
Proof.
  induction v as [|b|x|s|l IH|m IH] using value_ind'; intros n; cbn [openly levels]; try (split; [intros _; split; [exact I|lia]|intros _; constructor]).
  - assert (E : forall n, Forall2 (reread n) l l <-> allP openly l /\ SpecSer.list_max (map levels l) <= n).
    { clear n. intros n. induction IH as [|x l Hx IH IHl]; cbn [allP map]; [split; [intros _; split; [exact I|cbn; lia]|constructor]|]. rewrite max_cons. split.
      - intros F. inversion F; subst. apply Hx in H2. apply IHl in H4. split; [tauto|lia].
      - intros [[A1 A2] B]. constructor; [apply Hx|apply IHl]; split; (assumption || lia). }
    split.
    + intros R. inversion R as [| | | |n' l' l'' Hl| |]; subst. apply E in Hl. split; [tauto|lia].
    + intros [A B]. destruct n as [|n]; [lia|]. constructor. apply E. split; [exact A|lia].
  - assert (E : forall n, Forall2 (fun a b => fst a = fst b /\ reread n (snd a) (snd b)) m m <-> allP (fun '(_, x) => openly x) m /\ SpecSer.list_max (map (fun '(_, x) => levels x) m) <= n).
    { clear n. intros n. induction IH as [|[k x] m Hx IH IHl]; cbn [allP map snd] in *; [split; [intros _; split; [exact I|cbn; lia]|constructor]|]. rewrite max_cons. split.
      - intros F. inversion F as [|? ? ? ? [F1 F2] F3]; subst. cbn [fst snd] in *. apply Hx in F2. apply IHl in F3. split; [tauto|lia].
      - intros [[A1 A2] B]. constructor; [cbn [fst snd]; split; [reflexivity|apply Hx]|apply IHl]; split; (assumption || lia). }
    split.
    + intros R. inversion R as [| | | | |n' l' m' Hf Hl|n' t r w' Hd Hv]; subst.
      * apply E in Hl. split; [|lia]. split; [|tauto]. destruct m as [|[k x] m]; [exact I|]. exact (Hf _ _ _ eq_refl).
      * exfalso. exact (means_not_private _ _ _ Hv _ eq_refl).
    + intros [[A0 A] B]. destruct n as [|n]; [lia|]. constructor; [intros k x r ->; exact A0|]. apply E. split; [exact A|lia].
Qed.

(** ** Sending it on *)
Lemma all_args_values src vs : all_args src (map value_writes vs) = map value_writes (relayed src vs).
Proof. destruct src; reflexivity. Qed.
Lemma printed_kept l : Forall printed l -> kept (map value_writes l) = map value_writes l.
Proof.
  unfold kept, serialises. induction 1 as [|v l H _ IH]; [reflexivity|]. cbn [map filter]. rewrite (value_json v (printed_ok v H)), IH. reflexivity.
Qed.
Lemma values_no_blobs l : flat_map blobs (map value_writes l) = [].
Proof. induction l as [|v l IH]; [reflexivity|]. cbn [map flat_map]. rewrite value_no_blobs. exact IH. Qed.
Lemma values_written bin l ts : written bin (map value_writes l) ts -> ts = map vtext l.
Proof.
  destruct bin; cbn [written].
  - generalize 0. revert ts. induction l as [|v l IH]; intros ts n H; inversion H as [|? ? ? t ? Hv Hl]; subst; [reflexivity|]. cbn [map]. f_equal; [|exact (IH _ _ Hl)].
    destruct Hv as [Hv _]. specialize (Hv ([], repeat (WText []) n) (repeat_length _ _)). rewrite vtext_wrap in Hv. unfold wput in Hv. cbn [fst snd app] in Hv. congruence.
  - revert ts. induction l as [|v l IH]; intros ts H; inversion H as [|? t ? ? Hv Hl]; subst; [reflexivity|]. cbn [map]. f_equal; [|exact (IH _ Hl)].
    destruct Hv as [Hv _]. specialize (Hv []). rewrite vtext_ser in Hv. cbn [app] in Hv. congruence.
Qed.
Lemma value_text_reread v w A : printed v -> contents A = Some [] -> (to_json_value (Arg (vtext v) A) = Ok w <-> reread 127 v w).
Proof.
  intros P HA. destruct A as [|a A]; [|unfold contents in HA; cbn [map all_some] in HA; destruct (sub_deref_vec a); [|discriminate]; destruct (all_some (map sub_deref_vec A)); discriminate].
  destruct (vtext_tree v P) as [J _]. rewrite <- (tree_means v P), <- (from_str_value_means _ _ _ J).
  unfold to_json_value. cbn [g_text g_attachments]. destruct (from_str_value (vtext v)) as [y|]; split; congruence.
Qed.
(** In a received value no object has the private key as its only one, so nothing is read as another value. *)
Fixpoint never_alone (v : value) : Prop :=
  match v with
  | VArr l => allP never_alone l
  | VObj m => (forall x, m <> [(raw_token, x)]) /\ allP (fun '(_, x) => never_alone x) m
  | _ => True
  end.
Lemma means_never_alone : forall n r v, means n r v -> never_alone v.
Proof.
  fix IH 4. intros n r v H. pose proof (means_not_private n r v H) as N. destruct H as [n|n b|n x y Hy|n b s Hs|n l vs Hl|n l ms m Hf Hl Hm|n k b t r v Hk Hb Hd Hv]; cbn [never_alone]; try exact I.
  - induction Hl as [|x y l vs Hx Hl IHl]; cbn [allP]; [exact I|]. split; [exact (IH _ _ _ Hx)|apply IHl; discriminate].
  - split; [intros x ->; exact (N x eq_refl)|]. apply (members_all (fun _ x => never_alone x) ms m Hm).
    clear Hf Hm m N. induction Hl as [|[k x] [k' y] l ms Hx Hl IHl]; cbn [allP]; [exact I|]. cbn [fst snd] in Hx. destruct Hx as [_ Hx]. split; [exact (IH _ _ _ Hx)|exact IHl].
  - exact (IH _ _ _ Hv).
Qed.
Lemma filled_never_alone bl : forall v v', filled bl v v' -> never_alone v -> never_alone v'.
Proof.
  fix IH 3. intros v v' H. destruct H as [|b|n|s|l l' Hl|m m' Hn Hl|m k b Hk Hg Hb]; cbn [never_alone]; auto.
  - induction Hl as [|x y l l' Hx Hl IHl]; cbn [allP]; [trivial|]. intros [B1 B2]. split; [exact (IH _ _ Hx B1)|exact (IHl B2)].
  - intros [Ho Hs]. split.
    + intros x ->. inversion Hl as [|[k0 x0] ? l0 ? [E _] Hl']; subst. inversion Hl'; subst. cbn [fst] in E. subst. exact (Ho _ eq_refl).
    + clear Hn Ho. induction Hl as [|[k x] [k' y] l l' Hx Hl IHl]; cbn [allP]; [trivial|].
      cbn [fst snd] in Hx. destruct Hx as [_ Hx]. destruct Hs as [B1 B2]. split; [exact (IH _ _ Hx B1)|exact (IHl B2)].
  - intros _. unfold byte_array. cbn [never_alone]. rewrite allP_Forall. apply Forall_map. apply Forall_forall. intros c _. exact I.
Qed.
Lemma reprints_never_alone : forall v v', reprints v v' -> never_alone v -> never_alone v'.
Proof.
  fix IH 3. intros v v' H. destruct H as [|b|n|z|x y Hy|s|l l' Hl|m m' Hl]; cbn [never_alone]; auto.
  - induction Hl as [|x y l l' Hx Hl IHl]; cbn [allP]; [trivial|]. intros [B1 B2]. split; [exact (IH _ _ Hx B1)|exact (IHl B2)].
  - intros [Ho Hs]. split.
    + intros x ->. inversion Hl as [|[k0 x0] ? l0 ? [E _] Hl']; subst. inversion Hl'; subst. cbn [fst] in E. subst. exact (Ho _ eq_refl).
    + clear Ho. induction Hl as [|[k x] [k' y] l l' Hx Hl IHl]; cbn [allP]; [trivial|].
      cbn [fst snd] in Hx. destruct Hx as [_ Hx]. destruct Hs as [B1 B2]. split; [exact (IH _ _ Hx B1)|exact (IHl B2)].
Qed.
Lemma received_never_alone v : received_value v -> never_alone v.
Proof.
  intros (m & t & l & g & Hm & Hl & Hc & Hg & Hv). destruct (argument_value_exact m t l g Hm Hl Hg) as (r & bl & _ & _ & _ & E). destruct (proj1 (E v) Hv) as (v0 & M & D). apply means_never_alone in M.
  destruct D as [[_ ->]|[_ F]]; [exact M|exact (filled_never_alone _ _ _ F M)].
Qed.
Lemma reread_never_alone : forall v n w, never_alone v -> reread n v w -> w = v.
Proof.
  induction v as [|b|x|s|l IH|m IH] using value_ind'; intros n w A R; inversion R as [| | | |n' l' l'' Hl|n' l' m' Hf Hl|n' t r w' Hd Hv]; subst; try reflexivity.
  - f_equal. cbn [never_alone] in A. rewrite allP_Forall in A. clear R. induction Hl as [|x y l l' Hx Hl IHl]; [reflexivity|]. inversion IH; inversion A; subst. f_equal; eauto.
  - f_equal. cbn [never_alone] in A. destruct A as [_ A]. rewrite allP_Forall in A. clear R Hf. induction Hl as [|[k x] [k' y] l l' [E Hx] Hl IHl]; [reflexivity|]. cbn [fst snd] in *. inversion IH; inversion A; subst. cbn [snd] in *. f_equal; [f_equal; eauto|auto].
  - exfalso. destruct A as [A _]. exact (A _ eq_refl).
Qed.
Lemma reread_exact v w : never_alone v -> (reread 127 v w <-> w = v /\ relayable v).
Proof.
  intros A. split; [intros R; pose proof (reread_never_alone v 127 w A R); subst w; split; [reflexivity|apply reread_same; exact R]|intros [-> R]; apply reread_same; exact R].
Qed.

Lemma relay_exact h src ns bin vs vs' fs : opened h -> ~ closed h -> ns_ok ns ->
  Forall received_value vs -> Forall2 reprints vs vs' -> relays src vs ->
  build src ns bin (map value_writes vs') = Some fs ->
  (ns = bs "/" -> exists p, arrives h fs p) /\
  forall p, arrives h fs p -> packet_namespace p = Some ns /\ exists a gs, shows_args p (src_kind src) (src_id src) a /\ args_iter a = Ok gs /\
    Forall2 (fun v g => forall w, to_json_value g = Ok w <-> w = v /\ relayable v) (relayed src vs') gs.
Proof.
  intros Ho Hc Hns Hv Hp [Hid Hsrc] Hb.
  assert (P : Forall printed vs').
  { clear -Hv Hp. induction Hp as [|v v' vs vs' Hx Hp IH]; [constructor|]. inversion Hv; subst. constructor; [|auto]. apply (reprints_printed _ _ Hx), received_sound. assumption. }
  assert (P' : Forall printed (relayed src vs')) by (destruct src; cbn [relayed]; [constructor; [exact I|]|]; exact P).
  assert (A' : Forall never_alone (relayed src vs')).
  { assert (Forall never_alone vs') by (clear -Hv Hp; induction Hp as [|v v' vs vs' Hx Hp IH]; [constructor|]; inversion Hv; subst; constructor; [|auto]; apply (reprints_never_alone _ _ Hx), received_never_alone; assumption).
    destruct src; cbn [relayed]; [constructor; [exact I|]|]; assumption. }
  assert (Hst : starts src (map value_writes vs')).
  { destruct src as [e i|i]; [exact I|]. destruct Hp as [|v v' ? ? Hx Hp]; [contradiction (Hsrc eq_refl)|]. inversion P; subst. cbn [starts map]. unfold serialises. rewrite value_json; [reflexivity|apply printed_ok; assumption]. }
  destruct (build_shape src ns bin (map value_writes vs')) as (ts & E & W). rewrite E in Hb. injection Hb as <-.
  set (l := relayed src vs') in *. pose proof (printed_kept l P') as Kl. pose proof W as W0. rewrite all_args_values in W0. fold l in W0. rewrite Kl in W0. apply values_written in W0.
  assert (Bl : out_blobs bin (map value_writes l) = []) by (unfold out_blobs; rewrite Kl; destruct bin; [apply values_no_blobs|reflexivity]).
  assert (T : Forall no_newline ts /\ exists rs, Forall2 jvalue rs ts).
  { subst ts. clear -P'. split; [|exists (map vtree l)]; induction P' as [|v l H _ IH]; cbn [map]; constructor; try apply (vtext_tree v H); exact IH. }
  assert (Hcount : (N.of_nat (length (out_blobs bin (all_args src (map value_writes vs')))) <= u64_max)%N) by (rewrite all_args_values; fold l; rewrite Bl; cbn; unfold u64_max; lia).
  split.
  - intros ->. pose proof (packet_wire_ok src (bs "/") bin (map value_writes vs') ts Hns Hst T) as Hok.
    pose proof (ArriveProofs.packet_args src (bs "/") bin (map value_writes vs') ts Hst) as Ea.
    destruct (packet_arrives src (bs "/") bin (map value_writes vs') ts Hid Hst Hcount T W) as (p & Hr & _).
    + apply (reads_intended _ _ Hok Ea). left. reflexivity.
    + exists p. apply arrives_received; assumption.
  - intros p Hr. apply arrives_received in Hr; try assumption.
    destruct (packet_only src ns bin (map value_writes vs') ts Hns Hid Hst Hcount T W p Hr) as [_ V].
    destruct (view_data _ _ V) as (Hn & d & Hd & Hm). cbn [v_ns v_kind v_id v_args v_atts] in *. split; [exact Hn|].
    assert (X : exists a, shows_args p (src_kind src) (src_id src) a /\ args_view a = Some (ts, out_blobs bin (all_args src (map value_writes vs')))).
    { destruct src as [e i|i]; cbn [src_kind src_id] in *; destruct d as [| |i' a|i' a]; try discriminate; try (destruct Hm as [Hm0 _]; discriminate).
      - destruct Hm as (_ & <- & Ha). exists a. split; [exact Hd|exact Ha].
      - destruct Hm as (_ & E' & Ha). injection E' as <-. exists a. split; [exact Hd|exact Ha]. }
    destruct X as (a & Hs & Ha). destruct (args_view_accessors _ _ _ Ha) as (_ & _ & Hi & HA). exists a. eexists. split; [exact Hs|]. split; [exact Hi|].
    rewrite all_args_values in HA. fold l in HA. rewrite Bl in HA. subst ts. clear -P' A' HA. rewrite map_map.
    induction P' as [|v l H _ IH]; cbn [map]; inversion A'; subst; constructor; [|auto]. intros w. rewrite value_text_reread by assumption. apply reread_exact. assumption.
Qed.
Lemma relay_unchanged h src ns bin vs vs' fs p : opened h -> ~ closed h -> ns_ok ns ->
  Forall received_value vs -> Forall2 reprints vs vs' -> relays src vs ->
  build src ns bin (map value_writes vs') = Some fs -> arrives h fs p ->
  (carries p (src_kind src) ns (src_id src) (relayed src vs') <-> Forall relayable vs).
Proof.
  intros Ho Hc Hns Hv Hp Hs Hb Hr. destruct (relay_exact h src ns bin vs vs' fs Ho Hc Hns Hv Hp Hs Hb) as [_ H].
  destruct (H p Hr) as (Hn & a & gs & Ha & Hi & F).
  assert (R : Forall relayable vs <-> Forall relayable (relayed src vs')).
  { assert (G : Forall relayable vs <-> Forall relayable vs').
    { clear -Hp. induction Hp as [|v v' vs vs' Hx Hp IH]; [split; constructor|]. destruct (reprints_relayable _ _ Hx) as [E1 E2].
      split; intros F; inversion F; subst; constructor; try (apply IH; assumption); unfold relayable in *; rewrite ?E1 in *; tauto. }
    rewrite G. destruct src; cbn [relayed]; [|reflexivity]. split; [intros X; constructor; [split; [exact I|cbn; lia]|exact X]|intros X; inversion X; assumption]. }
  rewrite R. split.
  - intros (_ & a' & gs' & Ha' & Hi' & Hm). assert (a' = a) as -> by (clear -Ha Ha'; unfold shows_args in Ha; destruct src; cbn [src_kind src_id] in *; congruence).
    assert (gs' = gs) as -> by congruence. clear -F Hm. revert Hm. induction F as [|v g l gs Hg F IH]; intros Hm; [constructor|]. cbn [map] in Hm. injection Hm as E Hm. constructor; [apply (Hg v); exact E|auto].
  - intros X. split; [exact Hn|]. exists a, gs. split; [exact Ha|]. split; [exact Hi|]. clear -F X. induction F as [|v g l gs Hg F IH]; [reflexivity|]. inversion X; subst. cbn [map]. f_equal; [apply Hg; auto|auto].
Qed.
