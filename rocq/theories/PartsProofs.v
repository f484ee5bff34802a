(** Values with enums and flattened structs within them come back (C90). *)
From Verif Require Export SpecParts NestedProofs MergeProofs RereadProofs.
From Coq Require Import Lia.
Notation list_max := SpecSer.list_max.

(** ** How deep the text of a value is *)
Section Depth.
Variable bin : bool.
Definition shaped (v : sval) : Prop := forall n t, W bin n v t -> val_ok v ->
  exists r, jvalue r t /\ within (nesting v) r /\ (null_written v = false -> r <> RNull).
Lemma shaped_leaf v t0 r : (forall o, json_ser v o = (o ++ t0, OOk)) -> (forall s, wrap_ser v s = (wput t0 s, OOk)) -> (val_ok v -> jvalue r t0) ->
  within (nesting v) r -> (null_written v = false -> r <> RNull) -> shaped v.
Proof. intros H1 H2 H3 H4 H5 n t HW Hv. apply (W_leaf _ _ _ _ t0) in HW; [|assumption..]. subst t. exists r. auto. Qed.
Lemma shaped_list l : Forall shaped l -> forall n ts, Wlist bin n l ts -> allP val_ok l ->
  exists rs, Forall2 jvalue rs ts /\ allP (within (list_max (map nesting l))) rs.
Proof.
  induction 1 as [|v l Hs Hl IH]; intros n ts HW Hv; inversion HW as [|? ? ? t ts' H1 H2]; subst; [exists []; split; [constructor|exact I]|].
  destruct Hv as [Hv1 Hv2]. destruct (Hs _ _ H1 Hv1) as (r & J & D & _). destruct (IH _ _ H2 Hv2) as (rs & Js & Ds).
  exists (r :: rs). split; [constructor; assumption|]. change (list_max (map nesting (v :: l))) with (Nat.max (nesting v) (list_max (map nesting l))). cbn [allP]. split.
  - eapply within_more; [|exact D]. lia.
  - rewrite allP_In in *. intros x Hx. eapply within_more; [|exact (Ds x Hx)]. lia.
Qed.
Lemma shaped_ents l : Forall (fun kx => shaped (snd kx)) l -> forall n ts, Wents bin n l ts -> allP (fun '(k, x) => key_ok k /\ val_ok x) l ->
  exists rs, Forall2 jmember rs ts /\ allP (fun '(_, x) => within (list_max (map (fun '(_, x) => nesting x) l)) x) rs.
Proof.
  induction 1 as [|[k v] l Hs Hl IH]; intros n ts HW Hv; inversion HW as [|? ? ? ? kt t ts' Ek H1 H2]; subst; [exists []; split; [constructor|exact I]|].
  destruct Hv as [[Hk Hv1] Hv2]. destruct (Hs _ _ H1 Hv1) as (r & J & D & _). destruct (IH _ _ H2 Hv2) as (rs & Js & Ds). cbn [snd] in *.
  pose proof (key_spec k) as Ks. rewrite Ek in Ks. destruct (key_of k) as [s|] eqn:Es; [|contradiction]. destruct Ks as (b & -> & Kj & _). destruct (Kj Hk) as (Jb & _).
  exists ((b, r) :: rs). split; [constructor; [|exact Js]; exists t; cbn [fst snd app]; rewrite <- app_assoc; auto|].
  change (list_max (map (fun '(_, x) => nesting x) ((k, v) :: l))) with (Nat.max (nesting v) (list_max (map (fun '(_, x) => nesting x) l))). cbn [allP]. split.
  - eapply within_more; [|exact D]. lia.
  - rewrite allP_In in *. intros [k' x] Hx. eapply within_more; [|exact (Ds _ Hx)]. lia.
Qed.
Lemma shaped_array v l : (forall o, json_ser v o = ser_array l o) -> (bin = true -> forall s, wrap_ser v s = wser_array l s) ->
  (json_of v <> None -> all_some (map json_of l) <> None) -> (val_ok v -> allP val_ok l) -> nesting v = S (list_max (map nesting l)) ->
  Forall shaped l -> shaped v.
Proof.
  intros H1 H2 H3 H4 H5 HF n t HW Hv. apply (W_array _ _ _ l) in HW as (ts & -> & HW); [|assumption..].
  destruct (shaped_list l HF _ _ HW (H4 Hv)) as (rs & J & D). exists (RArr rs). split; [apply jarr_seps; exact J|]. rewrite H5. split; [exact D|discriminate].
Qed.
Lemma shaped_object v l : (forall o, json_ser v o = ser_object l o) -> (forall s, wrap_ser v s = wser_object l s) ->
  (json_of v <> None -> all_some (map entry_json l) <> None) -> (val_ok v -> allP (fun '(k, x) => key_ok k /\ val_ok x) l) ->
  nesting v = S (list_max (map (fun '(_, x) => nesting x) l)) -> Forall (fun kx => shaped (snd kx)) l -> shaped v.
Proof.
  intros H1 H2 H3 H4 H5 HF n t HW Hv. apply (W_object _ _ _ l) in HW as (ts & -> & HW); [|assumption..].
  destruct (shaped_ents l HF _ _ HW (H4 Hv)) as (rs & J & D). exists (RObj rs). split; [apply jobj_seps; exact J|]. rewrite H5. split; [exact D|discriminate].
Qed.
Lemma shaped_variant v m x : (forall o, json_ser v o = ser_variant m (json_ser x) o) -> (forall s, wrap_ser v s = wser_variant m (wrap_ser x) s) ->
  (json_of v <> None -> json_of x <> None) -> (val_ok v -> val_ok x) -> nesting v = S (nesting x) -> shaped x -> shaped v.
Proof.
  intros H1 H2 H3 H4 H5 HX n t HW Hv. apply (W_variant _ _ _ m x) in HW as (t' & -> & HW); [|assumption..].
  destruct (HX _ _ HW (H4 Hv)) as (r & J & D & _). exists (RObj [(escape m, r)]). split; [apply variant_text; exact J|]. rewrite H5. split; [cbn; auto|discriminate].
Qed.
Lemma shaped_struct l : Forall (fun kx => shaped (snd kx)) l -> shaped (SStruct l).
Proof.
  intros H. apply (shaped_object _ (as_entries l)).
  - apply ser_struct.
  - apply wser_struct.
  - cbn [json_of]. rewrite opt_map_none, entry_as. auto.
  - cbn [val_ok]. intros [_ X]. apply keys_as. exact X.
  - rewrite nesting_as. reflexivity.
  - clear -H. induction H as [|[k x] l H1 H2 IH]; constructor; assumption.
Qed.
Lemma shaped_blob v b : (forall s, wrap_ser v s = ((fst s ++ placeholder_text (length (snd s)), snd s ++ [frame b]), OOk)) ->
  1 <= nesting v -> bin = true -> shaped v.
Proof.
  intros H1 H2 eb n t HW Hv. rewrite eb in HW. apply (W_bytes _ _ b) in HW; [|exact H1]. subst t. exists (praw n). split; [apply placeholder_jvalue|]. split; [|discriminate].
  apply (within_more 1); [exact H2|]. cbn. auto.
Qed.
Lemma shaped_u8 c : shaped (SU8 c).
Proof. apply (shaped_leaf _ (dec (bN c)) (RNum (int_lit false (bN c)))); try reflexivity; try exact I; [|discriminate]. intros _. rewrite <- int_lit_text. apply jv_num, int_lit_ok. Qed.
Theorem shaped_all v : shaped v.
Proof.
  induction v using sval_ind'.
  - apply (shaped_leaf _ (if b then bs "true" else bs "false") (RBool b)); try reflexivity; try exact I; [|discriminate]. intros _. destruct b; constructor.
  - apply shaped_u8.
  - apply (shaped_leaf _ (decZ z) (RNum (int_lit (z <? 0)%Z (Z.to_N (Z.abs z))))); try reflexivity; try exact I; [|discriminate]. intros _. rewrite decZ_text. apply jv_num, int_lit_ok.
  - destruct t as [t|].
    + apply (shaped_leaf _ (numlit_text t) (RNum t)); try reflexivity; try exact I; [|discriminate]. intros [X _]. apply jv_num. exact X.
    + apply (shaped_leaf _ (bs "null") RNull); try reflexivity; try exact I; [constructor|discriminate].
  - apply (shaped_leaf _ (json_str c) (RStr (escape c))); try reflexivity; try exact I; [|discriminate]. intros _. apply json_str_value.
  - apply (shaped_leaf _ (json_str s) (RStr (escape s))); try reflexivity; try exact I; [|discriminate]. intros _. apply json_str_value.
  - destruct bin eqn:eb.
    + apply (shaped_blob _ b); [reflexivity|cbn; lia|exact eb].
    + intros n t X _. rewrite eb in X. apply (W_text false) in X. cbn [json_ser app fst] in X. subst t. eexists. split; [apply u8_list_value|]. split; [|discriminate].
      cbn [nesting within]. rewrite allP_In. intros x Hx. apply in_map_iff in Hx as (c & <- & _). exact I.
  - apply (shaped_leaf _ (bs "null") RNull); try reflexivity; try exact I; [constructor|discriminate].
  - exact IHv.
  - apply (shaped_leaf _ (bs "null") RNull); try reflexivity; try exact I; [constructor|discriminate].
  - apply (shaped_leaf _ (bs "null") RNull); try reflexivity; try exact I; [constructor|discriminate].
  - apply (shaped_leaf _ (json_str n) (RStr (escape n))); try reflexivity; try exact I; [|discriminate]. intros _. apply json_str_value.
  - exact IHv.
  - apply (shaped_variant _ n v); try reflexivity; [cbn [json_of]; apply opt_map_none|intros [_ X]; exact X|exact IHv].
  - destruct bin eqn:eb.
    + destruct (blob_seq l) eqn:Eb.
      * destruct (u8s_only l Eb) as [E Hne]. apply (shaped_blob _ (u8s l)); [|cbn; lia|exact eb]. intros s. rewrite E at 1. apply wrap_u8s. exact Hne.
      * destruct (mixed_seq l) eqn:Em.
        -- intros n t HW Hv. assert (J : json_of (STuple (SU8 x04 :: l)) <> None).
           { pose proof (W_json _ _ _ _ HW) as J. cbn [json_of] in *. apply opt_map_none. apply opt_map_none in J. cbn [map all_some json_of]. destruct (all_some (map json_of l)); [discriminate|congruence]. }
           destruct (W_exists bin n _ J) as (t' & HW'). assert (t' = t) as ->.
           { apply W_text in HW, HW'. rewrite eb in HW, HW'. rewrite wser_SSeq, wser_seq_cases, Eb, Em in HW. rewrite <- HW, <- HW'. reflexivity. }
           assert (S : shaped (STuple (SU8 x04 :: l))).
           { apply (shaped_array _ (SU8 x04 :: l)); try reflexivity; auto; [cbn [json_of]; apply opt_map_none|]. constructor; [apply shaped_u8|assumption]. }
           destruct (S _ _ HW' ltac:(split; [exact I|exact Hv])) as (r & Jr & D & N). exists r. split; [exact Jr|]. split; [|intros _; apply N; reflexivity].
           cbn [nesting map] in *. change (list_max (0 :: map nesting l)) with (list_max (map nesting l)) in D. exact D.
        -- apply (shaped_array _ l); try reflexivity; auto; [|cbn [json_of]; apply opt_map_none]. intros _ s. rewrite wser_SSeq, wser_seq_cases, Eb, Em. reflexivity.
    + apply (shaped_array _ l); try reflexivity; auto; [rewrite eb; discriminate|cbn [json_of]; apply opt_map_none].
  - apply (shaped_array _ l); try reflexivity; auto. cbn [json_of]. apply opt_map_none.
  - apply (shaped_array _ l); try reflexivity; auto. cbn [json_of]. apply opt_map_none.
  - apply (shaped_variant _ n (STuple l)); try reflexivity.
    + cbn [json_of]. rewrite !opt_map_none. auto.
    + intros [_ X]. exact X.
    + apply (shaped_array _ l); try reflexivity; auto. cbn [json_of]. apply opt_map_none.
  - apply (shaped_object _ l); try reflexivity; auto.
    + cbn [json_of]. rewrite opt_map_none, entry_map. auto.
    + intros [_ X]. exact X.
  - apply shaped_struct. assumption.
  - apply (shaped_variant _ n (SStruct l)).
    + intros o. rewrite ser_structv. unfold ser_variant. rewrite ser_struct. reflexivity.
    + intros s. rewrite wser_structv. unfold wser_variant. rewrite wser_struct. reflexivity.
    + cbn [json_of]. rewrite !opt_map_none. auto.
    + intros [_ X]. exact X.
    + reflexivity.
    + apply shaped_struct. assumption.
  - intros n t HB. apply W_json in HB. destruct HB. reflexivity.
Qed.
End Depth.

(** ** Loops *)
Lemma F3_pair {A B C} (R : A -> B -> C -> Prop) la lb lc : Forall3 R la lb lc -> Forall2 (fun ab c => R (fst ab) (snd ab) c) (combine la lb) lc.
Proof. induction 1; cbn [combine]; constructor; assumption. Qed.
Lemma pair_F3 {A B C} (R : A -> B -> C -> Prop) la : forall lb lc, length la = length lb -> Forall2 (fun ab c => R (fst ab) (snd ab) c) (combine la lb) lc -> Forall3 R la lb lc.
Proof.
  induction la as [|a la IH]; intros [|b lb] lc Hl H; try discriminate; cbn [combine] in H; inversion H; subst; constructor; auto.
Qed.
Lemma F3_length {A B C} (R : A -> B -> C -> Prop) la lb lc : Forall3 R la lb lc -> length la = length lb /\ length lb = length lc.
Proof. induction 1 as [|a b c la lb lc H1 H2 [IH1 IH2]]; cbn; [auto|]. split; congruence. Qed.
Lemma F3_swap {A B C} (R : A -> B -> C -> Prop) la lb lc : Forall3 R la lb lc -> Forall3 (fun a c b => R a b c) la lc lb.
Proof. induction 1; constructor; assumption. Qed.
Lemma F3_under {A B C} (R Q : A -> B -> C -> Prop) la lb lc : Forall (fun a => forall b c, R a b c -> Q a b c) la -> Forall3 R la lb lc -> Forall3 Q la lb lc.
Proof. intros H H3. induction H3; constructor; inversion H; subst; auto. Qed.

Section Pieces.
Variables (bin : bool) (A : list subslice_t).
(** Room for the attachments [l] from the place [n] on. *)
Definition room (n : nat) (l : list bytes) : Prop :=
  exists bl, contents A = Some bl /\ (bin = false -> A = []) /\ (bin = true -> covers bl n l /\ N.of_nat (n + length l) <= u64_max)%N.
Lemma room_app n a b : room n (a ++ b) -> room n a /\ room (n + length a) b.
Proof.
  intros (bl & H1 & H2 & H3). split; exists bl; (split; [exact H1|]); (split; [exact H2|]); intros eb; destruct (H3 eb) as [C N]; apply covers_app in C as [C1 C2];
    rewrite app_length in N; (split; [assumption|lia]).
Qed.
Definition gets (v : sval) (S : raw -> Prop) : Prop := forall n text, arrived bin n v (Arg text A) -> exists r, jvalue r text /\ S r.
Lemma list_gets {T} (S : T -> raw -> Prop) l vs : Forall2 (fun a v => gets v (S a)) l vs -> allP val_ok vs -> list_max (map nesting vs) < 128 ->
  forall n ts, Wlist bin n vs ts -> room n (flat_map blobs vs) -> exists rs, Forall2 jvalue rs ts /\ Forall2 S l rs.
Proof.
  induction 1 as [|a v l vs H1 H2 IH]; intros Hv Hd n ts HW Hr; inversion HW as [|? ? ? t ts' W1 W2]; subst; [exists []; split; constructor|].
  destruct Hv as [Hv1 Hv2]. change (list_max (map nesting (v :: vs))) with (Nat.max (nesting v) (list_max (map nesting vs))) in Hd.
  cbn [flat_map] in Hr. apply room_app in Hr as [R1 R2].
  destruct (H1 n t) as (r & J & Sr). { split; [exact W1|]. split; [exact Hv1|]. split; [lia|exact R1]. }
  destruct (IH Hv2 ltac:(lia) _ _ W2 R2) as (rs & Js & Ss). exists (r :: rs). split; constructor; assumption.
Qed.
Lemma ents_gets {T} (S : T -> raw -> Prop) l vs : Forall2 (fun a (kv : bytes * sval) => gets (snd kv) (S a)) l vs -> allP (fun '(_, x) => val_ok x) vs ->
  list_max (map (fun '(_, x) => nesting x) vs) < 128 -> forall n ts, Wents bin n (as_entries vs) ts -> room n (flat_map (fun '(_, x) => blobs x) vs) ->
  exists rs ms, Forall2 jmember rs ts /\ map fst rs = map escape (map fst vs) /\ map fst ms = map fst vs /\
    Forall2 (fun a b => string_means (fst a) (fst b) /\ snd a = snd b) rs ms /\ Forall2 (fun a m => S a (snd m)) l ms.
Proof.
  induction 1 as [|a [k v] l vs H1 H2 IH]; intros Hv Hd n ts HW Hr; inversion HW as [|? ? ? ? kt t ts' Ek W1 W2]; subst; [exists [], []; repeat split; constructor|].
  destruct Hv as [Hv1 Hv2]. change (list_max (map (fun '(_, x) => nesting x) ((k, v) :: vs))) with (Nat.max (nesting v) (list_max (map (fun '(_, x) => nesting x) vs))) in Hd.
  cbn [flat_map] in Hr. apply room_app in Hr as [R1 R2]. cbn [snd] in H1.
  destruct (H1 n t) as (r & J & Sr). { split; [exact W1|]. split; [exact Hv1|]. split; [lia|exact R1]. }
  destruct (IH Hv2 ltac:(lia) _ _ W2 R2) as (rs & ms & Js & E1 & E2 & M & Ss).
  exists ((escape k, r) :: rs), ((k, r) :: ms). split.
  { constructor; [|exact Js]. injection Ek as <-. exists t. cbn [fst snd]. split; [apply entry_text|]. auto using escape_body. }
  cbn [map fst]. rewrite E1, E2. repeat split; auto. constructor; [|exact M]. split; [apply escape_means|reflexivity].
Qed.
Lemma member_once (ms : list (bytes * raw)) m : NoDup (map fst ms) -> In m ms -> only_member ms (fst m) (snd m).
Proof.
  intros Hn Hi. apply in_split in Hi as (pre & post & ->). exists pre, post. destruct m as [k x]. split; [reflexivity|].
  rewrite map_app in Hn. cbn [map fst] in *. apply NoDup_remove_2 in Hn. rewrite in_app_iff in Hn. tauto.
Qed.
Lemma perm_members {T} (m m' : list (bytes * T)) : in_key_order m -> Permutation m m' -> map_of_members m' m.
Proof.
  intros Ho Hp. pose proof (ordered_members m Ho) as [H1 _]. split; [exact H1|]. assert (Hn : NoDup (map fst m')).
  { eapply Permutation_NoDup; [apply Permutation_map; exact Hp|]. apply order_nodup. exact Ho. }
  intros k v. split.
  - intros Hi. apply (Permutation_in _ Hp) in Hi. apply in_split in Hi as (pre & post & ->). exists pre, post. split; [reflexivity|].
    rewrite map_app in Hn. cbn [map fst] in Hn. apply NoDup_remove_2 in Hn. rewrite in_app_iff in Hn. tauto.
  - intros (pre & post & -> & _). apply (Permutation_in _ (Permutation_sym Hp)). apply in_elt.
Qed.
Lemma members_plain n (l : list bytes) (rs : list (bytes * raw)) ks : room n l -> map fst rs = map escape ks ->
  (bin = true -> match ks with [] => True | k :: _ => plain_key k end) -> by_members (seen_with A) rs.
Proof.
  intros (bl & _ & Hf & _) E H. destruct bin.
  - right. intros k x l' ->. destruct ks as [|k' ks]; [discriminate|]. cbn [map fst] in E. injection E as -> _. destruct (H eq_refl) as [P1 P2].
    destruct (escape_plain _ P1) as [E1 E2]. rewrite E1. split; [|exact P2]. intros Hi. unfold unescaped in P1. rewrite Forall_forall in P1. apply (P1 _ Hi). reflexivity.
  - left. rewrite (Hf eq_refl). reflexivity.
Qed.
End Pieces.

(** ** Every part comes back *)
Lemma variant_split {T} (es : list (bytes * T)) n x : NoDup (map fst es) -> In (n, x) es -> exists pre post, es = pre ++ (n, x) :: post /\ ~ In n (map fst pre).
Proof.
  intros Hn Hi. apply in_split in Hi as (pre & post & ->). exists pre, post. split; [reflexivity|]. rewrite map_app in Hn. cbn [map fst] in Hn. apply NoDup_remove_2 in Hn. rewrite in_app_iff in Hn. tauto.
Qed.
Lemma u8_arrives bin c : exists x text, number_means x (NPos (bN c)) /\ jvalue (RNum x) text /\ arrived bin 0 (SU8 c) (Arg text []).
Proof.
  exists (int_lit false (bN c)), (dec (bN c)). split; [apply num_exact; [apply int_lit_ok|apply u8_num]|]. split; [rewrite <- int_lit_text; apply jv_num, int_lit_ok|].
  destruct (W_exists bin 0 (SU8 c) ltac:(discriminate)) as (t & HW). assert (t = dec (bN c)) as -> by (eapply (W_leaf bin 0 (SU8 c)); [reflexivity|reflexivity|exact HW]).
  split; [exact HW|]. split; [exact I|]. split; [cbn; lia|]. exists []. split; [reflexivity|]. split; [reflexivity|]. intros _. split; [|cbn; unfold u64_max; lia].
  intros i b H. destruct i; discriminate.
Qed.
Lemma octet_piece bin u d c : nests bin true u d (SU8 c) -> piece_octet u c d.
Proof.
  intros H. inversion H as [t ? ? Ht He Hr|alts n ? ? H1 H2 H3 H4 H5 H6|tag alts ? ? H1 H2|tag cont alts ? ? H1 H2| | | | | | | | | | | | | ]; subst.
  - destruct (encodes_u8 _ _ _ He) as [-> ->]. apply po_ty, bw_int. pose proof (Byte.to_N_bounded c). fold (bN c) in *. lia.
  - destruct (u8_arrives bin c) as (x & text & N & J & Ha). eapply po_untagged; [exact N|exact J|]. eapply untagged_arrived; eassumption.
  - exfalso. inversion H2 as [| | |? ? ? a t ? w ? Hi Ht En Hw Htw| |]; subst. clear -Htw. remember (SU8 c) as y eqn:E. induction Htw; try discriminate E. auto.
  - exfalso. inversion H2.
Qed.
Lemma octets_piece bin u b : forall ds, Forall2 (nests bin true u) ds (map SU8 b) -> Forall2 (piece_octet u) b ds.
Proof.
  induction b as [|c b IH]; intros ds H; cbn [map] in H; inversion H; subst; constructor; [eapply octet_piece; eassumption|auto].
Qed.
Lemma dict_members A u (m' : list (bytes * dval)) : forall (rs ms : list (bytes * raw)), map fst ms = map fst m' ->
  Forall2 (fun a b => string_means (fst a) (fst b) /\ snd a = snd b) rs ms -> Forall2 (fun kx m => piece A u (snd m) (snd kx)) m' ms ->
  Forall2 (fun a b => string_means (fst a) (fst b) /\ piece A u (snd a) (snd b)) rs m'.
Proof.
  induction m' as [|kx m' IH]; intros rs ms E M S; inversion S as [|? m ? ms' S1 S2]; subst; inversion M as [|a ? rs' ? [M1 M2] M3]; subst; constructor.
  - cbn [map fst] in E. injection E as E _. rewrite <- E, M2. auto.
  - eapply IH; [|exact M3|exact S2]. cbn [map] in E. injection E as _ E. exact E.
Qed.
Lemma entries_from {T} (R : T -> sval -> Prop) (m' : list (bytes * T)) vs : Forall2 (fun kx kv => fst kv = SStr (fst kx) /\ R (snd kx) (snd kv)) m' vs ->
  exists l, vs = as_entries l /\ map fst l = map fst m' /\ Forall2 (fun kx kv => R (snd kx) (snd kv)) m' l.
Proof.
  induction 1 as [|[k x] [k' v] m' vs [E H] HF (l & -> & E1 & E2)]; [exists []; repeat split; constructor|]. cbn [fst snd] in *. subst k'. exists ((k, v) :: l).
  cbn [as_entries map fst]. rewrite E1. split; [reflexivity|]. split; [reflexivity|]. constructor; assumption.
Qed.
Lemma vals_entries l : allP (fun '(k, x) => key_ok k /\ val_ok x) (as_entries l) -> allP (fun '(_, x) => val_ok x) l.
Proof. induction l as [|[k x] l IH]; cbn; [auto|]. intros [[_ H1] H2]. split; [exact H1|apply IH; exact H2]. Qed.
Lemma rec_members A (fs : list (bytes * xty)) : forall ds (ms tot : list (bytes * raw)), (forall m, In m ms -> only_member tot (fst m) (snd m)) -> map fst ms = map fst fs ->
  Forall3 (fun f d m => piece A (snd f) (snd m) d) fs ds ms ->
  Forall2 (fun f v => (exists x, only_member tot (fst f) x /\ piece A (snd f) x v) \/
                      ~ In (fst f) (map fst tot) /\ ((exists u, snd f = Nested.XOpt u) \/ (exists t, snd f = XTy (TyOption t))) /\ v = XNone) fs ds.
Proof.
  induction fs as [|f fs IH]; intros ds ms tot Ho E H; inversion H as [|? d m ? ds' ms' H1 H2]; subst; constructor.
  - left. exists (snd m). cbn [map fst] in E. injection E as E _. rewrite <- E. split; [apply Ho; left; reflexivity|exact H1].
  - eapply IH; [|cbn [map] in E; injection E as _ E; exact E|exact H2]. intros y Hy. apply Ho. right. exact Hy.
Qed.
Theorem nests_piece bin A x : forall d v, nests bin true x d v -> gets bin A v (fun r => piece A x r d).
Proof.
  induction x as [t|e|own ps|u IH|u IH|u IH|us IH|u IH|fs IH|es IH] using xty_ind'; intros d v Hn n text Ha.
  - inversion Hn as [? ? ? Ht He Hr| | | | | | | | | | | | | | | |]; subst. destruct Ha as (HW & Hv & Hd & bl & HA & Hf & Hc). destruct (shaped_all bin v _ _ HW Hv) as (r & J & _).
    exists r. split; [exact J|]. eapply pi_ty; [exact J|]. cbn [g_text g_attachments] in *. eapply typed_text; eauto; [|intros eb; apply Hc; exact eb].
    eapply fit_of; [exact HA|intros eb; apply Hc; exact eb|exact Hf].
  - pose proof Ha as (HW & Hv & _). destruct (shaped_all bin v _ _ HW Hv) as (r & J & _). exists r. split; [exact J|]. eapply pi_enum; [exact J|]. cbn [g_text g_attachments] in *.
    inversion Hn as [|alts m ? ? H1 H2 H3 H4 H5 H6|tag alts ? ? H1 H2|tag cont alts ? ? H1 H2| | | | | | | | | | | | | ]; subst.
    + eapply untagged_arrived; eassumption.
    + eapply tagged_arrived; eassumption.
    + eapply adjacent_arrived; eassumption.
  - pose proof Ha as (HW & Hv & _). destruct (shaped_all bin v _ _ HW Hv) as (r & J & _). exists r. split; [exact J|]. eapply pi_flatten; [exact J|]. cbn [g_text g_attachments] in *.
    inversion Hn; subst. eapply flat_arrived; eassumption.
  - inversion Hn as [| | | | |u'|u' d' v' Hz Hn'| | | | | | | | | |]; subst.
    + destruct Ha as (HW & _). apply (W_leaf _ _ _ _ (bs "null")) in HW; try reflexivity. cbn [g_text] in HW. subst text. exists RNull. split; [apply jv_null|apply pi_none].
    + destruct (IH _ _ Hn' n text Ha) as (r & J & P). exists r. split; [exact J|]. apply pi_some; [|exact P]. destruct Ha as (HW & Hv & _).
      destruct (shaped_all bin v' n _ HW Hv) as (r' & J' & _ & N). rewrite (jvalue_unique _ _ _ J J'). apply N. apply Hz. reflexivity.
  - inversion Hn as [| | | | | | |u' d' v' Hn'| | | | | | | | |]; subst. destruct (IH _ _ Hn' n text Ha) as (r & J & P). exists r. split; [exact J|]. apply pi_new. exact P.
  - inversion Hn as [| | | | | | | |u' ds vs Hm HF| | | | | | | |]; subst. destruct Ha as (HW & Hv & Hd & Hr). cbn [g_text g_attachments] in *.
    destruct (bin && blob_seq vs)%bool eqn:Eb.
    + apply andb_prop in Eb as [-> Eb]. destruct (u8s_only vs Eb) as [E Hne]. set (b := u8s vs) in *. rewrite E in *. clear E. apply (W_bytes _ _ b) in HW; [|intros s; apply wrap_u8s; exact Hne].
      subst text. exists (praw n). split; [apply placeholder_jvalue|]. unfold praw. apply pi_vec_octets with (b := b); [|apply octets_piece in HF; exact HF].
      destruct Hr as (bl & HA & _ & Hc). destruct (Hc eq_refl) as [C N]. clear Hc. cbn [blobs] in C, N. rewrite u8_blob in C, N by exact Hne. cbn [length] in N.
      unfold attachment, seen_with. specialize (C 0 _ eq_refl). rewrite u8s_map, Nat.add_0_r in C. destruct A as [|s A'].
      { unfold contents in HA. cbn in HA. injection HA as <-. destruct n; discriminate. }
      rewrite HA. exists true, (int_lit false (N.of_nat n)), (N.of_nat n). split; [reflexivity|]. split; [apply num_exact; [apply int_lit_ok|apply num_of_nat; lia]|].
      rewrite Nnat.Nat2N.id. exact C.
    + assert (Ew : bin = true -> forall s, wrap_ser (SSeq vs) s = wser_array vs s).
      { intros eb s. rewrite wser_SSeq, wser_seq_cases. rewrite eb in Eb. cbn in Eb. rewrite Eb, (Hm eq_refl eb). reflexivity. }
      apply (W_array _ _ _ vs) in HW as (ts & -> & HW); [|reflexivity|exact Ew|cbn [json_of]; apply opt_map_none].
      assert (Hr' : room bin A n (flat_map blobs vs)).
      { destruct Hr as (bl & H1 & H2 & H3). exists bl. split; [exact H1|]. split; [exact H2|]. intros eb. rewrite eb in Eb. cbn in Eb. specialize (H3 eb). cbn [blobs] in H3. rewrite Eb in H3. exact H3. }
      destruct (list_gets bin A (fun d r => piece A u r d) ds vs) with (n := n) (ts := ts) as (rs & J & P); try assumption.
      { eapply F2_impl; [|exact HF]. intros a b Hab. apply IH. exact Hab. }
      { cbn [nesting] in Hd. lia. }
      exists (RArr rs). split; [apply jarr_seps; exact J|]. apply pi_vec. clear -P. induction P; constructor; assumption.
  - assert (G : forall ds vs, Forall3 (nests bin true) us ds vs -> (v = STuple vs \/ v = STupleStruct vs) -> exists r, jvalue r text /\ piece A (XTup us) r (XTuple ds)).
    { intros ds vs HF Ev. destruct Ha as (HW & Hv & Hd & Hr). cbn [g_text g_attachments] in *. destruct (F3_length _ _ _ _ HF) as [L _].
      apply (W_array _ _ _ vs) in HW as (ts & -> & HW); [|destruct Ev as [-> | ->]; reflexivity|destruct Ev as [-> | ->]; reflexivity|destruct Ev as [-> | ->]; cbn [json_of]; apply opt_map_none].
      destruct (list_gets bin A (fun ud r => piece A (fst ud) r (snd ud)) (combine us ds) vs) with (n := n) (ts := ts) as (rs & J & P); try assumption.
      { apply (F3_pair (fun u d v => gets bin A v (fun r => piece A u r d))). eapply F3_under; [exact IH|exact HF]. }
      { destruct Ev as [-> | ->]; exact Hv. }
      { destruct Ev as [-> | ->]; cbn [nesting] in Hd; lia. }
      { destruct Ev as [-> | ->]; exact Hr. }
      exists (RArr rs). split; [apply jarr_seps; exact J|]. apply pi_tup. apply F3_swap. apply (pair_F3 (fun u d r => piece A u r d)); assumption. }
    inversion Hn; subst; eapply G; eauto.
  - inversion Hn as [| | | | | | | | | | |u' m m' vs Ho Hp Hk HF| | | | |]; subst. apply entries_from in HF as (l & -> & El & HF). destruct Ha as (HW & Hv & Hd & Hr). cbn [g_text g_attachments] in *.
    cbn [val_ok blobs nesting] in *. rewrite nesting_as in Hd. rewrite blobs_as in Hr. destruct Hv as [_ Hv]. apply vals_entries in Hv.
    apply (W_object _ _ _ (as_entries l)) in HW as (ts & -> & HW); [|reflexivity|reflexivity|cbn [json_of]; rewrite opt_map_none, entry_map; auto].
    destruct (ents_gets bin A (fun (kx : bytes * dval) r => piece A u r (snd kx)) m' l) with (n := n) (ts := ts) as (rs & ms & J & E1 & E2 & M & P); try assumption.
    { eapply F2_impl; [|exact HF]. intros a b Hab. apply IH. exact Hab. }
    { lia. }
    exists (RObj rs). split; [apply jobj_seps; exact J|]. apply pi_dict with (ms := m').
    + eapply members_plain; [exact Hr|exact E1|]. intros eb. specialize (Hk eq_refl eb). rewrite El. destruct m' as [|[k y] m']; [exact I|exact Hk].
    + eapply dict_members; [rewrite E2; exact El|exact M|exact P].
    + apply perm_members; assumption.
  - inversion Hn as [| | | | | | | | | | | |fs' ds vs Hnd Hk HF| | | |]; subst. destruct Ha as (HW & Hv & Hd & Hr). cbn [g_text g_attachments] in *. cbn [val_ok blobs nesting] in *. destruct Hv as [_ Hv].
    destruct (F3_length _ _ _ _ HF) as [L _].
    assert (El : map fst vs = map fst fs) by (clear -HF; induction HF as [|f d kv fs ds vs [H1 H2] H3 IH]; [reflexivity|]; cbn [map]; rewrite H1, IH; reflexivity).
    apply (W_object _ _ _ (as_entries vs)) in HW as (ts & -> & HW); [|apply ser_struct|apply wser_struct|cbn [json_of]; rewrite opt_map_none, entry_as; auto].
    destruct (ents_gets bin A (fun (fd : (bytes * xty) * dval) r => piece A (snd (fst fd)) r (snd fd)) (combine fs ds) vs) with (n := n) (ts := ts) as (rs & ms & J & E1 & E2 & M & P); try assumption.
    { apply (F3_pair (fun (f : bytes * xty) d (kv : bytes * sval) => gets bin A (snd kv) (fun r => piece A (snd f) r d))). eapply F3_under; [|exact HF].
      eapply Forall_impl; [|exact IH]. intros f Hf d kv [_ Hx]. apply Hf. exact Hx. }
    { lia. }
    exists (RObj rs). split; [apply jobj_seps; exact J|]. apply pi_rec with (ms := ms); [|exact M|].
    + eapply members_plain; [exact Hr|exact E1|]. intros eb. specialize (Hk eq_refl eb). rewrite El. destruct fs as [|[k y] fs']; [exact I|exact Hk].
    + apply (rec_members A fs ds ms ms); [|congruence|].
      * intros m Hm. apply member_once; [|exact Hm]. rewrite E2, El. exact Hnd.
      * apply (pair_F3 (fun (f : bytes * xty) d (m : bytes * raw) => piece A (snd f) (snd m) d)); assumption.
  - inversion Hn as [| | | | | | | | | | | | |es' m u Hnd Hi|es' m u d' v' Hnd Hi Hn'|es' m us d' vs Hnd Hi Hn'|es' m fs d' vs Hnd Hi Hn']; subst;
      destruct (variant_split _ _ _ Hnd Hi) as (pre & post & Ees & Hpre).
    + destruct Ha as (HW & _). apply (W_leaf _ _ _ _ (json_str m)) in HW; try reflexivity. cbn [g_text] in HW. subst text. exists (RStr (escape m)).
      split; [apply json_str_value|]. rewrite Ees. apply pi_name; [apply escape_means|exact Hpre].
    + destruct Ha as (HW & Hv & Hd & Hr). cbn [g_text g_attachments nesting] in *. destruct Hv as [_ Hv].
      apply (W_variant _ _ _ m v') in HW as (t' & -> & HW); [|reflexivity|reflexivity|cbn [json_of]; apply opt_map_none].
      rewrite Forall_forall in IH. destruct (IH _ Hi _ _ Hn' n t') as (r & J & P). { split; [exact HW|]. split; [exact Hv|]. split; [lia|exact Hr]. }
      exists (RObj [(escape m, r)]). split; [apply variant_text; exact J|]. rewrite Ees. apply pi_variant; [apply escape_means|exact Hpre|discriminate|discriminate|exact P].
    + destruct Ha as (HW & Hv & Hd & Hr). cbn [g_text g_attachments nesting] in *. destruct Hv as [_ Hv].
      apply (W_variant _ _ _ m (STuple vs)) in HW as (t' & -> & HW); [|reflexivity|reflexivity|cbn [json_of]; rewrite !opt_map_none; auto].
      rewrite Forall_forall in IH. destruct (IH _ Hi _ _ Hn' n t') as (r & J & P). { split; [exact HW|]. split; [exact Hv|]. split; [cbn [nesting]; lia|exact Hr]. }
      exists (RObj [(escape m, r)]). split; [apply variant_text; exact J|]. rewrite Ees. apply pi_variant; [apply escape_means|exact Hpre|discriminate| |exact P].
      intros _. apply (W_array _ _ _ vs) in HW as (ts & -> & HW); [|reflexivity|reflexivity|cbn [json_of]; apply opt_map_none].
      destruct (shaped_list bin vs ltac:(apply Forall_forall; intros; apply shaped_all) _ _ HW Hv) as (rs & Js & _). exists rs. exact (jvalue_unique _ _ _ J (jarr_seps _ _ Js)).
    + destruct Ha as (HW & Hv & Hd & Hr). cbn [g_text g_attachments nesting] in *. destruct Hv as [_ Hv].
      apply (W_variant _ _ _ m (SStruct vs)) in HW as (t' & -> & HW);
        [|intros o; rewrite ser_structv; unfold ser_variant; rewrite ser_struct; reflexivity|intros s; rewrite wser_structv; unfold wser_variant; rewrite wser_struct; reflexivity|cbn [json_of]; rewrite !opt_map_none; auto].
      rewrite Forall_forall in IH. destruct (IH _ Hi _ _ Hn' n t') as (r & J & P). { split; [exact HW|]. split; [exact Hv|]. split; [cbn [nesting]; lia|exact Hr]. }
      exists (RObj [(escape m, r)]). split; [apply variant_text; exact J|]. rewrite Ees. apply pi_variant; [apply escape_means|exact Hpre|discriminate|discriminate|exact P].
Qed.
Theorem parts_return bin src ns args i v g x d : sendable bin src ns args -> became bin src ns args i v g -> nests bin true x d v -> arg_nested x g = Ok d.
Proof.
  intros Hs Hb Hn. destruct (became_arrived _ _ _ _ _ _ _ Hs Hb) as (n & Ha). destruct g as [text A]. destruct (nests_piece bin A x d v Hn n text Ha) as (r & J & P).
  destruct Ha as (HW & Hv & Hd & bl & HA & _). cbn [g_text g_attachments] in *. destruct (shaped_all bin v _ _ HW Hv) as (r' & J' & D & _). rewrite <- (jvalue_unique _ _ _ J J') in D.
  apply (nested_exact x r text A d J); [|congruence|exact P]. eapply within_more; [|exact D]. lia.
Qed.

(** ** What does not come back *)
Lemma null_text bin v : null_written v = true -> forall n t, W bin n v t -> t = bs "null".
Proof.
  induction v; cbn [null_written]; intros H n' t' HW; try discriminate H; try (apply (W_leaf _ _ _ _ (bs "null")) in HW; [exact HW|reflexivity|reflexivity]).
  - destruct t as [t|]; [discriminate H|]. apply (W_leaf _ _ _ _ (bs "null")) in HW; [exact HW|reflexivity|reflexivity].
  - exact (IHv H n' t' HW).
  - exact (IHv H n' t' HW).
Qed.
Theorem some_null bin src ns args i v g u : sendable bin src ns args -> became bin src ns args i (SSome v) g -> null_written v = true ->
  arg_nested (Nested.XOpt u) g = Ok XNone.
Proof.
  intros Hs Hb Hn. destruct (became_arrived _ _ _ _ _ _ _ Hs Hb) as (n & HW & _ & _ & bl & HA & _). destruct g as [text A]. cbn [g_text g_attachments] in *.
  apply (null_text bin (SSome v) Hn) in HW. subst text. apply (nested_exact _ RNull); [exact jv_null|exact I|congruence|apply pi_none].
Qed.
Theorem mixed_grows src ns args i vs g u ds : sendable true src ns args -> became true src ns args i (SSeq vs) g -> mixed_seq vs = true ->
  arg_nested (XVec u) g = Ok (DeModel.XSeq ds) -> length ds = S (length vs).
Proof.
  intros Hs Hb Hm H. destruct (became_arrived _ _ _ _ _ _ _ Hs Hb) as (n & HW & Hv & Hd & bl & HA & _). destruct g as [text A]. cbn [g_text g_attachments] in *.
  destruct (shaped_all true _ _ _ HW Hv) as (r & J & D & _). apply (nested_exact _ r) in H; [|exact J|eapply within_more; [|exact D]; lia|congruence].
  assert (Eb : blob_seq vs = false).
  { unfold mixed_seq in Hm. destruct vs as [|x vs]; [discriminate|]. cbn [blob_seq]. destruct (forallb is_u8 (x :: vs)); [|reflexivity]. rewrite andb_false_r in Hm. discriminate. }
  assert (Jn : json_of (STuple (SU8 x04 :: vs)) <> None).
  { pose proof (W_json _ _ _ _ HW) as X. cbn [json_of] in *. apply opt_map_none. apply opt_map_none in X. cbn [map all_some json_of]. destruct (all_some (map json_of vs)); [discriminate|congruence]. }
  destruct (W_exists true n _ Jn) as (t' & HW'). assert (t' = text) as ->.
  { apply W_text in HW, HW'. rewrite wser_SSeq, wser_seq_cases, Eb, Hm in HW. rewrite <- HW, <- HW'. reflexivity. }
  apply (W_array _ _ _ (SU8 x04 :: vs)) in HW' as (ts & E & HL); [|reflexivity|reflexivity|cbn [json_of]; apply opt_map_none].
  destruct (shaped_list true (SU8 x04 :: vs) ltac:(apply Forall_forall; intros; apply shaped_all) _ _ HL ltac:(split; [exact I|exact Hv])) as (rs & Js & _).
  pose proof (jarr_seps _ _ Js) as Jr. rewrite <- E in Jr. rewrite (jvalue_unique _ _ _ J Jr) in H. inversion H as [| | | | | |? ? ? HF| | | | | | | | | |]; subst.
  apply Forall2_len in HF. apply Forall2_len in Js. rewrite <- HF, Js. clear -HL.
  assert (G : forall n l ts, Wlist true n l ts -> length ts = length l) by (induction 1; cbn; congruence). exact (G _ _ _ HL).
Qed.
