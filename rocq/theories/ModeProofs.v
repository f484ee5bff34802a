(** Text and binary mode differ only in how byte strings are spelt (C86). *)
From Verif Require Export SpecMode FilledProofs RoundProofs.
From Coq Require Import Lia.

Lemma u8s_only l : blob_seq l = true -> l = map SU8 (u8s l) /\ u8s l <> [].
Proof.
  intros H. assert (F : forallb is_u8 l = true) by (destruct l; [discriminate|exact H]).
  assert (E : l = map SU8 (u8s l)).
  { clear H. induction l as [|v l IH]; [reflexivity|]. cbn [forallb] in F. apply andb_prop in F as [F1 F2]. destruct v; try discriminate F1.
    cbn. f_equal. apply IH. exact F2. }
  split; [exact E|]. intros X. rewrite X in E. subst l. discriminate.
Qed.
Lemma u8_texts b : forall m ts, Wlist false m (map SU8 b) ts -> Forall2 jvalue (map byte_lit b) ts.
Proof.
  induction b as [|c b IH]; intros m ts H; inversion H as [|? ? ? t ts' H1 H2]; subst; constructor; [|eapply IH; exact H2].
  apply (W_leaf _ _ _ _ (dec (bN c))) in H1; try reflexivity. subst t. rewrite <- int_lit_text. apply jv_num, int_lit_ok.
Qed.
Lemma u8_list_written m b t : W false m (SSeq (map SU8 b)) t -> jvalue (RArr (map byte_lit b)) t.
Proof.
  intros H. apply (W_array _ _ _ (map SU8 b)) in H as (ts & -> & Hts); [|reflexivity|discriminate|cbn [json_of]; apply opt_map_none].
  apply jarr_seps. eapply u8_texts. exact Hts.
Qed.
(** A key without escapes is written as it is. *)
Lemma key_plain k : forall b s, key_text k = Some (x22 :: b ++ [x22]) -> key_of k = Some s -> unescaped s -> b = s.
Proof.
  assert (Q : forall a b, Some (x22 :: a ++ [x22]) = Some (x22 :: b ++ [x22]) -> b = a).
  { intros a b [= E]. apply app_inj_tail in E as [E _]. auto. }
  induction k; intros b0 s0 Ht Hs Hu; cbn [key_text key_of] in *; try discriminate; try (eapply IHk; eassumption).
  - injection Hs as <-. apply Q in Ht. exact Ht.
  - injection Hs as <-. apply Q in Ht. exact Ht.
  - injection Hs as <-. apply Q in Ht. exact Ht.
  - destruct t as [t|]; [|discriminate]. injection Hs as <-. apply Q in Ht. exact Ht.
  - injection Hs as <-. apply Q in Ht. rewrite Ht. apply escape_plain. exact Hu.
  - injection Hs as <-. apply Q in Ht. rewrite Ht. apply escape_plain. exact Hu.
  - injection Hs as <-. apply Q in Ht. rewrite Ht. apply escape_plain. exact Hu.
Qed.

Section Modes.
Variable bl : list bytes.
Definition covers (n : nat) (l : list bytes) : Prop := forall i b, nth_error l i = Some b -> nth_error bl (n + i) = Some b.
Lemma covers_app n a b : covers n (a ++ b) -> covers n a /\ covers (n + length a) b.
Proof.
  intros H. split; intros i x Hi.
  - apply H. rewrite nth_error_app1; [exact Hi|]. apply nth_error_Some. congruence.
  - rewrite <- Nat.add_assoc. apply H. rewrite nth_error_app2 by lia. replace (length a + i - length a) with i by lia. exact Hi.
Qed.
Definition good (v : sval) : Prop := val_ok v /\ no_mixed v /\ plain_first v.
Definition modes (v : sval) : Prop := good v -> forall n m tb tt, W true n v tb -> W false m v tt -> covers n (blobs v) ->
  (N.of_nat (n + length (blobs v)) <= u64_max)%N ->
  exists rb rt, jvalue rb tb /\ jvalue rt tt /\ spelt bl rb rt /\ (blobs v = [] -> tb = tt) /\ (~ is_blob v -> not_attached rb).

Lemma modes_leaf v t r : (forall o, json_ser v o = (o ++ t, OOk)) -> (forall s, wrap_ser v s = (wput t s, OOk)) ->
  (val_ok v -> jvalue r t) -> match r with RArr _ | RObj _ => False | _ => True end -> modes v.
Proof.
  intros H1 H2 H3 H4 [Hv _] n m tb tt HB HT _ _. apply (W_leaf _ _ _ _ t) in HB; [|assumption..]. apply (W_leaf _ _ _ _ t) in HT; [|assumption..]. subst.
  exists r, r. split; [auto|]. split; [auto|]. split; [apply sp_scalar; exact H4|]. split; [reflexivity|]. intros _. destruct r; try exact I. contradiction.
Qed.
Lemma stands_here n b : (N.of_nat n <= u64_max)%N -> nth_error bl n = Some b -> exists l, praw n = RObj l /\ stands_for bl l b.
Proof.
  intros Hn Hb. eexists. split; [reflexivity|]. exists true, (int_lit false (N.of_nat n)), (N.of_nat n). split; [reflexivity|].
  split; [apply num_of_nat; exact Hn|]. rewrite Nat2N.id. exact Hb.
Qed.
Lemma modes_bytes v b : (forall s, wrap_ser v s = ((fst s ++ placeholder_text (length (snd s)), snd s ++ [frame b]), OOk)) ->
  blobs v = [b] -> is_blob v -> (forall m t, W false m v t -> jvalue (RArr (map byte_lit b)) t) -> modes v.
Proof.
  intros H1 H2 H3 H4 _ n m tb tt HB HT Hc Hn. rewrite H2 in *. apply (W_bytes _ _ b) in HB; [|exact H1]. subst tb.
  assert (Hb : nth_error bl n = Some b) by (rewrite <- (Nat.add_0_r n); apply Hc; reflexivity). cbn [length] in Hn.
  destruct (stands_here n b ltac:(lia) Hb) as (l & E & Hs).
  exists (praw n), (RArr (map byte_lit b)). split; [apply placeholder_jvalue|]. split; [eapply H4; exact HT|].
  split; [rewrite E; apply sp_attachment; exact Hs|]. split; [discriminate|contradiction].
Qed.
Lemma modes_list l : Forall modes l -> allP val_ok l -> allP no_mixed l -> allP plain_first l ->
  forall n m tbs tts, Wlist true n l tbs -> Wlist false m l tts -> covers n (flat_map blobs l) -> (N.of_nat (n + length (flat_map blobs l)) <= u64_max)%N ->
  exists rbs rts, Forall2 jvalue rbs tbs /\ Forall2 jvalue rts tts /\ Forall2 (spelt bl) rbs rts /\ (flat_map blobs l = [] -> tbs = tts).
Proof.
  induction 1 as [|v l Hm H IH]; intros Hv Hx Hp n m tbs tts HB HT Hc Hn; inversion HB as [|? ? ? tb tbs' HB1 HB2]; subst; inversion HT as [|? ? ? tt tts' HT1 HT2]; subst.
  - exists [], []. repeat split; constructor.
  - cbn [allP] in *. destruct Hv as [Hv1 Hv2]. destruct Hx as [Hx1 Hx2]. destruct Hp as [Hp1 Hp2]. cbn [flat_map] in Hc, Hn. apply covers_app in Hc as [Hc1 Hc2]. rewrite app_length in Hn.
    destruct (Hm (conj Hv1 (conj Hx1 Hp1)) _ _ _ _ HB1 HT1 Hc1 ltac:(lia)) as (rb & rt & J1 & J2 & S & E & _).
    destruct (IH Hv2 Hx2 Hp2 _ _ _ _ HB2 HT2 Hc2 ltac:(rewrite <- Nat.add_assoc; lia)) as (rbs & rts & J1' & J2' & S' & E').
    exists (rb :: rbs), (rt :: rts). split; [constructor; assumption|]. split; [constructor; assumption|]. split; [constructor; assumption|].
    cbn [flat_map]. intros Eb. apply app_eq_nil in Eb as [Eb1 Eb2]. rewrite (E Eb1), (E' Eb2). reflexivity.
Qed.
Lemma modes_entries l : Forall (fun kx => modes (snd kx)) l -> allP (fun '(k, x) => key_ok k /\ val_ok x) l -> allP (fun '(_, x) => no_mixed x) l -> allP (fun '(_, x) => plain_first x) l ->
  forall n m tbs tts, Wents true n l tbs -> Wents false m l tts -> covers n (flat_map (fun '(_, x) => blobs x) l) ->
  (N.of_nat (n + length (flat_map (fun '(_, x) => blobs x) l)) <= u64_max)%N ->
  exists rbs rts, Forall2 jmember rbs tbs /\ Forall2 jmember rts tts /\ spelt_members bl rbs rts /\ (flat_map (fun '(_, x) => blobs x) l = [] -> tbs = tts) /\
    match l, rbs with (k, _) :: _, (kb, _) :: _ => forall s, key_of k = Some s -> unescaped s -> kb = s | _, _ => True end.
Proof.
  induction 1 as [|[k v] l Hm H IH]; intros Hv Hx Hp n m tbs tts HB HT Hc Hn; inversion HB as [|? ? ? ? kt tb tbs' EB HB1 HB2]; subst; inversion HT as [|? ? ? ? kt' tt tts' ET HT1 HT2]; subst.
  - exists [], []. repeat split; constructor.
  - rewrite EB in ET. injection ET as <-. cbn [allP snd] in *. destruct Hv as [[Hk Hv1] Hv2]. destruct Hx as [Hx1 Hx2]. destruct Hp as [Hp1 Hp2].
    cbn [flat_map] in Hc, Hn. apply covers_app in Hc as [Hc1 Hc2]. rewrite app_length in Hn.
    destruct (Hm (conj Hv1 (conj Hx1 Hp1)) _ _ _ _ HB1 HT1 Hc1 ltac:(lia)) as (rb & rt & J1 & J2 & S & E & _).
    destruct (IH Hv2 Hx2 Hp2 _ _ _ _ HB2 HT2 Hc2 ltac:(rewrite <- Nat.add_assoc; lia)) as (rbs & rts & J1' & J2' & S' & E' & _).
    pose proof (key_spec k) as K. rewrite EB in K. destruct (key_of k) as [s|] eqn:Ek; [|contradiction]. destruct K as (b & -> & Kj & _). destruct (Kj Hk) as (Jb & _ & _).
    exists ((b, rb) :: rbs), ((b, rt) :: rts).
    split; [constructor; [|assumption]; exists tb; cbn [fst snd app]; rewrite <- app_assoc; auto|].
    split; [constructor; [|assumption]; exists tt; cbn [fst snd app]; rewrite <- app_assoc; auto|].
    split; [constructor; [auto|assumption]|]. split.
    + cbn [flat_map]. intros Eb. apply app_eq_nil in Eb as [Eb1 Eb2]. rewrite (E Eb1), (E' Eb2). reflexivity.
    + intros s' [= <-] Hu. exact (key_plain k b s EB Ek Hu).
Qed.
Lemma ordinary_key k r (rs : list (bytes * raw)) : plain_key k -> ordinary_first ((k, r) :: rs).
Proof. intros [H1 H2]. destruct (escape_plain _ H1) as [_ E]. cbn. auto. Qed.
Lemma modes_array v l : (forall o, json_ser v o = ser_array l o) -> (mixed_seq l = false -> forall s, wrap_ser v s = wser_array l s) ->
  (json_of v <> None -> all_some (map json_of l) <> None) -> blobs v = flat_map blobs l -> (val_ok v -> allP val_ok l) ->
  (no_mixed v -> allP no_mixed l) -> (plain_first v -> allP plain_first l) -> (no_mixed v -> mixed_seq l = false) \/ (forall s, wrap_ser v s = wser_array l s) ->
  Forall modes l -> forall n m tb tt, good v -> W true n v tb -> W false m v tt -> covers n (blobs v) -> (N.of_nat (n + length (blobs v)) <= u64_max)%N ->
  exists rbs rts tbs, tb = "["%byte :: seps true tbs ++ ["]"%byte] /\ jvalue (RArr rbs) tb /\ jvalue (RArr rts) tt /\ Forall2 (spelt bl) rbs rts /\ (blobs v = [] -> tb = tt).
Proof.
  intros H1 H2 H3 H4 H5 H6 H7 H8 HF n m tb tt (Gv & Gx & Gp) HB HT Hc Hn. rewrite H4 in *.
  assert (Hs : forall s, wrap_ser v s = wser_array l s) by (destruct H8 as [H8|H8]; auto).
  apply (W_array _ _ _ l) in HB as (tbs & -> & HB); [|exact H1|auto|exact H3]. apply (W_array _ _ _ l) in HT as (tts & -> & HT); [|exact H1|auto|exact H3].
  destruct (modes_list l HF (H5 Gv) (H6 Gx) (H7 Gp) _ _ _ _ HB HT Hc Hn) as (rbs & rts & J1 & J2 & S & E).
  exists rbs, rts, tbs. split; [reflexivity|]. split; [apply jarr_seps; exact J1|]. split; [apply jarr_seps; exact J2|]. split; [exact S|].
  intros Eb. rewrite (E Eb). reflexivity.
Qed.
Lemma modes_tuple v l : (forall o, json_ser v o = ser_array l o) -> (forall s, wrap_ser v s = wser_array l s) ->
  (json_of v <> None -> all_some (map json_of l) <> None) -> blobs v = flat_map blobs l -> (val_ok v -> allP val_ok l) ->
  (no_mixed v -> allP no_mixed l) -> (plain_first v -> allP plain_first l) -> Forall modes l -> modes v.
Proof.
  intros H1 H2 H3 H4 H5 H6 H7 HF G n m tb tt HB HT Hc Hn.
  destruct (modes_array v l H1 (fun _ => H2) H3 H4 H5 H6 H7 (or_intror H2) HF n m tb tt G HB HT Hc Hn) as (rbs & rts & tbs & _ & J1 & J2 & S & E).
  exists (RArr rbs), (RArr rts). split; [exact J1|]. split; [exact J2|]. split; [apply sp_arr; exact S|]. split; [exact E|]. intros _. exact I.
Qed.
Lemma modes_object v l : (forall o, json_ser v o = ser_object l o) -> (forall s, wrap_ser v s = wser_object l s) ->
  (json_of v <> None -> all_some (map entry_json l) <> None) -> blobs v = flat_map (fun '(_, x) => blobs x) l ->
  (val_ok v -> allP (fun '(k, x) => key_ok k /\ val_ok x) l) -> (no_mixed v -> allP (fun '(_, x) => no_mixed x) l) ->
  (plain_first v -> match l with (k, _) :: _ => plain_start (key_of k) | [] => True end /\ allP (fun '(_, x) => plain_first x) l) ->
  Forall (fun kx => modes (snd kx)) l -> modes v.
Proof.
  intros H1 H2 H3 H4 H5 H6 H7 HF (Gv & Gx & Gp) n m tb tt HB HT Hc Hn. rewrite H4 in *.
  apply (W_object _ _ _ l) in HB as (tbs & -> & HB); [|assumption..]. apply (W_object _ _ _ l) in HT as (tts & -> & HT); [|assumption..].
  destruct (H7 Gp) as [P1 P2]. destruct (modes_entries l HF (H5 Gv) (H6 Gx) P2 _ _ _ _ HB HT Hc Hn) as (rbs & rts & J1 & J2 & S & E & F).
  assert (O : ordinary_first rbs).
  { destruct l as [|[k x] l].
    - inversion HB; subst. inversion J1; subst. exact I.
    - destruct rbs as [|[kb rb] rbs]; [exact I|]. inversion HB as [|? ? ? ? kt t ts Ek]; subst. pose proof (key_spec k) as K. rewrite Ek in K.
      destruct (key_of k) as [s|] eqn:Es; [|contradiction]. cbn [plain_start] in P1. rewrite (F s eq_refl (proj1 P1)). apply ordinary_key. exact P1. }
  exists (RObj rbs), (RObj rts). split; [apply jobj_seps; exact J1|]. split; [apply jobj_seps; exact J2|]. split; [apply sp_obj; assumption|]. split; [|intros _; exact O].
  intros Eb. rewrite (E Eb). reflexivity.
Qed.
Lemma modes_variant v name x : (forall o, json_ser v o = ser_variant name (json_ser x) o) -> (forall s, wrap_ser v s = wser_variant name (wrap_ser x) s) ->
  (json_of v <> None -> json_of x <> None) -> blobs v = blobs x -> (val_ok v -> val_ok x) -> (no_mixed v -> no_mixed x) -> (plain_first v -> plain_key name /\ plain_first x) ->
  modes x -> modes v.
Proof.
  intros H1 H2 H3 H4 H5 H6 H7 HM (Gv & Gx & Gp) n m tb tt HB HT Hc Hn. rewrite H4 in *. destruct (H7 Gp) as [P1 P2].
  apply (W_variant _ _ _ name x) in HB as (tb' & -> & HB); [|assumption..]. apply (W_variant _ _ _ name x) in HT as (tt' & -> & HT); [|assumption..].
  destruct (HM (conj (H5 Gv) (conj (H6 Gx) P2)) _ _ _ _ HB HT Hc Hn) as (rb & rt & J1 & J2 & S & E & _).
  assert (O : ordinary_first [(escape name, rb)]) by (rewrite (proj1 (escape_plain _ (proj1 P1))); apply ordinary_key; exact P1).
  exists (RObj [(escape name, rb)]), (RObj [(escape name, rt)]). split; [apply variant_text; exact J1|]. split; [apply variant_text; exact J2|].
  split; [apply sp_obj; [exact O|constructor; [auto|constructor]]|]. split; [|intros _; exact O]. intros Eb. rewrite (E Eb). reflexivity.
Qed.
Lemma modes_entries_as l : Forall (fun kx => modes (snd kx)) l -> Forall (fun kx => modes (snd kx)) (as_entries l).
Proof. induction 1 as [|[k x] l H1 H2 IH]; constructor; assumption. Qed.
Lemma allP_as (P : sval -> Prop) l : allP (fun '(_, x) => P x) l -> allP (fun '(_, x) => P x) (as_entries l).
Proof. induction l as [|[k x] l IH]; cbn; [auto|]. intros [H1 H2]. split; [exact H1|]. apply IH. exact H2. Qed.
Lemma keys_as l : allP (fun '(_, x) => val_ok x) l -> allP (fun '(k, x) => key_ok k /\ val_ok x) (as_entries l).
Proof. induction l as [|[k x] l IH]; cbn; [auto|]. intros [H1 H2]. split; [auto|]. apply IH. exact H2. Qed.
Lemma blobs_as l : flat_map (fun '(_, x) => blobs x) (as_entries l) = flat_map (fun '(_, x) => blobs x) l.
Proof. induction l as [|[k x] l IH]; [reflexivity|]. cbn [as_entries map flat_map]. unfold as_entries in IH. rewrite IH. reflexivity. Qed.
Lemma start_as (l : list (bytes * sval)) : first_plain l -> match as_entries l with (k, _) :: _ => plain_start (key_of k) | [] => True end.
Proof. destruct l as [|[k x] l]; auto. Qed.
Lemma modes_struct l : Forall (fun kx => modes (snd kx)) l -> modes (SStruct l).
Proof.
  intros H. apply (modes_object _ (as_entries l)).
  - apply ser_struct.
  - apply wser_struct.
  - cbn [json_of]. rewrite opt_map_none, entry_as. auto.
  - rewrite blobs_as. reflexivity.
  - cbn [val_ok]. intros [_ X]. apply keys_as. exact X.
  - apply (allP_as no_mixed).
  - cbn [plain_first]. intros [X1 X2]. split; [apply start_as; exact X1|apply allP_as; exact X2].
  - apply modes_entries_as. exact H.
Qed.
Theorem modes_all v : modes v.
Proof.
  induction v using sval_ind'.
  - apply (modes_leaf _ (if b then bs "true" else bs "false") (RBool b)); try reflexivity; try exact I. intros _. destruct b; constructor.
  - apply (modes_leaf _ (dec (bN b)) (RNum (int_lit false (bN b)))); try reflexivity; try exact I. intros _. rewrite <- int_lit_text. apply jv_num, int_lit_ok.
  - apply (modes_leaf _ (decZ z) (RNum (int_lit (z <? 0)%Z (Z.to_N (Z.abs z))))); try reflexivity; try exact I. intros _. rewrite decZ_text. apply jv_num, int_lit_ok.
  - destruct t as [t|].
    + apply (modes_leaf _ (numlit_text t) (RNum t)); try reflexivity; try exact I. intros [X _]. apply jv_num. exact X.
    + apply (modes_leaf _ (bs "null") RNull); try reflexivity; try exact I. constructor.
  - apply (modes_leaf _ (json_str c) (RStr (escape c))); try reflexivity; try exact I. intros _. apply json_str_value.
  - apply (modes_leaf _ (json_str s) (RStr (escape s))); try reflexivity; try exact I. intros _. apply json_str_value.
  - apply (modes_bytes _ b); try reflexivity; try exact I. intros m t X. apply (W_text false) in X. cbn [json_ser app fst] in X. subst t. apply u8_list_value.
  - apply (modes_leaf _ (bs "null") RNull); try reflexivity; try exact I. constructor.
  - exact IHv.
  - apply (modes_leaf _ (bs "null") RNull); try reflexivity; try exact I. constructor.
  - apply (modes_leaf _ (bs "null") RNull); try reflexivity; try exact I. constructor.
  - apply (modes_leaf _ (json_str n) (RStr (escape n))); try reflexivity; try exact I. intros _. apply json_str_value.
  - exact IHv.
  - apply (modes_variant _ n v); try reflexivity; [cbn [json_of]; apply opt_map_none|intros [_ X]; exact X|auto|auto|exact IHv].
  - destruct (blob_seq l) eqn:Eb.
    + destruct (u8s_only l Eb) as [E Hne]. apply (modes_bytes _ (u8s l)).
      * intros s. rewrite E at 1. apply wrap_u8s. exact Hne.
      * cbn [blobs]. rewrite Eb. reflexivity.
      * exact Eb.
      * intros m t X. rewrite E in X. eapply u8_list_written. exact X.
    + intros G n m tb tt HB HT Hc Hn.
      destruct (modes_array (SSeq l) l) with (n := n) (m := m) (tb := tb) (tt := tt) as (rbs & rts & tbs & _ & J1 & J2 & S & E); try assumption.
      * reflexivity.
      * intros Hm s. rewrite wser_SSeq, wser_seq_cases, Eb, Hm. reflexivity.
      * cbn [json_of]. apply opt_map_none.
      * cbn [blobs]. rewrite Eb. reflexivity.
      * auto.
      * intros [_ X]. exact X.
      * auto.
      * left. intros [X _]. exact X.
      * exists (RArr rbs), (RArr rts). split; [exact J1|]. split; [exact J2|]. split; [apply sp_arr; exact S|]. split; [exact E|]. intros _. exact I.
  - apply (modes_tuple _ l); try reflexivity; auto. cbn [json_of]. apply opt_map_none.
  - apply (modes_tuple _ l); try reflexivity; auto. cbn [json_of]. apply opt_map_none.
  - apply (modes_variant _ n (STuple l)); try reflexivity.
    + cbn [json_of]. rewrite !opt_map_none. auto.
    + intros [_ X]. exact X.
    + auto.
    + auto.
    + apply (modes_tuple _ l); try reflexivity; auto. cbn [json_of]. apply opt_map_none.
  - apply (modes_object _ l); try reflexivity; auto.
    + cbn [json_of]. rewrite opt_map_none, entry_map. auto.
    + intros [_ X]. exact X.
  - apply modes_struct. assumption.
  - apply (modes_variant _ n (SStruct l)).
    + intros o. rewrite ser_structv. unfold ser_variant. rewrite ser_struct. reflexivity.
    + intros s. rewrite wser_structv. unfold wser_variant. rewrite wser_struct. reflexivity.
    + cbn [json_of]. rewrite !opt_map_none. auto.
    + reflexivity.
    + intros [_ X]. exact X.
    + auto.
    + intros (X1 & X2 & X3). split; [exact X1|]. split; assumption.
    + apply modes_struct. assumption.
  - intros G n m tb tt HB. apply W_json in HB. destruct HB. reflexivity.
Qed.
End Modes.

(** ** One argument *)
Section Argument.
Variables (A : list subslice_t) (bl : list bytes) (tb tt : bytes) (rb rt : raw).
Hypothesis HA : A <> [].
Hypothesis Hbl : contents A = Some bl.
Hypothesis Jb : jvalue rb tb.
Hypothesis Jt : jvalue rt tt.
Hypothesis Hs : spelt bl rb rt.
Lemma type_modes t x y : arg_deserialize TyValue (Arg tt []) = Ok y -> no_int_map t -> alike true false t rb ->
  arg_deserialize t (Arg tt []) = Ok x <-> arg_deserialize t (Arg tb A) = Ok x.
Proof.
  intros Hy Hn Ha. destruct (value_arg_buffers _ _ _ _ Jt Hy) as [c Hc]. change (objects (way_of (Arg tt []))) with (fun _ : list (bytes * raw) => OMMap) in Hc.
  rewrite (arg_direct_ok _ _ _ _ _ Jt), (arg_direct_ok _ _ _ _ _ Jb).
  pose proof Hc as Hc'. rewrite <- (content_spelt A bl Hbl rb 128 rt Hs) in Hc'.
  rewrite <- (content_agree (reparse_of tt) (way_of (Arg tt [])) false t 128 rt c Hc (alike_plain t Hn rt)).
  assert (Hc2 : content_of (objects (way_of (Arg tb A))) 128 rb = Some c) by (rewrite (way_wrapped tb A HA); exact Hc').
  rewrite <- (content_agree (reparse_of tb) (way_of (Arg tb A)) false t 128 rb c Hc2); [|rewrite (bin_way tb A); destruct A; [congruence|exact Ha]].
  rewrite (de_content_same _ _ _ (reparse_below tt) false t c (content_short _ _ _ (proj1 jvalue_short _ _ Jt) _ _ Hc)).
  rewrite (de_content_same _ _ _ (reparse_below tb) false t c (content_short _ _ _ (proj1 jvalue_short _ _ Jb) _ _ Hc2)). reflexivity.
Qed.
End Argument.
Lemma collect_spelt A bl (HA : contents A = Some bl) names l l' : spelt_members bl l l' ->
  match str_members l, str_members l' with
  | Some m, Some m' => forall d, collect (Wrapped A) names d m = collect Plain names d m'
  | None, None => True
  | _, _ => False
  end.
Proof.
  unfold spelt_members. induction 1 as [|[k x] [k' y] l l' [Hk Hx] HF IH]; [intros d; reflexivity|]. cbn [fst snd] in *. subst k'. cbn [str_members].
  destruct (unescape k) as [k'|]; [|exact I]. destruct (str_members l) as [m|], (str_members l') as [m'|]; try contradiction; [|exact I].
  intros d. cbn [collect objects]. rewrite (content_spelt A bl HA x d y Hx), IH. reflexivity.
Qed.
Lemma collect_names_short w n names d m : allP (fun '(_, x) => short n x) m -> forall cs, collect w names d m = Some cs -> allP (fun '(_, x) => cshort n x) cs.
Proof.
  intros Hs cs H. rewrite collect_keep in H. refine (collect_short _ _ _ _ _ _ H). rewrite allP_In in *. intros y Hy. apply filter_In in Hy as [Hy _]. exact (Hs _ Hy).
Qed.
Lemma flat_modes A bl tb tt l l' own ps x : A <> [] -> contents A = Some bl -> jvalue (RObj l) tb -> jvalue (RObj l') tt ->
  ordinary_first l -> spelt_members bl l l' ->
  (forall u, arg_deserialize (TyStruct own) (Arg tt []) = Ok u <-> arg_deserialize (TyStruct own) (Arg tb A) = Ok u) ->
  arg_flat own ps (Arg tt []) = Ok x <-> arg_flat own ps (Arg tb A) = Ok x.
Proof.
  intros HA Hbl Jb Jt Ho HF Hown. rewrite (arg_flat_ok own ps tt (RObj l') [] x Jt), (arg_flat_ok own ps tb (RObj l) A x Jb).
  assert (Hob : A <> [] -> ordinary_first l) by (intros _; exact Ho). assert (Hot : @nil subslice_t <> [] -> ordinary_first l') by congruence.
  unfold de_flat. cbn [enter]. rewrite (objects_map A tb l Hob), (objects_map [] tt l' Hot).
  pose proof (collect_spelt A bl Hbl (map fst own) _ _ HF) as HC.
  destruct (str_members l) as [m|] eqn:Em, (str_members l') as [m'|] eqn:Em'; try contradiction; [|reflexivity].
  assert (S : forall u, option_map XStruct (fields_of (fun t => de_direct (reparse_of tt) (way_of (Arg tt [])) t 127) m' own) = Some u <->
                        option_map XStruct (fields_of (fun t => de_direct (reparse_of tb) (way_of (Arg tb A)) t 127) m own) = Some u).
  { intros u. rewrite <- (struct_read l' tt [] m' Jt Hot Em' own u), <- (struct_read l tb A m Jb Hob Em own u). apply Hown. }
  rewrite !own_fields_of. destruct (fields_of _ m' own) as [vs|], (fields_of _ m own) as [vs'|].
  - pose proof (proj1 (S _) eq_refl) as E. injection E as ->. rewrite (way_wrapped tb A HA). change (way_of (Arg tt [])) with Plain. rewrite <- (HC 127).
    destruct (collect (Wrapped A) (map fst own) 127 m) as [cs|] eqn:Ec; [|reflexivity].
    rewrite (take_same _ _ _ ps (reparse_below tb) cs (collect_names_short _ _ _ _ _ (str_members_short _ _ _ Em (proj1 jvalue_short _ _ Jb)) _ Ec)).
    rewrite (HC 127) in Ec.
    rewrite (take_same _ _ _ ps (reparse_below tt) cs (collect_names_short _ _ _ _ _ (str_members_short _ _ _ Em' (proj1 jvalue_short _ _ Jt)) _ Ec)). reflexivity.
  - pose proof (proj1 (S _) eq_refl) as E. discriminate.
  - pose proof (proj2 (S _) eq_refl) as E. discriminate.
  - reflexivity.
Qed.

(** Without attachments nothing is special. *)
Lemma spelt_same_alike bl t : no_int_map t -> forall r, spelt bl r r -> alike true false t r.
Proof.
  assert (Na : forall r, spelt bl r r -> ~ attached true r).
  { intros r H [_ Ha]. destruct r as [| | | | |[|[k x] l]]; try contradiction. inversion H as [? Hx|? ? ? |? ? ?|? ? Ho HF]; subst; [contradiction|]. destruct Ho as [_ Ho]. apply Ho. reflexivity. }
  assert (Sa : forall l, spelt bl (RArr l) (RArr l) -> allP (fun x => spelt bl x x) l).
  { intros l H. inversion H as [? Hx|? ? HF|? ? ?|? ? ? ?]; subst; [contradiction|]. clear H. induction l as [|x l IHl]; [exact I|]. inversion HF; subst. split; [assumption|apply IHl; assumption]. }
  assert (So : forall l, spelt bl (RObj l) (RObj l) -> allP (fun '(_, x) => spelt bl x x) l).
  { intros l H. inversion H as [? Hx|? ? HF|? ? ?|? ? Ho HF]; subst; [contradiction|]. clear H Ho. induction l as [|[k x] l IHl]; [exact I|]. inversion HF as [|? ? ? ? [_ H1] H2]; subst. split; [assumption|apply IHl; assumption]. }
  induction t as [|lo hi| | | | | | |u IH|u IH|u IH|ts IH|u IH|fs IH|vs IH| | | |lo hi u IH] using ty_ind'; cbn [no_int_map]; intros Hn r Hr; cbn [alike]; try exact I; auto.
  - discriminate.
  - split; [intros H; destruct (Na _ Hr H)|]. destruct r; try exact I. apply Sa in Hr. rewrite allP_In in *. auto.
  - split; [apply Na; exact Hr|]. destruct r as [| | | |l|]; try exact I. apply Sa in Hr. revert l Hr. induction ts as [|u ts IHts]; intros [|x l] Hr; try exact I.
    inversion IH as [|? ? I1 I2]; subst. destruct Hn as [N1 N2]. destruct Hr as [R1 R2]. split; [apply I1; assumption|exact (IHts I2 N2 l R2)].
  - destruct r; try exact I. apply So in Hr. rewrite allP_In in *. intros [k x] Hx. specialize (Hr _ Hx). cbn beta iota in Hr. auto.
  - split; [apply Na; exact Hr|]. destruct r as [| | | |l|l]; try exact I.
    + apply Sa in Hr. revert l Hr. induction fs as [|[f u] fs IHfs]; intros [|x l] Hr; try exact I. inversion IH as [|? ? I1 I2]; subst. destruct Hn as [N1 N2]. destruct Hr as [R1 R2]. split; [apply I1; assumption|exact (IHfs I2 N2 l R2)].
    + apply So in Hr. induction fs as [|[f u] fs IHfs]; [exact I|]. inversion IH as [|? ? I1 I2]; subst. destruct Hn as [N1 N2]. split; [|exact (IHfs I2 N2)].
      rewrite allP_In in *. intros [k x] Hx _. specialize (Hr _ Hx). cbn beta iota in Hr. apply I1; [exact N1|exact Hr].
  - destruct r as [| | | | |[|[k x] [|]]]; try exact I. apply So in Hr. destruct Hr as [Hr _]. induction vs as [|[n [tag u]] vs IHvs]; [exact I|]. inversion IH as [|? ? I1 I2]; subst. destruct Hn as [N1 N2]. split; [|exact (IHvs I2 N2)].
    intros _. destruct tag; [discriminate|exact (I1 N1 x Hr)|split; [apply Na; exact Hr|exact (I1 N1 x Hr)]|exact (I1 N1 x Hr)].
  - contradiction.
Qed.

(** ** Two packets *)
Lemma wlist_nth bin l : forall n ts i v, Wlist bin n l ts -> nth_error l i = Some v ->
  exists t, nth_error ts i = Some t /\ W bin (n + length (flat_map blobs (firstn i l))) v t.
Proof.
  induction l as [|w l IH]; intros n ts i v H Hi; [destruct i; discriminate|]. inversion H as [|? ? ? t ts' H1 H2]; subst. destruct i as [|i].
  - injection Hi as <-. exists t. split; [reflexivity|]. cbn. rewrite Nat.add_0_r. exact H1.
  - destruct (IH _ _ i v H2 Hi) as (t' & Et & Hw). exists t'. split; [exact Et|]. cbn [firstn flat_map]. rewrite app_length, Nat.add_assoc. exact Hw.
Qed.
Lemma blobs_at l : forall i v, nth_error l i = Some v -> covers (flat_map blobs l) (length (flat_map blobs (firstn i l))) (blobs v) /\
  length (flat_map blobs (firstn i l)) + length (blobs v) <= length (flat_map blobs l).
Proof.
  induction l as [|w l IH]; intros i v Hi; [destruct i; discriminate|]. destruct i as [|i].
  - injection Hi as <-. cbn [firstn flat_map length]. rewrite app_length. split; [|lia]. intros j b Hj. rewrite nth_error_app1; [exact Hj|]. apply nth_error_Some. cbn [plus]. congruence.
  - destruct (IH i v Hi) as [H1 H2]. cbn [firstn flat_map]. rewrite !app_length. split; [|lia]. intros j b Hj.
    rewrite nth_error_app2 by lia. replace (_ + _ + j - length (blobs w)) with (length (flat_map blobs (firstn i l)) + j) by lia. apply H1. exact Hj.
Qed.
Section Packets.
Variables (src : source) (ns : bytes) (args : list sval).
Hypothesis Hm : either_mode src ns args.
Let l := kept (all_args src args).
Lemma mode_count bin : (N.of_nat (length (out_blobs bin (all_args src args))) <= u64_max)%N.
Proof. destruct Hm as (_ & _ & _ & _ & Hc & _). destruct bin; [exact Hc|cbn; unfold u64_max; lia]. Qed.
Lemma mode_args bin h fs p : opened h -> ~ closed h -> build src ns bin args = Some fs -> arrives h fs p ->
  exists texts d a, written bin l texts /\ packet_data p = Some d /\ data_args d = Some a /\ args_view a = Some (texts, out_blobs bin (all_args src args)).
Proof.
  destruct Hm as (Hns & Hid & Hst & Hu & _ & _). intros Ho Hc Hbuild Hp.
  destruct (build_shape src ns bin args) as (ts & E & W). rewrite E in Hbuild. injection Hbuild as <-.
  pose proof (usable_kept _ Hu) as [Hval _]. pose proof (mode_count bin) as Hcount.
  apply arrives_received in Hp; [|assumption|assumption].
  destruct (packet_only src ns bin args ts Hns Hid Hst Hcount (packet_trees src bin args ts Hval W) W p Hp) as [_ V].
  destruct (view_data _ _ V) as (_ & d & Hd & Hv). cbn [v_kind v_id v_args v_atts] in Hv. exists ts, d.
  destruct src as [e j|j], d as [| |j' a'|j' a']; cbn [src_kind] in Hv; try discriminate; try (destruct Hv as [Hv0 _]; discriminate);
    exists a'; (split; [exact W|]; split; [exact Hd|]; split; [reflexivity|]; apply Hv).
Qed.
Lemma mode_good v : In v l -> good v /\ nesting v < 128 /\ json_of v <> None.
Proof.
  intros H. apply filter_In in H as [H Hse]. destruct Hm as (_ & _ & _ & Hu & _ & Hx). unfold usable in Hu. rewrite Forall_forall in Hu, Hx.
  destruct (Hu v H Hse) as [H1 H2]. destruct (Hx v H Hse) as [H3 H4]. split; [split; [exact H1|split; assumption]|]. split; [exact H2|].
  unfold serialises in Hse. destruct (json_of v); congruence.
Qed.
(** The two forms of an argument. *)
Lemma mode_pair pt pb i gt gb : sent_both src ns args pt pb -> argument pt i gt -> argument pb i gb ->
  exists v A bl rb rt y, made_from src args i v /\ gt = Arg (g_text gt) [] /\ gb = Arg (g_text gb) A /\ contents A = Some bl /\
    jvalue rb (g_text gb) /\ jvalue rt (g_text gt) /\ spelt bl rb rt /\ (A = [] -> gb = gt) /\ (~ is_blob v -> not_attached rb) /\
    arg_deserialize TyValue gt = Ok y /\ (blobs v = [] -> g_text gb = g_text gt).
Proof.
  intros [(h & fs & Ho & Hc & Hb & Hp) (h' & fs' & Ho' & Hc' & Hb' & Hp')] (dt & at_ & Ed & Ea & Eg) (db & ab & Ed' & Ea' & Eg').
  destruct (mode_args false h fs pt Ho Hc Hb Hp) as (tts & d & a & Wt & F1 & F2 & Vt). rewrite Ed in F1. injection F1 as <-. rewrite Ea in F2. injection F2 as <-.
  destruct (mode_args true h' fs' pb Ho' Hc' Hb' Hp') as (tbs & d & a & Wb & F1 & F2 & Vb). rewrite Ed' in F1. injection F1 as <-. rewrite Ea' in F2. injection F2 as <-.
  destruct (args_view_accessors _ _ _ Vt) as (_ & Gt & _ & At). destruct (args_view_accessors _ _ _ Vb) as (_ & Gb & _ & Ab).
  rewrite Gt in Eg. rewrite Gb in Eg'. apply written_list in Wt. apply written_list in Wb.
  destruct (nth_error tts i) as [tt|] eqn:Ett; [|discriminate]. destruct (nth_error tbs i) as [tb|] eqn:Etb; [|discriminate].
  injection Eg as <-. injection Eg' as <-. cbn [g_text].
  assert (exists v, nth_error l i = Some v) as [v Ev].
  { destruct (nth_error l i) eqn:E; [eauto|]. apply nth_error_None in E. assert (length tts = length l).
    { apply written_list in Wt. apply (written_facts _ _ _ Wt). } assert (i < length tts) by (apply nth_error_Some; congruence). lia. }
  destruct (wlist_nth _ _ _ _ i v Wt Ev) as (t1 & E1 & HT). rewrite Ett in E1. injection E1 as <-.
  destruct (wlist_nth _ _ _ _ i v Wb Ev) as (t2 & E2 & HB). rewrite Etb in E2. injection E2 as <-.
  destruct (mode_good v (nth_error_In _ _ Ev)) as (Hg & Hd & Hj). destruct (blobs_at l i v Ev) as [Hcv Hle].
  pose proof (mode_count true) as Hcount. cbn [out_blobs] in Hcount. unfold out_blobs in Ab. fold l in Ab, Hcount.
  destruct (modes_all (flat_map blobs l) v Hg _ _ _ _ HB HT Hcv ltac:(cbn [plus]; lia)) as (rb & rt & Jb & Jt & Hs & E & Hn).
  assert (HTv : exists y, arg_deserialize TyValue (Arg tt []) = Ok y).
  { destruct HT as (_ & _ & _ & _ & H5). destruct (H5 eq_refl (proj1 Hg)) as (_ & r & x & _ & J & V). exists (XValue x).
    rewrite (arg_none TyValue tt r J). cbn [de_plain]. rewrite V by exact Hd. reflexivity. }
  destruct HTv as [y Hy]. cbn [out_blobs] in At. assert (E0 : a_attachments at_ = []) by (apply atts_nil; exact At). rewrite E0.
  exists v, (a_attachments ab), (flat_map blobs l), rb, rt, y. split; [exact Ev|]. split; [reflexivity|]. split; [reflexivity|]. split; [exact Ab|].
  split; [exact Jb|]. split; [exact Jt|]. split; [exact Hs|]. split; [|split; [exact Hn|split; [exact Hy|exact E]]].
  intros EA. rewrite EA in *. unfold contents in Ab. cbn in Ab. injection Ab as Ab. rewrite E; [reflexivity|].
  destruct (blobs v) as [|b bs] eqn:Eb; [reflexivity|]. exfalso. rewrite <- Ab in Hle. cbn in Hle. lia.
Qed.
Lemma mode_same_arguments pt pb i : sent_both src ns args pt pb -> (exists g, argument pt i g) <-> (exists g, argument pb i g).
Proof.
  intros [(h & fs & Ho & Hc & Hb & Hp) (h' & fs' & Ho' & Hc' & Hb' & Hp')].
  assert (G : forall bin p h fs, opened h -> ~ closed h -> build src ns bin args = Some fs -> arrives h fs p -> (exists g, argument p i g) <-> i < length l).
  { clear -Hm. intros bin p h fs Ho Hc Hb Hp. destruct (mode_args bin h fs p Ho Hc Hb Hp) as (ts & d & a & Wt & F1 & F2 & V).
    destruct (args_view_accessors _ _ _ V) as (_ & G & _ & _). rewrite <- (proj2 (proj2 (written_facts _ _ _ Wt))). rewrite <- nth_error_Some. split.
    - intros (g & d' & a' & K1 & K2 & K3). rewrite F1 in K1. injection K1 as <-. rewrite F2 in K2. injection K2 as <-. rewrite G in K3. destruct (nth_error ts i); [discriminate|discriminate].
    - intros H. destruct (nth_error ts i) as [t|] eqn:E; [|congruence]. eexists _, d, a. split; [exact F1|]. split; [exact F2|]. rewrite G, E. reflexivity. }
  rewrite (G false pt h fs), (G true pb h' fs') by assumption. reflexivity.
Qed.
Variables (pt pb : packet) (i : nat) (gt gb : arg_t).
Hypothesis Hboth : sent_both src ns args pt pb.
Hypothesis Ht : argument pt i gt.
Hypothesis Hb : argument pb i gb.
Lemma C86_untagged_lemma alts x : arg_enum (Untagged alts) gt = Ok x <-> arg_enum (Untagged alts) gb = Ok x.
Proof.
  destruct (mode_pair pt pb i gt gb Hboth Ht Hb) as (v & A & bl & rb & rt & y & _ & Et & Eb & Hbl & Jb & Jt & Hs & E & _).
  destruct A as [|s A]; [rewrite E by reflexivity; reflexivity|]. rewrite Et, Eb. symmetry. eapply untagged_spelt; [exact Jb|discriminate|exact Hbl|exact Hs|exact Jt].
Qed.
Lemma C86_tagged_lemma tag alts x : (forall v, made_from src args i v -> ~ is_blob v) -> arg_enum (Tagged tag alts) gt = Ok x <-> arg_enum (Tagged tag alts) gb = Ok x.
Proof.
  intros Hn. destruct (mode_pair pt pb i gt gb Hboth Ht Hb) as (v & A & bl & rb & rt & y & Hv & Et & Eb & Hbl & Jb & Jt & Hs & E & Hna & _).
  destruct A as [|s A]; [rewrite E by reflexivity; reflexivity|]. rewrite Et, Eb. symmetry. eapply tagged_spelt; [exact Jb|exact (Hna (Hn v Hv))|discriminate|exact Hbl|exact Hs|exact Jt].
Qed.
Lemma C86_type_lemma t x : nothing_special t gb -> arg_deserialize t gt = Ok x <-> arg_deserialize t gb = Ok x.
Proof.
  intros [Hi Ha]. destruct (mode_pair pt pb i gt gb Hboth Ht Hb) as (v & A & bl & rb & rt & y & Hv & Et & Eb & Hbl & Jb & Jt & Hs & E & Hna & Hy & _).
  destruct A as [|s A]; [rewrite E by reflexivity; reflexivity|]. specialize (Ha rb Jb). rewrite Et in Hy. rewrite Et, Eb.
  eapply type_modes; [discriminate|exact Hbl|exact Jb|exact Jt|exact Hs|exact Hy|exact Hi|exact Ha].
Qed.
Lemma C86_bytesless_lemma t x v : made_from src args i v -> blobs v = [] -> no_int_map t -> arg_deserialize t gt = Ok x <-> arg_deserialize t gb = Ok x.
Proof.
  intros Hv He Hi. apply C86_type_lemma. split; [exact Hi|]. intros r Jr.
  destruct (mode_pair pt pb i gt gb Hboth Ht Hb) as (v' & A & bl & rb & rt & y & Hv' & Et & Eb & Hbl & Jb & Jt & Hs & E & Hna & Hy & Ex).
  unfold made_from in Hv, Hv'. rewrite Hv in Hv'. injection Hv' as <-. rewrite (Ex He) in Jb, Jr.
  apply (spelt_same_alike bl); [exact Hi|]. rewrite (jvalue_unique _ _ _ Jr Jt). rewrite (jvalue_unique _ _ _ Jb Jt) in Hs. exact Hs.
Qed.
Lemma C86_flat_lemma own ps x : nothing_special (TyStruct own) gb -> arg_flat own ps gt = Ok x <-> arg_flat own ps gb = Ok x.
Proof.
  intros Hsp. pose proof (fun u => C86_type_lemma (TyStruct own) u Hsp) as Hown.
  destruct (mode_pair pt pb i gt gb Hboth Ht Hb) as (v & A & bl & rb & rt & y & Hv & Et & Eb & Hbl & Jb & Jt & Hs & E & Hna & Hy & _).
  destruct A as [|s A]; [rewrite E by reflexivity; reflexivity|]. rewrite Et in Hown. rewrite Eb in Hown. rewrite Et, Eb.
  destruct Hs as [r Hx|lb lt HF|lb b Hst|lb lt Ho HF].
  - split; intros H; [apply (flat_only_objects _ _ _ _ _ _ Jt) in H|apply (flat_only_objects _ _ _ _ _ _ Jb) in H];
      destruct H as (l0 & El & _); rewrite El in Hx; contradiction.
  - split; intros H; [apply (flat_only_objects _ _ _ _ _ _ Jt) in H|apply (flat_only_objects _ _ _ _ _ _ Jb) in H];
      destruct H as (l0 & El & _); discriminate.
  - split; intros H; [apply (flat_only_objects _ _ _ _ _ _ Jt) in H|apply (flat_only_objects _ _ _ _ _ _ Jb) in H];
      destruct H as (l0 & El & Hat); [discriminate|]. exfalso. apply Hat. destruct Hst as (f0 & z & k & -> & _). split; reflexivity.
  - eapply flat_modes; [discriminate|exact Hbl|exact Jb|exact Jt|exact Ho|exact HF|exact Hown].
Qed.
End Packets.
