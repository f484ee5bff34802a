(** The parts of what the two writers write, in one notation for both modes (used for C52). *)
From Verif Require Export DeliverProofs SpecTyped CharProofs.

(** ** Maps in key order *)
Section Order.
Context {A : Type}.
Implicit Types (m : list (bytes * A)).
Lemma insert_in k (v : A) m p : In p (obj_insert k v m) -> p = (k, v) \/ (In p m).
Proof.
  induction m as [|[k' v'] m IH]; cbn [obj_insert]; [intros [H|[]]; auto|].
  destruct (bytes_eqb k k'); [cbn; intuition|]. destruct (bytes_ltb k k'); cbn; intuition.
Qed.
Lemma insert_fresh k (v : A) m : ~ In k (map fst m) -> Permutation ((k, v) :: m) (obj_insert k v m).
Proof.
  induction m as [|[k' v'] m IH]; cbn [obj_insert map fst In]; intros H; [reflexivity|].
  destruct (bytes_eqb k k') eqn:E; [apply bytes_eqb_eq in E; subst; tauto|].
  destruct (bytes_ltb k k'); [reflexivity|]. rewrite perm_swap. constructor. apply IH. tauto.
Qed.
Lemma insert_order k (v : A) m : in_key_order m -> in_key_order (obj_insert k v m).
Proof.
  unfold in_key_order. induction 1 as [|[k' v'] m Hm IH Hf]; cbn [obj_insert]; [repeat constructor|].
  destruct (bytes_eqb k k') eqn:E.
  - apply bytes_eqb_eq in E. subst k'. constructor; assumption.
  - destruct (bytes_ltb k k') eqn:L.
    + constructor; [constructor; assumption|]. constructor; [exact L|]. eapply Forall_impl; [|exact Hf]. cbn. intros [a b] H.
      eapply bytes_ltb_trans; eauto.
    + constructor; [exact IH|]. apply Forall_forall. intros p Hp. apply insert_in in Hp as [-> |Hp].
      * cbn. destruct (bytes_ltb k' k) eqn:L'; [reflexivity|]. apply bytes_eqb_neq in E. exfalso. apply E. apply bytes_ltb_total; assumption.
      * rewrite Forall_forall in Hf. apply Hf. exact Hp.
Qed.
Lemma order_unique m : forall m', in_key_order m -> in_key_order m' -> Permutation m m' -> m = m'.
Proof.
  unfold in_key_order. induction m as [|p m IH]; intros m' H H' P; [symmetry; apply Permutation_nil; exact P|].
  destruct m' as [|q m']; [apply Permutation_sym, Permutation_nil in P; discriminate|].
  apply StronglySorted_inv in H as [H Hf]. apply StronglySorted_inv in H' as [H' Hf']. rewrite Forall_forall in Hf, Hf'.
  assert (p = q) as ->.
  { assert (Hp : In p (q :: m')) by (eapply Permutation_in; [exact P|left; reflexivity]).
    assert (Hq : In q (p :: m)) by (eapply Permutation_in; [apply Permutation_sym; exact P|left; reflexivity]).
    destruct Hp as [|Hp]; [auto|]. destruct Hq as [|Hq]; [auto|]. exfalso.
    pose proof (bytes_ltb_trans _ _ _ (Hf _ Hq) (Hf' _ Hp)) as X. rewrite bytes_ltb_irrefl in X. discriminate. }
  f_equal. apply IH; auto. eapply Permutation_cons_inv; eauto.
Qed.
Lemma inserted_order m' : forall acc, in_key_order acc -> in_key_order (fold_left (fun a kv => obj_insert (fst kv) (snd kv) a) m' acc).
Proof. induction m' as [|[k v] m' IH]; intros acc H; [exact H|]. cbn. apply IH. apply insert_order. exact H. Qed.
Lemma inserted_perm m' : forall acc, NoDup (map fst (m' ++ acc)) ->
  Permutation (m' ++ acc) (fold_left (fun a kv => obj_insert (fst kv) (snd kv) a) m' acc).
Proof.
  induction m' as [|[k v] m' IH]; intros acc H; [reflexivity|]. cbn [fold_left fst snd app map] in *.
  inversion H as [|? ? Hk Hn]; subst.
  assert (P : Permutation (m' ++ obj_insert k v acc) ((k, v) :: m' ++ acc)).
  { rewrite <- (insert_fresh k v acc); [symmetry; apply Permutation_middle|]. intros X. apply Hk. rewrite map_app. apply in_app_iff. auto. }
  rewrite <- IH; [symmetry; exact P|]. eapply Permutation_NoDup; [apply Permutation_map, Permutation_sym; exact P|]. cbn. constructor; assumption.
Qed.
Lemma order_nodup m : in_key_order m -> NoDup (map fst m).
Proof.
  unfold in_key_order. induction 1 as [|[k v] m Hm IH Hf]; cbn; constructor; [|exact IH].
  intros X. apply in_map_iff in X as ([k' v'] & E & Hin). rewrite Forall_forall in Hf. apply Hf in Hin. cbn in *. subst.
  rewrite bytes_ltb_irrefl in Hin. discriminate.
Qed.
Lemma collected m m' : in_key_order m -> Permutation m m' -> fold_left (fun a kv => obj_insert (fst kv) (snd kv) a) m' [] = m.
Proof.
  intros H P. symmetry. apply order_unique; [exact H|apply inserted_order; constructor|].
  rewrite <- (inserted_perm m' []); [rewrite app_nil_r; exact P|]. rewrite app_nil_r.
  eapply Permutation_NoDup; [apply Permutation_map; exact P|]. apply order_nodup. exact H.
Qed.
End Order.
Section IntOrder.
Context {A : Type}.
Implicit Types (m : list (Z * A)).
Lemma int_insert_in k (v : A) m p : In p (int_insert k v m) -> p = (k, v) \/ (In p m).
Proof.
  induction m as [|[k' v'] m IH]; cbn [int_insert]; [intros [H|[]]; auto|].
  destruct (k =? k')%Z; [cbn; intuition|]. destruct (k <? k')%Z; cbn; intuition.
Qed.
Lemma int_insert_fresh k (v : A) m : ~ In k (map fst m) -> Permutation ((k, v) :: m) (int_insert k v m).
Proof.
  induction m as [|[k' v'] m IH]; cbn [int_insert map fst In]; intros H; [reflexivity|].
  destruct (Z.eqb_spec k k') as [E|E]; [subst; tauto|].
  destruct (k <? k')%Z; [reflexivity|]. rewrite perm_swap. constructor. apply IH. tauto.
Qed.
Lemma int_insert_order k (v : A) m : in_int_order m -> in_int_order (int_insert k v m).
Proof.
  unfold in_int_order. induction 1 as [|[k' v'] m Hm IH Hf]; cbn [int_insert]; [repeat constructor|].
  destruct (Z.eqb_spec k k') as [E|E].
  - subst k'. constructor; assumption.
  - destruct (Z.ltb_spec k k') as [L|L].
    + constructor; [constructor; assumption|]. constructor; [exact L|]. eapply Forall_impl; [|exact Hf]. cbn. intros [a b] H. cbn in *. lia.
    + constructor; [exact IH|]. apply Forall_forall. intros p Hp. apply int_insert_in in Hp as [-> |Hp].
      * cbn. lia.
      * rewrite Forall_forall in Hf. apply Hf. exact Hp.
Qed.
Lemma int_order_unique m : forall m', in_int_order m -> in_int_order m' -> Permutation m m' -> m = m'.
Proof.
  unfold in_int_order. induction m as [|p m IH]; intros m' H H' P; [symmetry; apply Permutation_nil; exact P|].
  destruct m' as [|q m']; [apply Permutation_sym, Permutation_nil in P; discriminate|].
  apply StronglySorted_inv in H as [H Hf]. apply StronglySorted_inv in H' as [H' Hf']. rewrite Forall_forall in Hf, Hf'.
  assert (p = q) as ->.
  { assert (Hp : In p (q :: m')) by (eapply Permutation_in; [exact P|left; reflexivity]).
    assert (Hq : In q (p :: m)) by (eapply Permutation_in; [apply Permutation_sym; exact P|left; reflexivity]).
    destruct Hp as [|Hp]; [auto|]. destruct Hq as [|Hq]; [auto|]. exfalso.
    pose proof (Hf _ Hq). pose proof (Hf' _ Hp). lia. }
  f_equal. apply IH; auto. eapply Permutation_cons_inv; eauto.
Qed.
Lemma int_inserted_order m' : forall acc, in_int_order acc -> in_int_order (fold_left (fun a kv => int_insert (fst kv) (snd kv) a) m' acc).
Proof. induction m' as [|[k v] m' IH]; intros acc H; [exact H|]. cbn. apply IH. apply int_insert_order. exact H. Qed.
Lemma int_inserted_perm m' : forall acc, NoDup (map fst (m' ++ acc)) ->
  Permutation (m' ++ acc) (fold_left (fun a kv => int_insert (fst kv) (snd kv) a) m' acc).
Proof.
  induction m' as [|[k v] m' IH]; intros acc H; [reflexivity|]. cbn [fold_left fst snd app map] in *.
  inversion H as [|? ? Hk Hn]; subst.
  assert (P : Permutation (m' ++ int_insert k v acc) ((k, v) :: m' ++ acc)).
  { rewrite <- (int_insert_fresh k v acc); [symmetry; apply Permutation_middle|]. intros X. apply Hk. rewrite map_app. apply in_app_iff. auto. }
  rewrite <- IH; [symmetry; exact P|]. eapply Permutation_NoDup; [apply Permutation_map, Permutation_sym; exact P|]. cbn. constructor; assumption.
Qed.
Lemma int_order_nodup m : in_int_order m -> NoDup (map fst m).
Proof.
  unfold in_int_order. induction 1 as [|[k v] m Hm IH Hf]; cbn; constructor; [|exact IH].
  intros X. apply in_map_iff in X as ([k' v'] & E & Hin). rewrite Forall_forall in Hf. apply Hf in Hin. cbn in *. lia.
Qed.
Lemma int_collected m m' : in_int_order m -> Permutation m m' -> fold_left (fun a kv => int_insert (fst kv) (snd kv) a) m' [] = m.
Proof.
  intros H P. symmetry. apply int_order_unique; [exact H|apply int_inserted_order; constructor|].
  rewrite <- (int_inserted_perm m' []); [rewrite app_nil_r; exact P|]. rewrite app_nil_r.
  eapply Permutation_NoDup; [apply Permutation_map; exact P|]. apply int_order_nodup. exact H.
Qed.
End IntOrder.

(** ** Parts of a written value *)
Definition W (bin : bool) (n : nat) (v : sval) (t : bytes) : Prop :=
  if bin then bwr v n t (map frame (blobs v)) OOk else wr v t OOk.
Inductive Wlist (bin : bool) : nat -> list sval -> list bytes -> Prop :=
| Wl_nil n : Wlist bin n [] []
| Wl_cons n v l t ts : W bin n v t -> Wlist bin (n + length (blobs v)) l ts -> Wlist bin n (v :: l) (t :: ts).
Inductive Wents (bin : bool) : nat -> list (sval * sval) -> list bytes -> Prop :=
| We_nil n : Wents bin n [] []
| We_cons n k v l kt t ts : key_text k = Some kt -> W bin n v t -> Wents bin (n + length (blobs v)) l ts ->
    Wents bin n ((k, v) :: l) ((kt ++ ":"%byte :: t) :: ts).

Lemma W_written bin l : forall n ts, Wlist bin n l ts <-> (if bin then blist n l ts else Forall2 (fun v t => wr v t OOk) l ts).
Proof.
  destruct bin; intros n ts.
  - split; induction 1; constructor; auto.
  - split.
    + induction 1; constructor; auto.
    + intros H. revert n. induction H; intros n; constructor; auto.
Qed.
Lemma written_list bin l ts : written bin l ts <-> Wlist bin 0 l ts.
Proof. symmetry. apply W_written. Qed.

Lemma W_json bin n v t : W bin n v t -> json_of v <> None.
Proof. destruct bin; intros H; apply H; reflexivity. Qed.
(** The text is determined by the writer. *)
Definition blank (n : nat) : wst := ([], repeat (WText []) n).
Lemma blank_length n : length (snd (blank n)) = n. Proof. apply repeat_length. Qed.
Lemma W_text bin n v t : W bin n v t ->
  if bin then fst (fst (wrap_ser v (blank n))) = t else fst (json_ser v []) = t.
Proof.
  destruct bin; intros [H _].
  - rewrite H by apply blank_length. reflexivity.
  - rewrite H. reflexivity.
Qed.
Lemma W_leaf bin n v t t0 : (forall o, json_ser v o = (o ++ t0, OOk)) -> (forall s, wrap_ser v s = (wput t0 s, OOk)) ->
  W bin n v t -> t = t0.
Proof. intros H1 H2 H. apply W_text in H. destruct bin; [rewrite H2 in H|rewrite H1 in H]; cbn in H; congruence. Qed.
Lemma W_exists bin n v : json_of v <> None -> exists t, W bin n v t.
Proof.
  intros Hj. destruct bin.
  - destruct (binary_writer_ok v n) as (t & atts & oc & H). pose proof H as (_ & _ & Ho & Ha & _).
    apply Ho in Hj. subst oc. exists t. rewrite (Ha eq_refl) in H. exact H.
  - destruct (writer_ok v) as (t & oc & H). pose proof H as (_ & _ & Ho & _). apply Ho in Hj. subst oc. exists t. exact H.
Qed.
Lemma W_array bin n v l t : (forall o, json_ser v o = ser_array l o) -> (bin = true -> forall s, wrap_ser v s = wser_array l s) ->
  (json_of v <> None -> all_some (map json_of l) <> None) -> W bin n v t ->
  exists ts, t = "["%byte :: seps true ts ++ ["]"%byte] /\ Wlist bin n l ts.
Proof.
  intros H1 H2 Hj H. pose proof (Hj (W_json _ _ _ _ H)) as Hs. apply W_text in H. destruct bin.
  - destruct (belems_ok l ltac:(apply Forall_forall; intros; apply binary_writer_ok) true n) as (t' & atts & oc & E & Hp & Ho & Ht).
    apply Ho in Hs. subst oc. destruct (Ht eq_refl) as (_ & ts & -> & B). exists ts. split; [|apply W_written; exact B].
    rewrite H2 in H by reflexivity. unfold wser_array in H. rewrite (wobind_close (c := "]"%byte) E) in H by apply blank_length. cbn in H. congruence.
  - destruct (elems_wr l ltac:(apply Forall_forall; intros; apply writer_ok) true) as (t' & oc & E & Hp & Ho & Ht).
    apply Ho in Hs. subst oc. destruct (Ht eq_refl) as (ts & -> & B). exists ts. split; [|apply W_written; exact B].
    rewrite H1 in H. unfold ser_array in H. rewrite E in H. cbn in H. congruence.
Qed.
Lemma W_object bin n v l t : (forall o, json_ser v o = ser_object l o) -> (forall s, wrap_ser v s = wser_object l s) ->
  (json_of v <> None -> all_some (map entry_json l) <> None) -> W bin n v t ->
  exists ts, t = "{"%byte :: seps true ts ++ ["}"%byte] /\ Wents bin n l ts.
Proof.
  intros H1 H2 Hj H. pose proof (Hj (W_json _ _ _ _ H)) as Hs. apply W_text in H. destruct bin.
  - destruct (bentries_ok l ltac:(apply Forall_forall; intros; apply binary_writer_ok) true n) as (t' & atts & oc & E & Hp & Ho & Ht).
    apply Ho in Hs. subst oc. destruct (Ht eq_refl) as (_ & ts & -> & B). exists ts. split.
    + rewrite H2 in H by reflexivity. unfold wser_object in H. rewrite (wobind_close (c := "}"%byte) E) in H by apply blank_length. cbn in H. congruence.
    + clear - B. induction B; econstructor; eauto.
  - destruct (entries_wr l ltac:(apply Forall_forall; intros; apply writer_ok) true) as (t' & oc & E & Hp & Ho & Ht).
    apply Ho in Hs. subst oc. destruct (Ht eq_refl) as (ts & -> & B). exists ts. split.
    + rewrite H1 in H. unfold ser_object in H. rewrite E in H. cbn in H. congruence.
    + clear - B. revert n. induction B as [|[k v] m l ts (kt & s & t & Ek & _ & -> & Hv) B IH]; intros n; econstructor; eauto.
Qed.
Lemma W_variant bin n v m x t : (forall o, json_ser v o = ser_variant m (json_ser x) o) ->
  (forall s, wrap_ser v s = wser_variant m (wrap_ser x) s) -> (json_of v <> None -> json_of x <> None) -> W bin n v t ->
  exists t', t = "{"%byte :: json_str m ++ ":"%byte :: t' ++ ["}"%byte] /\ W bin n x t'.
Proof.
  intros H1 H2 Hj H. destruct (W_exists bin n x (Hj (W_json _ _ _ _ H))) as (t' & Hx). exists t'. split; [|exact Hx].
  apply W_text in H. destruct bin.
  - destruct Hx as [E _]. rewrite H2 in H. unfold wser_variant in H. rewrite (wobind_close (c := "}"%byte) E) in H by apply blank_length.
    cbn in H. rewrite <- H. unfold json_str. cbn [app]. rewrite <- ?app_assoc. reflexivity.
  - destruct Hx as [E _]. rewrite H1 in H. rewrite (variant_ser m _ t' OOk E) in H. cbn in H. rewrite <- H. unfold json_str. cbn [app]. rewrite <- ?app_assoc. cbn [app]. rewrite <- ?app_assoc. reflexivity.
Qed.
Lemma W_bytes n v b t : (forall s, wrap_ser v s = ((fst s ++ placeholder_text (length (snd s)), snd s ++ [frame b]), OOk)) ->
  W true n v t -> t = placeholder_text n.
Proof. intros H1 H. apply W_text in H. rewrite H1, blank_length in H. cbn [fst] in H. rewrite <- H. reflexivity. Qed.
