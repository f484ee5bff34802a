(** The callback table against its history. *)
From Verif Require Export SpecCallbacks BytesProofs.

Section Map.
  Context {K V : Type} (eqb : K -> K -> bool) (eqb_eq : forall a b, eqb a b = true <-> a = b).
  Lemma eqb_self k : eqb k k = true.
  Proof. apply eqb_eq. reflexivity. Qed.
  Lemma hget_remove k k' (m : hmap K V) : hget eqb k (hremove eqb k' m) = if eqb k k' then None else hget eqb k m.
  Proof.
    induction m as [|[k0 v] m IH]; cbn [hget hremove]; [destruct (eqb k k'); reflexivity|].
    destruct (eqb k' k0) eqn:E0.
    - rewrite IH. destruct (eqb k k') eqn:E; [reflexivity|]. apply eqb_eq in E0 as ->. rewrite E. reflexivity.
    - cbn [hget]. rewrite IH. destruct (eqb k k0) eqn:E1; [|reflexivity].
      destruct (eqb k k') eqn:E; [|reflexivity]. apply eqb_eq in E1, E. subst. rewrite eqb_self in E0. discriminate.
  Qed.
  Lemma hget_insert k k' v (m : hmap K V) : hget eqb k (hinsert eqb k' v m) = if eqb k k' then Some v else hget eqb k m.
  Proof. unfold hinsert. cbn [hget]. rewrite hget_remove. destruct (eqb k k'); reflexivity. Qed.
End Map.

Lemma bget_insert {V} k k' v (m : hmap bytes V) : hget bytes_eqb k (hinsert bytes_eqb k' v m) = if bytes_eqb k k' then Some v else hget bytes_eqb k m.
Proof. apply hget_insert. apply bytes_eqb_eq. Qed.
Lemma bget_remove {V} k k' (m : hmap bytes V) : hget bytes_eqb k (hremove bytes_eqb k' m) = if bytes_eqb k k' then None else hget bytes_eqb k m.
Proof. apply hget_remove. apply bytes_eqb_eq. Qed.
Lemma nget_insert {V} k k' v (m : hmap N V) : hget N.eqb k (hinsert N.eqb k' v m) = if N.eqb k k' then Some v else hget N.eqb k m.
Proof. apply hget_insert. apply N.eqb_eq. Qed.
Lemma nget_remove {V} k k' (m : hmap N V) : hget N.eqb k (hremove N.eqb k' m) = if N.eqb k k' then None else hget N.eqb k m.
Proof. apply hget_remove. apply N.eqb_eq. Qed.

(** What a table answers, field by field. *)
Definition ev_of (c : callbacks) ns ev := hget bytes_eqb ev (n_events (get_or_create_namespace c ns)).
Definition fb_of (c : callbacks) ns := n_fallback (get_or_create_namespace c ns).
Definition ack_of (c : callbacks) ns id := hget N.eqb id (n_acks (get_or_create_namespace c ns)).

Lemma get_event_of c ns ev : get_event c ns ev = match ev_of c ns ev with Some f => Some f | None => fb_of c ns end.
Proof. unfold get_event, ev_of, fb_of, get_or_create_namespace. destruct (hget bytes_eqb ns c); reflexivity. Qed.
Lemma take_ack_of c ns id : snd (get_and_clear_ack c ns id) = ack_of c ns id.
Proof. unfold get_and_clear_ack, ack_of, get_or_create_namespace. destruct (hget bytes_eqb ns c); reflexivity. Qed.

Lemma gcn_insert ns' n c ns : get_or_create_namespace (hinsert bytes_eqb ns' n c) ns = if bytes_eqb ns ns' then n else get_or_create_namespace c ns.
Proof. unfold get_or_create_namespace. rewrite bget_insert. destruct (bytes_eqb ns ns'); reflexivity. Qed.

(** Every operation changes one namespace. *)
Definition ns_of (o : cop) : bytes :=
  match o with
  | CSetEvent ns _ _ | CClearEvent ns _ | CSetFallback ns _ | CClearFallback ns | CSetAck ns _ _ | CTakeAck ns _ => ns
  end.
Definition ns_do (o : cop) (n : namespace_t) : namespace_t :=
  match o with
  | CSetEvent _ ev f => Namespace (n_fallback n) (hinsert bytes_eqb ev f (n_events n)) (n_acks n)
  | CClearEvent _ ev => Namespace (n_fallback n) (hremove bytes_eqb ev (n_events n)) (n_acks n)
  | CSetFallback _ f => Namespace (Some f) (n_events n) (n_acks n)
  | CClearFallback _ => Namespace None (n_events n) (n_acks n)
  | CSetAck _ id f => Namespace (n_fallback n) (n_events n) (hinsert N.eqb id f (n_acks n))
  | CTakeAck _ id => Namespace (n_fallback n) (n_events n) (hremove N.eqb id (n_acks n))
  end.
Lemma gcn_do c o ns : get_or_create_namespace (fst (do_op c o)) ns =
  if bytes_eqb ns (ns_of o) then ns_do o (get_or_create_namespace c ns) else get_or_create_namespace c ns.
Proof.
  destruct o as [ns' ev f|ns' ev|ns' f|ns'|ns' id f|ns' id]; cbn [do_op fst ns_of ns_do];
    unfold set_event, clear_event, set_fallback, clear_fallback, set_ack, get_and_clear_ack.
  all: try (rewrite gcn_insert; destruct (bytes_eqb ns ns') eqn:E; [apply bytes_eqb_eq in E as ->|]; reflexivity).
  all: destruct (hget bytes_eqb ns' c) as [n|] eqn:En; cbn [fst].
  all: try (rewrite gcn_insert; destruct (bytes_eqb ns ns') eqn:E; [apply bytes_eqb_eq in E as ->|]; [|reflexivity];
    unfold get_or_create_namespace; rewrite En; reflexivity).
  all: destruct (bytes_eqb ns ns') eqn:E; [apply bytes_eqb_eq in E as ->|]; [|reflexivity]; unfold get_or_create_namespace; rewrite En; reflexivity.
Qed.

Lemma ev_do c o ns ev : ev_of (fst (do_op c o)) ns ev =
  match o with
  | CSetEvent ns' ev' f => if bytes_eqb ns ns' && bytes_eqb ev ev' then Some f else ev_of c ns ev
  | CClearEvent ns' ev' => if bytes_eqb ns ns' && bytes_eqb ev ev' then None else ev_of c ns ev
  | _ => ev_of c ns ev
  end.
Proof.
  unfold ev_of. rewrite gcn_do. destruct o; cbn [ns_of ns_do]; destruct (bytes_eqb ns ns0); cbn [andb n_events]; try reflexivity.
  - apply bget_insert.
  - apply bget_remove.
Qed.
Lemma fb_do c o ns : fb_of (fst (do_op c o)) ns =
  match o with
  | CSetFallback ns' f => if bytes_eqb ns ns' then Some f else fb_of c ns
  | CClearFallback ns' => if bytes_eqb ns ns' then None else fb_of c ns
  | _ => fb_of c ns
  end.
Proof. unfold fb_of. rewrite gcn_do. destruct o; cbn [ns_of ns_do]; destruct (bytes_eqb ns ns0); reflexivity. Qed.
Lemma ack_do c o ns id : ack_of (fst (do_op c o)) ns id =
  match o with
  | CSetAck ns' id' f => if bytes_eqb ns ns' && (id =? id')%N then Some f else ack_of c ns id
  | CTakeAck ns' id' => if bytes_eqb ns ns' && (id =? id')%N then None else ack_of c ns id
  | _ => ack_of c ns id
  end.
Proof.
  unfold ack_of. rewrite gcn_do. destruct o; cbn [ns_of ns_do]; destruct (bytes_eqb ns ns0); cbn [andb n_acks]; try reflexivity.
  - apply nget_insert.
  - apply nget_remove.
Qed.

(** ** Histories *)
Lemma table_snoc h o : table_after (h ++ [o]) = fst (do_op (table_after h) o).
Proof. unfold table_after. rewrite fold_left_app. reflexivity. Qed.

Lemma last_of_nil P o : ~ last_of P o [].
Proof. intros (h1 & h2 & E & _). destruct h1; discriminate. Qed.
Lemma last_of_snoc P o h x : last_of P o (h ++ [x]) <-> (P x /\ o = x) \/ (~ P x /\ last_of P o h).
Proof.
  split.
  - intros (h1 & h2 & E & Ho & Hf). destruct h2 as [|y h2 _] using rev_ind.
    + apply app_inj_tail in E as [-> ->]. left. auto.
    + rewrite app_comm_cons, app_assoc in E. apply app_inj_tail in E as [-> ->]. apply Forall_app in Hf as [Hf Hx].
      inversion Hx; subst. right. split; [assumption|]. exists h1, h2. auto.
  - intros [[Hx ->]|[Hx (h1 & h2 & -> & Ho & Hf)]].
    + exists h, []. auto.
    + exists h1, (h2 ++ [x]). rewrite <- app_assoc. split; [reflexivity|]. split; [exact Ho|]. apply Forall_app. auto.
Qed.

Lemma same_key ns ns' ev ev' : bytes_eqb ns ns' && bytes_eqb ev ev' = true <-> ns = ns' /\ ev = ev'.
Proof. rewrite andb_true_iff, !bytes_eqb_eq. reflexivity. Qed.
Lemma same_id ns ns' id id' : bytes_eqb ns ns' && (id =? id')%N = true <-> ns = ns' /\ id = id'.
Proof. rewrite andb_true_iff, bytes_eqb_eq, N.eqb_eq. reflexivity. Qed.

Lemma event_exact h ns ev f : ev_of (table_after h) ns ev = Some f <-> event_callback_of h ns ev f.
Proof.
  unfold event_callback_of. induction h as [|o h IH] using rev_ind.
  { split; [discriminate|intros H; destruct (last_of_nil _ _ H)]. }
  rewrite table_snoc, ev_do, last_of_snoc. unfold on_event at 1 2.
  destruct o as [ns' ev' g|ns' ev'|ns' g|ns'|ns' id g|ns' id].
  1: destruct (bytes_eqb ns ns' && bytes_eqb ev ev') eqn:E; [apply same_key in E as [-> ->]|].
  - split.
    + intros [= ->]. left. split; [left; eauto|reflexivity].
    + intros [[_ [= ->]]|[H _]]; [reflexivity|]. destruct H. left. eauto.
  - rewrite IH. split.
    + intros H. right. split; [|exact H]. intros [[g' [= <- <- _]]|[=]]. rewrite !bytes_eqb_refl in E. discriminate.
    + intros [[_ [= -> -> ->]]|[_ H]]; [|exact H]. rewrite !bytes_eqb_refl in E. discriminate.
  - destruct (bytes_eqb ns ns' && bytes_eqb ev ev') eqn:E; [apply same_key in E as [-> ->]|].
    + split; [discriminate|]. intros [[_ [=]]|[H _]]. destruct H. right. reflexivity.
    + rewrite IH. split.
      * intros H. right. split; [|exact H]. intros [[g' [=]]|[= <- <-]]. rewrite !bytes_eqb_refl in E. discriminate.
      * intros [[_ [=]]|[_ H]]. exact H.
  - rewrite IH. split; [intros H; right; split; [intros [[g' [=]]|[=]]|exact H]|intros [[_ [=]]|[_ H]]; exact H].
  - rewrite IH. split; [intros H; right; split; [intros [[g' [=]]|[=]]|exact H]|intros [[_ [=]]|[_ H]]; exact H].
  - rewrite IH. split; [intros H; right; split; [intros [[g' [=]]|[=]]|exact H]|intros [[_ [=]]|[_ H]]; exact H].
  - rewrite IH. split; [intros H; right; split; [intros [[g' [=]]|[=]]|exact H]|intros [[_ [=]]|[_ H]]; exact H].
Qed.

Lemma fallback_exact h ns f : fb_of (table_after h) ns = Some f <-> fallback_of h ns f.
Proof.
  unfold fallback_of. induction h as [|o h IH] using rev_ind.
  { split; [discriminate|intros H; destruct (last_of_nil _ _ H)]. }
  rewrite table_snoc, fb_do, last_of_snoc. unfold on_fallback at 1 2.
  destruct o as [ns' ev' g|ns' ev'|ns' g|ns'|ns' id g|ns' id].
  - rewrite IH. split; [intros H; right; split; [intros [[g' [=]]|[=]]|exact H]|intros [[_ [=]]|[_ H]]; exact H].
  - rewrite IH. split; [intros H; right; split; [intros [[g' [=]]|[=]]|exact H]|intros [[_ [=]]|[_ H]]; exact H].
  - destruct (bytes_eqb ns ns') eqn:E; [apply bytes_eqb_eq in E as ->|].
    + split.
      * intros [= ->]. left. split; [left; eauto|reflexivity].
      * intros [[_ [= ->]]|[H _]]; [reflexivity|]. destruct H. left. eauto.
    + rewrite IH. split.
      * intros H. right. split; [|exact H]. intros [[g' [= <- _]]|[=]]. rewrite !bytes_eqb_refl in E. discriminate.
      * intros [[_ [= -> ->]]|[_ H]]; [|exact H]. rewrite !bytes_eqb_refl in E. discriminate.
  - destruct (bytes_eqb ns ns') eqn:E; [apply bytes_eqb_eq in E as ->|].
    + split; [discriminate|]. intros [[_ [=]]|[H _]]. destruct H. right. reflexivity.
    + rewrite IH. split.
      * intros H. right. split; [|exact H]. intros [[g' [=]]|[= <-]]. rewrite !bytes_eqb_refl in E. discriminate.
      * intros [[_ [=]]|[_ H]]. exact H.
  - rewrite IH. split; [intros H; right; split; [intros [[g' [=]]|[=]]|exact H]|intros [[_ [=]]|[_ H]]; exact H].
  - rewrite IH. split; [intros H; right; split; [intros [[g' [=]]|[=]]|exact H]|intros [[_ [=]]|[_ H]]; exact H].
Qed.

Lemma ack_exact h ns id f : ack_of (table_after h) ns id = Some f <-> awaiting h ns id f.
Proof.
  unfold awaiting. induction h as [|o h IH] using rev_ind.
  { split; [discriminate|intros H; destruct (last_of_nil _ _ H)]. }
  rewrite table_snoc, ack_do, last_of_snoc. unfold on_ack at 1 2.
  destruct o as [ns' ev' g|ns' ev'|ns' g|ns'|ns' id' g|ns' id'].
  1-4: (rewrite IH; split; [intros H; right; split; [intros [[g' [=]]|[=]]|exact H]|intros [[_ [=]]|[_ H]]; exact H]).
  - destruct (bytes_eqb ns ns' && (id =? id')%N) eqn:E; [apply same_id in E as [-> ->]|].
    + split.
      * intros [= ->]. left. split; [left; eauto|reflexivity].
      * intros [[_ [= ->]]|[H _]]; [reflexivity|]. destruct H. left. eauto.
    + rewrite IH. split.
      * intros H. right. split; [|exact H]. intros [[g' [= <- <- _]]|[=]]. rewrite bytes_eqb_refl, N.eqb_refl in E. discriminate.
      * intros [[_ [= -> -> ->]]|[_ H]]; [|exact H]. rewrite bytes_eqb_refl, N.eqb_refl in E. discriminate.
  - destruct (bytes_eqb ns ns' && (id =? id')%N) eqn:E; [apply same_id in E as [-> ->]|].
    + split; [discriminate|]. intros [[_ [=]]|[H _]]. destruct H. right. reflexivity.
    + rewrite IH. split.
      * intros H. right. split; [|exact H]. intros [[g' [=]]|[= <- <-]]. rewrite bytes_eqb_refl, N.eqb_refl in E. discriminate.
      * intros [[_ [=]]|[_ H]]. exact H.
Qed.

Lemma routing_exact h ns ev f : get_event (table_after h) ns ev = Some f <-> routed h ns ev f.
Proof.
  rewrite get_event_of. unfold routed. destruct (ev_of (table_after h) ns ev) as [g|] eqn:E.
  - apply event_exact in E. split.
    + intros [= ->]. left. exact E.
    + intros [H|[H _]]; [|destruct (H g E)]. apply event_exact in H, E. congruence.
  - rewrite fallback_exact. split.
    + intros H. right. split; [|exact H]. intros g Hg. apply event_exact in Hg. congruence.
    + intros [H|[_ H]]; [|exact H]. apply event_exact in H. congruence.
Qed.
Lemma take_exact h ns id f : snd (get_and_clear_ack (table_after h) ns id) = Some f <-> awaiting h ns id f.
Proof. rewrite take_ack_of. apply ack_exact. Qed.

(** What a callback is taken from: the last registration for that namespace and id. *)
Lemma take_has_source h j ns id f : nth_error h j = Some (CTakeAck ns id) ->
  snd (get_and_clear_ack (table_after (firstn j h)) ns id) = Some f ->
  exists i, nth_error h i = Some (CSetAck ns id f) /\ taken_from h i j.
Proof.
  intros Hj H. apply take_exact in H. destruct H as (h1 & h2 & E & Ho & Hf).
  assert (Hl : j < length h) by (apply nth_error_Some; congruence).
  assert (Lj : length (firstn j h) = j) by (rewrite firstn_length; lia).
  assert (L : j = length h1 + S (length h2)) by (rewrite E, app_length in Lj; cbn [length] in Lj; lia).
  assert (N : forall k, k < j -> nth_error h k = nth_error (firstn j h) k).
  { intros k Hk. rewrite <- (firstn_skipn j h) at 1. apply nth_error_app1. lia. }
  assert (Hi : nth_error h (length h1) = Some (CSetAck ns id f)).
  { rewrite N by lia. rewrite E, nth_error_app2, Nat.sub_diag by lia. reflexivity. }
  exists (length h1). split; [exact Hi|]. exists ns, id, f. repeat split; auto; try lia.
  - exists h1, h2. auto.
  - intros k o Hk Ek. rewrite N, E in Ek by lia. rewrite nth_error_app2 in Ek by lia.
    destruct (k - length h1) as [|k'] eqn:Ek'; [lia|]. cbn [nth_error] in Ek. apply nth_error_In in Ek.
    rewrite Forall_forall in Hf. auto.
Qed.
Lemma taken_once h i j j' : taken_from h i j -> taken_from h i j' -> j = j'.
Proof.
  intros (ns & id & f & Hi & Hj & Hij & _ & H) (ns' & id' & f' & Hi' & Hj' & Hij' & _ & H').
  rewrite Hi in Hi'. injection Hi' as <- <- <-. destruct (Nat.lt_trichotomy j j') as [L|[L|L]]; [|exact L|].
  - destruct (H' j _ (conj Hij L) Hj). right. reflexivity.
  - destruct (H j' _ (conj Hij' L) Hj'). right. reflexivity.
Qed.
Lemma one_source h i i' j : taken_from h i j -> taken_from h i' j -> i = i'.
Proof.
  intros (ns & id & f & Hi & Hj & Hij & _ & H) (ns' & id' & f' & Hi' & Hj' & Hij' & _ & H').
  rewrite Hj in Hj'. injection Hj' as <- <-. destruct (Nat.lt_trichotomy i i') as [L|[L|L]]; [|exact L|].
  - destruct (H i' _ (conj L Hij') Hi'). left. eauto.
  - destruct (H' i _ (conj L Hij) Hi). left. eauto.
Qed.
(** Operations elsewhere have no effect. *)
Lemma isolation h o ns : ns_of o <> ns ->
  (forall ev, get_event (table_after (h ++ [o])) ns ev = get_event (table_after h) ns ev) /\
  (forall id, snd (get_and_clear_ack (table_after (h ++ [o])) ns id) = snd (get_and_clear_ack (table_after h) ns id)).
Proof.
  intros Hn. assert (E : get_or_create_namespace (table_after (h ++ [o])) ns = get_or_create_namespace (table_after h) ns).
  { rewrite table_snoc, gcn_do. destruct (bytes_eqb ns (ns_of o)) eqn:E; [|reflexivity]. apply bytes_eqb_eq in E. congruence. }
  split; intros.
  - rewrite !get_event_of. unfold ev_of, fb_of. rewrite E. reflexivity.
  - rewrite !take_ack_of. unfold ack_of. rewrite E. reflexivity.
Qed.
