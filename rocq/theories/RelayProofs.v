(** Values that were received can be sent on, and arrive the same (C65). *)
From Verif Require Export SpecRelay RoundProofs ValueProofs Utf8Proofs.
From Coq Require Import Lia.

(** What every value that was read is like. *)
Fixpoint sound (v : value) : Prop :=
  match v with
  | VNum (NPos n) => (n <= u64_max)%N
  | VNum (NNeg z) => (- 2 ^ 63 <= z < 0)%Z
  | VArr l => allP sound l
  | VObj m => in_key_order m /\ allP (fun '(_, x) => sound x) m
  | _ => True
  end.
Lemma number_sound x y : number_means x y -> sound (VNum y).
Proof.
  intros [x' (_ & _ & H)|x' (_ & _ & H)|]; cbn [sound]; [|lia|exact I].
  unfold u64_max. change (2 ^ 64)%Z with 18446744073709551616%Z in H. lia.
Qed.
Lemma members_all {T} (P : bytes -> T -> Prop) ms m : map_of_members ms m -> allP (fun '(k, x) => P k x) ms -> allP (fun '(k, x) => P k x) m.
Proof.
  intros [_ H] A. rewrite allP_Forall, Forall_forall in *. intros [k x] Hi. apply H in Hi as (pre & post & -> & _). apply (A (k, x)). apply in_elt.
Qed.
Lemma means_sound : forall n r v, means n r v -> sound v.
Proof.
  fix IH 4. intros n r v H. destruct H as [n|n b|n x y Hy|n b s Hs|n l vs Hl|n l ms m Hf Hl Hm|n k b t r v Hk Hb Hd Hv]; try exact I.
  - exact (number_sound _ _ Hy).
  - cbn [sound]. induction Hl as [|x y l vs Hx Hl IHl]; cbn [allP]; [trivial|]. split; [exact (IH _ _ _ Hx)|exact IHl].
  - cbn [sound]. split; [apply sorted_iff; exact (proj1 Hm)|]. apply (members_all (fun _ x => sound x) ms m Hm).
    clear Hf Hm m. induction Hl as [|[k x] [k' y] l ms Hx Hl IHl]; cbn [allP]; [trivial|]. cbn [fst snd] in Hx. destruct Hx as [_ Hx]. split; [exact (IH _ _ _ Hx)|exact IHl].
  - exact (IH _ _ _ Hv).
Qed.
Lemma same_keys_order {A B} (R : A -> B -> Prop) (m : list (bytes * A)) (m' : list (bytes * B)) :
  Forall2 (fun a b => fst a = fst b /\ R (snd a) (snd b)) m m' -> in_key_order m -> in_key_order m'.
Proof.
  unfold in_key_order. intros F. induction F as [|[k x] [k' y] m m' [E _] F IH]; intros H; [constructor|]. cbn in E. subst k'.
  apply StronglySorted_inv in H as [H Hf]. constructor; [exact (IH H)|]. clear -F Hf. cbn [fst] in *.
  induction F as [|[k1 x1] [k2 y1] m m' [E _] F IH]; constructor; inversion Hf; subst; cbn in *; [congruence|auto].
Qed.
Lemma filled_sound bl : forall v v', filled bl v v' -> sound v -> sound v'.
Proof.
  fix IH 3. intros v v' H. destruct H as [|b|n|s|l l' Hl|m m' Hn Hl|m k b Hk Hg Hb]; cbn [sound]; auto.
  - induction Hl as [|x y l l' Hx Hl IHl]; cbn [allP]; [trivial|]. intros [B1 B2]. split; [exact (IH _ _ Hx B1)|exact (IHl B2)].
  - intros [Ho Hs]. split; [exact (same_keys_order _ _ _ Hl Ho)|]. clear Hn Ho. induction Hl as [|[k x] [k' y] l l' Hx Hl IHl]; cbn [allP]; [trivial|].
    cbn [fst snd] in Hx. destruct Hx as [_ Hx]. destruct Hs as [B1 B2]. split; [exact (IH _ _ Hx B1)|exact (IHl B2)].
  - intros _. unfold byte_array. cbn [sound]. rewrite allP_Forall. apply Forall_map. apply Forall_forall. intros c _. cbn [sound]. pose proof (bN_bound c). unfold u64_max. lia.
Qed.
Lemma received_sound v : received_value v -> sound v /\ all_strings valid_str v.
Proof.
  intros (m & t & l & g & Hm & Hl & Hc & Hg & Hv). split.
  - destruct (argument_value_exact m t l g Hm Hl Hg) as (r & bl & _ & _ & _ & E). destruct (proj1 (E v) Hv) as (v0 & M & D). apply means_sound in M.
    destruct D as [[_ ->]|[_ F]]; [exact M|exact (filled_sound _ _ _ F M)].
  - apply (all_strings_weaken characters); [intros s; apply utf8_characters|]. eapply argument_strings_valid; eauto.
Qed.

(** Writing it. *)
Lemma max_cons a l : SpecSer.list_max (a :: l) = Nat.max a (SpecSer.list_max l).
Proof. reflexivity. Qed.
Definition writable (v v' : value) : Prop :=
  value_ok v' /\ val_ok (value_writes v') /\ strs_ok (value_writes v') /\ nesting (value_writes v') = levels v /\
  sent (value_writes v') = value_writes v' /\ (unmarked v -> no_pkey (value_writes v')).
Lemma writable_arr l l' : Forall2 writable l l' -> writable (VArr l) (VArr l').
Proof.
  unfold writable. intros A. cbn [value_ok value_writes val_ok strs_ok nesting levels sent no_pkey].
  rewrite (proj2 (value_seq l')), !allP_Forall, !Forall_map, !map_map.
  split; [induction A; constructor; tauto|]. split; [induction A; constructor; tauto|]. split; [induction A; constructor; tauto|].
  split; [f_equal; induction A as [|x y l l' Hx A IHA]; [reflexivity|]; cbn [map]; rewrite !max_cons; destruct Hx as (_ & _ & _ & -> & _); rewrite IHA; reflexivity|].
  split; [f_equal; induction A as [|x y l l' Hx A IHA]; [reflexivity|]; cbn [map]; f_equal; [tauto|exact IHA]|].
  intros U. inversion U as [| | | |? U'|]; subst. clear U. induction A; constructor; inversion U'; subst; tauto.
Qed.
Lemma writable_obj m m' : Forall2 (fun a b => fst a = fst b /\ utf8_valid (fst a) = true /\ writable (snd a) (snd b)) m m' ->
  in_key_order m -> match m with (k, _) :: _ => k <> raw_token | [] => True end -> writable (VObj m) (VObj m').
Proof.
  unfold writable. intros A Hk Hf. apply (same_keys_order (fun _ _ => True) m m') in Hk; [|clear -A; induction A; constructor; tauto].
  cbn [value_ok value_writes val_ok strs_ok nesting levels sent no_pkey].
  rewrite !map_map, !allP_Forall, !Forall_map.
  split; [split; [exact Hk|clear -A; induction A as [|[k x] [k' y] m m' Hx A IHA]; constructor; cbn [fst snd] in *; tauto]|].
  split. { split; [destruct A as [|[k x] [k' y] m m' [E Hx] A]; [exact I|]; cbn in *; congruence|]. clear -A. induction A as [|[k x] [k' y] m m' Hx A IHA]; constructor; cbn [fst snd key_ok] in *; tauto. }
  split. { clear -A. induction A as [|[k x] [k' y] m m' Hx A IHA]; constructor; cbn [fst snd strs_ok] in *; [|tauto]. destruct Hx as (<- & Hx). tauto. }
  split. { f_equal. clear -A. induction A as [|[k x] [k' y] m m' Hx A IHA]; [reflexivity|]. cbn [map fst snd] in *. rewrite !max_cons. destruct Hx as (_ & _ & _ & _ & _ & -> & _). rewrite IHA. reflexivity. }
  split. { f_equal. clear -A. induction A as [|[k x] [k' y] m m' Hx A IHA]; [reflexivity|]. cbn [map fst snd sent] in *. f_equal; [|exact IHA]. f_equal. tauto. }
  intros U. inversion U as [| | | | |? Hn U']; subst. clear -A Hn U'. unfold has_pkey in Hn. induction A as [|[k x] [k' y] m m' Hx A IHA]; constructor; inversion U'; subst; cbn [fst snd key_of] in *.
  - destruct Hx as (<- & Hx). split; [|tauto]. intros [= ->]. apply Hn. cbn [map fst]. left. reflexivity.
  - apply IHA; [|assumption]. intros Hi. apply Hn. cbn [map]. right. exact Hi.
Qed.
Lemma reprints_writable : forall v v', reprints v v' -> sound v -> openly v -> all_strings valid_str v -> writable v v'.
Proof.
  fix IH 3. intros v v' H. destruct H as [|b|n|z|x y Hy|s|l l' Hl|m m' Hl]; cbn [sound openly all_strings]; intros Hs Ho Hv.
  - repeat split.
  - repeat split.
  - unfold writable. cbn [value_ok value_writes val_ok strs_ok nesting levels sent no_pkey]. repeat split; unfold u64_max in *; lia.
  - unfold writable. cbn [value_ok value_writes val_ok strs_ok nesting levels sent no_pkey]. repeat split; unfold u64_max; lia.
  - repeat split; apply Hy.
  - repeat split. exact Hv.
  - apply writable_arr. induction Hl as [|x y l l' Hx Hl IHl]; cbn [allP] in *; constructor; [apply (IH _ _ Hx); tauto|apply IHl; tauto].
  - destruct Hs as [Hk Hs], Ho as [Hf Ho]. apply writable_obj; try assumption. clear Hk Hf.
    induction Hl as [|[k x] [k' y] m m' Hx Hl IHl]; cbn [allP fst snd] in *; constructor; cbn [fst snd].
    + destruct Hx as [E Hx]. split; [exact E|]. split; [apply Hv|]. apply (IH _ _ Hx); tauto.
    + apply IHl; tauto.
Qed.

(** Sending it. *)
Lemma writable_values l l' : Forall2 writable l l' -> json_values (map value_writes l') = l' /\ kept (map value_writes l') = map value_writes l' /\
  map sent (map value_writes l') = map value_writes l' /\ flat_map blobs (map value_writes l') = [].
Proof.
  unfold json_values, kept, serialises. induction 1 as [|v v' l l' (H1 & _ & _ & _ & H2 & _) A (I1 & I2 & I3 & I4)]; [repeat split|].
  cbn [map flat_map filter]. rewrite (value_json v' H1), value_no_blobs, I1, I2, I3, I4, H2. repeat split.
Qed.
Lemma relay_arrives h src ns bin vs vs' fs : opened h -> ~ closed h -> ns_ok ns ->
  Forall received_value vs -> Forall relayable vs -> Forall2 reprints vs vs' -> relays src vs -> (bin = true -> Forall unmarked vs) ->
  build src ns bin (map value_writes vs') = Some fs ->
  (ns = bs "/" -> exists p, arrives h fs p) /\
  forall p, arrives h fs p -> carries p (src_kind src) ns (src_id src) (relayed src vs').
Proof.
  intros Ho Hc Hns Hv Hr Hp [Hid Hsrc] Hbin Hb.
  assert (A : Forall2 writable vs vs').
  { clear -Hv Hr Hp. induction Hp as [|v v' vs vs' Hx Hp IH]; [constructor|]. inversion Hv; inversion Hr; subst. constructor; [|auto].
    destruct (received_sound v) as [S1 S2]; [assumption|]. apply reprints_writable; try assumption. apply (proj1 (H5 : relayable v)). }
  assert (L : Forall (fun v => levels v <= 127) vs) by (clear -Hr; induction Hr as [|v l [_ H] Hr IH]; constructor; assumption).
  destruct (writable_values _ _ A) as (W1 & W2 & W3 & W4).
  assert (E : pkt_values bin (all_args src (map value_writes vs')) = relayed src vs').
  { unfold pkt_values. destruct src as [e i|i]; cbn [all_args relayed].
    - change (kept (SStr e :: map value_writes vs')) with (SStr e :: kept (map value_writes vs')). rewrite W2. cbn [map sent]. rewrite W3.
      destruct bin; change (json_values (SStr e :: map value_writes vs')) with (VStr e :: json_values (map value_writes vs')); rewrite W1; reflexivity.
    - rewrite W2, W3. destruct bin; exact W1. }
  assert (U : Forall (fun v => val_ok v /\ nesting v < 128) (map value_writes vs')).
  { clear -A L. induction A as [|v v' vs vs' (H1 & H2 & H3 & H4 & _) A IH]; inversion L; subst; constructor; auto. split; [exact H2|]. lia. }
  assert (N : bin = true -> Forall no_pkey (map value_writes vs')).
  { intros B. specialize (Hbin B). clear -A Hbin. induction A as [|v v' vs vs' (_ & _ & _ & _ & _ & H) A IH]; inversion Hbin; subst; constructor; auto. }
  destruct (arrives_exact h src ns bin (map value_writes vs') fs Ho Hc Hns Hid) as (a & _ & H1 & H2 & _); try assumption.
  - destruct src as [e i|i]; [exact I|]. destruct A as [|v v' ? ? (H & _) A]; [exact (Hsrc eq_refl)|]. cbn [starts map]. unfold serialises. rewrite (value_json _ H). reflexivity.
  - unfold usable. destruct src as [e i|i]; cbn [all_args]; [constructor; [intros _; split; [exact I|cbn [nesting]; lia]|]|]; (eapply Forall_impl; [|exact U]; auto).
  - intros B. specialize (N B). split.
    + destruct src as [e i|i]; cbn [all_args]; [constructor; [intros _; exact I|]|]; (eapply Forall_impl; [|exact N]; auto).
    + replace (flat_map blobs (kept (all_args src (map value_writes vs')))) with (@nil bytes); [cbn; unfold u64_max; lia|].
      destruct src as [e i|i]; cbn [all_args]; [change (kept (SStr e :: map value_writes vs')) with (SStr e :: kept (map value_writes vs')); cbn [flat_map blobs app]|]; rewrite W2, W4; reflexivity.
  - rewrite E in H2. split; [|exact H2]. intros Er. apply H1. left. exact Er.
Qed.

(** Values without the private key. *)
Lemma means_relayable : forall n r v, means n r v -> no_private r -> openly v /\ levels v <= n.
Proof.
  fix IH 4. intros n r v H. destruct H as [n|n b|n x y Hy|n b s Hs|n l vs Hl|n l ms m Hf Hl Hm|n k b t r v Hk Hb Hd Hv]; cbn [no_private openly levels]; intros N; try (split; [exact I|lia]).
  - assert (A : allP (fun v => openly v /\ levels v <= n) vs).
    { induction Hl as [|x y l vs Hx Hl IHl]; cbn [allP] in *; [trivial|]. destruct N as [N1 N2]. split; [exact (IH _ _ _ Hx N1)|exact (IHl N2)]. }
    clear IH Hl N. induction vs as [|v vs IHv]; cbn [allP map] in *; [cbn; split; [exact I|lia]|]. rewrite max_cons. destruct A as [[A1 A2] A], (IHv A) as [I1 I2]. split; [split; assumption|lia].
  - assert (A : allP (fun '(k, v) => k <> raw_token /\ openly v /\ levels v <= n) ms).
    { clear Hf Hm m. induction Hl as [|[k x] [k' y] l ms Hx Hl IHl]; cbn [allP] in *; [trivial|]. cbn [fst snd] in Hx. destruct Hx as [Hk Hx]. destruct N as [[N0 N1] N2].
      split; [split; [intros ->; exact (N0 Hk)|exact (IH _ _ _ Hx N1)]|exact (IHl N2)]. }
    apply (members_all (fun k v => k <> raw_token /\ openly v /\ levels v <= n) ms m Hm) in A. clear IH Hf Hl Hm N.
    assert (B : allP (fun '(_, x) => openly x) m /\ SpecSer.list_max (map (fun '(_, x) => levels x) m) <= n).
    { induction m as [|[k v] m IHm]; cbn [allP map] in *; [cbn; split; [exact I|lia]|]. rewrite max_cons. destruct A as [(A0 & A1 & A2) A], (IHm A) as [I1 I2]. split; [split; assumption|lia]. }
    split; [split; [destruct m as [|[k v] m]; [exact I|apply A]|apply B]|]. apply le_n_S. apply B.
  - exfalso. destruct N as [[N _] _]. exact (N Hk).
Qed.
Lemma filled_relayable bl : forall v v', filled bl v v' -> openly v -> openly v' /\ levels v' <= levels v.
Proof.
  fix IH 3. intros v v' H. destruct H as [|b|n|s|l l' Hl|m m' Hn Hl|m k b Hk Hg Hb]; cbn [openly levels]; auto.
  - induction Hl as [|x y l l' Hx Hl IHl]; cbn [allP map]; [auto|]. rewrite !max_cons. intros [B1 B2]. destruct (IH _ _ Hx B1) as [C1 C2], (IHl B2) as [C3 C4]. split; [split; assumption|lia].
  - intros [Hf Ho].
    assert (B : allP (fun '(_, x) => openly x) m' /\ SpecSer.list_max (map (fun '(_, x) => levels x) m') <= SpecSer.list_max (map (fun '(_, x) => levels x) m)).
    { clear Hn Hf. induction Hl as [|[k x] [k' y] m m' Hx Hl IHl]; cbn [allP map] in *; [auto|]. cbn [fst snd] in Hx. destruct Hx as [_ Hx]. rewrite !max_cons.
      destruct Ho as [B1 B2]. destruct (IH _ _ Hx B1) as [C1 C2], (IHl B2) as [C3 C4]. split; [split; assumption|lia]. }
    split; [split; [|apply B]|apply le_n_S, B]. destruct Hl as [|[k x] [k' y] m m' [E _] Hl]; [exact I|]. cbn in E. subst. exact Hf.
  - intros _. unfold byte_array. cbn [openly levels]. split; [rewrite allP_Forall; apply Forall_map, Forall_forall; intros; exact I|].
    apply le_n_S. rewrite map_map. clear Hk Hg Hb. induction b as [|c b IHb]; cbn [map]; [cbn; lia|]. rewrite max_cons. cbn [levels] in *. apply Nat.max_lub; [lia|exact IHb].
Qed.
Lemma ordinary_relayable m t l g r v : sub_deref_str m = Some t -> Forall emsg_ok l -> argument_of m l g ->
  jvalue r (g_text g) -> no_private r -> to_json_value g = Ok v -> relayable v.
Proof.
  intros Hm Hl Hg Hr N Hv. destruct (argument_value_exact m t l g Hm Hl Hg) as (r' & bl & Hr' & _ & _ & E). rewrite <- (jvalue_unique _ _ _ Hr Hr') in E.
  destruct (proj1 (E v) Hv) as (v0 & M & D). destruct (means_relayable _ _ _ M N) as [H1 H2]. unfold relayable.
  destruct D as [[_ ->]|[_ F]]; [auto|]. destruct (filled_relayable _ _ _ F H1) as [H3 H4]. split; [exact H3|lia].
Qed.

(** ** The restriction is needed *)
Definition trap : value := VObj [(raw_token, VNum (NPos 2)); (bs "a", VNum (NPos 1))].
Lemma trap_received : received_value trap.
Proof.
  exists (sub_from (bs "2[""x"",{""a"":1,""$serde_json::private::RawValue"":2}]")). eexists _, [], _. split; [vm_compute; reflexivity|]. split; [constructor|].
  split; [apply utf8_characters; vm_compute; reflexivity|]. split.
  - do 3 eexists. exists 1. split; [left; split; vm_compute; reflexivity|]. split; [vm_compute; reflexivity|]. split; vm_compute; reflexivity.
  - vm_compute. reflexivity.
Qed.
Lemma C65_refuted_lemma : ~ C65_full.
Proof.
  intros H. destruct sample_opened as [Ho Hc].
  destruct (H [sample_open] (OfEvent (bs "e") None) [trap] [trap] [WText (bs "42[""e"",{""$serde_json::private::RawValue"":2,""a"":1}]")] Ho Hc) as (p & Hp & Hv).
  - constructor; [exact trap_received|constructor].
  - repeat constructor.
  - split; [exact I|]. apply utf8_characters. reflexivity.
  - vm_compute. reflexivity.
  - apply (arrives_received [sample_open] (bs "2[""e"",{""$serde_json::private::RawValue"":2,""a"":1}]") [] p Ho Hc) in Hp.
    destruct Hp as [[E _]|(q & E & _)]; [|vm_compute in E; discriminate]. vm_compute in E. injection E as <-.
    destruct Hv as (_ & a & gs & Hd & Hi & Hv). cbn [src_kind] in Hd. vm_compute in Hd. injection Hd as <-. vm_compute in Hi. injection Hi as <-. vm_compute in Hv. discriminate.
Qed.
