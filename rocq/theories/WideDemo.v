(** Witnesses for the statements about 128-bit integers. *)
From Verif Require Export WideProofs RawArgDemo.
From Verif Require Import ReadProofs BuildFacts WriteDemo.

(** ** A packet with an attachment and a fraction *)
Definition price : bytes := bs "51-[""p"",12.5,-170141183460469231731687303715884105728]".
Definition price_args : list arg_t :=
  [Arg (bs """p""") [sub_from (bs "ab")]; Arg (bs "12.5") [sub_from (bs "ab")];
   Arg (bs "-170141183460469231731687303715884105728") [sub_from (bs "ab")]].
Lemma price_received : exists p d a, received (sub_from price) photo_atts p /\ packet_data p = Some d /\ data_args d = Some a /\
  args_iter a = Ok price_args.
Proof.
  destruct (deserialize (MText (sub_from price))) as [[|q]| |] eqn:E; try (vm_compute in E; discriminate).
  destruct (deserialize_partial q photo_atts) as [p| |] eqn:Ep; try (vm_compute in E; injection E as <-; vm_compute in Ep; discriminate).
  exists p. destruct (packet_data p) as [d|] eqn:Ed; [|vm_compute in E; injection E as <-; vm_compute in Ep; injection Ep as <-; vm_compute in Ed; discriminate].
  destruct (data_args d) as [a|] eqn:Ea;
    [|vm_compute in E; injection E as <-; vm_compute in Ep; injection Ep as <-; vm_compute in Ed; injection Ed as <-; discriminate].
  exists d, a. split; [right; exists q; auto|]. split; [reflexivity|]. split; [exact Ea|].
  vm_compute in E; injection E as <-; vm_compute in Ep; injection Ep as <-; vm_compute in Ed; injection Ed as <-; vm_compute in Ea; injection Ea as <-.
  vm_compute; reflexivity.
Qed.
Lemma price_deref : sub_deref_str (sub_from price) = Some price.
Proof. apply deref_whole. Qed.
Lemma price_argument g : In g price_args -> argument_of (sub_from price) photo_atts g.
Proof.
  intros Hg. destruct price_received as (p & d & a & Hr & Hd & Ha & Hi).
  destruct (arguments_are_elements _ _ _ _ _ _ price_deref photo_emsgs Hr Hd Ha) as (w & ts & _ & _ & _ & Hget & Hit & _).
  rewrite Hi in Hit. injection Hit as Hit. rewrite Hit in Hg. apply in_map_iff in Hg as (x & <- & Hx). apply In_nth_error in Hx as [i Hx].
  exists p, d, a, i. rewrite Hget, Hx. auto.
Qed.
Lemma C83_refuted_lemma : ~ C83_full.
Proof.
  intros H. assert (J : exists r, scan_value 10 (bs "12.5") = Some (r, [])) by (eexists; vm_compute; reflexivity). destruct J as [r J].
  assert (Hj : jvalue r (bs "12.5")) by (vm_compute in J; injection J as <-; apply jvalue_by_scan; vm_compute; reflexivity).
  destruct (H (sub_from price) price photo_atts (Arg (bs "12.5") [sub_from (bs "ab")]) r I128 12%Z price_deref photo_emsgs) as [X _];
    [apply price_argument; vm_compute; tauto|exact Hj|].
  destruct X as (_ & (neg & i & E) & _); [vm_compute; reflexivity|]. vm_compute in J. subst r. discriminate J.
Qed.
(** The least [i128]; a [u128] it is not. *)
Lemma price_readings : arg_wide I128 (nth 2 price_args (Arg [] [])) = Ok (- 2 ^ 127)%Z /\
  (exists e, arg_wide U128 (nth 2 price_args (Arg [] [])) = Err e) /\
  argument_of (sub_from price) photo_atts (nth 2 price_args (Arg [] [])).
Proof. split; [vm_compute; reflexivity|]. split; [eexists; vm_compute; reflexivity|]. apply price_argument. vm_compute. tauto. Qed.

(** ** Both extremes, sent *)
Definition extremes : list item :=
  [IVal (SInt (2 ^ 128 - 1)); IVal (SInt (- 2 ^ 127)); IVal (SBytes (bs "xy")); IRaw (bs "1e999"); IVal (SInt 0)].
Definition extremes_event := OfEvent (bs "big") (Some 3%N).
Lemma extremes_ok : item_starts extremes_event extremes /\ Forall (wide_usable true) (all_items extremes_event extremes) /\
  fits (src_id extremes_event) /\ Forall on_one_line extremes /\ kept_items (all_items extremes_event extremes) = all_items extremes_event extremes /\
  built_blobs true (all_items extremes_event extremes) = [bs "xy"].
Proof.
  split; [exact I|]. split; [unfold extremes, all_items, extremes_event|].
  { apply Forall_cons; [intros _; split; [exact I|split; [cbn; lia|cbn; auto]]|].
    apply Forall_cons; [right; vm_compute; split; [discriminate|reflexivity]|].
    apply Forall_cons; [left; vm_compute; split; [discriminate|reflexivity]|].
    apply Forall_cons; [intros _; split; [exact I|split; [cbn; lia|cbn; auto]]|].
    apply Forall_cons; [eexists; apply jvalue_by_scan; vm_compute; reflexivity|].
    apply Forall_cons; [left; vm_compute; split; [discriminate|reflexivity]|constructor]. }
  split; [cbn; unfold u64_max; lia|]. split; [|split; vm_compute; reflexivity].
  unfold extremes. repeat apply Forall_cons; try exact I; try constructor; vm_compute; intuition discriminate.
Qed.
Lemma extremes_arrive : exists fs p gs, build_items extremes_event (bs "/") true extremes = Some fs /\ arrives [sample_open] fs p /\
  presents p KEvent (bs "/") (Some 3%N) gs [bs "xy"] /\ Forall2 (wide_shown true) (all_items extremes_event extremes) gs.
Proof.
  destruct extremes_ok as (Hs & Hu & Hid & Hl & Hk & Hb). destruct sample_opened as [Ho Hc].
  destruct (wide_arguments [sample_open] extremes_event (bs "/") true extremes Ho Hc root_ok Hid Hs Hu) as (fs & E & Hall & Hr); [intros _; vm_compute; discriminate|].
  destruct (proj2 (Hr eq_refl) Hl) as [p Hp]. destruct (Hall p Hp) as (gs & HP & HF). rewrite Hb in HP. rewrite Hk in HF. exists fs, p, gs. auto.
Qed.
