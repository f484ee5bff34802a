(** Witnesses for the statements about arguments carried as texts. *)
From Verif Require Export RawArgProofs.
From Verif Require Import ReadProofs BuildFacts WriteDemo.

(** ** A text of two lines *)
Definition two_lines : bytes := bs "[1," ++ x0a :: bs "2]".
Lemma two_lines_text : json_text two_lines.
Proof. eexists. apply jvalue_by_scan; vm_compute; reflexivity. Qed.
Lemma C80_refuted_lemma : ~ C80_full.
Proof.
  intros H. destruct sample_opened as [Ho Hc].
  assert (Hu : items_usable false (all_items (OfAck 1%N) [IRaw two_lines])).
  { split; [|discriminate]. constructor; [exact two_lines_text|constructor]. }
  assert (Hid : fits (src_id (OfAck 1%N))) by (cbn; unfold u64_max; lia).
  destruct (mixed_arguments [sample_open] (OfAck 1%N) (bs "/") false [IRaw two_lines] Ho Hc) as (fs & E & _ & Hr); auto; [apply ns_ok_check; reflexivity|reflexivity|].
  destruct (Hr eq_refl) as [Hr' _]. specialize (Hr' (H [sample_open] (OfAck 1%N) [IRaw two_lines] fs Ho Hc Hid eq_refl Hu E)). inversion Hr' as [|? ? X _]; subst.
  apply X. vm_compute. tauto.
Qed.

(** ** Texts and values together *)
Definition mixed : list item :=
  [IRaw (bs "{""a"" : 1.50}"); IVal (SSeq [SBytes (bs "xy"); SBytes []]); IVal SFail; IRaw (bs """z""");
   IRaw (bs "{""_placeholder"":true,""num"":1}")].
Definition mixed_event := OfEvent (bs "news") (Some 12%N).
Lemma mixed_ok : item_starts mixed_event mixed /\ items_usable true (all_items mixed_event mixed) /\ fits (src_id mixed_event) /\
  Forall on_one_line mixed /\ built_blobs true (all_items mixed_event mixed) = [bs "xy"; []] /\
  length (kept_items (all_items mixed_event mixed)) = 5.
Proof.
  split; [exact I|]. split; [split; [|cbn; unfold u64_max; lia]|].
  { unfold mixed, all_items, mixed_event.
    apply Forall_cons; [intros _; split; [exact I|split; [cbn; lia|cbn; auto]]|].
    apply Forall_cons; [eexists; apply jvalue_by_scan; vm_compute; reflexivity|].
    apply Forall_cons; [intros _; split; [cbn; auto|split; [cbn; lia|cbn; auto]]|].
    apply Forall_cons; [intros Hs; vm_compute in Hs; discriminate Hs|].
    apply Forall_cons; [eexists; apply jvalue_by_scan; vm_compute; reflexivity|].
    apply Forall_cons; [eexists; apply jvalue_by_scan; vm_compute; reflexivity|constructor]. }
  split; [cbn; unfold u64_max; lia|]. split; [|split; vm_compute; reflexivity].
  unfold mixed. repeat apply Forall_cons; try exact I; try constructor; vm_compute; intuition discriminate.
Qed.
Lemma mixed_arrives : exists fs p gs, build_items mixed_event (bs "/") true mixed = Some fs /\ arrives [sample_open] fs p /\
  presents p KEvent (bs "/") (Some 12%N) gs [bs "xy"; []] /\ Forall2 (item_shown true) (kept_items (all_items mixed_event mixed)) gs.
Proof.
  destruct mixed_ok as (Hs & Hu & Hid & Hl & Hb & _). destruct sample_opened as [Ho Hc].
  destruct (mixed_arguments [sample_open] mixed_event (bs "/") true mixed Ho Hc) as (fs & E & Hall & Hr); auto; [apply ns_ok_check; reflexivity|].
  destruct (proj2 (Hr eq_refl) Hl) as [p Hp]. destruct (Hall p Hp) as (gs & HP & HF). rewrite Hb in HP. exists fs, p, gs. auto.
Qed.

(** ** A packet with an attachment, relayed *)
Definition photo : bytes := bs "51-[""p"",{""_placeholder"":true,""num"":0},1e999]".
Definition photo_atts : list emsg := [MBinary (sub_from (bs "ab"))].
Definition photo_args : list arg_t :=
  [Arg (bs """p""") [sub_from (bs "ab")]; Arg (bs "{""_placeholder"":true,""num"":0}") [sub_from (bs "ab")]; Arg (bs "1e999") [sub_from (bs "ab")]].
Lemma photo_received : exists p d a, received (sub_from photo) photo_atts p /\ packet_data p = Some d /\ data_args d = Some a /\
  args_iter a = Ok photo_args /\ contents (a_attachments a) = Some [bs "ab"].
Proof.
  destruct (deserialize (MText (sub_from photo))) as [[|q]| |] eqn:E; try (vm_compute in E; discriminate).
  destruct (deserialize_partial q photo_atts) as [p| |] eqn:Ep; try (vm_compute in E; injection E as <-; vm_compute in Ep; discriminate).
  exists p. destruct (packet_data p) as [d|] eqn:Ed; [|vm_compute in E; injection E as <-; vm_compute in Ep; injection Ep as <-; vm_compute in Ed; discriminate].
  destruct (data_args d) as [a|] eqn:Ea;
    [|vm_compute in E; injection E as <-; vm_compute in Ep; injection Ep as <-; vm_compute in Ed; injection Ed as <-; discriminate].
  exists d, a. split; [right; exists q; auto|]. split; [reflexivity|]. split; [exact Ea|].
  vm_compute in E; injection E as <-; vm_compute in Ep; injection Ep as <-; vm_compute in Ed; injection Ed as <-; vm_compute in Ea; injection Ea as <-.
  split; vm_compute; reflexivity.
Qed.
Lemma photo_emsgs : Forall emsg_ok photo_atts.
Proof. constructor; [discriminate|constructor]. Qed.
Lemma photo_deref : sub_deref_str (sub_from photo) = Some photo.
Proof. apply deref_whole. Qed.
Lemma photo_argument g : In g photo_args -> argument_of (sub_from photo) photo_atts g.
Proof.
  intros Hg. destruct photo_received as (p & d & a & Hr & Hd & Ha & Hi & _).
  destruct (arguments_are_elements _ _ _ _ _ _ photo_deref photo_emsgs Hr Hd Ha) as (w & ts & _ & _ & _ & Hget & Hit & _).
  rewrite Hi in Hit. injection Hit as Hit. rewrite Hit in Hg. apply in_map_iff in Hg as (x & <- & Hx). apply In_nth_error in Hx as [i Hx].
  exists p, d, a, i. rewrite Hget, Hx. auto.
Qed.
Lemma ack_usable bin i : items_usable bin (all_items (OfAck i) []).
Proof. split; [constructor|]. intros _. cbn. apply N.le_0_l. Qed.
Lemma root_ok : ns_ok (bs "/").
Proof. apply ns_ok_check; reflexivity. Qed.
Lemma C81_refuted_lemma : ~ C81_full.
Proof.
  intros H. destruct sample_opened as [Ho Hc]. destruct photo_received as (p & d & a & Hr & Hd & Ha & Hi & _).
  assert (Hid : fits (src_id (OfAck 1%N))) by (cbn; unfold u64_max; lia).
  assert (Hu : items_usable false (all_items (OfAck 1%N) (as_texts photo_args))).
  { split; [|discriminate]. cbn [all_items]. apply Forall_map, Forall_forall. intros g Hg.
    exact (proj2 (raw_reading _ _ _ _ photo_deref photo_emsgs (photo_argument g Hg))). }
  destruct (items_shape (OfAck 1%N) (bs "/") false (as_texts photo_args) eq_refl) as (ts0 & E & _).
  destruct (H [sample_open] (OfAck 1%N) false _ _ _ _ _ _ _ _ Ho Hc Hid (ack_usable _ _) photo_deref photo_emsgs Hr Hd Ha Hi eq_refl E)
    as (p' & gs' & bl & Hp & HP & HF).
  destruct (items_arrive [sample_open] (OfAck 1%N) (bs "/") false (as_texts photo_args) _ Ho Hc root_ok Hid eq_refl Hu E) as (ts & W & Hall & _).
  destruct (Hall p' Hp) as [_ (A & HA & HP')]. cbn [all_items] in W. rewrite kept_texts in W. apply written_texts in W. subst ts.
  apply atts_nil in HA. subst A. destruct HP as (_ & b & Hb & Hbi & _), HP' as (_ & b' & Hb' & Hbi' & _). cbn [src_kind src_id] in *.
  rewrite Hb in Hb'. injection Hb' as <-. rewrite Hbi in Hbi'. injection Hbi' as ->. cbn [after_name] in HF.
  inversion HF as [|? ? ? ? _ HF1]; subst. inversion HF1 as [|? ? ? ? X _]; subst. destruct X as (_ & X & _). vm_compute in X. discriminate X.
Qed.
(** With its attachment it reads as before. *)
Lemma photo_relayed : exists fs p' gs', build_items (OfEvent (bs "photo") None) (bs "/") true (as_texts (tl photo_args) ++ as_bytes [bs "ab"]) = Some fs /\
  arrives [sample_open] fs p' /\ presents p' KEvent (bs "/") None gs' [bs "ab"] /\ Forall2 read_alike (tl photo_args) (firstn 2 (tl gs')).
Proof.
  destruct sample_opened as [Ho Hc]. destruct photo_received as (p & d & a & Hr & Hd & Ha & Hi & Hbl).
  set (src := OfEvent (bs "photo") None). destruct (items_shape src (bs "/") true (as_texts (tl photo_args) ++ as_bytes [bs "ab"]) I) as (ts & E & _).
  assert (Hu : items_usable true (all_items src [])).
  { split; [|cbn; unfold u64_max; lia]. constructor; [|constructor]. intros _. cbn. repeat split; auto. lia. }
  destruct (relayed_texts _ _ _ _ _ _ _ _ [sample_open] src (bs "/") true (tl photo_args) _ photo_deref photo_emsgs Hr Hd Ha Hi Hbl Ho Hc
    root_ok I Hu (fun g Hg => or_intror Hg) (or_introl eq_refl) I E) as [H1 H2].
  destruct (H2 eq_refl) as [p' Hp]. destruct (H1 p' Hp) as (gs' & HP & HF). eexists. exists p', gs'. split; [exact E|]. auto.
Qed.
Lemma photo_readings : to_json_value (Arg (bs "1e999") [sub_from (bs "ab")]) = Panic /\
  arg_raw (Arg (bs "1e999") [sub_from (bs "ab")]) = Ok (bs "1e999") /\
  to_json_value (Arg (bs "{""_placeholder"":true,""num"":0}") [sub_from (bs "ab")]) = Ok (VArr [VNum (NPos 97); VNum (NPos 98)]).
Proof. repeat apply conj; vm_compute; reflexivity. Qed.
