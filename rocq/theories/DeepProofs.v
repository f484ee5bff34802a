(** Arguments of any depth: the packet arrives, and each argument that is not too deep reads back. *)
From Verif Require Export BuildFacts.

Definition back (bin : bool) (A : list subslice_t) (v : sval) (t : bytes) : Prop :=
  nesting v < 128 -> exists x, json_of (if bin then sent v else v) = Some x /\ to_json_value (Arg t A) = Ok x.
Lemma text_each l ts : Forall2 (fun v t => wr v t OOk) l ts -> allP val_ok l -> Forall2 (back false []) l ts.
Proof.
  induction 1 as [|v t l ts Hv H IH]; [constructor|]. cbn [allP]. intros [Ha1 Ha2]. constructor; [|auto].
  intros Hn. destruct Hv as (_ & _ & _ & _ & H5). destruct (H5 eq_refl Ha1) as (_ & r & x & E & J & V).
  exists x. split; [exact E|]. unfold to_json_value. cbn [g_text g_attachments].
  rewrite (jvalue_from_str r t x J); [reflexivity|]. intros rp. apply V. exact Hn.
Qed.
Lemma binary_each A all n l ts : blist n l ts -> allP val_ok l -> allP no_pkey l ->
  atts_of all A -> (forall i b, nth_error (flat_map blobs l) i = Some b -> nth_error all (n + i) = Some b) ->
  (N.of_nat (n + length (flat_map blobs l)) <= u64_max)%N -> Forall2 (back true A) l ts.
Proof.
  intros H. induction H as [n|n v l t ts Hv H IH]; intros Ha Hp HA Hall Hc; [constructor|].
  cbn [allP] in Ha, Hp. destruct Ha as [Ha1 Ha2]. destruct Hp as [Hp1 Hp2].
  cbn [flat_map] in Hall, Hc. rewrite app_length in Hc. constructor.
  - intros Hn. destruct Hv as (_ & _ & _ & _ & _ & H5). destruct (H5 eq_refl Ha1) as (_ & r & y & E & J & V).
    destruct (V Hp1 ltac:(lia)) as [_ V'].
    assert (HB : holds A n (blobs v)).
    { intros i b Hb. apply (atts_nth all A HA). apply Hall. rewrite nth_error_app1; [exact Hb|].
      apply nth_error_Some. congruence. }
    exists y. split; [exact E|]. destruct (V' (from_str_value_n (length t)) 128 Hn) as (x & Vx & F1 & F2 & _).
    unfold to_json_value. cbn [g_text g_attachments].
    assert (Ex : from_str_value t = Some x).
    { unfold from_str_value. cbn [from_str_value_n]. rewrite (proj2 (scan_doc_exact t r)); [exact Vx|].
      exists [], t, []. split; [apply ws_nil|]. split; [apply ws_nil|]. split; [exact J|]. rewrite app_nil_r. reflexivity. }
    rewrite Ex. destruct A as [|s A]; [|apply F1; exact HB].
    rewrite F2; [reflexivity|]. destruct (blobs v) as [|b bl]; [reflexivity|].
    destruct (HB 0 b eq_refl) as (s' & Hs & _). destruct (n + 0); discriminate.
  - apply IH; [exact Ha2|exact Hp2|exact HA| |lia].
    intros i b Hb. rewrite <- Nat.add_assoc. apply Hall. rewrite nth_error_app2 by lia.
    replace (length (blobs v) + i - length (blobs v)) with i by lia. exact Hb.
Qed.
Lemma written_each bin l ts A : written bin (kept l) ts -> allP val_ok (kept l) -> (bin = true -> usable_binary l) ->
  atts_of (out_blobs bin l) A -> Forall2 (back bin A) (kept l) ts.
Proof.
  intros Hw Hu Hb HA. destruct bin; cbn [written out_blobs] in *.
  - destruct (Hb eq_refl) as [Hp Hc]. apply pkey_kept in Hp.
    apply (binary_each A (flat_map blobs (kept l)) 0 (kept l) ts Hw Hu Hp HA); [auto|exact Hc].
  - apply atts_nil in HA. subst A. apply text_each; assumption.
Qed.
Lemma ok_kept l : Forall (fun v => serialises v = true -> val_ok v) l -> allP val_ok (kept l).
Proof.
  unfold kept. induction 1 as [|v l H _ I]; [exact Logic.I|]. cbn [filter]. destruct (serialises v) eqn:E; [|exact I].
  cbn [allP]. auto.
Qed.
Lemma F2_map_r {A B C} (P : A -> C -> Prop) (f : B -> C) l m : Forall2 (fun a b => P a (f b)) l m -> Forall2 P l (map f m).
Proof. induction 1; cbn; constructor; auto. Qed.

Lemma any_depth h src ns bin args fs : opened h -> ~ closed h -> ns_ok ns -> fits (src_id src) -> starts src args ->
  Forall (fun v => serialises v = true -> val_ok v) (all_args src args) -> (bin = true -> usable_binary (all_args src args)) ->
  build src ns bin args = Some fs ->
  (ns = bs "/" -> exists p, arrives h fs p) /\
  (forall p, arrives h fs p -> packet_namespace p = Some ns /\
    exists a gs, packet_data p = Some (match src with OfEvent _ i => DataEvent i a | OfAck i => DataAck i a end) /\
      args_iter a = Ok gs /\
      Forall2 (fun v g => nesting v < 128 -> exists x, json_of (if bin then sent v else v) = Some x /\ to_json_value g = Ok x)
        (kept (all_args src args)) gs).
Proof.
  intros Ho Hc Hns Hid Hst Hu Hb Hbuild. apply ok_kept in Hu.
  destruct (build_shape src ns bin args) as (ts & E & W). rewrite E in Hbuild. injection Hbuild as <-.
  pose proof (count_ok bin _ Hb) as Hcount. split.
  - intros ->. pose proof (packet_args src (bs "/") bin args ts Hst) as Ea.
    pose proof (packet_wire_ok src (bs "/") bin args ts Hns Hst (packet_trees src bin args ts Hu W)) as Hok.
    pose proof (proj2 (reads_intended _ _ Hok Ea) (or_introl eq_refl)) as R.
    destruct (packet_arrives src (bs "/") bin args ts Hid Hst Hcount (packet_trees src bin args ts Hu W) W R) as (p & Hr & _).
    exists p. apply arrives_received; assumption.
  - intros p Hp. apply arrives_received in Hp; try assumption.
    destruct (packet_only src ns bin args ts Hns Hid Hst Hcount (packet_trees src bin args ts Hu W) W p Hp) as [R Hv].
    destruct (view_data _ _ Hv) as (Hn & d & Hd & Hm). cbn [v_ns v_kind v_id v_args v_atts] in *.
    split; [exact Hn|]. destruct src as [e i|i]; cbn [src_kind src_id] in *.
    + destruct d as [| |i' a|i' a]; try discriminate; try (destruct Hm as [Hm0 _]; discriminate).
      destruct Hm as (_ & <- & Ha). destruct (args_view_accessors _ _ _ Ha) as (_ & _ & Hi & HA).
      exists a, (map (fun x => Arg x (a_attachments a)) ts). split; [exact Hd|]. split; [exact Hi|].
      apply F2_map_r. apply written_each; auto.
    + destruct d as [| |i' a|i' a]; try discriminate; try (destruct Hm as [Hm0 _]; discriminate).
      destruct Hm as (_ & E' & Ha). injection E' as <-. destruct (args_view_accessors _ _ _ Ha) as (_ & _ & Hi & HA).
      exists a, (map (fun x => Arg x (a_attachments a)) ts). split; [exact Hd|]. split; [exact Hi|].
      apply F2_map_r. apply written_each; auto.
Qed.
