(** Enums survive the trip (C87). *)
From Verif Require Export SpecVariant ModeProofs.
From Coq Require Import Lia.

(** ** The argument that arrives *)
Section Arrived.
Variables (bin : bool) (src : source) (ns : bytes) (args : list sval) (i : nat) (v : sval) (g : arg_t).
Hypothesis Hs : sendable bin src ns args.
Hypothesis Hb : became bin src ns args i v g.
Lemma became_text : exists n, W bin n v (g_text g) /\ val_ok v /\ nesting v < 128 /\
  contents (g_attachments g) = Some (out_blobs bin (all_args src args)) /\
  (bin = true -> covers (out_blobs bin (all_args src args)) n (blobs v) /\ N.of_nat (n + length (blobs v)) <= u64_max)%N.
Proof.
  destruct Hs as (Hns & Hid & Hst & Hu & Hc). destruct Hb as (Hv & h & fs & p & Ho & Hcl & Hbuild & Hp & d & a & Ed & Ea & Eg).
  destruct (build_shape src ns bin args) as (ts & E & Wt). rewrite E in Hbuild. injection Hbuild as <-.
  pose proof (usable_kept _ Hu) as [Hval _].
  assert (Hcount : (N.of_nat (length (out_blobs bin (all_args src args))) <= u64_max)%N) by (destruct bin; [exact (Hc eq_refl)|cbn; unfold u64_max; lia]).
  apply arrives_received in Hp; [|assumption|assumption].
  destruct (packet_only src ns bin args ts Hns Hid Hst Hcount (packet_trees src bin args ts Hval Wt) Wt p Hp) as [_ V].
  destruct (view_data _ _ V) as (_ & d' & Hd & Hdv). rewrite Ed in Hd. injection Hd as <-. cbn [v_kind v_id v_args v_atts] in Hdv.
  assert (Hview : args_view a = Some (ts, out_blobs bin (all_args src args))).
  { destruct src as [e j|j], d as [| |j' a'|j' a']; cbn in Ea; try discriminate; injection Ea as ->; cbn [src_kind] in Hdv; try discriminate;
      try (destruct Hdv as [X _]; discriminate); apply Hdv. }
  destruct (args_view_accessors _ _ _ Hview) as (_ & G & _ & HA). rewrite G in Eg.
  destruct (nth_error ts i) as [t|] eqn:Et; [|discriminate]. injection Eg as <-. cbn [g_text g_attachments].
  apply written_list in Wt. unfold made_from in Hv. destruct (wlist_nth _ _ _ _ i v Wt Hv) as (t1 & E1 & HW). rewrite Et in E1. injection E1 as <-.
  exists (0 + length (flat_map blobs (firstn i (kept (all_args src args))))). split; [exact HW|].
  assert (Hin : In v (kept (all_args src args))) by (eapply nth_error_In; exact Hv).
  apply filter_In in Hin as [Hin Hse]. unfold usable in Hu. rewrite Forall_forall in Hu. destruct (Hu v Hin Hse) as [U1 U2].
  split; [exact U1|]. split; [exact U2|]. split; [exact HA|]. intros eb. rewrite eb in *. unfold out_blobs. destruct (blobs_at _ i v Hv) as [B1 B2].
  split; [exact B1|]. specialize (Hc eq_refl). cbn [plus]. lia.
Qed.
End Arrived.
(** The value [v], written when [n] attachments were there already, has become [g]. *)
Definition arrived (bin : bool) (n : nat) (v : sval) (g : arg_t) : Prop :=
  W bin n v (g_text g) /\ val_ok v /\ nesting v < 128 /\
  exists bl, contents (g_attachments g) = Some bl /\ (bin = false -> g_attachments g = []) /\
    (bin = true -> covers bl n (blobs v) /\ N.of_nat (n + length (blobs v)) <= u64_max)%N.
Lemma became_arrived bin src ns args i v g : sendable bin src ns args -> became bin src ns args i v g -> exists n, arrived bin n v g.
Proof.
  intros Hs Hb. destruct (became_text bin src ns args i v g Hs Hb) as (n & HW & Hv & Hd & HA & Hc). exists n. split; [exact HW|]. split; [exact Hv|]. split; [exact Hd|].
  exists (out_blobs bin (all_args src args)). split; [exact HA|]. split; [|exact Hc]. intros eb. rewrite eb in HA. apply atts_nil. exact HA.
Qed.
(** The same as from its text. *)
Lemma arrived_spelt bin n v g : arrived bin n v g -> (bin = true -> no_mixed v /\ plain_first v) ->
  exists text r, W false 0 v text /\ val_ok v /\ nesting v < 128 /\ jvalue r text /\
    (g = Arg text [] \/ exists tb A bl rb, g = Arg tb A /\ A <> [] /\ contents A = Some bl /\ jvalue rb tb /\ spelt bl rb r /\ (~ is_blob v -> not_attached rb)).
Proof.
  intros (HW & Hv & Hd & bl & HA & Hnil & Hc) Hx. destruct g as [t A]. cbn [g_text g_attachments] in *. destruct bin.
  - destruct (Hc eq_refl) as [C1 C2]. destruct (W_exists false 0 v (W_json _ _ _ _ HW)) as (text & HT). destruct (Hx eq_refl) as [X1 X2].
    destruct (modes_all _ v (conj Hv (conj X1 X2)) _ _ _ _ HW HT C1 C2) as (rb & rt & Jb & Jt & S & E & N).
    exists text, rt. repeat (split; [assumption|]). destruct A as [|s A].
    + left. rewrite E; [reflexivity|]. unfold contents in HA. cbn in HA. injection HA as HA. rewrite <- HA in C1.
      destruct (blobs v) as [|b l]; [reflexivity|]. specialize (C1 0 b eq_refl). destruct (n + 0); discriminate.
    + right. exists t, (s :: A), bl, rb. repeat (split; [first [assumption|discriminate|reflexivity]|]). exact N.
  - rewrite (Hnil eq_refl). pose proof HW as (_ & _ & _ & _ & H5). destruct (H5 eq_refl Hv) as (_ & r & x & _ & J & _).
    exists t, r. repeat (split; [assumption|]). left. reflexivity.
Qed.
Lemma text_value v text : W false 0 v text -> val_ok v -> nesting v < 128 -> exists y, arg_deserialize TyValue (Arg text []) = Ok y.
Proof.
  intros (_ & _ & _ & _ & H5) Hv Hd. destruct (H5 eq_refl Hv) as (_ & r & x & _ & J & V). exists (XValue x).
  rewrite (arg_none TyValue text r J). cbn [de_plain]. rewrite V by exact Hd. reflexivity.
Qed.
Lemma text_read t x v text rp : ty_ok t -> encodes t x v -> recoverable false t x -> val_ok v -> W false 0 v text ->
  exists r, jvalue r text /\ (forall d, nesting v < d -> de_plain rp t d r = Some x) /\ (null_like x = false -> r <> RNull).
Proof.
  intros Ht He Hr Hv HW. destruct (round_all rp false None t Ht x v He Hr Hv 0 text HW ltac:(intros X; discriminate) ltac:(discriminate)) as (r & J & V & N & _).
  exists r. auto.
Qed.
(** ** Untagged enums *)
Lemma json_ser_text v text : W false 0 v text <-> json_ser v [] = (text, OOk).
Proof.
  split; [intros [H _]; rewrite H; reflexivity|]. intros H.
  assert (J : json_of v <> None).
  { destruct (writer_ok v) as (t & oc & Hw). pose proof Hw as (E & _ & Ho & _). specialize (E []). rewrite E in H. injection H as _ H. apply Ho. exact H. }
  destruct (W_exists false 0 v J) as (t & HW). pose proof HW as [E _]. rewrite E in H. injection H as H. rewrite <- H. exact HW.
Qed.
Lemma alike_alts alts r : Forall (fun na : bytes * alt => alt_no_int_map (snd na)) alts -> Forall (fun na : bytes * alt => alt_alike false false (snd na) r) alts.
Proof.
  intros H. eapply Forall_impl; [|exact H]. intros [n a] Ha. cbn [snd] in *.
  destruct a; cbn [alt_alike alt_no_int_map] in *; [exact I|apply alike_plain; exact Ha|apply (alike_plain (TyStruct fs)); exact Ha].
Qed.
Lemma alt_unique (alts : list (bytes * alt)) n a b : NoDup (map fst alts) -> In (n, a) alts -> In (n, b) alts -> a = b.
Proof.
  induction alts as [|[m c] alts IH]; intros Hn Ha Hb; [destruct Ha|]. cbn [map fst] in Hn. inversion Hn as [|? ? N1 N2]; subst.
  destruct Ha as [[= -> ->]|Ha], Hb as [[= E]|Hb]; subst; auto.
  - exfalso. apply N1. apply (in_map fst) in Hb. exact Hb.
  - exfalso. apply N1. apply (in_map fst) in Ha. exact Ha.
Qed.
(** Objects and their members. *)
Lemma text_members l : allP (fun '(k, x) => key_ok k /\ val_ok x) l -> forall n ts, Wents false n l ts ->
  exists rs, Forall2 jmember rs ts /\ map (fun r => unescape (fst r)) rs = map (fun kx => key_of (fst kx)) l.
Proof.
  induction l as [|[k v] l IH]; intros Hl n ts H; inversion H as [|? ? ? ? kt t ts' Ek H1 H2]; subst.
  - exists []. split; [constructor|reflexivity].
  - destruct Hl as [[Hk Hv] Hl]. destruct (IH Hl _ _ H2) as (rs & J & K). pose proof H1 as (_ & _ & _ & _ & H5). destruct (H5 eq_refl Hv) as (_ & r & x & _ & Jr & _).
    pose proof (key_spec k) as Ks. rewrite Ek in Ks. destruct (key_of k) as [s|] eqn:Es; [|contradiction]. destruct Ks as (b & -> & Kj & _). destruct (Kj Hk) as (Jb & Ub & _).
    exists ((b, r) :: rs). split; [constructor; [|exact J]; exists t; cbn [fst snd app]; rewrite <- app_assoc; auto|].
    cbn [map fst]. rewrite Ub, K, Es. reflexivity.
Qed.
Lemma text_object v l text : (forall o, json_ser v o = ser_object l o) -> (forall s, wrap_ser v s = wser_object l s) ->
  (json_of v <> None -> all_some (map entry_json l) <> None) -> allP (fun '(k, x) => key_ok k /\ val_ok x) l -> W false 0 v text ->
  exists ts rs, text = "{"%byte :: seps true ts ++ ["}"%byte] /\ Wents false 0 l ts /\ Forall2 jmember rs ts /\ jvalue (RObj rs) text /\
    map (fun r => unescape (fst r)) rs = map (fun kx => key_of (fst kx)) l.
Proof.
  intros H1 H2 H3 Hl HW. apply (W_object _ _ _ l) in HW as (ts & -> & HW); [|assumption..]. destruct (text_members l Hl _ _ HW) as (rs & J & K).
  exists ts, rs. split; [reflexivity|]. split; [exact HW|]. split; [exact J|]. split; [apply jobj_seps; exact J|exact K].
Qed.
Lemma struct_object vs text : W false 0 (SStruct vs) text -> val_ok (SStruct vs) ->
  exists ts rs, text = "{"%byte :: seps true ts ++ ["}"%byte] /\ Wents false 0 (as_entries vs) ts /\ Forall2 jmember rs ts /\ jvalue (RObj rs) text /\
    map (fun r => unescape (fst r)) rs = map (fun kx => key_of (fst kx)) (as_entries vs).
Proof.
  intros HW Hv. apply (text_object (SStruct vs) (as_entries vs)); [apply ser_struct|apply wser_struct|cbn [json_of]; rewrite opt_map_none, entry_as; auto| |exact HW].
  destruct Hv as [_ Hv]. apply keys_as. exact Hv.
Qed.
Lemma map_object l text : W false 0 (SMap l) text -> val_ok (SMap l) ->
  exists ts rs, text = "{"%byte :: seps true ts ++ ["}"%byte] /\ Wents false 0 l ts /\ Forall2 jmember rs ts /\ jvalue (RObj rs) text /\
    map (fun r => unescape (fst r)) rs = map (fun kx => key_of (fst kx)) l.
Proof.
  intros HW Hv. apply (text_object (SMap l) l); [reflexivity|reflexivity|cbn [json_of]; rewrite opt_map_none, entry_map; auto| |exact HW].
  destruct Hv as [_ Hv]. exact Hv.
Qed.
Lemma struct_text fs x v text r : encodes (TyStruct fs) x v -> W false 0 v text -> val_ok v -> jvalue r text -> exists l, r = RObj l.
Proof.
  intros He HW Hv J. inversion He as [| | | | | | | | | | | | | | | | |? xs vs He'| | | | | | | |]; subst.
  destruct (struct_object vs text HW Hv) as (ts & rs & _ & _ & _ & J' & _). exists rs. exact (jvalue_unique _ _ _ J J').
Qed.
Lemma untagged_arrived bin k v g alts n x :
  arrived bin k v g -> enum_ok (Untagged alts) -> enum_encodes (Untagged alts) (XVariant n x) v ->
  enum_keeps bin (Untagged alts) (XVariant n x) -> enum_first bin (Untagged alts) v -> Forall (fun na : bytes * alt => alt_no_int_map (snd na)) alts ->
  arg_enum (Untagged alts) g = Ok (XVariant n x) <-> none_earlier alts n v.
Proof.
  intros Hb (Hnd & Hty & _) He Hk Hf Hal. cbn [alts_of] in *.
  destruct (arrived_spelt bin k v g Hb Hf) as (text & r & HW & Hv & Hd & J & Hg).
  destruct (text_value v text HW Hv Hd) as [y Hy].
  assert (E : arg_enum (Untagged alts) g = Ok (XVariant n x) <-> arg_enum (Untagged alts) (Arg text []) = Ok (XVariant n x)).
  { destruct Hg as [-> |(tb & A & bl & rb & -> & HA & Hbl & Jb & S & _)]; [reflexivity|]. eapply untagged_spelt; [exact Jb|exact HA|exact Hbl|exact S|exact J]. }
  rewrite E, (untagged_first alts text r [] y (XVariant n x) J Hy (alike_alts alts r Hal)). unfold first_reading, none_earlier. split.
  - intros (before & m & a & after & u & Ea & [= <- <-] & _ & Hbe). exists before, a, after, text, r. split; [exact Ea|]. split; [apply json_ser_text; exact HW|]. auto.
  - intros (before & a & after & text' & r' & Ea & Et & Jr & Hbe). apply json_ser_text in HW. rewrite HW in Et. injection Et as <-. rewrite <- (jvalue_unique _ _ _ J Jr) in Hbe.
    apply json_ser_text in HW. exists before, n, a, after, x. split; [exact Ea|]. split; [reflexivity|]. split; [|exact Hbe].
    assert (Hin : In (n, a) alts) by (rewrite Ea; apply in_or_app; right; left; reflexivity).
    inversion He as [? ? Hin' E1 E2 E3|? ? a' t ? ? Hin' Ht En E1 E2 E3| | | |]; [subst x v|].
    + rewrite (alt_unique _ _ _ _ Hnd Hin Hin'). apply (W_leaf _ _ _ _ (bs "null")) in HW; try reflexivity. subst text.
      split; [|reflexivity]. exact (jvalue_unique _ _ _ J jv_null).
    + rewrite (alt_unique _ _ _ _ Hnd Hin Hin'). destruct (Hk n x a' t eq_refl Hin' Ht) as [K1 K2].
      destruct (text_read t x v text from_str_value (Hty _ _ _ Hin' Ht) En K1 Hv HW) as (r2 & J2 & V & _). rewrite <- (jvalue_unique _ _ _ J J2) in V.
      assert (D : arg_deserialize t (Arg text []) = Ok x).
      { rewrite (arg_none t text r J). rewrite V by exact Hd. reflexivity. }
      destruct a' as [|u|fs]; unfold alt_type in Ht; [contradiction|subst t; exact D|subst t].
      split; [|exact D]. exact (struct_text fs x v text r En HW Hv J).
Qed.
Theorem untagged_returns bin src ns args i v g alts n x :
  sendable bin src ns args -> became bin src ns args i v g -> enum_ok (Untagged alts) -> enum_encodes (Untagged alts) (XVariant n x) v ->
  enum_keeps bin (Untagged alts) (XVariant n x) -> enum_first bin (Untagged alts) v -> Forall (fun na : bytes * alt => alt_no_int_map (snd na)) alts ->
  arg_enum (Untagged alts) g = Ok (XVariant n x) <-> none_earlier alts n v.
Proof. intros Hs Hb. destruct (became_arrived _ _ _ _ _ _ _ Hs Hb) as [k Ha]. exact (untagged_arrived bin k v g alts n x Ha). Qed.

(** ** Tagged enums *)
(** What can be read out of a buffer by reference can be read out of it by value. *)
Section Mono.
Variable rp : bytes -> option value.
Lemma each_c_mono f g l : (forall x y, In x l -> f x = Some y -> g x = Some y) -> forall ys, each_c f l = Some ys -> each_c g l = Some ys.
Proof.
  induction l as [|x l IH]; intros H ys; [auto|]. cbn [each_c]. fold (each_c f) (each_c g). destruct (f x) as [y|] eqn:E; [|discriminate].
  destruct (each_c f l) as [zs|]; [|discriminate]. intros [= <-]. rewrite (H x y (or_introl eq_refl) E), (IH (fun a b Ha => H a b (or_intror Ha)) zs eq_refl). reflexivity.
Qed.
Lemma zip_c_mono f g ts : forall l, (forall u x y, In u ts -> f u x = Some y -> g u x = Some y) -> forall ys, zip_c f ts l = Some ys -> zip_c g ts l = Some ys.
Proof.
  induction ts as [|u ts IH]; intros [|x l] H ys; try (cbn; congruence). cbn [zip_c]. fold (zip_c f) (zip_c g). destruct (f u x) as [y|] eqn:E; [|discriminate].
  destruct (zip_c f ts l) as [zs|] eqn:Ez; [|discriminate]. intros [= <-]. rewrite (H u x y (or_introl eq_refl) E), (IH l (fun a b c Ha => H a b c (or_intror Ha)) zs Ez). reflexivity.
Qed.
Lemma zipf_c_mono f g fs : forall l, (forall a u x y, In (a, u) fs -> f u x = Some y -> g u x = Some y) -> forall ys, zipf_c f fs l = Some ys -> zipf_c g fs l = Some ys.
Proof.
  induction fs as [|[a u] fs IH]; intros [|x l] H ys; try (cbn; congruence). cbn [zipf_c]. fold (zipf_c f) (zipf_c g). destruct (f u x) as [y|] eqn:E; [|discriminate].
  destruct (zipf_c f fs l) as [zs|] eqn:Ez; [|discriminate]. intros [= <-]. rewrite (H a u x y (or_introl eq_refl) E), (IH l (fun a b c d Ha => H a b c d (or_intror Ha)) zs Ez). reflexivity.
Qed.
Lemma map_c_mono f g m : (forall x y, f x = Some y -> g x = Some y) -> forall acc ys, map_c f m acc = Some ys -> map_c g m acc = Some ys.
Proof.
  intros H. induction m as [|[k x] m IH]; intros acc ys; [auto|]. cbn [map_c]. fold (map_c f) (map_c g). destruct (f x) as [y|] eqn:E; [|discriminate].
  rewrite (H x y E). apply IH.
Qed.
Lemma fields_c_mono f g m fs : (forall a u x y, In (a, u) fs -> f u x = Some y -> g u x = Some y) -> forall ys, fields_c f m fs = Some ys -> fields_c g m fs = Some ys.
Proof.
  induction fs as [|[a u] fs IH]; intros H ys; [auto|]. cbn [fields_c]. fold (fields_c f m) (fields_c g m). unfold field_c.
  intros E. destruct (fields_c f m fs) as [zs|]; [|repeat match type of E with context [match ?X with _ => _ end] => destruct X end; discriminate].
  rewrite (IH (fun a b c d Ha => H a b c d (or_intror Ha)) zs eq_refl).
  destruct (contents_named a m) as [|x [|]]; try exact E. destruct (f u x) as [y|] eqn:Ey; [|discriminate]. rewrite (H a u x y (or_introl eq_refl) Ey). exact E.
Qed.
Lemma variant_mono f g name vs : (forall n tag u x, In (n, (tag, u)) vs -> f n tag u = Some x -> g n tag u = Some x) ->
  forall x, variant_of f name vs = Some x -> variant_of g name vs = Some x.
Proof.
  induction vs as [|[n [tag u]] vs IH]; intros H x; [auto|]. cbn [variant_of]. fold (variant_of f name) (variant_of g name).
  destruct (bytes_eqb n name); [apply (H n tag u x (or_introl eq_refl))|]. apply IH. intros; eapply H; [right; eassumption|assumption].
Qed.
Lemma option_map_mono {A B} (f : A -> B) a b : (forall x, a = Some x -> b = Some x) -> forall y, option_map f a = Some y -> option_map f b = Some y.
Proof. intros H y. destruct a as [x|]; [|discriminate]. rewrite (H x eq_refl). auto. Qed.
Lemma content_mono t : forall c x, de_content rp false t c = Some x -> de_content rp true t c = Some x.
Proof.
  induction t as [|lo hi| | | | | | |u IH|u IH|u IH|ts IH|u IH|fs IH|vs IH| | | |lo hi u IH] using ty_ind'; intros c x; try (cbn [de_content]; auto; fail).
  - destruct c as [| | | | |[|]]; cbn; congruence.
  - cbn [de_content]. destruct c; auto; apply option_map_mono; apply IH.
  - cbn [de_content]. apply option_map_mono. apply IH.
  - destruct c; try (cbn; congruence). rewrite !dc_seq. apply option_map_mono. apply each_c_mono. auto.
  - destruct c; try (cbn; congruence). rewrite !dc_tuple. apply option_map_mono. apply zip_c_mono. rewrite Forall_forall in IH. auto.
  - destruct c; try (cbn; congruence). rewrite !dc_map. apply option_map_mono. apply map_c_mono. auto.
  - rewrite Forall_forall in IH. destruct c; try (cbn; congruence).
    + rewrite !dc_struct_seq. apply option_map_mono. apply zipf_c_mono. intros a u y z Hu. exact (IH _ Hu y z).
    + rewrite !dc_struct_map. apply option_map_mono. apply fields_c_mono. intros a u y z Hu. exact (IH _ Hu y z).
  - rewrite Forall_forall in IH. destruct c as [| | | | |[|[k y] [|]]]; try (cbn; congruence). rewrite !dc_enum_map. apply variant_mono.
    intros m tag u z Hu. specialize (IH _ Hu). cbn [snd] in IH. unfold variant_c. destruct tag.
    + destruct y as [| | | | |[|]]; congruence.
    + apply option_map_mono. apply IH.
    + destruct y; try congruence. apply option_map_mono. apply IH.
    + apply option_map_mono. apply IH.
Qed.
End Mono.

Lemma W_same v t t' : W false 0 v t -> W false 0 v t' -> t = t'.
Proof. intros H H'. apply W_text in H. apply W_text in H'. congruence. Qed.
Lemma Wents_same l : forall n ts ts', Wents false n l ts -> Wents false n l ts' -> ts = ts'.
Proof.
  induction l as [|[k v] l IH]; intros n ts ts' H H'; inversion H as [|? ? ? ? kt t us Ek H1 H2]; subst; inversion H' as [|? ? ? ? kt' t' us' Ek' H1' H2']; subst; [reflexivity|].
  rewrite Ek in Ek'. injection Ek' as <-. rewrite (W_same v t t' H1 H1'), (IH _ _ _ H2 H2'). reflexivity.
Qed.
(** What is left of the buffer without the tag reads as the value. *)
Definition tail_reads (v : sval) (rs : list (bytes * raw)) : Prop :=
  forall t x rp m, ty_ok t -> encodes t x v -> recoverable false t x -> no_int_map t -> ~ null_value x -> val_ok v -> nesting v < 128 ->
    Forall2 (fun kx kc => unescape (fst kx) = Some (fst kc) /\ content_of (objects Plain) 127 (snd kx) = Some (snd kc)) rs m ->
    de_content rp true t (KMap m) = Some x.
Lemma tail_same v rs text : W false 0 v text -> jvalue (RObj rs) text -> tail_reads v rs.
Proof.
  intros HW J t x rp m Ht He Hr Hn _ Hv Hd HF. destruct (text_read t x v text rp Ht He Hr Hv HW) as (r & J' & V & _).
  rewrite <- (jvalue_unique _ _ _ J J') in V. specialize (V 128 Hd).
  pose proof (content_map_of (objects Plain) 128 127 rs m eq_refl eq_refl HF) as Hc. apply content_mono.
  rewrite (content_agree rp Plain false t 128 (RObj rs) (KMap m) Hc (alike_plain t Hn (RObj rs))). exact V.
Qed.
Definition has_tail (tag n : bytes) (v : sval) (text : bytes) : Prop :=
  exists k b rs, jvalue (RObj ((k, RStr b) :: rs)) text /\ unescape k = Some tag /\ unescape b = Some n /\
    Forall (fun kx => unescape (fst kx) <> Some tag) rs /\ tail_reads v rs.
Lemma str_leaf s t : W false 0 (SStr s) t -> t = json_str s.
Proof. apply W_leaf; reflexivity. Qed.
Lemma obj_tail tag n v w l text : (forall o, json_ser w o = ser_object ((SStr tag, SStr n) :: l) o) -> (forall s, wrap_ser w s = wser_object ((SStr tag, SStr n) :: l) s) ->
  (json_of w <> None -> all_some (map entry_json ((SStr tag, SStr n) :: l)) <> None) -> allP (fun '(k, x) => key_ok k /\ val_ok x) l ->
  Forall (fun kx => key_of (fst kx) <> Some tag) l -> W false 0 w text ->
  (forall ts rs, Wents false 0 l ts -> Forall2 jmember rs ts -> tail_reads v rs) ->
  has_tail tag n v text.
Proof.
  intros H1 H2 H3 Hl Hk HW Hv. apply (W_object _ _ _ ((SStr tag, SStr n) :: l)) in HW as (ts & -> & HE); [|assumption..].
  inversion HE as [|? ? ? ? kt t ts' Ek E1 E2]; subst. cbn [key_text] in Ek. injection Ek as <-. apply str_leaf in E1. subst t.
  destruct (text_members l Hl _ _ E2) as (rs & J & K). exists (escape tag), (escape n), rs.
  split; [apply jobj_seps; constructor; [|exact J]|].
  - exists (json_str n). cbn [fst snd]. split; [unfold json_str; cbn [app]; rewrite <- app_assoc; reflexivity|]. split; [apply escape_body|].
    unfold json_str. apply jv_str. apply escape_body.
  - split; [apply unescape_escape|]. split; [apply unescape_escape|]. split; [|exact (Hv ts' rs E2 J)].
    clear -Hk K. revert l Hk K. induction rs as [|r rs IH]; intros [|e l] Hk K; try discriminate; [constructor|]. cbn [map] in K. injection K as K1 K2.
    inversion Hk as [|? ? N1 N2]; subst. constructor; [rewrite K1; exact N1|exact (IH l N2 K2)].
Qed.
(** A value written as the same members. *)
Lemma obj_reads v l ts rs : (forall o, json_ser v o = ser_object l o) -> (forall s, wrap_ser v s = wser_object l s) ->
  (json_of v <> None -> all_some (map entry_json l) <> None) -> json_of v <> None -> Wents false 0 l ts -> Forall2 jmember rs ts -> tail_reads v rs.
Proof.
  intros H1 H2 H3 Hj HE J. destruct (W_exists false 0 v Hj) as (text & HW). pose proof HW as HW'.
  apply (W_object _ _ _ l) in HW' as (ts' & -> & HE'); [|assumption..]. rewrite (Wents_same _ _ _ _ HE' HE) in HW.
  exact (tail_same v rs _ HW (jobj_seps _ _ J)).
Qed.
Lemma variant_reads v m u u' ts rs : (forall o, json_ser v o = ser_variant m (json_ser u) o) ->
  (forall s, wrap_ser v s = wser_variant m (wrap_ser u) s) -> (json_of v <> None -> json_of u <> None) -> json_of v <> None ->
  (forall t, W false 0 u t -> W false 0 u' t) -> Wents false 0 [(SStr m, u')] ts -> Forall2 jmember rs ts -> tail_reads v rs.
Proof.
  intros H1 H2 H3 Hj Hu HE J. destruct (W_exists false 0 v Hj) as (text & HW). pose proof HW as HW'.
  apply (W_variant _ _ _ m u) in HW' as (t & -> & HW'); [|assumption..]. apply Hu in HW'.
  inversion HE as [|? ? ? ? kt t' ts' Ek E1 E2]; subst. cbn [key_text] in Ek. injection Ek as <-. inversion E2; subst.
  rewrite (W_same _ _ _ HW' E1) in HW. apply (tail_same v rs _ HW). pose proof (jobj_seps _ _ J) as X. cbn [seps comma_unless app] in X.
  rewrite app_nil_r, <- app_assoc in X. cbn [app] in X. exact X.
Qed.
Lemma tagged_tail tag n v w : tagged_writes tag n v w -> forall text, W false 0 w text -> val_ok w -> has_tail tag n v text.
Proof.
  induction 1 as [l Hl|l Hl| |m Hm|m v Hm|m l Hm|m l Hm|v w H IH]; intros text HW Hv.
  - pose proof (W_json _ _ _ _ HW) as Hj. apply (obj_tail tag n (SStruct l) (SStruct ((tag, SStr n) :: l)) (as_entries l)); try assumption.
    + apply ser_struct.
    + apply wser_struct.
    + cbn [json_of]. rewrite opt_map_none, <- entry_as. auto.
    + apply keys_as. destruct Hv as [_ [_ Hv]]. exact Hv.
    + rewrite Forall_forall. intros [k x] Hin. unfold as_entries in Hin. apply in_map_iff in Hin as ([k' x'] & [= <- <-] & Hin). cbn [fst key_of].
      intros [= ->]. apply Hl. apply (in_map fst) in Hin. exact Hin.
    + intros ts rs HE J. apply (obj_reads (SStruct l) (as_entries l) ts); auto; [apply ser_struct|apply wser_struct|cbn [json_of]; rewrite opt_map_none, entry_as; auto|].
      cbn [json_of] in *. rewrite opt_map_none in *. cbn in Hj. intros X. apply Hj. cbn in X. rewrite X. reflexivity.
  - pose proof (W_json _ _ _ _ HW) as Hj. apply (obj_tail tag n (SMap l) (SMap ((SStr tag, SStr n) :: l)) l); try assumption; try reflexivity.
    + cbn [json_of]. rewrite opt_map_none, entry_map. auto.
    + destruct Hv as [_ [_ Hv]]. exact Hv.
    + intros ts rs HE J. apply (obj_reads (SMap l) l ts); auto; [cbn [json_of]; rewrite opt_map_none, entry_map; auto|].
      cbn [json_of] in *. rewrite opt_map_none in *. cbn in Hj. intros X. apply Hj. cbn in X. rewrite X. reflexivity.
  - apply (obj_tail tag n SUnit (SMap [(SStr tag, SStr n)]) []); auto; try constructor; try discriminate.
    intros ts rs HE J t x rp m Ht He _ _ Hx _ _ HF. inversion HE; subst. inversion J; subst. inversion HF; subst.
    inversion He as [| | | | | | | |E1 E2 E3| | | | | | | | | | | | | |y Hy E1 E2 E3| | |]; subst; [reflexivity|]. destruct y as [| |[]| | |]; try discriminate. destruct Hx. exact I.
  - apply (obj_tail tag n (SUnitVariant m) (SMap [(SStr tag, SStr n); (SStr m, SUnit)]) [(SStr m, SUnit)]); auto; try discriminate.
    + cbn. auto.
    + constructor; [cbn; congruence|constructor].
    + intros ts rs HE J t x rp mm Ht He _ _ _ _ _ HF. inversion HE as [|? ? ? ? kt t' ts' Ek E1 E2]; subst. inversion E2; subst.
      cbn [key_text] in Ek. injection Ek as <-. apply (W_leaf _ _ _ _ (bs "null")) in E1; try reflexivity. subst t'.
      inversion J as [|[k r] ? ? ? J1 J2]; subst. inversion J2; subst. inversion HF as [|? [k' c] ? ? [F1 F2] F3]; subst. inversion F3; subst. cbn [fst snd] in *.
      assert (Ekr : RObj [(k, r)] = RObj [(escape m, RNull)]).
      { refine (jvalue_unique _ _ _ (jobj_seps _ _ J) (jobj_seps _ _ _)). constructor; [|constructor]. exists (bs "null"). cbn [fst snd].
        split; [unfold json_str; cbn [app]; rewrite <- app_assoc; reflexivity|]. split; [apply escape_body|constructor]. }
      injection Ekr as -> ->. rewrite unescape_escape in F1. injection F1 as <-. cbn in F2. injection F2 as <-.
      inversion He as [| | | | | | | | | | | | | | | | | |es n0 u Hin E1' E2' E3'| | | |y Hy E1' E2' E3'| | |]; subst; [|destruct y as [| |[]| | |]; discriminate].
      rewrite dc_enum_map, (variant_found _ _ _ _ _ (proj1 Ht) Hin). reflexivity.
  - apply (obj_tail tag n (SNewtypeVariant m v) (SMap [(SStr tag, SStr n); (SStr m, v)]) [(SStr m, v)]); auto.
    + cbn [json_of]. rewrite opt_map_none, entry_map. auto.
    + destruct Hv as [_ [_ Hv]]. exact Hv.
    + constructor; [cbn; congruence|constructor].
    + intros ts rs HE J. apply W_json in HW. apply (variant_reads (SNewtypeVariant m v) m v v ts); auto; cbn [json_of] in *; rewrite opt_map_none in *; auto.
      intros X. apply HW. cbn. rewrite X. reflexivity.
  - apply (obj_tail tag n (STupleVariant m l) (SMap [(SStr tag, SStr n); (SStr m, STupleStruct l)]) [(SStr m, STupleStruct l)]); auto.
    + cbn [json_of]. rewrite opt_map_none, entry_map. auto.
    + destruct Hv as [_ [_ Hv]]. exact Hv.
    + constructor; [cbn; congruence|constructor].
    + intros ts rs HE J. apply W_json in HW. apply (variant_reads (STupleVariant m l) m (STuple l) (STupleStruct l) ts); auto; cbn [json_of] in *; rewrite !opt_map_none in *; auto.
      intros X. apply HW. cbn. rewrite X. reflexivity.
  - apply (obj_tail tag n (SStructVariant m l) (SMap [(SStr tag, SStr n); (SStr m, SStruct l)]) [(SStr m, SStruct l)]); auto.
    + cbn [json_of]. rewrite opt_map_none, entry_map. auto.
    + destruct Hv as [_ [_ Hv]]. exact Hv.
    + constructor; [cbn; congruence|constructor].
    + intros ts rs HE J. apply W_json in HW. apply (variant_reads (SStructVariant m l) m (SStruct l) (SStruct l) ts); auto; cbn [json_of] in *; rewrite !opt_map_none in *; auto.
      intros X. apply HW. cbn in X |- *. rewrite X. reflexivity.
  - destruct (IH text HW Hv) as (k & b & rs & J & Hk & Hb & Hl & HR). exists k, b, rs. repeat (split; [assumption|]).
    intros t x rp m Ht He Hr Hn Hx Hv' Hd HF. inversion He; subst; [|destruct x0 as [| |[]| | |]; discriminate].
    cbn [de_content]. inversion Hr; subst. rewrite (HR u x0 rp m); auto.
Qed.
Lemma find_in (alts : list (bytes * alt)) n a : NoDup (map fst alts) -> In (n, a) alts -> find_alt n alts = Some a.
Proof.
  induction alts as [|[m b] alts IH]; intros Hn Hi; [destruct Hi|]. cbn [map fst] in Hn. inversion Hn as [|? ? N1 N2]; subst. cbn [find_alt].
  destruct Hi as [E|Hi]; [injection E as -> ->; rewrite bytes_eqb_refl; reflexivity|].
  destruct (bytes_eqb m n) eqn:E; [|exact (IH N2 Hi)]. apply bytes_eqb_eq in E. subst m. destruct N1. apply (in_map fst) in Hi. exact Hi.
Qed.
Lemma tagged_loop text tag n k b rs y : jvalue (RObj ((k, RStr b) :: rs)) text -> arg_deserialize TyValue (Arg text []) = Ok y ->
  unescape k = Some tag -> unescape b = Some n -> Forall (fun kx => unescape (fst kx) <> Some tag) rs ->
  exists m, Forall2 (fun kx kc => unescape (fst kx) = Some (fst kc) /\ content_of (objects Plain) 127 (snd kx) = Some (snd kc)) rs m /\
    forall alts, arg_enum (Tagged tag alts) (Arg text []) =
      match tagged_as (reparse_of text) alts n (KMap m) with Some v => Ok v | None => Err (AJsonDeError text) end.
Proof.
  intros J Hy Hk Hb Hl. destruct (value_arg_buffers _ _ _ _ J Hy) as [c Hc]. change (way_of (Arg text [])) with Plain in Hc.
  apply content_obj in Hc as (d' & Ed & [(b' & Eb & _)|(_ & m & -> & HF)]); [discriminate|]. injection Ed as <-.
  inversion HF as [|? kc ? m' _ HF']; subst. exists m'. split; [exact HF'|]. intros alts.
  rewrite (arg_enum_at _ _ _ _ J). change (way_of (Arg text [])) with Plain. cbn [de_enum]. unfold de_tagged. cbn [enter objects].
  pose proof (tag_loop_one Plain tag 127 [] rs k b n m' Hk Hb Hl HF') as E. cbn [app] in E. rewrite E. reflexivity.
Qed.
Lemma tagged_arrived bin k0 v g tag alts x :
  arrived bin k0 v g -> enum_ok (Tagged tag alts) -> enum_encodes (Tagged tag alts) x v ->
  enum_keeps bin (Tagged tag alts) x -> enum_first bin (Tagged tag alts) v -> arg_enum (Tagged tag alts) g = Ok x.
Proof.
  intros Hb (Hnd & Hty & _) He Hk Hf. cbn [alts_of] in *.
  destruct (arrived_spelt bin k0 v g Hb Hf) as (text & r & HW & Hv & Hd & J & Hg).
  destruct (text_value v text HW Hv Hd) as [y Hy].
  assert (Nb : ~ is_blob v).
  { inversion He as [| |? ? ? Hi E1 E2 E3|? ? ? a t ? u w Hi Ht En Hu Hw E1 E2 E3| |]; subst; [intros []|].
    clear - Hw. induction Hw; auto; intros []. }
  assert (E : arg_enum (Tagged tag alts) (Arg text []) = Ok x).
  { inversion He as [| |? ? n Hi E1 E2 E3|? ? n a t z u w Hi Ht En Hu Hw E1 E2 E3| |]; subst.
    - assert (T : has_tail tag n SUnit text).
      { apply (obj_tail tag n SUnit (SStruct [(tag, SStr n)]) []); [apply (ser_struct [(tag, SStr n)])|apply (wser_struct [(tag, SStr n)])|discriminate|exact I|constructor|exact HW|].
        intros ts rs HE J' t x rp m Ht En _ _ Hx _ _ HF. inversion HE; subst. inversion J'; subst. inversion HF; subst.
        inversion En as [| | | | | | | |E1 E2 E3| | | | | | | | | | | | | |q Hq E1 E2 E3| | |]; subst; [reflexivity|]. destruct q as [| |[]| | |]; try discriminate. destruct Hx. exact I. }
      destruct T as (k & b & rs & J' & Ek & Eb & Hl & _). destruct (tagged_loop text tag n k b rs y J' Hy Ek Eb Hl) as (m & HF & E). rewrite E.
      unfold tagged_as. rewrite (find_in _ _ _ Hnd Hi). reflexivity.
    - destruct (tagged_tail tag n u v Hw text HW Hv) as (k & b & rs & J' & Ek & Eb & Hl & HR).
      destruct (tagged_loop text tag n k b rs y J' Hy Ek Eb Hl) as (m & HF & E). rewrite E. unfold tagged_as. rewrite (find_in _ _ _ Hnd Hi).
      destruct (Hk n z a t eq_refl Hi Ht) as (K1 & K2 & K3).
      assert (Hdu : nesting u < 128).
      { clear - Hw Hd. assert (X : nesting u <= nesting v); [|lia]. clear Hd. induction Hw; cbn [nesting map list_max fold_right] in *; unfold list_max in *; cbn [fold_right] in *; lia. }
      specialize (HR t z (reparse_of text) m (Hty _ _ _ Hi Ht) En K1 K2 K3 Hu Hdu HF).
      destruct a as [|t'|fs]; unfold alt_type in Ht; [contradiction|subst t; cbn [tagged_content]; rewrite HR; reflexivity..]. }
  destruct Hg as [-> |(tb & A & bl & rb & -> & HA & Hbl & Jb & S & N)]; [exact E|].
  apply (tagged_spelt tag alts tb rb A bl r text x Jb (N Nb) HA Hbl S J). exact E.
Qed.
Theorem tagged_returns bin src ns args i v g tag alts x :
  sendable bin src ns args -> became bin src ns args i v g -> enum_ok (Tagged tag alts) -> enum_encodes (Tagged tag alts) x v ->
  enum_keeps bin (Tagged tag alts) x -> enum_first bin (Tagged tag alts) v -> arg_enum (Tagged tag alts) g = Ok x.
Proof. intros Hs Hb. destruct (became_arrived _ _ _ _ _ _ _ Hs Hb) as [k Ha]. exact (tagged_arrived bin k v g tag alts x Ha). Qed.

(** ** Adjacently tagged enums *)
Definition rd_of (A : list subslice_t) : option (list subslice_t) := match A with [] => None | _ => Some A end.
Lemma fit_of bin A bl n l : contents A = Some bl -> (bin = true -> covers bl n l) -> (bin = false -> A = []) -> fit bin (rd_of A) n l.
Proof.
  intros HA Hc Hf. destruct A as [|s A]; cbn [rd_of fit].
  - intros eb. specialize (Hc eb). unfold contents in HA. cbn in HA. injection HA as <-. destruct l as [|b l]; [reflexivity|].
    specialize (Hc 0 b eq_refl). destruct (n + 0); discriminate.
  - destruct bin; [|discriminate (Hf eq_refl)]. split; [reflexivity|]. intros j b Hj. eapply atts_nth; [exact HA|]. exact (Hc eq_refl j b Hj).
Qed.
Lemma typed_text bin A t x v n text : ty_ok t -> encodes t x v -> recoverable bin t x -> val_ok v -> nesting v < 128 -> W bin n v text ->
  fit bin (rd_of A) n (blobs v) -> (bin = true -> N.of_nat (n + length (blobs v)) <= u64_max)%N -> arg_deserialize t (Arg text A) = Ok x.
Proof.
  intros Ht He Hr Hv Hd HW Hf Hc. destruct A as [|s A]; cbn [rd_of] in Hf.
  - destruct (round_all from_str_value bin None t Ht x v He Hr Hv n text HW Hf Hc) as (r & J & V & _).
    rewrite (arg_none t text r J). specialize (V 128 Hd). cbn [reader] in V. rewrite V. reflexivity.
  - destruct (round_all (from_str_value_n (S (length text))) bin (Some (s :: A)) t Ht x v He Hr Hv n text HW Hf Hc) as (r & J & V & _).
    rewrite (arg_some t text r (s :: A) J) by discriminate. specialize (V 128 Hd). cbn [reader] in V. rewrite V. reflexivity.
Qed.
Lemma struct_trip bin rd fs xs vs n text : ty_ok (TyStruct fs) -> encodes (TyStruct fs) (XStruct xs) (SStruct vs) -> recoverable bin (TyStruct fs) (XStruct xs) ->
  val_ok (SStruct vs) -> W bin n (SStruct vs) text -> fit bin rd n (blobs (SStruct vs)) -> (bin = true -> N.of_nat (n + length (blobs (SStruct vs))) <= u64_max)%N ->
  exists texts rs, text = "{"%byte :: seps true texts ++ ["}"%byte] /\ Wents bin n (as_entries vs) texts /\ Forall2 jmember rs texts /\ map fst rs = map (fun kx => escape (fst kx)) fs.
Proof.
  intros [_ Ht] He Hr [_ Hv] HW Hf Hc. apply (W_object _ _ _ (as_entries vs)) in HW as (ts & -> & HE); [|apply ser_struct|apply wser_struct|cbn [json_of]; rewrite opt_map_none, entry_as; auto].
  assert (He' : Forall3 (fun f x kv => fst kv = fst f /\ encodes (snd f) x (snd kv)) fs xs vs) by (inversion He; assumption).
  assert (Hr' : Forall2 (fun f x => recoverable bin (snd f) x) fs xs) by (inversion Hr; assumption).
  assert (R : Forall (fun f => round from_str_value bin rd (snd f)) fs).
  { rewrite allP_In in Ht. rewrite Forall_forall. intros [f u] Hin. apply round_all. exact (Ht (f, u) Hin). }
  destruct (fields_trip from_str_value bin rd fs xs vs R He' Hr' Hv n ts HE Hf Hc) as (rs & J & K & _). exists ts, rs. auto.
Qed.
Lemma member_value k r m t : jmember (k, r) (json_str m ++ ":"%byte :: t) -> k = escape m -> jvalue r t.
Proof.
  intros (t' & E & _ & J) ->. cbn [fst snd] in *. unfold json_str in E. cbn [app] in E. rewrite <- app_assoc in E. cbn [app] in E.
  injection E as E. apply app_inv_head in E. injection E as ->. exact J.
Qed.
Lemma alt_named (alts : list (bytes * alt)) n a : NoDup (map fst alts) -> In (n, a) alts -> named_alt alts n a.
Proof.
  intros Hn Hi. apply in_split in Hi as (b & c & ->). exists b, c. split; [reflexivity|]. rewrite map_app in Hn. cbn [map fst] in Hn.
  apply NoDup_remove_2 in Hn. intros X. apply Hn. apply in_or_app. left. exact X.
Qed.
Lemma tag_read rp w (alts : list (bytes * alt)) n a d : NoDup (map fst alts) -> In (n, a) alts -> adjacent_tag rp w alts d (RStr (escape n)) = Some n.
Proof.
  intros Hn Hi. unfold adjacent_tag. rewrite direct_enum, unescape_escape. rewrite (variant_found _ n _ VtUnit TyUnit); [reflexivity| |].
  - rewrite map_map. exact Hn.
  - apply (in_map (fun na => (fst na, (VtUnit, TyUnit)))) in Hi. exact Hi.
Qed.
Lemma adjacent_arrived bin k v g tag cont alts x :
  arrived bin k v g -> enum_ok (Adjacent tag cont alts) -> enum_encodes (Adjacent tag cont alts) x v ->
  enum_keeps bin (Adjacent tag cont alts) x -> enum_first bin (Adjacent tag cont alts) v -> arg_enum (Adjacent tag cont alts) g = Ok x.
Proof.
  intros (HW & Hv & Hd & bl & HA & Hnil & Hc) (Hnd & Hty & Htc) He Hk Hf. cbn [alts_of enum_first] in *. destruct g as [text A]. cbn [g_text g_attachments] in *.
  assert (Hfit : fit bin (rd_of A) k (blobs v)).
  { apply (fit_of bin A bl); [exact HA|intros eb; apply Hc; exact eb|exact Hnil]. }
  assert (Hcount : (bin = true -> N.of_nat (k + length (blobs v)) <= u64_max)%N) by (intros eb; apply Hc; exact eb).
  assert (Hord : forall r rs, A <> [] -> ordinary_first ((escape tag, r) :: rs)).
  { intros r rs HnA. destruct bin; [|destruct HnA; apply Hnil; reflexivity]. destruct (Hf eq_refl) as [U1 U2]. rewrite (proj1 (escape_plain _ U1)). apply ordinary_key. split; assumption. }
  inversion He as [| | | |? ? ? n Hi E1 E2 E3|? ? ? n a t z u Hi Ht En E1 E2 E3]; subst.
  - change (W bin k (SStruct [(tag, SStr n)]) text) in HW.
    set (fs := [(tag, TyString); (cont, TyOption TyUnit)]).
    assert (Het : encodes (TyStruct [(tag, TyString)]) (XStruct [XStr n]) (SStruct [(tag, SStr n)])) by (repeat constructor).
    assert (Hr : recoverable bin (TyStruct [(tag, TyString)]) (XStruct [XStr n])) by (constructor; [exact Hf|repeat constructor]).
    assert (Hok : ty_ok (TyStruct [(tag, TyString)])) by (split; [constructor; [intros []|constructor]|cbn; auto]).
    destruct (struct_trip bin (rd_of A) _ _ _ k text Hok Het Hr Hv HW Hfit Hcount) as (texts & rs & -> & HE & HJ & K).
    inversion HE as [|? ? ? ? kt t ts' Ek E1 E2]; subst. inversion E2; subst. cbn [key_text] in Ek. injection Ek as <-.
    inversion HJ as [|[k0 r] ? ? ? J1 J2]; subst. inversion J2; subst. cbn [map fst] in K. injection K as ->.
    apply (W_leaf _ _ _ _ (json_str n)) in E1; try reflexivity. subst t.
    pose proof (member_value _ _ _ _ J1 eq_refl) as Jr. rewrite (jvalue_unique _ _ _ Jr (jv_str _ (escape_body n))) in *.
    pose proof (jobj_seps _ _ HJ) as J.
    apply (arg_enum_ok _ _ _ _ _ J). cbn [de_enum]. unfold de_adjacent. cbn [enter]. rewrite (objects_map A) by apply Hord.
    cbn [str_members]. rewrite unescape_escape. unfold relevant. cbn [filter fst]. rewrite bytes_eqb_refl. cbn [orb]. rewrite bytes_eqb_refl.
    rewrite (tag_read _ _ alts n AUnit _ Hnd Hi). unfold adjacent_as. rewrite (find_in _ _ _ Hnd Hi). reflexivity.
  - change (W bin k (SStruct [(tag, SStr n); (cont, u)]) text) in HW. pose proof (Hk n z a t eq_refl Hi Ht) as Hz. cbn beta iota in Hz.
    pose proof (Hty n a t Hi Ht) as Hot.
    assert (Het : encodes (TyStruct [(tag, TyString); (cont, t)]) (XStruct [XStr n; z]) (SStruct [(tag, SStr n); (cont, u)])) by (repeat constructor; exact En).
    assert (Hr : recoverable bin (TyStruct [(tag, TyString); (cont, t)]) (XStruct [XStr n; z])) by (constructor; [exact Hf|repeat constructor; exact Hz]).
    assert (Hok : ty_ok (TyStruct [(tag, TyString); (cont, t)])).
    { split; [|cbn; auto]. constructor; [|constructor; [intros []|constructor]]. intros [X|[]]. apply Htc. symmetry. exact X. }
    pose proof (typed_text bin A _ _ _ k text Hok Het Hr Hv Hd HW Hfit Hcount) as D.
    destruct (struct_trip bin (rd_of A) _ _ _ k text Hok Het Hr Hv HW Hfit Hcount) as (texts & rs & -> & HE & HJ & K).
    inversion HE as [|? ? ? ? kt t1 ts' Ek E1 E2]; subst. inversion E2 as [|? ? ? ? kt2 t2 ts2 Ek2 E3 E4]; subst. inversion E4; subst.
    cbn [key_text] in Ek, Ek2. injection Ek as <-. injection Ek2 as <-.
    inversion HJ as [|[k0 r] ? ? ? J1 J2]; subst. inversion J2 as [|[k2 r2] ? ? ? J3 J4]; subst. inversion J4; subst. cbn [map fst] in K. injection K as -> ->.
    apply (W_leaf _ _ _ _ (json_str n)) in E1; try reflexivity. subst t1.
    pose proof (member_value _ _ _ _ J1 eq_refl) as Jr. rewrite (jvalue_unique _ _ _ Jr (jv_str _ (escape_body n))) in *.
    pose proof (member_value _ _ _ _ J3 eq_refl) as Jr2. pose proof (jobj_seps _ _ HJ) as J.
    apply (adjacent_variant tag cont alts n a _ _ A z Htc J); [apply Hord| |apply alt_named; assumption|].
    + exists [], (escape tag), (escape n), [(escape cont, r2)]. repeat split; try apply unescape_escape; [constructor|].
      constructor; [|constructor]. cbn [fst]. rewrite unescape_escape. congruence.
    + destruct a as [|t'|fs]; unfold alt_type in Ht; [contradiction|subst t; exact D|subst t]. split; [exact D|].
      intros k1 y [E|[E|[]]] Hy; [injection E as <- <-; rewrite unescape_escape in Hy; congruence|injection E as <- <-].
      inversion En as [| | | | | | | | | | | | | | | | |? xs vs En'| | | | | | | |]; subst. destruct Hv as [_ [_ [Hv _]]].
      assert (Hfit2 : fit bin (rd_of A) (k + 0) (blobs (SStruct vs))).
      { cbn [blobs flat_map app] in Hfit. rewrite app_nil_r in Hfit. rewrite Nat.add_0_r. exact Hfit. }
      assert (Hcount2 : (bin = true -> N.of_nat (k + 0 + length (blobs (SStruct vs))) <= u64_max)%N).
      { cbn [blobs flat_map app] in Hcount. rewrite app_nil_r in Hcount. rewrite Nat.add_0_r. exact Hcount. }
      destruct (struct_trip bin (rd_of A) _ _ _ _ t2 Hot En Hz Hv E3 Hfit2 Hcount2) as (texts & rs & -> & _ & HJ2 & K).
      rewrite (jvalue_unique _ _ _ Jr2 (jobj_seps _ _ HJ2)). split; [exists rs; reflexivity|]. intros [HA1 HA2]. cbn [g_attachments] in HA1.
      assert (eb : bin = true) by (destruct bin; [reflexivity|rewrite (Hnil eq_refl) in HA1; discriminate]).
      destruct rs as [|[k1 y1] rs]; [contradiction|]. subst k1. inversion Hz as [| | | | | | | | | | | | |? ? Hp _| | | | | |]; subst.
      destruct fs as [|[f0 u0] fs]; [discriminate|]. cbn [map fst] in K. injection K as K _. destruct (Hp eq_refl) as [U1 U2].
      rewrite (proj1 (escape_plain _ U1)) in K. congruence.
Qed.
Theorem adjacent_returns bin src ns args i v g tag cont alts x :
  sendable bin src ns args -> became bin src ns args i v g -> enum_ok (Adjacent tag cont alts) -> enum_encodes (Adjacent tag cont alts) x v ->
  enum_keeps bin (Adjacent tag cont alts) x -> enum_first bin (Adjacent tag cont alts) v -> arg_enum (Adjacent tag cont alts) g = Ok x.
Proof. intros Hs Hb. destruct (became_arrived _ _ _ _ _ _ _ Hs Hb) as [k Ha]. exact (adjacent_arrived bin k v g tag cont alts x Ha). Qed.
(** A tagged [Value::Null] arrives as the empty object. *)
Theorem tagged_null bin src ns args i g tag alts n :
  sendable bin src ns args -> became bin src ns args i (SMap [(SStr tag, SStr n)]) g -> enum_ok (Tagged tag alts) -> In (n, ANewtype TyValue) alts ->
  (bin = true -> plain_key tag) -> arg_enum (Tagged tag alts) g = Ok (XVariant n (XValue (VObj []))).
Proof.
  intros Hs Hb (Hnd & _) Hi Hf. cbn [alts_of] in *.
  destruct (became_arrived _ _ _ _ _ _ _ Hs Hb) as [k0 Ha]. destruct (arrived_spelt bin k0 _ g Ha) as (text & r & HW & Hv & Hd & J & Hg).
  { intros eb. destruct (Hf eb) as [U1 U2]. split; [repeat constructor|]. cbn. repeat split; assumption. }
  destruct (text_value _ text HW Hv Hd) as [y Hy].
  assert (E : arg_enum (Tagged tag alts) (Arg text []) = Ok (XVariant n (XValue (VObj [])))).
  { destruct (map_object _ _ HW Hv) as (ts & rs & -> & HE & HJ & J' & K).
    inversion HE as [|? ? ? ? kt t ts' Ek E1 E2]; subst. inversion E2; subst. cbn [key_text] in Ek. injection Ek as <-. apply str_leaf in E1. subst t.
    clear rs HJ J' K. assert (HJ : Forall2 jmember [(escape tag, RStr (escape n))] [json_str tag ++ ":"%byte :: json_str n]).
    { constructor; [|constructor]. exists (json_str n). cbn [fst snd]. split; [unfold json_str; cbn [app]; rewrite <- app_assoc; reflexivity|]. split; [apply escape_body|].
      unfold json_str. apply jv_str. apply escape_body. }
    destruct (tagged_loop _ tag n _ _ [] y (jobj_seps _ _ HJ) Hy (unescape_escape _) (unescape_escape _) ltac:(constructor)) as (m & HF & E). rewrite E. inversion HF; subst.
    unfold tagged_as. rewrite (find_in _ _ _ Hnd Hi). reflexivity. }
  destruct Hg as [-> |(tb & A & bl & rb & -> & HA & Hbl & Jb & S & N)]; [exact E|].
  apply (tagged_spelt tag alts tb rb A bl r text _ Jb (N (fun X => X)) HA Hbl S J). exact E.
Qed.
