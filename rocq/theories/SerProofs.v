(** The text writer ([serde_json]'s serialiser): what it writes is JSON that reads back as the
    value it stands for. *)
From Verif Require Export WriterProofs.

Definition ser_elems : bool -> list sval -> bytes -> bytes * outcome :=
  fix elems (first : bool) (l : list sval) (o : bytes) : bytes * outcome :=
     match l with
     | [] => (o, OOk)
     | x :: l' => obind (json_ser x (o ++ comma_unless first)) (elems false l')
     end.
Definition ser_fields : bool -> list (bytes * sval) -> bytes -> bytes * outcome :=
  fix fields (first : bool) (l : list (bytes * sval)) (o : bytes) : bytes * outcome :=
     match l with
     | [] => (o, OOk)
     | (k, x) :: l' =>
         obind (json_ser x (o ++ comma_unless first ++ json_str k ++ [":"%byte])) (fields false l')
     end.
Definition ser_entries : bool -> list (sval * sval) -> bytes -> bytes * outcome :=
  fix entries (first : bool) (l : list (sval * sval)) (o : bytes) : bytes * outcome :=
     match l with
     | [] => (o, OOk)
     | (k, x) :: l' =>
         match key_text k with
         | None => (o ++ comma_unless first, OErr)
         | Some t => obind (json_ser x (o ++ comma_unless first ++ t ++ [":"%byte])) (entries false l')
         end
     end.
Definition close (c : byte) (o : bytes) : bytes * outcome := (o ++ [c], OOk).
Definition ser_array l o := obind (ser_elems true l (o ++ ["["%byte])) (close "]").
Definition ser_object l o := obind (ser_entries true l (o ++ ["{"%byte])) (close "}").
Definition as_entries (l : list (bytes * sval)) : list (sval * sval) := map (fun '(k, x) => (SStr k, x)) l.
Lemma fields_entries l : forall first o, ser_fields first l o = ser_entries first (as_entries l) o.
Proof.
  induction l as [|[k x] l IH]; intros first o; [reflexivity|].
  cbn [ser_fields ser_entries as_entries map key_text]. unfold obind.
  destruct (json_ser x (o ++ comma_unless first ++ json_str k ++ [":"%byte])) as [o' []]; try reflexivity. apply IH.
Qed.
Definition ser_variant (n : bytes) (body : bytes -> bytes * outcome) (o : bytes) :=
  obind (body (o ++ "{"%byte :: json_str n ++ [":"%byte])) (close "}").
Lemma ser_seq l o : json_ser (SSeq l) o = ser_array l o. Proof. reflexivity. Qed.
Lemma ser_tuple l o : json_ser (STuple l) o = ser_array l o. Proof. reflexivity. Qed.
Lemma ser_tuples l o : json_ser (STupleStruct l) o = ser_array l o. Proof. reflexivity. Qed.
Lemma ser_tuplev n l o : json_ser (STupleVariant n l) o = ser_variant n (ser_array l) o. Proof. reflexivity. Qed.
Lemma ser_newv n x o : json_ser (SNewtypeVariant n x) o = ser_variant n (json_ser x) o. Proof. reflexivity. Qed.
Lemma ser_map l o : json_ser (SMap l) o = ser_object l o. Proof. reflexivity. Qed.
Lemma ser_struct l o : json_ser (SStruct l) o = ser_object (as_entries l) o.
Proof. unfold ser_object. rewrite <- fields_entries. reflexivity. Qed.
Lemma obind_ext {S} (r : S * outcome) f g : (forall s, f s = g s) -> obind r f = obind r g.
Proof. intros H. destruct r as [s []]; cbn; auto. Qed.
Lemma ser_structv n l o : json_ser (SStructVariant n l) o = ser_variant n (ser_object (as_entries l)) o.
Proof.
  unfold ser_variant, ser_object. rewrite <- fields_entries. reflexivity.
Qed.

(** Keys. *)
Lemma key_spec k :
  match key_text k, key_of k with
  | Some t, Some s => exists b, t = x22 :: b ++ [x22] /\
      (key_ok k -> jbody b /\ unescape b = Some s /\ no_newline t) /\ (strs_ok k -> utf8_valid t = true)
  | None, None => True
  | _, _ => False
  end.
Proof.
  assert (P : forall s, forallb num_char s = true ->
    jbody s /\ unescape s = Some s /\ no_newline (quote :: s ++ [quote]) /\ utf8_valid (quote :: s ++ [quote]) = true).
  { intros s H. destruct (plain_body s (num_plain s H)) as [H1 H2]. repeat split; auto.
    - apply no_newline_cons; [reflexivity|]. apply no_newline_app; [|apply no_newline_forallb; reflexivity].
      intros X. rewrite forallb_forall in H. apply H in X. discriminate.
    - apply utf8_ascii. cbn [forallb]. rewrite forallb_app. cbn. rewrite andb_true_r.
      rewrite forallb_forall in *. intros c Hc. apply num_char_facts. auto. }
  assert (D : forall n, forallb num_char (dec n) = true).
  { intros n. rewrite <- int_lit_text. apply num_chars. apply int_lit_ok. }
  assert (Z : forall z, forallb num_char (decZ z) = true).
  { intros z. rewrite decZ_text. apply num_chars. apply int_lit_ok. }
  induction k; cbn [key_text key_of key_ok strs_ok]; auto.
  - exists (if b then bs "true" else bs "false"). split; [reflexivity|].
    split; [intros _|destruct b; intros _; reflexivity].
    destruct b; (split; [apply plain_body; reflexivity|]; split; [reflexivity|apply no_newline_forallb; reflexivity]).
  - exists (dec (bN b)). destruct (P _ (D (bN b))) as (A1 & A2 & A3 & A4). auto 10.
  - exists (decZ z). destruct (P _ (Z z)) as (A1 & A2 & A3 & A4). auto 10.
  - destruct t as [n|]; auto. exists (numlit_text n). split; [reflexivity|].
    split; intros Hn; apply num_chars, P in Hn as (A1 & A2 & A3 & A4); auto.
  - exists (escape c). split; [reflexivity|]. split; [intros _|apply json_str_utf8].
    split; [apply escape_body|]. split; [apply unescape_escape|apply json_str_no_newline].
  - exists (escape s). split; [reflexivity|]. split; [intros _|apply json_str_utf8].
    split; [apply escape_body|]. split; [apply unescape_escape|apply json_str_no_newline].
  - exists (escape name). split; [reflexivity|]. split; [intros _|apply json_str_utf8].
    split; [apply escape_body|]. split; [apply unescape_escape|apply json_str_no_newline].
Qed.

(** ** The invariant of the writer *)
Definition wr (v : sval) (t : bytes) (oc : outcome) : Prop :=
  (forall o, json_ser v o = (o ++ t, oc)) /\ oc <> OPanic /\ (oc = OOk <-> json_of v <> None) /\
  (oc = OOk -> strs_ok v -> utf8_valid t = true) /\
  (oc = OOk -> val_ok v -> no_newline t /\ exists r x, json_of v = Some x /\ jvalue r t /\
     forall rp d, nesting v < d -> val_of rp d r = Some x).

Lemma obind_app {f : bytes -> bytes * outcome} {g h t oc} :
  (forall o, f o = (o ++ t, oc)) -> (forall o, g o = (o ++ h, OOk)) ->
  forall o, obind (f o) g = (o ++ t ++ match oc with OOk => h | _ => [] end, oc).
Proof.
  intros H1 H2 o. rewrite H1. unfold obind. destruct oc; rewrite ?app_nil_r; try reflexivity.
  rewrite H2, app_assoc. reflexivity.
Qed.

Lemma allP_Forall {A} (P : A -> Prop) l : allP P l <-> Forall P l.
Proof.
  induction l as [|x l IH]; cbn; [split; constructor|]. rewrite IH.
  split; [intros [? ?]; constructor; auto|intros H; inversion H; auto].
Qed.
Lemma all_some_cons {A} (x : option A) l : all_some (x :: l) <> None <-> x <> None /\ all_some l <> None.
Proof. destruct x; cbn; [|tauto]. destruct (all_some l); cbn; split; intuition congruence. Qed.

Lemma elems_wr l : Forall (fun v => exists t oc, wr v t oc) l -> forall first,
  exists t oc, (forall o, ser_elems first l o = (o ++ t, oc)) /\ oc <> OPanic /\
    (oc = OOk <-> all_some (map json_of l) <> None) /\
    (oc = OOk -> exists ts, t = seps first ts /\ Forall2 (fun v t => wr v t OOk) l ts).
Proof.
  induction 1 as [|v l (t & oc & Hv) H IH]; intros first.
  { exists [], OOk. cbn. split; [intros; rewrite app_nil_r; reflexivity|]. split; [discriminate|].
    split; [split; [discriminate|reflexivity]|]. intros _. exists []. auto. }
  pose proof Hv as (H1 & H2 & H3 & _). destruct (IH false) as (t2 & oc2 & I1 & I2 & I3 & I4).
  assert (E : forall o, ser_elems first (v :: l) o =
    match oc with OOk => (o ++ comma_unless first ++ t ++ t2, oc2) | _ => (o ++ comma_unless first ++ t, oc) end).
  { intros o. cbn [ser_elems]. fold ser_elems. rewrite H1. unfold obind. rewrite <- app_assoc.
    destruct oc; auto. rewrite I1, <- !app_assoc. reflexivity. }
  assert (Hs : all_some (map json_of (v :: l)) <> None <-> oc = OOk /\ oc2 = OOk).
  { cbn [map]. rewrite all_some_cons, <- H3, <- I3. reflexivity. }
  destruct oc.
  - exists (comma_unless first ++ t ++ t2), oc2. split; [exact E|]. split; [exact I2|]. split; [rewrite Hs; tauto|].
    intros Ho. destruct (I4 Ho) as (ts & -> & Hts). exists (t :: ts). split; [reflexivity|]. constructor; auto.
  - exists (comma_unless first ++ t), OErr. split; [exact E|]. split; [discriminate|].
    split; [rewrite Hs; split; [discriminate|intros [? _]; discriminate]|discriminate].
  - congruence.
Qed.
Lemma wr_list l ts : Forall2 (fun v t => wr v t OOk) l ts ->
  (allP strs_ok l -> Forall (fun t => utf8_valid t = true) ts) /\
  (allP val_ok l -> Forall no_newline ts /\
     exists rs xs, Forall2 jvalue rs ts /\ all_some (map json_of l) = Some xs /\
       forall rp d, list_max (map nesting l) < d -> all_some (map (val_of rp d) rs) = Some xs).
Proof.
  induction 1 as [|v t l ts Hv H [I1 I2]].
  { split; [constructor|]. intros _. split; [constructor|]. exists [], []. auto. }
  destruct Hv as (_ & _ & _ & H4 & H5). cbn [allP]. split.
  - intros [Ha Hb]. constructor; auto.
  - intros [Ha Hb]. destruct (H5 eq_refl Ha) as (N & r & x & E & J & V). destruct (I2 Hb) as (N2 & rs & xs & J2 & E2 & V2).
    split; [constructor; auto|]. exists (r :: rs), (x :: xs). split; [constructor; auto|]. split.
    + cbn [map all_some]. rewrite E, E2. reflexivity.
    + intros rp d Hd. cbn [map list_max fold_right] in Hd. fold (list_max (map nesting l)) in Hd.
      cbn [map all_some]. rewrite V by lia. rewrite V2 by lia. reflexivity.
Qed.
(** An array: writer, outcome, and reading. *)
Definition arr_wr (l : list sval) (t : bytes) (oc : outcome) : Prop :=
  (forall o, ser_array l o = (o ++ t, oc)) /\ oc <> OPanic /\ (oc = OOk <-> all_some (map json_of l) <> None) /\
  (oc = OOk -> allP strs_ok l -> utf8_valid t = true) /\
  (oc = OOk -> allP val_ok l -> no_newline t /\ exists rs xs, all_some (map json_of l) = Some xs /\ jvalue (RArr rs) t /\
     forall rp d, S (list_max (map nesting l)) < d -> val_of rp d (RArr rs) = Some (VArr xs)).
Lemma array_wr l : Forall (fun v => exists t oc, wr v t oc) l -> exists t oc, arr_wr l t oc.
Proof.
  intros H. destruct (elems_wr l H true) as (t & oc & E & Hp & Hs & Ht).
  pose proof (obind_app (f := fun o => ser_elems true l (o ++ ["["%byte])) (g := close "]") (h := ["]"%byte])
    (t := "["%byte :: t) (oc := oc)) as X. cbv beta in X.
  exists ("["%byte :: t ++ match oc with OOk => ["]"%byte] | _ => [] end), oc.
  split. { intros o. unfold ser_array. apply X; [intros o'; rewrite E, <- app_assoc; reflexivity|reflexivity]. }
  split; [exact Hp|]. split; [exact Hs|]. split.
  - intros -> Hok. destruct (Ht eq_refl) as (ts & -> & HF). apply wr_list in HF as [HF _].
    apply (utf8_app_true ["["%byte]); [reflexivity|]. apply utf8_app_true; [apply seps_utf8; auto|reflexivity].
  - intros -> Hok. destruct (Ht eq_refl) as (ts & -> & HF). apply wr_list in HF as [_ HF].
    destruct (HF Hok) as (N & rs & xs & J & Exs & V). split.
    + apply no_newline_cons; [reflexivity|]. apply no_newline_app; [apply seps_no_newline; exact N|apply no_newline_forallb; reflexivity].
    + exists rs, xs. split; [exact Exs|]. split; [apply jarr_seps; exact J|].
      intros rp [|[|d]] Hd; [lia|lia|]. rewrite val_of_arr, V by lia. reflexivity.
Qed.

(** Members of an object. *)
Definition entry_json (kx : sval * sval) : option (bytes * value) := pair_opt (key_of (fst kx)) (json_of (snd kx)).
Definition ent_wr (kx : sval * sval) (m : bytes) : Prop :=
  exists kt s t, key_text (fst kx) = Some kt /\ key_of (fst kx) = Some s /\ m = kt ++ ":"%byte :: t /\ wr (snd kx) t OOk.
Lemma pair_opt_some {A B} (a : option A) (b : option B) : pair_opt a b <> None <-> a <> None /\ b <> None.
Proof. destruct a, b; cbn; intuition congruence. Qed.
Lemma entries_wr l : Forall (fun kx => exists t oc, wr (snd kx) t oc) l -> forall first,
  exists t oc, (forall o, ser_entries first l o = (o ++ t, oc)) /\ oc <> OPanic /\
    (oc = OOk <-> all_some (map entry_json l) <> None) /\
    (oc = OOk -> exists ts, t = seps first ts /\ Forall2 ent_wr l ts).
Proof.
  induction 1 as [|[k v] l (t & oc & Hv) H IH]; intros first.
  { exists [], OOk. cbn. split; [intros; rewrite app_nil_r; reflexivity|]. split; [discriminate|].
    split; [split; [discriminate|reflexivity]|]. intros _. exists []. auto. }
  cbn [fst snd] in *.
  assert (Hs : all_some (map entry_json ((k, v) :: l)) <> None <->
    (key_of k <> None /\ json_of v <> None) /\ all_some (map entry_json l) <> None).
  { cbn [map]. rewrite all_some_cons. unfold entry_json at 1. cbn [fst snd]. rewrite pair_opt_some. reflexivity. }
  pose proof (key_spec k) as Hk. destruct (key_text k) as [kt|] eqn:Ek.
  2: { destruct (key_of k) as [|] eqn:Ek'; [contradiction|]. exists (comma_unless first), OErr. split; [intros o; cbn [ser_entries]; rewrite Ek; reflexivity|].
    split; [discriminate|]. split; [rewrite Hs; split; [discriminate|intuition congruence]|discriminate]. }
  destruct (key_of k) as [s|] eqn:Eko; [|contradiction].
  pose proof Hv as (H1 & H2 & H3 & _). destruct (IH false) as (t2 & oc2 & I1 & I2 & I3 & I4).
  assert (E : forall o, ser_entries first ((k, v) :: l) o =
    match oc with OOk => (o ++ comma_unless first ++ (kt ++ ":"%byte :: t) ++ t2, oc2)
                | _ => (o ++ comma_unless first ++ kt ++ ":"%byte :: t, oc) end).
  { intros o. cbn [ser_entries]. fold ser_entries. rewrite Ek, H1. unfold obind.
    destruct oc; rewrite ?I1; rewrite <- ?app_assoc; cbn [app]; rewrite <- ?app_assoc; reflexivity. }
  rewrite <- H3, <- I3 in Hs. destruct oc.
  - eexists. exists oc2. split; [exact E|]. split; [exact I2|].
    split; [rewrite Hs; split; [intuition congruence|intuition]|].
    intros Ho. destruct (I4 Ho) as (ts & -> & Hts). exists ((kt ++ ":"%byte :: t) :: ts). split; [reflexivity|].
    constructor; [|exact Hts]. exists kt, s, t. auto.
  - eexists. exists OErr. split; [exact E|]. split; [discriminate|].
    split; [rewrite Hs; split; [discriminate|intuition discriminate]|discriminate].
  - congruence.
Qed.
Lemma ent_list l ts : Forall2 ent_wr l ts ->
  (allP (fun '(k, x) => strs_ok k /\ strs_ok x) l -> Forall (fun t => utf8_valid t = true) ts) /\
  (allP (fun '(k, x) => key_ok k /\ val_ok x) l -> Forall no_newline ts /\
     exists rs ms, Forall2 jmember rs ts /\ all_some (map entry_json l) = Some ms /\
       map (fun kx => key_of (fst kx)) l = map (fun kr => unescape (fst kr)) rs /\
       forall rp d, list_max (map (fun '(_, x) => nesting x) l) < d ->
         all_some (map (val_member rp d) rs) = Some ms).
Proof.
  induction 1 as [|[k v] m l ts (kt & s & t & Ek & Eko & -> & Hv) H [I1 I2]].
  { split; [constructor|]. intros _. split; [constructor|]. exists [], []. auto. }
  cbn [fst snd] in *. destruct Hv as (_ & _ & _ & H4 & H5). pose proof (key_spec k) as Hk. rewrite Ek, Eko in Hk.
  destruct Hk as (b & -> & K1 & K2). cbn [allP]. split.
  - intros [[Ha1 Ha2] Hb]. constructor; auto. apply utf8_app_true; [auto|].
    apply (utf8_app_true [":"%byte]); [reflexivity|]. apply H4; auto.
  - intros [[Ha1 Ha2] Hb]. destruct (H5 eq_refl Ha2) as (N & r & x & E & J & V). destruct (K1 Ha1) as (B1 & B2 & B3).
    destruct (I2 Hb) as (N2 & rs & ms & J2 & E2 & EK & V2).
    split. { constructor; auto. apply no_newline_app; [exact B3|]. apply no_newline_cons; [reflexivity|exact N]. }
    exists ((b, r) :: rs), ((s, x) :: ms). split; [constructor; auto|].
    { exists t. cbn [fst snd]. split; [|auto]. cbn [app]. rewrite <- app_assoc. reflexivity. }
    split. { cbn [map all_some]. unfold entry_json at 1. cbn [fst snd]. rewrite Eko, E, E2. reflexivity. }
    split. { cbn [map fst snd]. rewrite Eko, B2, EK. reflexivity. }
    intros rp d Hd. cbn [map list_max fold_right] in Hd. fold (list_max (map (fun '(_, x) => nesting x) l)) in Hd.
    cbn [map all_some]. unfold val_member at 1. cbn [fst snd]. rewrite B2, V by lia. rewrite V2 by lia. reflexivity.
Qed.
Definition obj_wr (l : list (sval * sval)) (t : bytes) (oc : outcome) : Prop :=
  (forall o, ser_object l o = (o ++ t, oc)) /\ oc <> OPanic /\ (oc = OOk <-> all_some (map entry_json l) <> None) /\
  (oc = OOk -> allP (fun '(k, x) => strs_ok k /\ strs_ok x) l -> utf8_valid t = true) /\
  (oc = OOk -> first_key_ok (map (fun kx => key_of (fst kx)) l) -> allP (fun '(k, x) => key_ok k /\ val_ok x) l ->
     no_newline t /\ exists rs ms, all_some (map entry_json l) = Some ms /\ jvalue (RObj rs) t /\
     forall rp d, S (list_max (map (fun '(_, x) => nesting x) l)) < d -> val_of rp d (RObj rs) = Some (VObj (obj_of ms))).
Lemma object_wr l : Forall (fun kx => exists t oc, wr (snd kx) t oc) l -> exists t oc, obj_wr l t oc.
Proof.
  intros H. destruct (entries_wr l H true) as (t & oc & E & Hp & Hs & Ht).
  pose proof (obind_app (f := fun o => ser_entries true l (o ++ ["{"%byte])) (g := close "}") (h := ["}"%byte])
    (t := "{"%byte :: t) (oc := oc)) as X. cbv beta in X.
  exists ("{"%byte :: t ++ match oc with OOk => ["}"%byte] | _ => [] end), oc.
  split. { intros o. unfold ser_object. apply X; [intros o'; rewrite E, <- app_assoc; reflexivity|reflexivity]. }
  split; [exact Hp|]. split; [exact Hs|]. split.
  - intros -> Hok. destruct (Ht eq_refl) as (ts & -> & HF). apply ent_list in HF as [HF _].
    apply (utf8_app_true ["{"%byte]); [reflexivity|]. apply utf8_app_true; [apply seps_utf8; auto|reflexivity].
  - intros -> Hfk Hok. destruct (Ht eq_refl) as (ts & -> & HF). apply ent_list in HF as [_ HF].
    destruct (HF Hok) as (N & rs & ms & J & Exs & EK & V). split.
    + apply no_newline_cons; [reflexivity|]. apply no_newline_app; [apply seps_no_newline; exact N|apply no_newline_forallb; reflexivity].
    + exists rs, ms. split; [exact Exs|]. split; [apply jobj_seps; exact J|].
      intros rp [|[|d]] Hd; [lia|lia|]. rewrite val_of_obj; [rewrite V by lia; reflexivity|].
      intros k x l' k' -> Hk'. destruct l as [|[k0 x0] l]; [discriminate|]. cbn [map fst] in EK, Hfk.
      injection EK as EK _. rewrite EK, Hk' in Hfk. exact Hfk.
Qed.

(** Variants: an object with one member. *)
Lemma variant_obj rp d n r : n <> raw_token ->
  val_of rp (S (S d)) (RObj [(escape n, r)]) = option_map (fun x => VObj [(n, x)]) (val_of rp (S d) r).
Proof.
  intros Hn. rewrite val_of_obj.
  - cbn [map all_some]. unfold val_member. cbn [fst snd]. rewrite unescape_escape.
    destruct (val_of rp (S d) r); reflexivity.
  - intros k x l' k' [= <- _ _]. rewrite unescape_escape. congruence.
Qed.
Lemma variant_text n r t : jvalue r t -> jvalue (RObj [(escape n, r)]) ("{"%byte :: json_str n ++ ":"%byte :: t ++ ["}"%byte]).
Proof.
  intros H. pose proof (jobj_seps [(escape n, r)] [json_str n ++ ":"%byte :: t]) as X.
  cbn [seps comma_unless app] in X. rewrite app_nil_r, <- app_assoc in X. apply X.
  constructor; [|constructor]. exists t. cbn [fst snd]. split; [|auto using escape_body].
  unfold json_str. cbn [app]. rewrite <- app_assoc. reflexivity.
Qed.
Lemma variant_ser n body t oc : (forall o, body o = (o ++ t, oc)) ->
  forall o, ser_variant n body o =
    (o ++ "{"%byte :: json_str n ++ ":"%byte :: t ++ match oc with OOk => ["}"%byte] | _ => [] end, oc).
Proof.
  intros H o. unfold ser_variant. rewrite H. unfold obind, close.
  destruct oc; rewrite <- ?app_assoc; cbn [app]; rewrite <- ?app_assoc; cbn [app]; rewrite ?app_nil_r; reflexivity.
Qed.
Lemma variant_no_newline n t : no_newline t -> no_newline ("{"%byte :: json_str n ++ ":"%byte :: t ++ ["}"%byte]).
Proof.
  intros H. apply no_newline_cons; [reflexivity|]. apply no_newline_app; [apply json_str_no_newline|].
  apply no_newline_cons; [reflexivity|]. apply no_newline_app; [exact H|apply no_newline_forallb; reflexivity].
Qed.
Lemma variant_utf8 n t : utf8_valid n = true -> utf8_valid t = true ->
  utf8_valid ("{"%byte :: json_str n ++ ":"%byte :: t ++ ["}"%byte]) = true.
Proof.
  intros Hn H. apply (utf8_app_true ["{"%byte]); [reflexivity|]. apply utf8_app_true; [apply json_str_utf8; exact Hn|].
  apply (utf8_app_true [":"%byte]); [reflexivity|]. apply utf8_app_true; [exact H|reflexivity].
Qed.

Lemma wr_leaf v t r x : (forall o, json_ser v o = (o ++ t, OOk)) -> json_of v = Some x ->
  (strs_ok v -> utf8_valid t = true) -> (val_ok v -> no_newline t /\ jvalue r t /\ forall rp d, nesting v < d -> val_of rp d r = Some x) ->
  exists t oc, wr v t oc.
Proof.
  intros H1 H2 H3 H4. exists t, OOk. split; [exact H1|]. split; [discriminate|].
  split; [split; [congruence|reflexivity]|]. split; [auto|]. intros _ Hv. destruct (H4 Hv) as (A & B & C). eauto 10.
Qed.
Lemma u8_elems_seps b : forall first, u8_elems first b = seps first (map (fun c => dec (bN c)) b).
Proof. induction b as [|c b IH]; intros first; cbn [u8_elems seps map]; [reflexivity|]. rewrite IH. reflexivity. Qed.
Lemma u8_list_value b : jvalue (RArr (map (fun c => RNum (int_lit false (bN c))) b)) ("["%byte :: u8_elems true b ++ ["]"%byte]).
Proof.
  rewrite u8_elems_seps. apply jarr_seps. induction b as [|c b IH]; cbn [map]; constructor; [|exact IH].
  rewrite <- int_lit_text. apply jv_num. apply int_lit_ok.
Qed.
Lemma u8_num c : num_of (int_lit false (bN c)) = Some (NPos (bN c)).
Proof. apply num_of_nat. pose proof (bN_bound c). unfold u64_max. lia. Qed.
Lemma u8_list_read rp d b : 1 < d ->
  val_of rp d (RArr (map (fun c => RNum (int_lit false (bN c))) b)) = Some (bytes_value b).
Proof.
  intros Hd. destruct d as [|[|d]]; [lia|lia|]. rewrite val_of_arr, map_map. unfold bytes_value.
  match goal with |- option_map VArr ?X = Some (VArr ?Y) => assert (E : X = Some Y) end.
  { induction b as [|c b IH]; [reflexivity|]. cbn [map all_some val_of]. rewrite u8_num. cbn [val_of] in IH. rewrite IH. reflexivity. }
  rewrite E. reflexivity.
Qed.
Lemma dec_no_newline n : no_newline (dec n).
Proof. apply digits_no_newline, dec_digits. Qed.
Lemma dec_utf8 n : utf8_valid (dec n) = true.
Proof. apply utf8_ascii, digits_ascii, dec_digits. Qed.
Lemma u8_elems_no_newline b first : no_newline (u8_elems first b).
Proof.
  rewrite u8_elems_seps. apply seps_no_newline. induction b; cbn [map]; constructor; auto using dec_no_newline.
Qed.
Lemma u8_elems_utf8 b first : utf8_valid (u8_elems first b) = true.
Proof. rewrite u8_elems_seps. apply seps_utf8. induction b; cbn [map]; constructor; auto using dec_utf8. Qed.

Lemma forall_as_entries {P : sval -> Prop} l : Forall (fun kx => P (snd kx)) l -> Forall (fun kx => P (snd kx)) (as_entries l).
Proof. induction 1 as [|[k x] l H1 H IH]; cbn; constructor; auto. Qed.
Lemma entry_as l : all_some (map entry_json (as_entries l)) = all_some (map (fun '(k, x) => pair_opt (Some k) (json_of x)) l).
Proof. induction l as [|[k x] l IH]; [reflexivity|]. cbn [as_entries map]. cbn [map] in IH. cbn [all_some]. unfold as_entries in IH. rewrite IH. reflexivity. Qed.
Lemma nesting_as l : map (fun '(_, x) => nesting x) (as_entries l) = map (fun '(_, x) => nesting x) l.
Proof. unfold as_entries. rewrite map_map. apply map_ext. intros [k x]. reflexivity. Qed.
Lemma strs_as l : allP (fun '(k, x) => utf8_valid k = true /\ strs_ok x) l -> allP (fun '(k, x) => strs_ok k /\ strs_ok x) (as_entries l).
Proof. induction l as [|[k x] l IH]; cbn; auto. intros [H1 H2]. split; [auto|apply IH; exact H2]. Qed.
Lemma val_as l : allP (fun '(_, x) => val_ok x) l -> allP (fun '(k, x) => key_ok k /\ val_ok x) (as_entries l).
Proof. induction l as [|[k x] l IH]; cbn; auto. intros [H1 H2]. split; [auto|apply IH; exact H2]. Qed.
Lemma fk_as (l : list (bytes * sval)) : map (fun kx => key_of (fst kx)) (as_entries l) = map (fun kx => Some (fst kx)) l.
Proof. unfold as_entries. rewrite map_map. apply map_ext. intros [k x]. reflexivity. Qed.
Lemma entry_map l : map entry_json l = map (fun '(k, x) => pair_opt (key_of k) (json_of x)) l.
Proof. apply map_ext. intros [k x]. reflexivity. Qed.
Lemma opt_map_none {A B} (f : A -> B) o : option_map f o <> None <-> o <> None.
Proof. destruct o; cbn; split; congruence. Qed.

Lemma wr_array v l : Forall (fun v => exists t oc, wr v t oc) l ->
  (forall o, json_ser v o = ser_array l o) -> json_of v = option_map VArr (all_some (map json_of l)) ->
  (strs_ok v -> allP strs_ok l) -> (val_ok v -> allP val_ok l) -> nesting v = S (list_max (map nesting l)) ->
  exists t oc, wr v t oc.
Proof.
  intros H E1 E2 E3 E4 E5. destruct (array_wr l H) as (t & oc & A1 & A2 & A3 & A4 & A5). exists t, oc.
  split; [intros o; rewrite E1; apply A1|]. split; [exact A2|].
  split; [rewrite E2, opt_map_none; exact A3|]. split; [auto|].
  intros Ho Hv. destruct (A5 Ho (E4 Hv)) as (N & rs & xs & B1 & B2 & B3). split; [exact N|].
  exists (RArr rs), (VArr xs). rewrite E2, B1, E5. auto.
Qed.
Lemma wr_object v l : Forall (fun kx => exists t oc, wr (snd kx) t oc) l ->
  (forall o, json_ser v o = ser_object l o) -> json_of v = option_map (fun ms => VObj (obj_of ms)) (all_some (map entry_json l)) ->
  (strs_ok v -> allP (fun '(k, x) => strs_ok k /\ strs_ok x) l) ->
  (val_ok v -> first_key_ok (map (fun kx => key_of (fst kx)) l) /\ allP (fun '(k, x) => key_ok k /\ val_ok x) l) ->
  nesting v = S (list_max (map (fun '(_, x) => nesting x) l)) ->
  exists t oc, wr v t oc.
Proof.
  intros H E1 E2 E3 E4 E5. destruct (object_wr l H) as (t & oc & A1 & A2 & A3 & A4 & A5). exists t, oc.
  split; [intros o; rewrite E1; apply A1|]. split; [exact A2|].
  split; [rewrite E2, opt_map_none; exact A3|]. split; [auto|].
  intros Ho Hv. destruct (E4 Hv) as [F1 F2]. destruct (A5 Ho F1 F2) as (N & rs & xs & B1 & B2 & B3). split; [exact N|].
  exists (RObj rs), (VObj (obj_of xs)). rewrite E2, B1, E5. auto.
Qed.

Theorem writer_ok v : exists t oc, wr v t oc.
Proof.
  induction v using sval_ind'.
  - apply (wr_leaf _ (if b then bs "true" else bs "false") (RBool b) (VBool b)); try reflexivity.
    + destruct b; reflexivity.
    + intros _. destruct b; (split; [apply no_newline_forallb; reflexivity|]; split; [constructor|reflexivity]).
  - apply (wr_leaf _ (dec (bN b)) (RNum (int_lit false (bN b))) (VNum (NPos (bN b)))); try reflexivity.
    + intros _. apply dec_utf8.
    + intros _. split; [apply dec_no_newline|]. split; [rewrite <- int_lit_text; apply jv_num, int_lit_ok|].
      intros rp d _. cbn [val_of]. rewrite u8_num. reflexivity.
  - eapply (wr_leaf _ (decZ z) (RNum (int_lit (z <? 0)%Z (Z.to_N (Z.abs z))))); try reflexivity.
    + intros _. rewrite decZ_text. apply num_utf8, int_lit_ok.
    + cbn [val_ok]. intros Hz. rewrite decZ_text. split; [apply num_no_newline, int_lit_ok|].
      split; [apply jv_num, int_lit_ok|]. intros rp d _. cbn [val_of]. rewrite decZ_num by exact Hz. reflexivity.
  - destruct t as [t|].
    + apply (wr_leaf _ (numlit_text t) (RNum t) (VNum (NFloat t))); try reflexivity.
      * apply num_utf8.
      * cbn [val_ok]. intros [Hn Hv]. split; [apply num_no_newline; exact Hn|]. split; [apply jv_num; exact Hn|].
        intros rp d _. cbn [val_of]. rewrite Hv. reflexivity.
    + apply (wr_leaf _ (bs "null") RNull VNull); try reflexivity.
      intros _. split; [apply no_newline_forallb; reflexivity|]. split; [constructor|reflexivity].
  - apply (wr_leaf _ (json_str c) (RStr (escape c)) (VStr c)); try reflexivity.
    + apply json_str_utf8.
    + intros _. split; [apply json_str_no_newline|]. split; [apply json_str_value|].
      intros rp d _. cbn [val_of]. rewrite unescape_escape. reflexivity.
  - apply (wr_leaf _ (json_str s) (RStr (escape s)) (VStr s)); try reflexivity.
    + apply json_str_utf8.
    + intros _. split; [apply json_str_no_newline|]. split; [apply json_str_value|].
      intros rp d _. cbn [val_of]. rewrite unescape_escape. reflexivity.
  - eapply (wr_leaf _ ("["%byte :: u8_elems true b ++ ["]"%byte])); try reflexivity.
    + intros _. apply (utf8_app_true ["["%byte]); [reflexivity|]. apply utf8_app_true; [apply u8_elems_utf8|reflexivity].
    + intros _. split; [|split; [apply u8_list_value|intros rp d Hd; apply u8_list_read; exact Hd]].
      apply no_newline_cons; [reflexivity|]. apply no_newline_app; [apply u8_elems_no_newline|apply no_newline_forallb; reflexivity].
  - apply (wr_leaf _ (bs "null") RNull VNull); try reflexivity.
    intros _. split; [apply no_newline_forallb; reflexivity|]. split; [constructor|reflexivity].
  - destruct IHv as (t & oc & H). exists t, oc. exact H.
  - apply (wr_leaf _ (bs "null") RNull VNull); try reflexivity.
    intros _. split; [apply no_newline_forallb; reflexivity|]. split; [constructor|reflexivity].
  - apply (wr_leaf _ (bs "null") RNull VNull); try reflexivity.
    intros _. split; [apply no_newline_forallb; reflexivity|]. split; [constructor|reflexivity].
  - apply (wr_leaf _ (json_str n) (RStr (escape n)) (VStr n)); try reflexivity.
    + apply json_str_utf8.
    + intros _. split; [apply json_str_no_newline|]. split; [apply json_str_value|].
      intros rp d _. cbn [val_of]. rewrite unescape_escape. reflexivity.
  - destruct IHv as (t & oc & H). exists t, oc. exact H.
  - destruct IHv as (t & oc & H1 & H2 & H3 & H4 & H5). eexists. exists oc.
    split; [intros o; rewrite ser_newv; apply (variant_ser n _ t oc H1)|]. split; [exact H2|].
    split; [cbn [json_of]; rewrite opt_map_none; exact H3|]. split.
    + intros -> [Hn Hv]. apply variant_utf8; auto.
    + intros -> [Hn Hv]. destruct (H5 eq_refl Hv) as (N & r & x & E & J & V). split; [apply variant_no_newline; exact N|].
      exists (RObj [(escape n, r)]), (VObj [(n, x)]). cbn [json_of]. rewrite E. split; [reflexivity|].
      split; [apply variant_text; exact J|]. cbn [nesting]. intros rp [|[|d]] Hd; [lia|lia|].
      rewrite variant_obj by exact Hn. rewrite V by lia. reflexivity.
  - apply (wr_array _ l H); auto.
  - apply (wr_array _ l H); auto.
  - apply (wr_array _ l H); auto.
  - destruct (array_wr l H) as (t & oc & H1 & H2 & H3 & H4 & H5). eexists. exists oc.
    split; [intros o; rewrite ser_tuplev; apply (variant_ser n _ t oc H1)|]. split; [exact H2|].
    split; [cbn [json_of]; rewrite opt_map_none; exact H3|]. split.
    + intros -> [Hn Hv]. apply variant_utf8; auto.
    + intros -> [Hn Hv]. destruct (H5 eq_refl Hv) as (N & rs & xs & E & J & V). split; [apply variant_no_newline; exact N|].
      exists (RObj [(escape n, RArr rs)]), (VObj [(n, VArr xs)]). cbn [json_of]. rewrite E. split; [reflexivity|].
      split; [apply variant_text; exact J|]. cbn [nesting]. intros rp [|[|d]] Hd; [lia|lia|].
      rewrite variant_obj by exact Hn. rewrite V by lia. reflexivity.
  - apply (wr_object _ l H); auto. cbn [json_of]. rewrite entry_map. reflexivity.
  - apply (wr_object _ (as_entries l) (forall_as_entries (P := fun x => exists t oc, wr x t oc) l H)).
    + apply ser_struct.
    + rewrite entry_as. reflexivity.
    + apply strs_as.
    + cbn [val_ok]. rewrite fk_as. intros [A B]. split; [exact A|apply val_as; exact B].
    + rewrite nesting_as. reflexivity.
  - destruct (object_wr (as_entries l) (forall_as_entries (P := fun x => exists t oc, wr x t oc) l H)) as (t & oc & H1 & H2 & H3 & H4 & H5). eexists. exists oc.
    split; [intros o; rewrite ser_structv; apply (variant_ser n _ t oc H1)|]. split; [exact H2|].
    rewrite entry_as in *. rewrite nesting_as in *. rewrite fk_as in *.
    split; [cbn [json_of]; rewrite opt_map_none; exact H3|]. split.
    + intros -> [Hn Hv]. apply variant_utf8; auto. apply H4; auto. apply strs_as. exact Hv.
    + intros -> (Hn & Hf & Hv). destruct (H5 eq_refl Hf (val_as l Hv)) as (N & rs & xs & E & J & V). split; [apply variant_no_newline; exact N|].
      exists (RObj [(escape n, RObj rs)]), (VObj [(n, VObj (obj_of xs))]). cbn [json_of]. rewrite E. split; [reflexivity|].
      split; [apply variant_text; exact J|]. cbn [nesting]. intros rp [|[|d]] Hd; [lia|lia|].
      rewrite variant_obj by exact Hn. rewrite V by lia. reflexivity.
  - exists [], OErr. split; [intros o; rewrite app_nil_r; reflexivity|]. split; [discriminate|].
    split; [split; [discriminate|intros X; cbn in X; congruence]|]. split; discriminate.
Qed.
