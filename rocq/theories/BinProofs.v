(** The binary writer (serialize_attachments.rs): byte strings become attachments, the rest is
    JSON, and filling the placeholders gives the value back. *)
From Verif Require Export SerProofs.

Definition wser_elems : bool -> list sval -> wst -> wst * outcome :=
  fix elems (first : bool) (l : list sval) (s : wst) : wst * outcome :=
     match l with
     | [] => (s, OOk)
     | x :: l' => obind (wrap_ser x (wput (comma_unless first) s)) (elems false l')
     end.
Definition wser_fields : bool -> list (bytes * sval) -> wst -> wst * outcome :=
  fix fields (first : bool) (l : list (bytes * sval)) (s : wst) : wst * outcome :=
     match l with
     | [] => (s, OOk)
     | (k, x) :: l' =>
         obind (wrap_ser x (wput (comma_unless first ++ json_str k ++ [":"%byte]) s)) (fields false l')
     end.
Definition wser_entries : bool -> list (sval * sval) -> wst -> wst * outcome :=
  fix entries (first : bool) (l : list (sval * sval)) (s : wst) : wst * outcome :=
     match l with
     | [] => (s, OOk)
     | (k, x) :: l' =>
         obind (wrap_key k (wput (comma_unless first) s)) (fun s =>
         obind (wrap_ser x (wput [":"%byte] s)) (entries false l'))
     end.
Definition wclose (c : byte) (s : wst) : wst * outcome := (wput [c] s, OOk).
Definition wser_array l s := obind (wser_elems true l (wput ["["%byte] s)) (wclose "]").
Definition wser_object l s := obind (wser_entries true l (wput ["{"%byte] s)) (wclose "}").
Definition wser_variant (n : bytes) (body : wst -> wst * outcome) (s : wst) :=
  obind (body (wput ("{"%byte :: json_str n ++ [":"%byte]) s)) (wclose "}").
Definition wser_seq : bytes -> list sval -> wst -> wst * outcome :=
  fix go (data : bytes) (l : list sval) (s : wst) : wst * outcome :=
         match l with
         | [] => wrap_seq_end data s
         | x :: l' =>
             match elem_u8 x with
             | Some b => go (push_u8 data b) l' s
             | None =>
                 obind (wrap_ser x (wput ("["%byte :: u8_elems true data
                                          ++ comma_unless (match data with [] => true | _ => false end)) s))
                       (fun s => obind (wser_elems false l' s) (wclose "]"))
             end
         end.

Lemma wput_wput a b s : wput b (wput a s) = wput (a ++ b) s.
Proof. unfold wput. cbn [fst snd]. rewrite app_assoc. reflexivity. Qed.
Lemma wput_nil s : wput [] s = s.
Proof. unfold wput. rewrite app_nil_r. destruct s; reflexivity. Qed.
Lemma wfields_entries l : forall first s, wser_fields first l s = wser_entries first (as_entries l) s.
Proof.
  induction l as [|[k x] l IH]; intros first s; [reflexivity|].
  cbn [wser_fields wser_entries as_entries map wrap_key key_text obind]. fold wser_fields wser_entries.
  rewrite !wput_wput, <- ?app_assoc. apply obind_ext. intros s'. apply IH.
Qed.
Lemma wser_SSeq l s : wrap_ser (SSeq l) s = wser_seq [] l s. Proof. reflexivity. Qed.
Lemma wser_tuplev n l s : wrap_ser (STupleVariant n l) s = wser_variant n (wser_array l) s. Proof. reflexivity. Qed.
Lemma wser_newv n x s : wrap_ser (SNewtypeVariant n x) s = wser_variant n (wrap_ser x) s. Proof. reflexivity. Qed.
Lemma wser_struct l s : wrap_ser (SStruct l) s = wser_object (as_entries l) s.
Proof. unfold wser_object. rewrite <- wfields_entries. reflexivity. Qed.
Lemma wser_structv n l s : wrap_ser (SStructVariant n l) s = wser_variant n (wser_object (as_entries l)) s.
Proof. unfold wser_variant, wser_object. rewrite <- wfields_entries. reflexivity. Qed.

(** ** Sequences *)
Lemma push_data b data c : push_u8 (b :: data) c = b :: data ++ [c].
Proof. reflexivity. Qed.
Lemma wser_seq_blob l : forallb is_u8 l = true -> forall b data s,
  wser_seq (b :: data) l s = wrap_seq_end (b :: data ++ u8s l) s.
Proof.
  induction l as [|x l IH]; intros H b data s; cbn [wser_seq].
  - cbn. rewrite app_nil_r. reflexivity.
  - cbn [forallb] in H. apply andb_true_iff in H as [H1 H]. destruct x; try discriminate H1. cbn [elem_u8].
    fold wser_seq. rewrite push_data, IH by exact H. cbn [u8s flat_map]. rewrite <- !app_assoc. reflexivity.
Qed.
Lemma u8_elems_app a : forall first b, u8_elems first (a ++ b) =
  u8_elems first a ++ u8_elems (first && match a with [] => true | _ => false end) b.
Proof.
  induction a as [|c a IH]; intros first b.
  - cbn [app u8_elems]. rewrite andb_true_r. reflexivity.
  - cbn [app u8_elems]. rewrite IH. rewrite andb_false_r. cbn [andb]. rewrite <- !app_assoc. reflexivity.
Qed.
Lemma wser_seq_mixed l : forallb is_u8 l = false -> forall b data s,
  wser_seq (b :: data) l s = obind (wser_elems false l (wput ("["%byte :: u8_elems true (b :: data)) s)) (wclose "]").
Proof.
  induction l as [|x l IH]; intros H b data s; [discriminate|].
  destruct (is_u8 x) eqn:Ex.
  - destruct x; try discriminate Ex. cbn [forallb is_u8 andb] in H. cbn [wser_seq elem_u8]. fold wser_seq.
    rewrite push_data, IH by exact H. cbn [wser_elems wrap_ser]. fold wser_elems. unfold obind at 2.
    rewrite !wput_wput. rewrite app_comm_cons, u8_elems_app. cbn [u8_elems andb]. rewrite app_nil_r.
    cbn [app]. rewrite <- ?app_assoc. cbn [app]. rewrite <- ?app_assoc. reflexivity.
  - assert (E : elem_u8 x = None) by (destruct x; try reflexivity; discriminate Ex).
    cbn [wser_seq]. rewrite E. cbn [wser_elems]. fold wser_elems. rewrite wput_wput. cbn [app].
    change (comma_unless false) with [","%byte]. unfold obind.
    destruct (wrap_ser x (wput ("["%byte :: u8_elems true (b :: data) ++ [","%byte]) s)) as [s' []]; reflexivity.
Qed.
Lemma wser_array_cons x l s : wser_array (x :: l) s =
  obind (wrap_ser x (wput ["["%byte] s)) (fun s => obind (wser_elems false l s) (wclose "]")).
Proof.
  unfold wser_array. cbn [wser_elems]. fold wser_elems. rewrite wput_wput, app_nil_r. unfold obind.
  destruct (wrap_ser x (wput ["["%byte] s)) as [s' []]; reflexivity.
Qed.
Lemma wser_seq_cases l s : wser_seq [] l s =
  if blob_seq l then wrap_seq_end (x04 :: u8s l) s
  else if mixed_seq l then wser_array (SU8 x04 :: l) s else wser_array l s.
Proof.
  destruct l as [|x l].
  - cbn [wser_seq blob_seq mixed_seq wrap_seq_end]. unfold wser_array, wclose. cbn [wser_elems obind]. rewrite wput_wput. reflexivity.
  - destruct (is_u8 x) eqn:Ex.
    + destruct x; try discriminate Ex. cbn [wser_seq elem_u8 blob_seq mixed_seq forallb is_u8 andb]. fold wser_seq.
      change (push_u8 [] b) with [x04; b]. destruct (forallb is_u8 l) eqn:E; cbn [negb].
      * rewrite wser_seq_blob by exact E. reflexivity.
      * rewrite wser_seq_mixed by exact E. rewrite wser_array_cons. cbn [wser_elems wrap_ser obind]. fold wser_elems. rewrite !wput_wput. unfold obind. cbn [u8_elems]. rewrite app_nil_r. reflexivity.
    + assert (E : elem_u8 x = None) by (destruct x; try reflexivity; discriminate Ex).
      cbn [wser_seq blob_seq mixed_seq forallb]. rewrite E, Ex. cbn [andb]. rewrite wser_array_cons. reflexivity.
Qed.

(** ** The invariant *)
Definition frame (b : bytes) : wsmsg := WBinary (x04 :: b).
Definition att (A : list subslice_t) (i : nat) (b : bytes) : Prop :=
  exists s, nth_error A i = Some s /\ sub_deref_vec s = Some b.
(** [A] holds the byte strings [bl] from position [n] on. *)
Definition holds (A : list subslice_t) (n : nat) (bl : list bytes) : Prop :=
  forall i b, nth_error bl i = Some b -> att A (n + i) b.
(** Where a key [_placeholder] occurs, it is [true]. *)
Fixpoint tidy (x : value) : Prop :=
  match x with
  | VArr l => allP tidy l
  | VObj m =>
      (obj_get key_placeholder m = None \/ obj_get key_placeholder m = Some (VBool true)) /\ allP (fun '(_, y) => tidy y) m
  | _ => True
  end.
Definition fills (n : nat) (bl : list bytes) (x y : value) : Prop :=
  (forall A, holds A n bl -> fill_placeholders A x = Ok y) /\ (bl = [] -> x = y) /\ tidy x.
Definition bwr (v : sval) (n : nat) (t : bytes) (atts : list wsmsg) (oc : outcome) : Prop :=
  (forall s, length (snd s) = n -> wrap_ser v s = ((fst s ++ t, snd s ++ atts), oc)) /\
  oc <> OPanic /\ (oc = OOk <-> json_of v <> None) /\ (oc = OOk -> atts = map frame (blobs v)) /\
  (oc = OOk -> strs_ok v -> utf8_valid t = true) /\
  (oc = OOk -> val_ok v -> no_newline t /\ exists r y, json_of (sent v) = Some y /\ jvalue r t /\
     (no_pkey v -> (N.of_nat (n + length (blobs v)) <= u64_max)%N ->
        placeholders r = map N.of_nat (seq n (length (blobs v))) /\
        forall rp d, nesting v < d -> exists x, val_of rp d r = Some x /\ fills n (blobs v) x y)).
Definition bgood (v : sval) : Prop := forall n, exists t atts oc, bwr v n t atts oc.

Lemma holds_app A n a b : holds A n (a ++ b) <-> holds A n a /\ holds A (n + length a) b.
Proof.
  unfold holds. split.
  - intros H. split.
    + intros i x Hi. apply H. rewrite nth_error_app1; [exact Hi|]. apply nth_error_Some. congruence.
    + intros i x Hi. replace (n + length a + i) with (n + (length a + i)) by lia. apply H.
      rewrite nth_error_app2 by lia. replace (length a + i - length a) with i by lia. exact Hi.
  - intros [H1 H2] i x Hi. destruct (Nat.ltb_spec i (length a)) as [L|L].
    + rewrite nth_error_app1 in Hi by exact L. auto.
    + rewrite nth_error_app2 in Hi by exact L. replace (n + i) with (n + length a + (i - length a)) by lia. auto.
Qed.

Lemma wput_wst t s : (wput t s, OOk) = ((fst s ++ t, snd s ++ []), OOk).
Proof. unfold wput. rewrite app_nil_r. reflexivity. Qed.

Lemma bwr_leaf v t r x : (forall s, wrap_ser v s = (wput t s, OOk)) -> json_of v = Some x -> blobs v = [] -> sent v = v ->
  (strs_ok v -> utf8_valid t = true) ->
  (val_ok v -> no_newline t /\ jvalue r t /\ forall rp d, nesting v < d -> val_of rp d r = Some x) ->
  placeholders r = [] -> (forall A, fill_placeholders A x = Ok x) -> tidy x -> bgood v.
Proof.
  intros H1 H2 H3 H4 H5 H6 H7 H8 H9 n. exists t, [], OOk. unfold bwr. rewrite H2, H3, H4.
  split; [intros s _; rewrite H1; apply wput_wst|]. split; [discriminate|]. split; [split; [discriminate|reflexivity]|].
  split; [reflexivity|]. split; [auto|]. intros _ Hv. destruct (H6 Hv) as (A & B & C). split; [exact A|].
  exists r, x. split; [exact H2|]. split; [exact B|]. intros _ _. split; [exact H7|].
  intros rp d Hd. exists x. split; [auto|]. split; [intros A0 _; apply H8|split; [auto|exact H9]].
Qed.

(** A byte string. *)
Definition praw (n : nat) : raw := RObj [(key_placeholder, RBool true); (key_num, RNum (int_lit false (N.of_nat n)))].
Lemma placeholder_jvalue n : jvalue (praw n) (placeholder_text n).
Proof.
  pose proof (jobj_seps [(key_placeholder, RBool true); (key_num, RNum (int_lit false (N.of_nat n)))]
    [x22 :: key_placeholder ++ x22 :: ":"%byte :: bs "true"; x22 :: key_num ++ x22 :: ":"%byte :: dec (N.of_nat n)]) as X.
  assert (E : "{"%byte :: seps true [x22 :: key_placeholder ++ x22 :: ":"%byte :: bs "true";
     x22 :: key_num ++ x22 :: ":"%byte :: dec (N.of_nat n)] ++ ["}"%byte] = placeholder_text n).
  { unfold placeholder_text. cbn [seps]. rewrite app_nil_r. cbn. reflexivity. }
  rewrite E in X. apply X. constructor; [|constructor; [|constructor]].
  - exists (bs "true"). split; [reflexivity|]. split; [apply plain_body; reflexivity|]. constructor.
  - exists (dec (N.of_nat n)). split; [reflexivity|]. split; [apply plain_body; reflexivity|].
    cbn [snd]. rewrite <- int_lit_text. apply jv_num, int_lit_ok.
Qed.
Lemma placeholder_no_newline n : no_newline (placeholder_text n).
Proof.
  unfold placeholder_text. apply no_newline_app; [apply no_newline_forallb; reflexivity|].
  apply no_newline_app; [apply dec_no_newline|apply no_newline_forallb; reflexivity].
Qed.
Lemma placeholder_utf8 n : utf8_valid (placeholder_text n) = true.
Proof.
  unfold placeholder_text. apply utf8_app_true; [reflexivity|]. apply utf8_app_true; [apply dec_utf8|reflexivity].
Qed.
Lemma praw_read rp d n : (N.of_nat n <= u64_max)%N -> 1 < d ->
  val_of rp d (praw n) = Some (VObj [(key_placeholder, VBool true); (key_num, VNum (NPos (N.of_nat n)))]).
Proof.
  intros Hn Hd. destruct d as [|[|d]]; [lia|lia|]. unfold praw. rewrite val_of_obj.
  - cbn [map all_some]. unfold val_member. cbn [fst snd val_of]. rewrite num_of_nat by exact Hn. reflexivity.
  - intros k x l' k' [= <- _ _] [= <-]. discriminate.
Qed.
Lemma praw_fill A n b : att A n b ->
  fill_placeholders A (VObj [(key_placeholder, VBool true); (key_num, VNum (NPos (N.of_nat n)))]) = Ok (bytes_value b).
Proof.
  intros (s & H1 & H2). cbn [fill_placeholders].
  change (obj_get key_placeholder _) with (Some (VBool true)).
  change (obj_get key_num _) with (Some (VNum (NPos (N.of_nat n)))). cbn [as_u64].
  assert (n < length A) by (apply nth_error_Some; congruence).
  replace (N.of_nat n <? N.of_nat (length A))%N with true by (symmetry; apply N.ltb_lt; lia).
  rewrite Nat2N.id, H1, H2. reflexivity.
Qed.
Lemma praw_placeholders n : (N.of_nat n <= u64_max)%N -> placeholders (praw n) = [N.of_nat n].
Proof.
  intros Hn. cbn [praw placeholders placeholder_num]. rewrite num_of_nat by exact Hn. reflexivity.
Qed.
Lemma bwr_bytes v b : (forall s, wrap_ser v s = ((fst s ++ placeholder_text (length (snd s)), snd s ++ [frame b]), OOk)) ->
  json_of v = Some (bytes_value b) -> sent v = v -> blobs v = [b] -> nesting v = 1 -> bgood v.
Proof.
  intros H1 H2 H3 H4 H5 n. exists (placeholder_text n), [frame b], OOk. unfold bwr. rewrite H2, H3, H4, H5.
  split; [intros s <-; apply H1|]. split; [discriminate|]. split; [split; [discriminate|reflexivity]|].
  split; [reflexivity|]. split; [intros _ _; apply placeholder_utf8|].
  intros _ _. split; [apply placeholder_no_newline|]. exists (praw n), (bytes_value b). split; [exact H2|].
  split; [apply placeholder_jvalue|]. cbn [length]. intros _ Hn. split; [apply praw_placeholders; lia|].
  intros rp d Hd. eexists. split; [apply praw_read; [lia|exact Hd]|]. split; [|split; [discriminate|cbn; auto 10]].
  intros A HA. apply praw_fill. specialize (HA 0 b eq_refl). rewrite Nat.add_0_r in HA. exact HA.
Qed.

(** Lists of values. *)
Inductive blist : nat -> list sval -> list bytes -> Prop :=
| bl_nil n : blist n [] []
| bl_cons n v l t ts : bwr v n t (map frame (blobs v)) OOk -> blist (n + length (blobs v)) l ts -> blist n (v :: l) (t :: ts).
Lemma belems_ok l : Forall bgood l -> forall first n,
  exists t atts oc, (forall s, length (snd s) = n -> wser_elems first l s = ((fst s ++ t, snd s ++ atts), oc)) /\
    oc <> OPanic /\ (oc = OOk <-> all_some (map json_of l) <> None) /\
    (oc = OOk -> atts = map frame (flat_map blobs l) /\ exists ts, t = seps first ts /\ blist n l ts).
Proof.
  induction 1 as [|v l Hv H IH]; intros first n.
  { exists [], [], OOk. cbn. split; [intros [a b] _; cbn; rewrite !app_nil_r; reflexivity|]. split; [discriminate|].
    split; [split; [discriminate|reflexivity]|]. intros _. split; [reflexivity|]. exists []. split; [reflexivity|constructor]. }
  destruct (Hv n) as (t & atts & oc & Hw). pose proof Hw as (H1 & H2 & H3 & H4 & _).
  destruct (IH false (n + length atts)) as (t2 & atts2 & oc2 & I1 & I2 & I3 & I4).
  assert (E : forall s, length (snd s) = n -> wser_elems first (v :: l) s =
    match oc with OOk => ((fst s ++ comma_unless first ++ t ++ t2, snd s ++ atts ++ atts2), oc2)
                | _ => ((fst s ++ comma_unless first ++ t, snd s ++ atts), oc) end).
  { intros s Hs. cbn [wser_elems]. fold wser_elems. rewrite H1 by (cbn; exact Hs). unfold obind. cbn [wput fst snd].
    destruct oc; rewrite <- ?app_assoc; try reflexivity. rewrite I1 by (cbn [snd]; rewrite app_length, Hs; reflexivity).
    cbn [fst snd]. rewrite <- !app_assoc. reflexivity. }
  assert (Hs : all_some (map json_of (v :: l)) <> None <-> oc = OOk /\ oc2 = OOk).
  { cbn [map]. rewrite all_some_cons, <- H3, <- I3. reflexivity. }
  destruct oc.
  - do 3 eexists. split; [exact E|]. split; [exact I2|]. split; [rewrite Hs; tauto|].
    intros Ho. destruct (I4 Ho) as (-> & ts & -> & Hts). rewrite (H4 eq_refl) in *. cbn [flat_map]. rewrite map_app.
    split; [reflexivity|]. exists (t :: ts). split; [reflexivity|]. constructor; [exact Hw|].
    rewrite map_length in Hts. exact Hts.
  - do 3 eexists. split; [exact E|]. split; [discriminate|].
    split; [rewrite Hs; split; [discriminate|intros [? _]; discriminate]|discriminate].
  - congruence.
Qed.
Definition fill_elems (A : list subslice_t) : list value -> res aerror (list value) :=
  fix go (l : list value) : res aerror (list value) :=
         match l with
         | [] => Ok []
         | x :: l' => rbind (fill_placeholders A x) (fun x' => rmap (cons x') (go l'))
         end.
Lemma fill_arr A l : fill_placeholders A (VArr l) = rmap VArr (fill_elems A l).
Proof. reflexivity. Qed.
Lemma seq_app_N n a b : map N.of_nat (seq n (a + b)) = map N.of_nat (seq n a) ++ map N.of_nat (seq (n + a) b).
Proof. rewrite seq_app, map_app. reflexivity. Qed.
Lemma blist_ok n l ts : blist n l ts ->
  (allP strs_ok l -> Forall (fun t => utf8_valid t = true) ts) /\
  (allP val_ok l -> Forall no_newline ts /\
     exists rs ys, Forall2 jvalue rs ts /\ all_some (map json_of (map sent l)) = Some ys /\
       (allP no_pkey l -> (N.of_nat (n + length (flat_map blobs l)) <= u64_max)%N ->
          flat_map placeholders rs = map N.of_nat (seq n (length (flat_map blobs l))) /\
          forall rp d, list_max (map nesting l) < d -> exists xs, all_some (map (val_of rp d) rs) = Some xs /\
            (forall A, holds A n (flat_map blobs l) -> fill_elems A xs = Ok ys) /\ (flat_map blobs l = [] -> xs = ys) /\ allP tidy xs)).
Proof.
  induction 1 as [n|n v l t ts Hv H [I1 I2]].
  { split; [constructor|]. intros _. split; [constructor|]. exists [], []. split; [constructor|]. split; [reflexivity|].
    intros _ _. split; [reflexivity|]. intros rp d _. exists []. cbn. auto. }
  destruct Hv as (_ & _ & _ & _ & H4 & H5). cbn [allP]. split.
  - intros [Ha Hb]. constructor; auto.
  - intros [Ha Hb]. destruct (H5 eq_refl Ha) as (N & r & y & E & J & V). destruct (I2 Hb) as (N2 & rs & ys & J2 & E2 & V2).
    split; [constructor; auto|]. exists (r :: rs), (y :: ys). split; [constructor; auto|]. split.
    { cbn [map all_some]. rewrite E, E2. reflexivity. }
    cbn [allP flat_map]. rewrite app_length. intros [Hp1 Hp2] Hn.
    destruct (V Hp1 ltac:(lia)) as [P1 F1]. destruct (V2 Hp2 ltac:(rewrite <- Nat.add_assoc; lia)) as [P2 F2].
    split; [rewrite seq_app_N; congruence|]. intros rp d Hd. cbn [map list_max fold_right] in Hd. fold (list_max (map nesting l)) in Hd.
    destruct (F1 rp d ltac:(lia)) as (x & X1 & X2 & X3 & X4). destruct (F2 rp d ltac:(lia)) as (xs & Y1 & Y2 & Y3 & Y4).
    exists (x :: xs). cbn [map all_some]. rewrite X1, Y1. split; [reflexivity|]. split; [|split; [|cbn; auto]].
    + intros A HA. apply holds_app in HA as [HA1 HA2]. cbn [fill_elems]. fold (fill_elems A).
      rewrite (X2 A HA1). cbn [rbind]. rewrite (Y2 A HA2). reflexivity.
    + intros Hnil. apply app_eq_nil in Hnil as [Z1 Z2]. rewrite X3, Y3 by assumption. reflexivity.
Qed.
Definition barr (l : list sval) (n : nat) (t : bytes) (atts : list wsmsg) (oc : outcome) : Prop :=
  (forall s, length (snd s) = n -> wser_array l s = ((fst s ++ t, snd s ++ atts), oc)) /\ oc <> OPanic /\
  (oc = OOk <-> all_some (map json_of l) <> None) /\ (oc = OOk -> atts = map frame (flat_map blobs l)) /\
  (oc = OOk -> allP strs_ok l -> utf8_valid t = true) /\
  (oc = OOk -> allP val_ok l -> no_newline t /\ exists rs ys, all_some (map json_of (map sent l)) = Some ys /\ jvalue (RArr rs) t /\
     (allP no_pkey l -> (N.of_nat (n + length (flat_map blobs l)) <= u64_max)%N ->
          placeholders (RArr rs) = map N.of_nat (seq n (length (flat_map blobs l))) /\
     forall rp d, S (list_max (map nesting l)) < d -> exists x, val_of rp d (RArr rs) = Some x /\ fills n (flat_map blobs l) x (VArr ys))).
Lemma wobind_close {body : wst -> wst * outcome} {n pre t atts oc c} :
  (forall s, length (snd s) = n -> body s = ((fst s ++ t, snd s ++ atts), oc)) ->
  forall s, length (snd s) = n -> obind (body (wput pre s)) (wclose c) =
    ((fst s ++ pre ++ t ++ match oc with OOk => [c] | _ => [] end, snd s ++ atts), oc).
Proof.
  intros H s Hs. rewrite H by exact Hs. unfold obind, wclose, wput. cbn [fst snd].
  destruct oc; rewrite ?app_nil_r, <- ?app_assoc; reflexivity.
Qed.
Lemma barr_ok l : Forall bgood l -> forall n, exists t atts oc, barr l n t atts oc.
Proof.
  intros H n. destruct (belems_ok l H true n) as (t & atts & oc & E & Hp & Hs & Ht).
  exists (["["%byte] ++ t ++ match oc with OOk => ["]"%byte] | _ => [] end), atts, oc.
  split. { apply (wobind_close E). }
  split; [exact Hp|]. split; [exact Hs|]. split; [intros Ho; apply Ht; exact Ho|]. split.
  - intros -> Hok. destruct (Ht eq_refl) as (_ & ts & -> & HF). apply blist_ok in HF as [HF _].
    apply utf8_app_true; [reflexivity|]. apply utf8_app_true; [apply seps_utf8; auto|reflexivity].
  - intros -> Hok. destruct (Ht eq_refl) as (_ & ts & -> & HF). apply blist_ok in HF as [_ HF].
    destruct (HF Hok) as (N & rs & ys & J & Exs & V). split.
    + apply no_newline_cons; [reflexivity|]. apply no_newline_app; [apply seps_no_newline; exact N|apply no_newline_forallb; reflexivity].
    + exists rs, ys. split; [exact Exs|]. split; [apply jarr_seps; exact J|].
      intros Hk Hn. destruct (V Hk Hn) as [P F]. split; [exact P|].
      intros rp [|[|d]] Hd; [lia|lia|]. rewrite val_of_arr. destruct (F rp (S d) ltac:(lia)) as (xs & -> & F1 & F2 & F3).
      exists (VArr xs). split; [reflexivity|]. split; [|split; [|exact F3]].
      * intros A HA. rewrite fill_arr, F1 by exact HA. reflexivity.
      * intros Hnil. rewrite F2 by exact Hnil. reflexivity.
Qed.

(** Objects. *)
Definition sent_entry (kx : sval * sval) : sval * sval := (fst kx, sent (snd kx)).
Lemma wrap_key_spec k : match key_text k with
  | Some t => forall s, wrap_key k s = (wput t s, OOk)
  | None => exists atts, forall s, wrap_key k s = ((fst s, snd s ++ atts), OErr)
  end.
Proof.
  assert (D : forall s : wst, (s, OErr) = ((fst s, snd s ++ []), OErr)) by (intros [a b]; cbn; rewrite app_nil_r; reflexivity).
  induction k; cbn [key_text wrap_key]; auto; try (exists []; intros s; apply D).
  - destruct t; [reflexivity|]. exists []; intros s; apply D.
  - exists [frame b]. reflexivity.
  - assert (G : forall l data, exists atts, forall s : wst, (fix go (data : bytes) (l : list sval) : wst * outcome :=
         match l with
         | [] =>
             match data with
             | [] => (s, OErr)
             | _ => match package_binary data with
                    | Some m => ((fst s, snd s ++ [m]), OErr)
                    | None => (s, OPanic)
                    end
             end
         | x :: l' =>
             match elem_u8 x with
             | Some b => go (push_u8 data b) l'
             | None => (s, OErr)
             end
         end) (match data with [] => [] | _ => x04 :: data end) l = ((fst s, snd s ++ atts), OErr)).
    { intros l0. induction l0 as [|x l0 IH]; intros data.
      - destruct data; [exists []; intros s; apply D|]. eexists. intros s. reflexivity.
      - destruct (elem_u8 x) as [b|] eqn:E; [|exists []; intros s; apply D].
        destruct (IH (data ++ [b])) as (atts & Ha). exists atts. intros s.
        rewrite <- Ha. destruct data; reflexivity. }
    apply (G l []).
Qed.
Inductive bents : nat -> list (sval * sval) -> list bytes -> Prop :=
| be_nil n : bents n [] []
| be_cons n k v l kt s t ts : key_text k = Some kt -> key_of k = Some s -> bwr v n t (map frame (blobs v)) OOk ->
    bents (n + length (blobs v)) l ts -> bents n ((k, v) :: l) ((kt ++ ":"%byte :: t) :: ts).
Definition ent_blobs (l : list (sval * sval)) : list bytes := flat_map (fun '(_, x) => blobs x) l.
Lemma bentries_ok l : Forall (fun kx => bgood (snd kx)) l -> forall first n,
  exists t atts oc, (forall s, length (snd s) = n -> wser_entries first l s = ((fst s ++ t, snd s ++ atts), oc)) /\
    oc <> OPanic /\ (oc = OOk <-> all_some (map entry_json l) <> None) /\
    (oc = OOk -> atts = map frame (ent_blobs l) /\ exists ts, t = seps first ts /\ bents n l ts).
Proof.
  induction 1 as [|[k v] l Hv H IH]; intros first n.
  { exists [], [], OOk. cbn. split; [intros [a b] _; cbn; rewrite !app_nil_r; reflexivity|]. split; [discriminate|].
    split; [split; [discriminate|reflexivity]|]. intros _. split; [reflexivity|]. exists []. split; [reflexivity|constructor]. }
  cbn [fst snd] in *.
  assert (Hs : all_some (map entry_json ((k, v) :: l)) <> None <->
    (key_of k <> None /\ json_of v <> None) /\ all_some (map entry_json l) <> None).
  { cbn [map]. rewrite all_some_cons. unfold entry_json at 1. cbn [fst snd]. rewrite pair_opt_some. reflexivity. }
  pose proof (key_spec k) as Hk. pose proof (wrap_key_spec k) as Wk. destruct (key_text k) as [kt|] eqn:Ek.
  2: { destruct (key_of k) as [|] eqn:Ek'; [contradiction|]. destruct Wk as (atts & Wk). exists (comma_unless first), atts, OErr.
    split; [intros s _; cbn [wser_entries]; rewrite Wk; reflexivity|].
    split; [discriminate|]. split; [rewrite Hs; split; [discriminate|intuition congruence]|discriminate]. }
  destruct (key_of k) as [s|] eqn:Eko; [|contradiction].
  destruct (Hv n) as (t & atts & oc & Hw). pose proof Hw as (H1 & H2 & H3 & H4 & _).
  destruct (IH false (n + length atts)) as (t2 & atts2 & oc2 & I1 & I2 & I3 & I4).
  assert (E : forall s, length (snd s) = n -> wser_entries first ((k, v) :: l) s =
    match oc with OOk => ((fst s ++ comma_unless first ++ (kt ++ ":"%byte :: t) ++ t2, snd s ++ atts ++ atts2), oc2)
                | _ => ((fst s ++ comma_unless first ++ kt ++ ":"%byte :: t, snd s ++ atts), oc) end).
  { intros s0 Hs0. cbn [wser_entries]. fold wser_entries. rewrite Wk. cbn [obind]. rewrite !wput_wput, H1 by exact Hs0. unfold obind.
    cbn [wput fst snd].
    destruct oc; [rewrite I1 by (cbn [snd]; rewrite app_length, Hs0; reflexivity); cbn [fst snd]|..];
      rewrite <- ?app_assoc; cbn [app]; rewrite <- ?app_assoc; reflexivity. }
  rewrite <- H3, <- I3 in Hs. destruct oc.
  - do 3 eexists. split; [exact E|]. split; [exact I2|].
    split; [rewrite Hs; split; [intuition congruence|intuition]|].
    intros Ho. destruct (I4 Ho) as (-> & ts & -> & Hts). rewrite (H4 eq_refl) in *. cbn [ent_blobs flat_map]. rewrite map_app.
    split; [reflexivity|]. exists ((kt ++ ":"%byte :: t) :: ts). split; [reflexivity|].
    rewrite map_length in Hts. econstructor; eauto.
  - do 3 eexists. split; [exact E|]. split; [discriminate|].
    split; [rewrite Hs; split; [discriminate|intuition discriminate]|discriminate].
  - congruence.
Qed.
Definition same_keys (R : value -> value -> Prop) : list (bytes * value) -> list (bytes * value) -> Prop :=
  Forall2 (fun a b => fst a = fst b /\ R (snd a) (snd b)).
Lemma obj_insert_rel (R : value -> value -> Prop) k x y a b : R x y -> same_keys R a b -> same_keys R (obj_insert k x a) (obj_insert k y b).
Proof.
  intros Hxy H. induction H as [|[k1 x1] [k2 y1] a b [H1 H2] H IH]; cbn [obj_insert].
  - constructor; [auto|constructor].
  - cbn [fst snd] in *. subst k2. destruct (bytes_eqb k k1); [constructor; auto|].
    destruct (bytes_ltb k k1); constructor; auto.
Qed.
Lemma obj_of_rel R a b : same_keys R a b -> same_keys R (obj_of a) (obj_of b).
Proof.
  unfold obj_of. assert (G : forall c d, same_keys R c d -> same_keys R a b ->
    same_keys R (fold_left (fun m kv => obj_insert (fst kv) (snd kv) m) a c) (fold_left (fun m kv => obj_insert (fst kv) (snd kv) m) b d)).
  { intros c d Hcd H. revert c d Hcd. induction H as [|[k1 x1] [k2 y1] a b [H1 H2] H IH]; intros c d Hcd; cbn [fold_left]; [exact Hcd|].
    cbn [fst snd] in *. subst k2. apply IH. apply obj_insert_rel; auto. }
  apply G. constructor.
Qed.
Lemma obj_get_insert {A} k k' (x : A) m : k <> k' -> obj_get k (obj_insert k' x m) = obj_get k m.
Proof.
  intros Hk. assert (E : bytes_eqb k k' = false) by (apply not_true_iff_false; rewrite bytes_eqb_eq; exact Hk).
  induction m as [|[k1 y] m IH]; cbn [obj_insert obj_get]; [rewrite E; reflexivity|].
  destruct (bytes_eqb k' k1) eqn:E1.
  - apply bytes_eqb_eq in E1. subst. cbn [obj_get]. rewrite E. reflexivity.
  - destruct (bytes_ltb k' k1); cbn [obj_get]; [rewrite E; reflexivity|]. rewrite IH. reflexivity.
Qed.
Lemma obj_get_of k ms : Forall (fun kv => fst kv <> k) ms -> obj_get k (obj_of ms) = None.
Proof.
  unfold obj_of. assert (G : forall m0, obj_get k m0 = None -> Forall (fun kv => fst kv <> k) ms ->
    obj_get k (fold_left (fun m kv => obj_insert (fst kv) (snd kv) m) ms m0) = None).
  { intros m0 H0 H. revert m0 H0. induction H as [|[k1 x] ms H1 H IH]; intros m0 H0; cbn [fold_left]; [exact H0|].
    apply IH. cbn [fst snd] in *. rewrite obj_get_insert by congruence. exact H0. }
  apply G. reflexivity.
Qed.
Lemma fill_obj A m m' : obj_get key_placeholder m = None ->
  same_keys (fun x y => fill_placeholders A x = Ok y) m m' -> fill_placeholders A (VObj m) = Ok (VObj m').
Proof.
  intros H H2. cbn [fill_placeholders]. rewrite H.
  match goal with |- rmap VObj ?X = _ => assert (E : X = Ok m') end; [|rewrite E; reflexivity].
  clear H. induction H2 as [|[k x] [k' y] m m' [H1 H2] H IH]; [reflexivity|]. cbn [fst snd] in *. subst k'.
  rewrite H2. cbn [rbind]. rewrite IH. reflexivity.
Qed.
Lemma same_keys_impl (R Q : value -> value -> Prop) a b : (forall x y, R x y -> Q x y) -> same_keys R a b -> same_keys Q a b.
Proof. intros H. induction 1 as [|? ? ? ? [? ?]]; constructor; auto. Qed.
Lemma bents_ok n l ts : bents n l ts ->
  (allP (fun '(k, x) => strs_ok k /\ strs_ok x) l -> Forall (fun t => utf8_valid t = true) ts) /\
  (allP (fun '(k, x) => key_ok k /\ val_ok x) l -> Forall no_newline ts /\
     exists rs ys, Forall2 jmember rs ts /\ all_some (map entry_json (map sent_entry l)) = Some ys /\
       map (fun kx => key_of (fst kx)) l = map (fun kr => unescape (fst kr)) rs /\
       map (fun kx => key_of (fst kx)) l = map (fun kr => Some (fst kr)) ys /\
       (allP (fun '(k, x) => key_of k <> Some key_placeholder /\ no_pkey x) l -> (N.of_nat (n + length (ent_blobs l)) <= u64_max)%N ->
          flat_map (fun '(_, x) => placeholders x) rs = map N.of_nat (seq n (length (ent_blobs l))) /\
          forall rp d, list_max (map (fun '(_, x) => nesting x) l) < d -> exists xs, all_some (map (val_member rp d) rs) = Some xs /\
            (forall A, holds A n (ent_blobs l) -> same_keys (fun x y => fill_placeholders A x = Ok y) xs ys) /\
            (ent_blobs l = [] -> xs = ys) /\ map fst xs = map fst ys /\ allP (fun '(_, y) => tidy y) xs)).
Proof.
  induction 1 as [n|n k v l kt s t ts Ek Eko Hv H [I1 I2]].
  { split; [constructor|]. intros _. split; [constructor|]. exists [], []. split; [constructor|]. split; [reflexivity|].
    split; [reflexivity|]. split; [reflexivity|].
    intros _ _. split; [reflexivity|]. intros rp d _. exists []. split; [reflexivity|]. split; [intros; constructor|cbn; auto]. }
  destruct Hv as (_ & _ & _ & _ & H4 & H5). pose proof (key_spec k) as Hk. rewrite Ek, Eko in Hk.
  destruct Hk as (b & -> & K1 & K2). cbn [allP]. split.
  - intros [[Ha1 Ha2] Hb]. constructor; auto. apply utf8_app_true; [auto|].
    apply (utf8_app_true [":"%byte]); [reflexivity|]. apply H4; auto.
  - intros [[Ha1 Ha2] Hb]. destruct (H5 eq_refl Ha2) as (N & r & y & E & J & V). destruct (K1 Ha1) as (B1 & B2 & B3).
    destruct (I2 Hb) as (N2 & rs & ys & J2 & E2 & EK & EK' & V2).
    split. { constructor; auto. apply no_newline_app; [exact B3|]. apply no_newline_cons; [reflexivity|exact N]. }
    exists ((b, r) :: rs), ((s, y) :: ys). split; [constructor; auto|].
    { exists t. cbn [fst snd]. split; [|auto]. cbn [app]. rewrite <- app_assoc. reflexivity. }
    split. { cbn [map all_some]. change (entry_json (sent_entry (k, v))) with (pair_opt (key_of k) (json_of (sent v))). rewrite Eko, E, E2. reflexivity. }
    split. { cbn [map fst snd]. rewrite Eko, B2, EK. reflexivity. }
    split. { cbn [map fst snd]. rewrite Eko, EK'. reflexivity. }
    cbn [ent_blobs flat_map]. fold (ent_blobs l). rewrite app_length. intros [[_ Hp1] Hp2] Hn.
    destruct (V Hp1 ltac:(lia)) as [P1 F1]. destruct (V2 Hp2 ltac:(rewrite <- Nat.add_assoc; lia)) as [P2 F2].
    split; [rewrite seq_app_N; congruence|].
    intros rp d Hd. cbn [map list_max fold_right] in Hd. fold (list_max (map (fun '(_, x) => nesting x) l)) in Hd.
    destruct (F1 rp d ltac:(lia)) as (x & X1 & X2 & X3 & X4). destruct (F2 rp d ltac:(lia)) as (xs & Y1 & Y2 & Y3 & Y4 & Y5).
    exists ((s, x) :: xs). cbn [map all_some]. unfold val_member at 1. cbn [fst snd]. rewrite B2, X1, Y1.
    split; [reflexivity|]. split; [|split; [|split]].
    + intros A HA. apply holds_app in HA as [HA1 HA2]. constructor; [cbn; auto|]. apply Y2. exact HA2.
    + intros Hnil. apply app_eq_nil in Hnil as [Z1 Z2]. rewrite X3, Y3 by assumption. reflexivity.
    + rewrite Y4. reflexivity.
    + cbn. auto.
Qed.
Definition bobj (l : list (sval * sval)) (n : nat) (t : bytes) (atts : list wsmsg) (oc : outcome) : Prop :=
  (forall s, length (snd s) = n -> wser_object l s = ((fst s ++ t, snd s ++ atts), oc)) /\ oc <> OPanic /\
  (oc = OOk <-> all_some (map entry_json l) <> None) /\ (oc = OOk -> atts = map frame (ent_blobs l)) /\
  (oc = OOk -> allP (fun '(k, x) => strs_ok k /\ strs_ok x) l -> utf8_valid t = true) /\
  (oc = OOk -> first_key_ok (map (fun kx => key_of (fst kx)) l) -> allP (fun '(k, x) => key_ok k /\ val_ok x) l ->
     no_newline t /\ exists rs ys, all_some (map entry_json (map sent_entry l)) = Some ys /\ jvalue (RObj rs) t /\
     (allP (fun '(k, x) => key_of k <> Some key_placeholder /\ no_pkey x) l -> (N.of_nat (n + length (ent_blobs l)) <= u64_max)%N ->
          placeholders (RObj rs) = map N.of_nat (seq n (length (ent_blobs l))) /\
     forall rp d, S (list_max (map (fun '(_, x) => nesting x) l)) < d ->
        exists x, val_of rp d (RObj rs) = Some x /\ fills n (ent_blobs l) x (VObj (obj_of ys)))).
Lemma placeholder_num_none rs : (forall b r rs', rs = (b, r) :: rs' -> unescape b <> Some key_placeholder) -> placeholder_num rs = None.
Proof.
  intros H. destruct rs as [|[b r] rs]; [reflexivity|]. cbn [placeholder_num].
  destruct r as [| [] | | | |]; try reflexivity. destruct rs as [|[n [ | | x | | | ]] [|]]; try reflexivity.
  destruct (bytes_eqb b key_placeholder) eqn:E; [|reflexivity]. apply bytes_eqb_eq in E. subst.
  exfalso. apply (H _ _ _ eq_refl). reflexivity.
Qed.
Lemma insert_all (P : value -> Prop) k x m : P x -> allP (fun '(_, y) => P y) m -> allP (fun '(_, y) => P y) (obj_insert k x m).
Proof.
  intros Hx. induction m as [|[k' y] m IH]; cbn [obj_insert allP]; [auto|]. intros [Hy Hm].
  destruct (bytes_eqb k k'); [cbn; auto|]. destruct (bytes_ltb k k'); cbn; auto.
Qed.
Lemma obj_of_all (P : value -> Prop) xs : allP (fun '(_, y) => P y) xs -> allP (fun '(_, y) => P y) (obj_of xs).
Proof.
  unfold obj_of. assert (G : forall m, allP (fun '(_, y) => P y) m -> allP (fun '(_, y) => P y) xs ->
    allP (fun '(_, y) => P y) (fold_left (fun m kv => obj_insert (fst kv) (snd kv) m) xs m)); [|apply G; exact I].
  induction xs as [|[k y] xs IH]; intros m Hm; cbn [allP fold_left]; [auto|]. intros [Hy Hx]. apply IH; [|exact Hx]. apply insert_all; assumption.
Qed.
Lemma bobj_ok l : Forall (fun kx => bgood (snd kx)) l -> forall n, exists t atts oc, bobj l n t atts oc.
Proof.
  intros H n. destruct (bentries_ok l H true n) as (t & atts & oc & E & Hp & Hs & Ht).
  exists (["{"%byte] ++ t ++ match oc with OOk => ["}"%byte] | _ => [] end), atts, oc.
  split. { apply (wobind_close E). }
  split; [exact Hp|]. split; [exact Hs|]. split; [intros Ho; apply Ht; exact Ho|]. split.
  - intros -> Hok. destruct (Ht eq_refl) as (_ & ts & -> & HF). apply bents_ok in HF as [HF _].
    apply utf8_app_true; [reflexivity|]. apply utf8_app_true; [apply seps_utf8; auto|reflexivity].
  - intros -> Hfk Hok. destruct (Ht eq_refl) as (_ & ts & -> & HF). apply bents_ok in HF as [_ HF].
    destruct (HF Hok) as (N & rs & ys & J & Exs & EK & EK' & V). split.
    + apply no_newline_cons; [reflexivity|]. apply no_newline_app; [apply seps_no_newline; exact N|apply no_newline_forallb; reflexivity].
    + exists rs, ys. split; [exact Exs|]. split; [apply jobj_seps; exact J|].
      intros Hk Hn. destruct (V Hk Hn) as [P F].
      split. { cbn [placeholders]. rewrite placeholder_num_none; [exact P|]. intros b r rs' ->.
        destruct l as [|[k0 x0] l]; [discriminate|]. cbn [map fst] in EK. injection EK as EK _. destruct Hk as [[Hk _] _]. congruence. }
      intros rp [|[|d]] Hd; [lia|lia|]. destruct (F rp (S d) ltac:(lia)) as (xs & X & F1 & F2 & F3 & F4).
      exists (VObj (obj_of xs)). split.
      { rewrite val_of_obj; [rewrite X; reflexivity|].
        intros k x l' k' -> Hk'. destruct l as [|[k0 x0] l]; [discriminate|]. cbn [map fst] in EK, Hfk.
        injection EK as EK _. rewrite EK, Hk' in Hfk. exact Hfk. }
      assert (G0 : obj_get key_placeholder (obj_of xs) = None).
      { apply obj_get_of.
        assert (G : Forall (fun k => k <> key_placeholder) (map fst ys)).
        { assert (G : Forall (fun k => k <> Some key_placeholder) (map (fun kr => Some (fst kr)) ys)).
          { rewrite <- EK'. clear -Hk. induction l as [|[k x] l IH]; cbn [map]; constructor; destruct Hk as [[Hk _] Hl]; auto. }
          clear -G. induction ys as [|[k y] ys IH]; cbn [map] in *; constructor; inversion G; subst; [cbn in *; congruence|auto]. }
        rewrite <- F3 in G. clear -G. induction xs as [|[k y] xs IH]; cbn [map] in *; constructor; inversion G; subst; auto. }
      split; [|split].
      * intros A HA. apply fill_obj; [exact G0|apply obj_of_rel; apply F1; exact HA].
      * intros Hnil. rewrite F2 by exact Hnil. reflexivity.
      * cbn [tidy]. split; [auto|apply obj_of_all; exact F4].
Qed.

(** Variants. *)
Lemma wvariant_ser n0 n (body : wst -> wst * outcome) t atts oc :
  (forall s, length (snd s) = n -> body s = ((fst s ++ t, snd s ++ atts), oc)) ->
  forall s, length (snd s) = n -> wser_variant n0 body s =
    ((fst s ++ "{"%byte :: json_str n0 ++ ":"%byte :: t ++ match oc with OOk => ["}"%byte] | _ => [] end, snd s ++ atts), oc).
Proof.
  intros H s Hs. unfold wser_variant. rewrite (wobind_close H) by exact Hs. cbn [app]. rewrite <- app_assoc. reflexivity.
Qed.
Lemma fills_variant n bl x y m : m <> key_placeholder -> fills n bl x y -> fills n bl (VObj [(m, x)]) (VObj [(m, y)]).
Proof.
  intros Hm (H1 & H2 & H3).
  assert (G : forall z : value, obj_get key_placeholder [(m, z)] = None).
  { intros z. cbn [obj_get]. destruct (bytes_eqb key_placeholder m) eqn:E; [|reflexivity]. apply bytes_eqb_eq in E. congruence. }
  split; [|split].
  - intros A HA. apply fill_obj; [apply G|]. constructor; [|constructor]. cbn. auto.
  - intros Hb. rewrite H2 by exact Hb. reflexivity.
  - cbn [tidy]. split; [left; apply G|cbn; auto].
Qed.
Lemma variant_placeholders m r : m <> key_placeholder -> placeholders (RObj [(escape m, r)]) = placeholders r.
Proof.
  intros Hm. cbn [placeholders]. rewrite placeholder_num_none.
  - cbn [flat_map]. apply app_nil_r.
  - intros b r' rs' [= <- _ _]. rewrite unescape_escape. congruence.
Qed.
(** A variant around a body whose behaviour is known. *)
Lemma bwr_variant v n0 (body : wst -> wst * outcome) (bl : list bytes) (nst : nat) (js js' : option value) (so vo po : Prop) :
  (forall s, wrap_ser v s = wser_variant n0 body s) ->
  json_of v = option_map (fun y => VObj [(n0, y)]) js -> json_of (sent v) = option_map (fun y => VObj [(n0, y)]) js' ->
  blobs v = bl -> nesting v = S nst -> (strs_ok v -> utf8_valid n0 = true /\ so) -> (val_ok v -> n0 <> raw_token /\ vo) ->
  (no_pkey v -> n0 <> key_placeholder /\ po) ->
  (forall n, exists t atts oc,
    (forall s, length (snd s) = n -> body s = ((fst s ++ t, snd s ++ atts), oc)) /\ oc <> OPanic /\ (oc = OOk <-> js <> None) /\
    (oc = OOk -> atts = map frame bl) /\ (oc = OOk -> so -> utf8_valid t = true) /\
    (oc = OOk -> vo -> no_newline t /\ exists r y, js' = Some y /\ jvalue r t /\
      (po -> (N.of_nat (n + length bl) <= u64_max)%N -> placeholders r = map N.of_nat (seq n (length bl)) /\
         forall rp d, nst < d -> exists x, val_of rp d r = Some x /\ fills n bl x y))) ->
  bgood v.
Proof.
  intros E1 E2 E3 E4 E5 E6 E7 E8 H n. destruct (H n) as (t & atts & oc & H1 & H2 & H3 & H4 & H5 & H6).
  eexists. exists atts, oc. split; [intros s Hs; rewrite E1; apply (wvariant_ser n0 n body t atts oc H1 s Hs)|].
  split; [exact H2|]. split; [rewrite E2, opt_map_none; exact H3|]. rewrite E4. split; [exact H4|]. split.
  - intros -> Hs. apply E6 in Hs as [Ha Hb]. apply variant_utf8; auto.
  - intros -> Hv. apply E7 in Hv as [Ha Hb]. destruct (H6 eq_refl Hb) as (N & r & y & J0 & J & V).
    split; [apply variant_no_newline; exact N|]. exists (RObj [(escape n0, r)]), (VObj [(n0, y)]). rewrite E3, J0.
    split; [reflexivity|]. split; [apply variant_text; exact J|]. intros Hp Hn. apply E8 in Hp as [Hp1 Hp2].
    destruct (V Hp2 Hn) as [P F]. split; [rewrite variant_placeholders by exact Hp1; exact P|].
    rewrite E5. intros rp [|[|d]] Hd; [lia|lia|]. rewrite variant_obj by exact Ha.
    destruct (F rp (S d) ltac:(lia)) as (x & X1 & X2). exists (VObj [(n0, x)]). rewrite X1. split; [reflexivity|].
    apply fills_variant; assumption.
Qed.

Lemma bwr_same v w : (forall s, wrap_ser v s = wrap_ser w s) -> json_of v = json_of w -> json_of (sent v) = json_of (sent w) ->
  blobs v = blobs w -> nesting v = nesting w -> (strs_ok v -> strs_ok w) -> (val_ok v -> val_ok w) -> (no_pkey v -> no_pkey w) ->
  bgood w -> bgood v.
Proof.
  intros E1 E2 E3 E4 E5 E6 E7 E8 H n. destruct (H n) as (t & atts & oc & H1 & H2 & H3 & H4 & H5 & H6). exists t, atts, oc.
  split; [intros s Hs; rewrite E1; auto|]. split; [exact H2|]. rewrite E2, E4. split; [exact H3|]. split; [exact H4|].
  split; [auto|]. intros Ho Hv. destruct (H6 Ho (E7 Hv)) as (N & r & y & J0 & J & V). split; [exact N|].
  exists r, y. rewrite E3, E5. split; [exact J0|]. split; [exact J|]. intros Hp. apply V. auto.
Qed.
Lemma bwr_tuple l : Forall bgood l -> bgood (STuple l).
Proof.
  intros H n. destruct (barr_ok l H n) as (t & atts & oc & H1 & H2 & H3 & H4 & H5 & H6). exists t, atts, oc.
  split; [exact H1|]. split; [exact H2|]. split; [cbn [json_of]; rewrite opt_map_none; exact H3|]. split; [exact H4|].
  split; [exact H5|]. intros Ho Hv. destruct (H6 Ho Hv) as (N & rs & ys & J0 & J & V). split; [exact N|].
  exists (RArr rs), (VArr ys). cbn [sent json_of]. rewrite J0. split; [reflexivity|]. split; [exact J|exact V].
Qed.
Lemma bwr_map l : Forall (fun kx => bgood (snd kx)) l -> bgood (SMap l).
Proof.
  intros H n. destruct (bobj_ok l H n) as (t & atts & oc & H1 & H2 & H3 & H4 & H5 & H6). exists t, atts, oc.
  split; [exact H1|]. split; [exact H2|]. split; [cbn [json_of]; rewrite opt_map_none, <- entry_map; exact H3|]. split; [exact H4|].
  split; [exact H5|]. intros Ho [Hv1 Hv2]. destruct (H6 Ho Hv1 Hv2) as (N & rs & ys & J0 & J & V). split; [exact N|].
  exists (RObj rs), (VObj (obj_of ys)). cbn [sent json_of]. rewrite <- entry_map.
  replace (map (fun '(k, x) => (k, sent x)) l) with (map sent_entry l) by (apply map_ext; intros [? ?]; reflexivity).
  rewrite J0. split; [reflexivity|]. split; [exact J|exact V].
Qed.
Lemma u8s_json l : forallb is_u8 l = true -> all_some (map json_of l) = Some (map (fun c => VNum (NPos (bN c))) (u8s l)) /\
  map sent l = l /\ list_max (map nesting l) = 0 /\ flat_map blobs l = [] /\ allP strs_ok l.
Proof.
  induction l as [|x l IH]; cbn [forallb]; intros H; [repeat split|].
  apply andb_true_iff in H as [Hx H]. destruct x; try discriminate Hx. destruct (IH H) as (I1 & I2 & I3 & I4 & I5).
  cbn [map all_some json_of]. rewrite I1. cbn [sent]. rewrite I2. cbn [list_max nesting flat_map blobs allP strs_ok fold_right].
  fold (list_max (map nesting l)). rewrite I3, I4. split; [reflexivity|]. auto 10.
Qed.
Lemma no_pkey_as l : allP (fun '(k, x) => k <> key_placeholder /\ no_pkey x) l ->
  allP (fun '(k, x) => key_of k <> Some key_placeholder /\ no_pkey x) (as_entries l).
Proof.
  induction l as [|[k x] l IH]; cbn; auto. intros [[H0 H1] H2]. split; [split; congruence || auto|apply IH; exact H2].
Qed.
Lemma sent_as l : map sent_entry (as_entries l) = as_entries (map (fun '(k, x) => (k, sent x)) l).
Proof. unfold as_entries. rewrite !map_map. apply map_ext. intros [k x]. reflexivity. Qed.
Lemma blobs_as l : ent_blobs (as_entries l) = flat_map (fun '(_, x) => blobs x) l.
Proof. induction l as [|[k x] l IH]; [reflexivity|]. cbn [as_entries map ent_blobs flat_map]. f_equal. exact IH. Qed.

Theorem binary_writer_ok v : bgood v.
Proof.
  assert (Hstr : forall s, forall w, wrap_ser w = (fun st => (wput (json_str s) st, OOk)) -> json_of w = Some (VStr s) ->
    blobs w = [] -> sent w = w -> (strs_ok w -> utf8_valid s = true) -> bgood w).
  { intros s w E1 E2 E3 E4 E5. apply (bwr_leaf w (json_str s) (RStr (escape s)) (VStr s)); try exact I; auto.
    - rewrite E1. reflexivity.
    - intros Hs. apply json_str_utf8. auto.
    - intros _. split; [apply json_str_no_newline|]. split; [apply json_str_value|].
      intros rp d _. cbn [val_of]. rewrite unescape_escape. reflexivity. }
  assert (Hnull : forall w, wrap_ser w = (fun st => (wput (bs "null") st, OOk)) -> json_of w = Some VNull ->
    blobs w = [] -> sent w = w -> bgood w).
  { intros w E1 E2 E3 E4. apply (bwr_leaf w (bs "null") RNull VNull); try exact I; auto.
    - rewrite E1. reflexivity.
    - intros _. split; [apply no_newline_forallb; reflexivity|]. split; [constructor|reflexivity]. }
  induction v using sval_ind'.
  - apply (bwr_leaf _ (if b then bs "true" else bs "false") (RBool b) (VBool b)); try reflexivity; try exact I.
    + destruct b; reflexivity.
    + intros _. destruct b; (split; [apply no_newline_forallb; reflexivity|]; split; [constructor|reflexivity]).
  - apply (bwr_leaf _ (dec (bN b)) (RNum (int_lit false (bN b))) (VNum (NPos (bN b)))); try reflexivity; try exact I.
    + intros _. apply dec_utf8.
    + intros _. split; [apply dec_no_newline|]. split; [rewrite <- int_lit_text; apply jv_num, int_lit_ok|].
      intros rp d _. cbn [val_of]. rewrite u8_num. reflexivity.
  - eapply (bwr_leaf _ (decZ z) (RNum (int_lit (z <? 0)%Z (Z.to_N (Z.abs z))))); try reflexivity; try exact I.
    + intros _. rewrite decZ_text. apply num_utf8, int_lit_ok.
    + cbn [val_ok]. intros Hz. rewrite decZ_text. split; [apply num_no_newline, int_lit_ok|].
      split; [apply jv_num, int_lit_ok|]. intros rp d _. cbn [val_of]. rewrite decZ_num by exact Hz. reflexivity.
  - destruct t as [t|]; [|apply Hnull; reflexivity].
    apply (bwr_leaf _ (numlit_text t) (RNum t) (VNum (NFloat t))); try reflexivity; try exact I.
    + apply num_utf8.
    + cbn [val_ok]. intros [Hn Hv]. split; [apply num_no_newline; exact Hn|]. split; [apply jv_num; exact Hn|].
      intros rp d _. cbn [val_of]. rewrite Hv. reflexivity.
  - apply (Hstr c); auto.
  - apply (Hstr s); auto.
  - apply (bwr_bytes _ b); reflexivity.
  - apply Hnull; reflexivity.
  - apply (bwr_same _ v); auto.
  - apply Hnull; reflexivity.
  - apply Hnull; reflexivity.
  - apply (Hstr n); auto.
  - apply (bwr_same _ v); auto.
  - eapply (bwr_variant _ n (wrap_ser v) (blobs v) (nesting v) (json_of v) (json_of (sent v)) (strs_ok v) (val_ok v) (no_pkey v)); auto.
  - (* sequences *)
    destruct (blob_seq l) eqn:Eb.
    + assert (Hl : forallb is_u8 l = true) by (destruct l; [discriminate|exact Eb]).
      destruct (u8s_json l Hl) as (U1 & U2 & U3 & U4 & U5).
      assert (M : mixed_seq l = false) by (destruct l; [reflexivity|]; cbn [mixed_seq]; rewrite Hl, andb_false_r; reflexivity).
      apply (bwr_bytes _ (u8s l)).
      * intros s. rewrite wser_SSeq, wser_seq_cases, Eb. reflexivity.
      * cbn [json_of]. rewrite U1. reflexivity.
      * cbn [sent]. rewrite M, U2. reflexivity.
      * cbn [blobs]. rewrite Eb. reflexivity.
      * cbn [nesting]. rewrite U3. reflexivity.
    + destruct (mixed_seq l) eqn:M.
      * assert (H4 : bgood (SU8 x04)).
        { apply (bwr_leaf _ (dec (bN x04)) (RNum (int_lit false (bN x04))) (VNum (NPos (bN x04)))); try reflexivity; try exact I.
          intros _. split; [apply dec_no_newline|]. split; [rewrite <- int_lit_text; apply jv_num, int_lit_ok|].
          intros rp d _. cbn [val_of]. rewrite u8_num. reflexivity. }
        intros n. destruct (bwr_tuple (SU8 x04 :: l) (Forall_cons _ H4 H) n) as (t & atts & oc & H1 & H2 & H3 & H5 & H6 & H7).
        exists t, atts, oc. split; [intros s Hs; rewrite wser_SSeq, wser_seq_cases, Eb, M; apply (H1 s Hs)|].
        split; [exact H2|]. split.
        { rewrite H3. cbn [json_of map]. rewrite !opt_map_none, all_some_cons. intuition discriminate. }
        cbn [blobs]. rewrite Eb. split; [exact H5|]. split; [cbn [strs_ok allP] in *; auto|].
        intros Ho Hv. destruct (H7 Ho (conj I Hv)) as (N & r & y & J0 & J & V). split; [exact N|]. exists r, y.
        cbn [sent]. rewrite M. split; [exact J0|]. split; [exact J|]. intros Hp. apply V. cbn [no_pkey allP]. auto.
      * apply (bwr_same _ (STuple l)); auto.
        { intros s. rewrite wser_SSeq, wser_seq_cases, Eb, M. reflexivity. }
        { cbn [sent]. rewrite M. reflexivity. }
        { cbn [blobs]. rewrite Eb. reflexivity. }
        apply bwr_tuple. exact H.
  - apply bwr_tuple. exact H.
  - apply (bwr_same _ (STuple l)); auto. apply bwr_tuple. exact H.
  - apply (bwr_variant _ n (wser_array l) (blobs (STuple l)) (nesting (STuple l)) (json_of (STuple l)) (json_of (sent (STuple l)))
      (strs_ok (STuple l)) (val_ok (STuple l)) (no_pkey (STuple l))); auto.
    + cbn [json_of]. destruct (all_some (map json_of l)); reflexivity.
    + cbn [sent json_of]. destruct (all_some (map json_of (map sent l))); reflexivity.
    + apply bwr_tuple. exact H.
  - apply bwr_map. exact H.
  - apply (bwr_same _ (SMap (as_entries l))).
    + intros s. rewrite wser_struct. reflexivity.
    + cbn [json_of]. rewrite <- entry_map, entry_as. reflexivity.
    + cbn [sent json_of]. rewrite <- entry_map.
      replace (map (fun '(k, x) => (k, sent x)) (as_entries l)) with (map sent_entry (as_entries l)) by (apply map_ext; intros [? ?]; reflexivity).
      rewrite sent_as, entry_as. reflexivity.
    + cbn [blobs]. rewrite <- blobs_as. reflexivity.
    + cbn [nesting]. rewrite nesting_as. reflexivity.
    + apply strs_as.
    + cbn [val_ok]. rewrite fk_as. intros [A B]. split; [exact A|apply val_as; exact B].
    + apply no_pkey_as.
    + apply bwr_map. apply (forall_as_entries (P := bgood)). exact H.
  - apply (bwr_variant _ n (wser_object (as_entries l)) (blobs (SMap (as_entries l))) (nesting (SMap (as_entries l)))
      (json_of (SMap (as_entries l))) (json_of (sent (SMap (as_entries l))))
      (strs_ok (SMap (as_entries l))) (val_ok (SMap (as_entries l))) (no_pkey (SMap (as_entries l)))).
    + intros s. apply wser_structv.
    + cbn [json_of]. rewrite <- entry_map, entry_as.
      match goal with |- option_map _ ?X = _ => destruct X; reflexivity end.
    + cbn [sent json_of]. rewrite <- entry_map.
      replace (map (fun '(k, x) => (k, sent x)) (as_entries l)) with (map sent_entry (as_entries l)) by (apply map_ext; intros [? ?]; reflexivity).
      rewrite sent_as, entry_as. match goal with |- option_map _ ?X = _ => destruct X; reflexivity end.
    + cbn [blobs]. rewrite <- blobs_as. reflexivity.
    + cbn [nesting]. rewrite nesting_as. reflexivity.
    + cbn [strs_ok]. intros [A B]. split; [exact A|apply strs_as; exact B].
    + cbn [val_ok]. rewrite fk_as. intros (A & B & C). split; [exact A|]. split; [exact B|apply val_as; exact C].
    + cbn [no_pkey]. intros [A B]. split; [exact A|apply no_pkey_as; exact B].
    + apply bwr_map. apply (forall_as_entries (P := bgood)). exact H.
  - intros n. exists [], [], OErr. split; [intros [a b] _; cbn; rewrite !app_nil_r; reflexivity|]. split; [discriminate|].
    split; [split; [discriminate|intros X; cbn in X; congruence]|]. repeat split; discriminate.
Qed.

(** Without mixed sequences what arrives is what was sent. *)
Lemma sent_id v : no_mixed v -> sent v = v.
Proof.
  assert (M : forall l : list sval, Forall (fun v => no_mixed v -> sent v = v) l -> allP no_mixed l -> map sent l = l).
  { induction 1 as [|x l Hx H IH]; cbn; [reflexivity|]. intros [A B]. rewrite Hx, IH; auto. }
  assert (M2 : forall K (l : list (K * sval)), Forall (fun kx => no_mixed (snd kx) -> sent (snd kx) = snd kx) l ->
    allP (fun '(_, x) => no_mixed x) l -> map (fun '(k, x) => (k, sent x)) l = l).
  { induction 1 as [|[k x] l Hx H IH]; cbn; [reflexivity|]. cbn in Hx. intros [A B]. rewrite Hx, IH; auto. }
  induction v using sval_ind'; cbn [no_mixed sent]; try reflexivity; try (intros Hm; f_equal; auto; fail).
  intros [H1 H2]. rewrite H1, M by assumption. reflexivity.
Qed.
