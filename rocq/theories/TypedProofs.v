(** Proofs about typed deserialisation (C24-C26). *)
From Verif Require Export StrictProofs.

Section TyInd.
  Variable P : ty -> Prop.
  Hypothesis Hbool : P TyBool.
  Hypothesis Hint : forall lo hi, P (TyInt lo hi).
  Hypothesis Hf64 : P TyF64.
  Hypothesis Hstring : P TyString.
  Hypothesis Hstr : P TyStr.
  Hypothesis Hbytes : P TyBytes.
  Hypothesis Hunit : P TyUnit.
  Hypothesis Hignored : P TyIgnored.
  Hypothesis Hoption : forall u, P u -> P (TyOption u).
  Hypothesis Hnewtype : forall u, P u -> P (TyNewtype u).
  Hypothesis Hseq : forall u, P u -> P (TySeq u).
  Hypothesis Htuple : forall l, Forall P l -> P (TyTuple l).
  Hypothesis Hmap : forall u, P u -> P (TyMap u).
  Hypothesis Hstruct : forall l, Forall (fun f => P (snd f)) l -> P (TyStruct l).
  Hypothesis Henum : forall l, Forall (fun v => P (snd (snd v))) l -> P (TyEnum l).
  Hypothesis Hvalue : P TyValue.
  Hypothesis Hchar : P TyChar.
  Hypothesis Hbuf : P TyByteBuf.
  Hypothesis Hintmap : forall lo hi u, P u -> P (TyIntMap lo hi u).
  Fixpoint ty_ind' (t : ty) : P t :=
    match t with
    | TyBool => Hbool | TyInt lo hi => Hint lo hi | TyF64 => Hf64 | TyString => Hstring | TyStr => Hstr
    | TyBytes => Hbytes | TyUnit => Hunit | TyIgnored => Hignored | TyValue => Hvalue
    | TyChar => Hchar | TyByteBuf => Hbuf | TyIntMap lo hi u => Hintmap lo hi u (ty_ind' u)
    | TyOption u => Hoption u (ty_ind' u)
    | TyNewtype u => Hnewtype u (ty_ind' u)
    | TySeq u => Hseq u (ty_ind' u)
    | TyMap u => Hmap u (ty_ind' u)
    | TyTuple l => Htuple l ((fix go (l : list ty) : Forall P l :=
        match l with [] => Forall_nil _ | x :: l' => Forall_cons _ (ty_ind' x) (go l') end) l)
    | TyStruct l => Hstruct l ((fix go (l : list (bytes * ty)) : Forall (fun f => P (snd f)) l :=
        match l with [] => Forall_nil _ | x :: l' => Forall_cons x (ty_ind' (snd x)) (go l') end) l)
    | TyEnum l => Henum l ((fix go (l : list (bytes * (vtag * ty))) : Forall (fun v => P (snd (snd v))) l :=
        match l with [] => Forall_nil _ | x :: l' => Forall_cons x (ty_ind' (snd (snd x))) (go l') end) l)
    end.
End TyInd.

(** ** The loops of the readers, named *)
Definition each_of (f : raw -> option dval) := fix go (l : list raw) : option (list dval) :=
  match l with
  | [] => Some []
  | x :: l' => match f x, go l' with Some v, Some vs => Some (v :: vs) | _, _ => None end
  end.
Definition zip_of (f : ty -> raw -> option dval) := fix go (ts : list ty) (l : list raw) : option (list dval) :=
  match ts, l with
  | [], [] => Some []
  | u :: ts', x :: l' => match f u x, go ts' l' with Some v, Some vs => Some (v :: vs) | _, _ => None end
  | _, _ => None
  end.
Definition zip_fields (f : ty -> raw -> option dval) := fix go (fs : list (bytes * ty)) (l : list raw) : option (list dval) :=
  match fs, l with
  | [], [] => Some []
  | (_, u) :: fs', x :: l' => match f u x, go fs' l' with Some v, Some vs => Some (v :: vs) | _, _ => None end
  | _, _ => None
  end.
Definition map_of (f : raw -> option dval) := fix go (m : list (bytes * raw)) (acc : list (bytes * dval)) : option (list (bytes * dval)) :=
  match m with
  | [] => Some acc
  | (k, x) :: m' => match f x with Some v => go m' (obj_insert k v acc) | None => None end
  end.
Definition field_of (f : ty -> raw -> option dval) (m : list (bytes * raw)) (n : bytes) (u : ty) : option dval :=
  match members_named n m with [] => missing_field u | [x] => f u x | _ => None end.
Definition fields_of (f : ty -> raw -> option dval) (m : list (bytes * raw)) := fix go (fs : list (bytes * ty)) : option (list dval) :=
  match fs with
  | [] => Some []
  | (n, u) :: fs' => match field_of f m n u, go fs' with Some v, Some vs => Some (v :: vs) | _, _ => None end
  end.
Definition variant_of (f : bytes -> vtag -> ty -> option dval) (name : bytes) := fix go (vs : list (bytes * (vtag * ty))) : option dval :=
  match vs with
  | [] => None
  | (n, (tag, u)) :: vs' => if bytes_eqb n name then f n tag u else go vs'
  end.

Definition int_map_of (lo hi : Z) (f : raw -> option dval) := fix go (l : list (bytes * raw)) (acc : list (Z * dval)) : option (list (Z * dval)) :=
  match l with
  | [] => Some acc
  | (k, x) :: l' => match int_key lo hi k, f x with Some z, Some v => go l' (int_insert z v acc) | _, _ => None end
  end.

Section Equations.
Variable rp : bytes -> option value.
Lemma de_plain_seq u d r : de_plain rp (TySeq u) d r =
  match r, enter d with RArr l, Some d' => option_map XSeq (each_of (de_plain rp u d') l) | _, _ => None end.
Proof. reflexivity. Qed.
Lemma de_plain_tuple ts d r : de_plain rp (TyTuple ts) d r =
  match r, enter d with RArr l, Some d' => option_map XTuple (zip_of (fun u => de_plain rp u d') ts l) | _, _ => None end.
Proof. reflexivity. Qed.
Lemma de_plain_map u d r : de_plain rp (TyMap u) d r =
  match r, enter d with
  | RObj l, Some d' => match str_members l with None => None | Some m => option_map XMap (map_of (de_plain rp u d') m []) end
  | _, _ => None
  end.
Proof. reflexivity. Qed.
Lemma de_plain_int_map lo hi u d r : de_plain rp (TyIntMap lo hi u) d r =
  match r, enter d with RObj l, Some d' => option_map XIntMap (int_map_of lo hi (de_plain rp u d') l []) | _, _ => None end.
Proof. reflexivity. Qed.
Lemma de_plain_struct fs d r : de_plain rp (TyStruct fs) d r =
  match enter d with
  | None => None
  | Some d' =>
      match r with
      | RArr l => option_map XStruct (zip_fields (fun u => de_plain rp u d') fs l)
      | RObj l => match str_members l with None => None | Some m => option_map XStruct (fields_of (fun u => de_plain rp u d') m fs) end
      | _ => None
      end
  end.
Proof. reflexivity. Qed.
Definition variant_plain (rp : bytes -> option value) d x (n : bytes) (tag : vtag) (u : ty) : option dval :=
  match tag with
  | VtUnit => match x with RNull => Some (XVariant n XUnit) | _ => None end
  | VtTuple => match x with RArr _ => option_map (XVariant n) (de_plain rp u d x) | _ => None end
  | _ => option_map (XVariant n) (de_plain rp u d x)
  end.
Lemma de_plain_enum vs d r : de_plain rp (TyEnum vs) d r =
  match r with
  | RStr b =>
      match unescape b with
      | None => None
      | Some name => variant_of (fun n tag _ => match tag with VtUnit => Some (XVariant n XUnit) | _ => None end) name vs
      end
  | RObj [(k, x)] =>
      match enter d, unescape k with
      | Some d', Some name => variant_of (variant_plain rp d' x) name vs
      | _, _ => None
      end
  | _ => None
  end.
Proof. reflexivity. Qed.

Variable A : list subslice_t.
Lemma de_wrap_seq u d r : de_wrap rp A (TySeq u) d r =
  match r, enter d with
  | RArr l, Some d' => option_map XSeq (each_of (de_wrap rp A u d') l)
  | RObj l, Some d' => match classify_obj A l with OMBuffer b => option_map XSeq (visit_u8_all u b) | _ => None end
  | _, _ => None
  end.
Proof. reflexivity. Qed.
Lemma de_wrap_tuple ts d r : de_wrap rp A (TyTuple ts) d r =
  match r, enter d with
  | RArr l, Some d' => option_map XTuple (zip_of (fun u => de_wrap rp A u d') ts l)
  | RObj l, Some d' => match classify_obj A l with OMBuffer b => option_map XTuple (visit_u8_each ts b) | _ => None end
  | _, _ => None
  end.
Proof. reflexivity. Qed.
Lemma de_wrap_map u d r : de_wrap rp A (TyMap u) d r =
  match r, enter d with
  | RObj l, Some d' =>
      match classify_obj A l with
      | OMMap => match str_members l with None => None | Some m => option_map XMap (map_of (de_wrap rp A u d') m []) end
      | _ => None
      end
  | _, _ => None
  end.
Proof. reflexivity. Qed.
Lemma de_wrap_struct fs d r : de_wrap rp A (TyStruct fs) d r =
  match enter d with
  | None => None
  | Some d' =>
      match r with
      | RArr l => option_map XStruct (zip_fields (fun u => de_wrap rp A u d') fs l)
      | RObj l =>
          match classify_obj A l with
          | OMError => None
          | OMBuffer b => option_map XStruct (visit_u8_each (map snd fs) b)
          | OMMap => match str_members l with None => None | Some m => option_map XStruct (fields_of (fun u => de_wrap rp A u d') m fs) end
          end
      | _ => None
      end
  end.
Proof. reflexivity. Qed.
Definition variant_wrap (rp : bytes -> option value) d x (n : bytes) (tag : vtag) (u : ty) : option dval :=
  match tag with
  | VtUnit => match x with RNull => Some (XVariant n XUnit) | _ => None end
  | VtNewtype => option_map (XVariant n) (de_wrap rp A u d x)
  | VtTuple => match x with RArr _ => option_map (XVariant n) (de_wrap rp A u d x) | _ => None end
  | VtStruct => option_map (XVariant n) (de_wrap rp A u d x)
  end.
Lemma de_wrap_enum vs d r : de_wrap rp A (TyEnum vs) d r =
  match r with
  | RStr b => de_plain rp (TyEnum vs) d r
  | RObj [(k, x)] =>
      match enter d, unescape k with
      | Some d', Some name => variant_of (variant_wrap rp d' x) name vs
      | _, _ => None
      end
  | _ => None
  end.
Proof. reflexivity. Qed.

Definition wrap_member d (kx : bytes * raw) : option (bytes * value) :=
  pair_opt (unescape (fst kx)) (val_wrap rp A d (snd kx)).
Definition wrap_go d : list (bytes * raw) -> list (bytes * value) -> option (list (bytes * value)) :=
  fix go (l : list (bytes * raw)) (acc : list (bytes * value)) : option (list (bytes * value)) :=
   match l with
   | [] => Some acc
   | (k, x) :: l' =>
       match unescape k with
       | None => None
       | Some k' => match val_wrap rp A d x with None => None | Some v => go l' (obj_insert k' v acc) end
       end
   end.
Lemma wrap_go_eq d l : forall acc, wrap_go d l acc =
  option_map (fun ms => fold_left (fun m kv => obj_insert (fst kv) (snd kv) m) ms acc) (all_some (map (wrap_member d) l)).
Proof.
  induction l as [|[k x] l IH]; intros acc; [reflexivity|]. cbn [wrap_go map all_some].
  unfold wrap_member at 1. cbn [fst snd]. destruct (unescape k) as [k'|]; [|reflexivity].
  destruct (val_wrap rp A d x) as [v|]; [|reflexivity]. cbn [pair_opt]. fold (wrap_go d). rewrite IH.
  destruct (all_some (map (wrap_member d) l)); reflexivity.
Qed.
Lemma val_wrap_arr d l : val_wrap rp A (S (S d)) (RArr l) = option_map VArr (all_some (map (val_wrap rp A (S d)) l)).
Proof.
  cbn [val_wrap].
  match goal with |- match ?X with _ => _ end = _ => assert (E : X = all_some (map (val_wrap rp A (S d)) l)) end.
  { induction l as [|x l IH]; [reflexivity|]. cbn [map all_some]. rewrite IH.
    destruct (val_wrap rp A (S d) x); [|reflexivity]. destruct (all_some (map (val_wrap rp A (S d)) l)); reflexivity. }
  rewrite E. destruct (all_some (map (val_wrap rp A (S d)) l)); reflexivity.
Qed.
Lemma val_wrap_obj d l : val_wrap rp A (S (S d)) (RObj l) =
  match classify_obj A l with
  | OMError => None
  | OMBuffer b => Some (bytes_value b)
  | OMMap =>
      match l with
      | (k, x) :: l' =>
          match unescape k with
          | Some k' =>
              if bytes_eqb k' raw_token then
                match x, l' with RStr b, [] => match unescape b with Some t => rp t | None => None end | _, _ => None end
              else option_map VObj (wrap_go (S d) l [])
          | None => None
          end
      | [] => Some (VObj [])
      end
  end.
Proof. reflexivity. Qed.
Lemma val_wrap_map d l : classify_obj A l = OMMap -> (forall k x l', l = (k, x) :: l' -> unescape k <> Some raw_token) ->
  val_wrap rp A (S (S d)) (RObj l) = option_map (fun ms => VObj (obj_of ms)) (all_some (map (wrap_member (S d)) l)).
Proof.
  intros Hc Hk. rewrite val_wrap_obj, Hc. destruct l as [|[k x] l]; [reflexivity|].
  destruct (unescape k) as [k'|] eqn:Ek.
  - destruct (bytes_eqb k' raw_token) eqn:E.
    { apply bytes_eqb_eq in E. subst. destruct (Hk k x l eq_refl Ek). }
    rewrite wrap_go_eq. destruct (all_some (map (wrap_member (S d)) ((k, x) :: l))); reflexivity.
  - cbn [map all_some]. unfold wrap_member at 1. cbn [fst snd]. rewrite Ek. reflexivity.
Qed.
End Equations.

(** ** Extensionality of the loops *)
Lemma each_ext f g l : (forall x, In x l -> f x = g x) -> each_of f l = each_of g l.
Proof.
  intros H. induction l as [|x l IH]; [reflexivity|]. cbn [each_of]. rewrite (H x (or_introl eq_refl)).
  fold (each_of f) (each_of g). rewrite IH; [reflexivity|]. intros y Hy. apply H. right. exact Hy.
Qed.
Lemma zip_ext f g ts : forall l, (forall u x, In u ts -> In x l -> f u x = g u x) -> zip_of f ts l = zip_of g ts l.
Proof.
  induction ts as [|u ts IH]; intros [|x l] H; try reflexivity. cbn [zip_of].
  fold (zip_of f) (zip_of g). rewrite (H u x) by (left; reflexivity). rewrite IH; [reflexivity|]. intros v y Hv Hy. apply H; right; assumption.
Qed.
Lemma zip_fields_eq f fs : forall l, zip_fields f fs l = zip_of f (map snd fs) l.
Proof.
  induction fs as [|[n u] fs IH]; intros [|x l]; try reflexivity. cbn [zip_fields zip_of map snd].
  fold (zip_fields f) (zip_of f). rewrite IH. reflexivity.
Qed.
Lemma map_ext_of f g m : (forall k x, In (k, x) m -> f x = g x) -> forall acc, map_of f m acc = map_of g m acc.
Proof.
  intros H. induction m as [|[k x] m IH]; intros acc; [reflexivity|]. cbn [map_of]. rewrite (H k x (or_introl eq_refl)).
  fold (map_of f) (map_of g). destruct (g x); [|reflexivity]. apply IH. intros k' y Hy. apply (H k'). right. exact Hy.
Qed.
Lemma named_in n m x : In x (members_named n m) <-> In (n, x) m.
Proof.
  unfold members_named. rewrite in_map_iff. split.
  - intros ((k, y) & E & H). apply filter_In in H as [H1 H2]. cbn [fst snd] in *. apply bytes_eqb_eq in H2. subst. exact H1.
  - intros H. exists (n, x). split; [reflexivity|]. apply filter_In. split; [exact H|]. apply bytes_eqb_refl.
Qed.
Lemma field_ext f g m n u : (forall x, In (n, x) m -> f u x = g u x) -> field_of f m n u = field_of g m n u.
Proof.
  intros H. unfold field_of. destruct (members_named n m) as [|x [|y l]] eqn:E; try reflexivity. apply H.
  apply named_in. rewrite E. left. reflexivity.
Qed.
Lemma fields_ext f g m fs : (forall n u x, In (n, u) fs -> In (n, x) m -> f u x = g u x) -> fields_of f m fs = fields_of g m fs.
Proof.
  intros H. induction fs as [|[n u] fs IH]; [reflexivity|]. cbn [fields_of]. fold (fields_of f m) (fields_of g m).
  rewrite (field_ext f g m n u) by (intros x Hx; apply (H n u x); [left; reflexivity|exact Hx]).
  rewrite IH; [reflexivity|]. intros n' u' x Hu Hx. apply (H n' u' x); [right; exact Hu|exact Hx].
Qed.
Lemma variant_ext f g name vs : (forall n tag u, In (n, (tag, u)) vs -> f n tag u = g n tag u) -> variant_of f name vs = variant_of g name vs.
Proof.
  intros H. induction vs as [|[n [tag u]] vs IH]; [reflexivity|]. cbn [variant_of]. fold (variant_of f name) (variant_of g name).
  rewrite (H n tag u) by (left; reflexivity). rewrite IH; [reflexivity|]. intros n' t' u' Hin. apply H. right. exact Hin.
Qed.
Lemma str_members_in l m k' x : str_members l = Some m -> In (k', x) m <-> exists k, unescape k = Some k' /\ In (k, x) l.
Proof.
  revert m. induction l as [|[k y] l IH]; intros m H; cbn [str_members] in H.
  - injection H as <-. split; [contradiction|]. intros (k & _ & []).
  - destruct (unescape k) as [u|] eqn:Ek; [|discriminate]. destruct (str_members l) as [m'|] eqn:Em; [|discriminate].
    injection H as <-. cbn [In]. rewrite (IH m' eq_refl). split.
    + intros [[= <- <-]|(k0 & H1 & H2)]; eauto.
    + intros (k0 & H1 & [[= <- <-]|H2]); [left; congruence|right; eauto].
Qed.
Lemma allP_In {T} (P : T -> Prop) l : allP P l <-> forall x, In x l -> P x.
Proof.
  induction l as [|x l IH]; cbn [allP In]; [split; [intros _ y []|auto]|]. rewrite IH. split.
  - intros [H1 H2] y [<-|H]; auto.
  - intros H. split; auto.
Qed.

Lemma int_map_ext lo hi f g l : forall acc, (forall k x, In (k, x) l -> f x = g x) -> int_map_of lo hi f l acc = int_map_of lo hi g l acc.
Proof.
  induction l as [|[k x] l IH]; intros acc H; [reflexivity|]. cbn [int_map_of]. fold (int_map_of lo hi f) (int_map_of lo hi g).
  rewrite (H k x) by (left; reflexivity). destruct (int_key lo hi k); [|reflexivity]. destruct (g x); [|reflexivity].
  apply IH. intros k' x' Hin. apply (H k'). right. exact Hin.
Qed.

(** ** Independence of the recursion bound *)
Lemma de_plain_same rp rp' n t : forall d r, short n r -> same_below n rp rp' -> de_plain rp t d r = de_plain rp' t d r.
Proof.
  induction t as [|lo hi| | | | | | |u IH|u IH|u IH|ts IH|u IH|fs IH|vs IH| | | |lo hi u IH] using ty_ind'; intros d r Hs Hr; try reflexivity.
  - cbn [de_plain]. destruct r; auto; rewrite IH by assumption; reflexivity.
  - cbn [de_plain]. rewrite IH by assumption. reflexivity.
  - rewrite !de_plain_seq. destruct r; auto. destruct (enter d); [|reflexivity]. f_equal. apply each_ext. intros x Hx.
    cbn [short] in Hs. rewrite allP_In in Hs. auto.
  - rewrite !de_plain_tuple. destruct r; auto. destruct (enter d); [|reflexivity]. f_equal. apply zip_ext. intros u x Hu Hx.
    cbn [short] in Hs. rewrite allP_In in Hs. rewrite Forall_forall in IH. auto.
  - rewrite !de_plain_map. destruct r; auto. destruct (enter d); [|reflexivity]. destruct (str_members l) as [m|] eqn:E; [|reflexivity].
    f_equal. apply map_ext_of. intros k x Hx. apply (str_members_in l m k x E) in Hx as (k0 & _ & Hx). cbn [short] in Hs. rewrite allP_In in Hs.
    apply IH; [|exact Hr]. exact (Hs _ Hx).
  - rewrite !de_plain_struct. destruct (enter d); [|reflexivity]. rewrite Forall_forall in IH. destruct r; auto.
    + rewrite !zip_fields_eq. f_equal. apply zip_ext. intros u x Hu Hx. apply in_map_iff in Hu as (f & <- & Hf).
      cbn [short] in Hs. rewrite allP_In in Hs. auto.
    + destruct (str_members l) as [m|] eqn:E; [|reflexivity]. f_equal. apply fields_ext. intros k u x Hu Hx.
      apply (str_members_in l m k x E) in Hx as (k0 & _ & Hx). cbn [short] in Hs. rewrite allP_In in Hs.
      apply (IH _ Hu); [|exact Hr]. exact (Hs _ Hx).
  - rewrite !de_plain_enum. destruct r as [| | | | |[|[k x] [|]]]; auto. destruct (enter d); [|reflexivity]. destruct (unescape k); [|reflexivity].
    apply variant_ext. intros m tag u Hu. rewrite Forall_forall in IH. unfold variant_plain. cbn in Hs. destruct Hs as [Hs _].
    specialize (IH _ Hu). cbn [snd] in IH. destruct tag; auto; rewrite IH by assumption; reflexivity.
  - cbn [de_plain]. rewrite (val_of_same rp rp' n) by assumption. reflexivity.
  - rewrite !de_plain_int_map. destruct r; auto. destruct (enter d); [|reflexivity]. f_equal. apply int_map_ext. intros k x Hx.
    cbn [short] in Hs. rewrite allP_In in Hs. apply IH; [|exact Hr]. exact (Hs _ Hx).
Qed.
Lemma typed_eq t text r : jvalue r text -> from_str_typed t text = de_plain from_str_value t 128 r.
Proof.
  intros H. assert (Hd : jdoc r text). { exists [], text, []. rewrite app_nil_r. repeat split; auto using ws_nil. }
  unfold from_str_typed. rewrite (proj2 (scan_doc_exact text r) Hd).
  apply (de_plain_same _ _ (length text)); [apply jdoc_short; exact Hd|]. intros u Hu. apply (from_str_stable (S (length u))); lia.
Qed.
Lemma arg_none t text r : jvalue r text -> arg_deserialize t (Arg text []) =
  match de_plain from_str_value t 128 r with Some v => Ok v | None => Err (AJsonDeError text) end.
Proof. intros H. unfold arg_deserialize. cbn [g_attachments g_text]. rewrite (typed_eq t text r H). reflexivity. Qed.
Lemma scan_value_exact text r : jvalue r text -> scan_value (value_fuel text) text = Some (r, []).
Proof.
  intros H. pose proof (scan_value_app r text [] [] H ws_nil eq_refl) as E. rewrite !app_nil_r in E. exact E.
Qed.
Lemma arg_some t text r A : jvalue r text -> A <> [] -> arg_deserialize t (Arg text A) =
  match de_wrap (from_str_value_n (S (length text))) A t 128 r with Some v => Ok v | None => Err (AJsonDeError text) end.
Proof.
  intros H HA. unfold arg_deserialize. cbn [g_attachments g_text]. destruct A as [|s A]; [congruence|].
  unfold deserialize_with. rewrite (scan_value_exact text r H). reflexivity.
Qed.

(** ** C25: arguments without placeholders *)
Lemma classify_ordinary A l : ordinary_first l -> classify_obj A l = OMMap.
Proof.
  destruct l as [|[k x] l]; [reflexivity|]. intros [H1 H2]. unfold classify_obj. rewrite H1. cbn [negb].
  apply bytes_eqb_neq in H2. rewrite H2. reflexivity.
Qed.
Lemma val_wrap_ordinary rp A r : ordinary r -> forall d, val_wrap rp A d r = val_of rp d r.
Proof.
  induction r as [|b|x|s|l IH|l IH] using raw_ind'; intros Ho d; try reflexivity.
  - destruct d as [|[|d]]; try reflexivity. rewrite val_wrap_arr, val_of_arr. do 2 f_equal. cbn [ordinary] in Ho.
    rewrite allP_In in Ho. rewrite Forall_forall in IH. apply map_ext_in. auto.
  - destruct d as [|[|d]]; try reflexivity. cbn [ordinary] in Ho. destruct Ho as [Hf Hl].
    destruct (private_dec l) as [(k & x & l' & -> & Hk)|Hk].
    + rewrite val_of_private by exact Hk. rewrite val_wrap_obj, classify_ordinary, Hk, bytes_eqb_refl by exact Hf. reflexivity.
    + rewrite val_wrap_map by (auto using classify_ordinary). rewrite val_of_obj' by exact Hk. do 2 f_equal.
      rewrite allP_In in Hl. rewrite Forall_forall in IH. apply map_ext_in. intros [k x] Hx. unfold wrap_member, val_member. cbn [fst snd].
      rewrite (IH _ Hx (Hl _ Hx)). reflexivity.
Qed.
Lemma de_wrap_ordinary rp A t : usual_ty t -> forall d r, ordinary r -> de_wrap rp A t d r = de_plain rp t d r.
Proof.
  assert (Hobj : forall l, ordinary (RObj l) -> classify_obj A l = OMMap) by (intros l [H _]; apply classify_ordinary; exact H).
  induction t as [|lo hi| | | | | | |u IH|u IH|u IH|ts IH|u IH|fs IH|vs IH| | | |lo hi u IH] using ty_ind'; intros Ht d r Ho; try reflexivity; cbn [usual_ty] in Ht.
  - destruct r; try reflexivity. cbn [de_wrap de_plain]. rewrite Hobj by exact Ho. destruct (enter d); reflexivity.
  - destruct r; try reflexivity. cbn [de_wrap de_plain]. rewrite Hobj by exact Ho. destruct (enter d); reflexivity.
  - destruct r; try reflexivity. cbn [de_wrap de_plain]. rewrite Hobj by exact Ho. destruct (enter d); reflexivity.
  - cbn [de_wrap de_plain]. destruct r; auto; rewrite (IH Ht) by assumption; reflexivity.
  - cbn [de_wrap de_plain]. rewrite (IH Ht) by assumption. reflexivity.
  - rewrite de_wrap_seq, de_plain_seq. destruct r; auto.
    + destruct (enter d); [|reflexivity]. f_equal. apply each_ext. intros x Hx. cbn [ordinary] in Ho. rewrite allP_In in Ho. auto.
    + rewrite Hobj by exact Ho. destruct (enter d); reflexivity.
  - rewrite de_wrap_tuple, de_plain_tuple. destruct r; auto.
    + destruct (enter d); [|reflexivity]. f_equal. apply zip_ext. intros u x Hu Hx. cbn [ordinary] in Ho. rewrite allP_In in Ho.
      rewrite Forall_forall in IH. rewrite allP_In in Ht. auto.
    + rewrite Hobj by exact Ho. destruct (enter d); reflexivity.
  - rewrite de_wrap_map, de_plain_map. destruct r; auto. rewrite Hobj by exact Ho. destruct (enter d); [|reflexivity].
    destruct (str_members l) as [m|] eqn:E; [|reflexivity]. f_equal. apply map_ext_of. intros k x Hx.
    apply (str_members_in l m k x E) in Hx as (k0 & _ & Hx). destruct Ho as [_ Ho]. rewrite allP_In in Ho. apply (IH Ht). exact (Ho _ Hx).
  - rewrite de_wrap_struct, de_plain_struct. destruct (enter d); [|reflexivity]. rewrite Forall_forall in IH. destruct r; auto.
    + rewrite !zip_fields_eq. f_equal. apply zip_ext. intros u x Hu Hx. apply in_map_iff in Hu as (f & <- & Hf).
      cbn [ordinary] in Ho. rewrite allP_In in Ho. rewrite allP_In in Ht. apply (IH f Hf); auto. specialize (Ht f Hf). destruct f; exact Ht.
    + rewrite Hobj by exact Ho. destruct (str_members l) as [m|] eqn:E; [|reflexivity]. f_equal. apply fields_ext. intros k u x Hu Hx.
      apply (str_members_in l m k x E) in Hx as (k0 & _ & Hx). destruct Ho as [_ Ho]. rewrite allP_In in Ho. rewrite allP_In in Ht. apply (IH _ Hu (Ht _ Hu)). exact (Ho _ Hx).
  - rewrite de_wrap_enum, de_plain_enum. destruct r as [| | | | |[|[k x] [|]]]; auto.
    destruct (enter d); [|reflexivity]. destruct (unescape k); [|reflexivity].
    apply variant_ext. intros m tag u Hu. rewrite Forall_forall in IH. unfold variant_plain, variant_wrap. cbn in Ho. destruct Ho as [_ [Ho _]].
    rewrite allP_In in Ht. specialize (IH _ Hu (Ht _ Hu)). cbn [snd] in IH. destruct tag; auto; rewrite IH by assumption; auto.
  - cbn [de_wrap de_plain]. rewrite val_wrap_ordinary by exact Ho. reflexivity.
  - destruct Ht.
  - destruct Ht.
Qed.
Lemma ignores_attachments t text r A : jvalue r text -> ordinary r -> usual_ty t ->
  arg_deserialize t (Arg text A) = arg_deserialize t (Arg text []).
Proof.
  intros Hr Ho Ht. destruct A as [|s A]; [reflexivity|]. rewrite (arg_some t text r) by (assumption || discriminate).
  rewrite (arg_none t text r Hr), de_wrap_ordinary by assumption.
  erewrite (de_plain_same _ from_str_value (length text)); [reflexivity|apply jvalue_short; exact Hr|].
  intros u Hu. apply (from_str_stable (S (length u))); lia.
Qed.
