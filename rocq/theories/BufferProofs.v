(** Proofs about enums that serde reads through a buffer (C74-C76). *)
From Verif Require Export AgreeProofs InlineProofs SpecBuffer.

Definition bin_of (w : way) : bool := match w with Plain => false | Wrapped _ => true end.

(** ** Buffering *)
Section Buffering.
Variable cls : list (bytes * raw) -> omap.
Lemma content_arr d l c : content_of cls d (RArr l) = Some c ->
  exists d' cs, enter d = Some d' /\ c = KSeq cs /\ Forall2 (fun x k => content_of cls d' x = Some k) l cs.
Proof.
  cbn [content_of]. destruct (enter d) as [d'|]; [|discriminate].
  match goal with |- option_map KSeq ?X = _ -> _ => destruct X as [cs|] eqn:E; [|discriminate] end.
  intros [= <-]. exists d', cs. split; [reflexivity|]. split; [reflexivity|]. revert cs E.
  induction l as [|x l IH]; intros cs E; [injection E as <-; constructor|].
  destruct (content_of cls d' x) as [k|] eqn:Ek; [|discriminate].
  match type of E with match ?X with _ => _ end = _ => destruct X as [ks|]; [|discriminate] end.
  injection E as <-. constructor; [exact Ek|]. apply IH. reflexivity.
Qed.
Lemma content_obj d l c : content_of cls d (RObj l) = Some c ->
  exists d', enter d = Some d' /\
    ((exists b, cls l = OMBuffer b /\ c = KSeq (map (fun x => KNum (NPos (bN x))) b)) \/
     (cls l = OMMap /\ exists m, c = KMap m /\
        Forall2 (fun kx kc => unescape (fst kx) = Some (fst kc) /\ content_of cls d' (snd kx) = Some (snd kc)) l m)).
Proof.
  cbn [content_of]. destruct (enter d) as [d'|]; [|discriminate]. intros H. exists d'. split; [reflexivity|].
  destruct (cls l) as [|b|] eqn:Ec; [discriminate| |]; [injection H as <-; left; eauto|]. right. split; [reflexivity|].
  match type of H with option_map KMap ?X = _ => destruct X as [m|] eqn:E; [|discriminate] end.
  injection H as <-. exists m. split; [reflexivity|]. revert m E. clear Ec.
  induction l as [|[k x] l IH]; intros m E; [injection E as <-; constructor|].
  destruct (unescape k) as [k'|] eqn:Ek; [|discriminate]. destruct (content_of cls d' x) as [c|] eqn:Ex; [|discriminate].
  match type of E with match ?X with _ => _ end = _ => destruct X as [ks|]; [|discriminate] end.
  injection E as <-. constructor; [cbn; auto|]. apply IH. reflexivity.
Qed.
Lemma content_arr_of d d' l cs : enter d = Some d' -> Forall2 (fun x k => content_of cls d' x = Some k) l cs ->
  content_of cls d (RArr l) = Some (KSeq cs).
Proof.
  intros Hd H. cbn [content_of]. rewrite Hd.
  match goal with |- option_map KSeq ?X = _ => assert (E : X = Some cs) end.
  { induction H as [|x k l cs Hx H IH]; [reflexivity|]. rewrite Hx, IH. reflexivity. }
  rewrite E. reflexivity.
Qed.
Lemma content_map_of d d' l m : enter d = Some d' -> cls l = OMMap ->
  Forall2 (fun kx kc => unescape (fst kx) = Some (fst kc) /\ content_of cls d' (snd kx) = Some (snd kc)) l m ->
  content_of cls d (RObj l) = Some (KMap m).
Proof.
  intros Hd Hc H. cbn [content_of]. rewrite Hd, Hc.
  match goal with |- option_map KMap ?X = _ => assert (E : X = Some m) end.
  { clear Hc. induction H as [|[k x] [k' c] l m [Hk Hx] H IH]; [reflexivity|]. cbn [fst snd] in *. rewrite Hk, Hx, IH. reflexivity. }
  rewrite E. reflexivity.
Qed.
(** The members with their keys unescaped. *)
Lemma members_content d l m :
  Forall2 (fun kx kc => unescape (fst kx) = Some (fst kc) /\ content_of cls d (snd kx) = Some (snd kc)) l m ->
  exists ml, str_members l = Some ml /\
    Forall2 (fun kx kc => fst kx = fst kc /\ content_of cls d (snd kx) = Some (snd kc)) ml m.
Proof.
  induction 1 as [|[k x] [k' c] l m [Hk Hx] H (ml & E & IH)]; [exists []; split; [reflexivity|constructor]|].
  cbn [fst snd] in *. exists ((k', x) :: ml). cbn [str_members]. rewrite Hk, E. split; [reflexivity|]. constructor; [cbn; auto|exact IH].
Qed.
End Buffering.

Lemma buffer_placeholder A l b : classify_obj A l = OMBuffer b -> exists x l', l = (key_placeholder, x) :: l'.
Proof.
  destruct l as [|[k x] l]; [discriminate|]. unfold classify_obj. destruct (negb (no_backslash k)); [discriminate|].
  destruct (bytes_eqb k key_placeholder) eqn:E; [|discriminate]. apply bytes_eqb_eq in E. subst. eauto.
Qed.
Lemma attached_buffer w l b : objects w l = OMBuffer b -> attached (bin_of w) (RObj l).
Proof.
  destruct w as [|A]; [discriminate|]. cbn [objects]. intros H. apply buffer_placeholder in H as (x & l' & ->). split; reflexivity.
Qed.

(** ** Reading from the buffer is reading *)
Section Agree.
Variable rp : bytes -> option value.
Variable w : way.
Notation cof := (content_of (objects w)).
Notation bin := (bin_of w).

Lemma direct_seq u d r : de_direct rp w (TySeq u) d r =
  match r, enter d with
  | RArr l, Some d' => option_map XSeq (each_of (de_direct rp w u d') l)
  | RObj l, Some d' => match objects w l with OMBuffer b => option_map XSeq (visit_u8_all u b) | _ => None end
  | _, _ => None
  end.
Proof. destruct w; [cbn [de_direct objects]; rewrite de_plain_seq; destruct r; destruct (enter d); reflexivity|apply de_wrap_seq]. Qed.
Lemma direct_tuple ts d r : de_direct rp w (TyTuple ts) d r =
  match r, enter d with
  | RArr l, Some d' => option_map XTuple (zip_of (fun u => de_direct rp w u d') ts l)
  | RObj l, Some d' => match objects w l with OMBuffer b => option_map XTuple (visit_u8_each ts b) | _ => None end
  | _, _ => None
  end.
Proof. destruct w; [cbn [de_direct objects]; rewrite de_plain_tuple; destruct r; destruct (enter d); reflexivity|apply de_wrap_tuple]. Qed.
Lemma direct_map u d r : de_direct rp w (TyMap u) d r =
  match r, enter d with
  | RObj l, Some d' =>
      match objects w l with
      | OMMap => match str_members l with None => None | Some m => option_map XMap (map_of (de_direct rp w u d') m []) end
      | _ => None
      end
  | _, _ => None
  end.
Proof. destruct w; [reflexivity|apply de_wrap_map]. Qed.
Lemma direct_struct fs d r : de_direct rp w (TyStruct fs) d r =
  match enter d with
  | None => None
  | Some d' =>
      match r with
      | RArr l => option_map XStruct (zip_fields (fun u => de_direct rp w u d') fs l)
      | RObj l =>
          match objects w l with
          | OMError => None
          | OMBuffer b => option_map XStruct (visit_u8_each (map snd fs) b)
          | OMMap => match str_members l with None => None | Some m => option_map XStruct (fields_of (fun u => de_direct rp w u d') m fs) end
          end
      | _ => None
      end
  end.
Proof. destruct w; [reflexivity|apply de_wrap_struct]. Qed.
Definition variant_direct d x (n : bytes) (tag : vtag) (u : ty) : option dval :=
  match tag with
  | VtUnit => match x with RNull => Some (XVariant n XUnit) | _ => None end
  | VtTuple => match x with RArr _ => option_map (XVariant n) (de_direct rp w u d x) | _ => None end
  | _ => option_map (XVariant n) (de_direct rp w u d x)
  end.
Definition unit_named (n : bytes) (tag : vtag) (_ : ty) : option dval :=
  match tag with VtUnit => Some (XVariant n XUnit) | _ => None end.
Lemma direct_enum vs d r : de_direct rp w (TyEnum vs) d r =
  match r with
  | RStr b => match unescape b with None => None | Some name => variant_of unit_named name vs end
  | RObj [(k, x)] =>
      match enter d, unescape k with
      | Some d', Some name => variant_of (variant_direct d' x) name vs
      | _, _ => None
      end
  | _ => None
  end.
Proof.
  unfold variant_direct. destruct w as [|A]; cbn [de_direct].
  - rewrite de_plain_enum. destruct r as [| | | | |[|[k x] [|]]]; reflexivity.
  - rewrite de_wrap_enum. destruct r as [| | | | |[|[k x] [|]]]; reflexivity.
Qed.
Lemma direct_option u d r : de_direct rp w (TyOption u) d r =
  match r with RNull => Some XNone | _ => option_map XSome (de_direct rp w u d r) end.
Proof. destruct w; reflexivity. Qed.
Lemma direct_newtype u d r : de_direct rp w (TyNewtype u) d r = option_map XNewtype (de_direct rp w u d r).
Proof. destruct w; reflexivity. Qed.
Lemma direct_value d r : de_direct rp w TyValue d r = option_map XValue (match w with Plain => val_of rp d r | Wrapped A => val_wrap rp A d r end).
Proof. destruct w; reflexivity. Qed.

(** *** [Value] *)
Definition val_direct (d : nat) (r : raw) : option value :=
  match w with Plain => val_of rp d r | Wrapped A => val_wrap rp A d r end.
Lemma enter_some d d' : enter d = Some d' -> exists e, d = S (S e) /\ d' = S e.
Proof. destruct d as [|[|e]]; try discriminate. cbn. intros [= <-]. eauto. Qed.
Lemma val_direct_arr d l : val_direct (S (S d)) (RArr l) = option_map VArr (all_some (map (val_direct (S d)) l)).
Proof. unfold val_direct. destruct w; [apply val_of_arr|apply val_wrap_arr]. Qed.
Definition direct_member d (kx : bytes * raw) : option (bytes * value) := pair_opt (unescape (fst kx)) (val_direct d (snd kx)).
Lemma val_direct_map d l : objects w l = OMMap -> (forall k x l', l = (k, x) :: l' -> unescape k <> Some raw_token) ->
  val_direct (S (S d)) (RObj l) = option_map (fun ms => VObj (obj_of ms)) (all_some (map (direct_member (S d)) l)).
Proof.
  unfold val_direct, direct_member, val_direct. destruct w as [|A]; intros Hc Hk.
  - rewrite val_of_obj'; [reflexivity|exact Hk].
  - rewrite val_wrap_map by assumption. reflexivity.
Qed.
Lemma val_direct_token d k x l : objects w ((k, x) :: l) = OMMap -> unescape k = Some raw_token ->
  val_direct (S (S d)) (RObj ((k, x) :: l)) =
  match x, l with RStr b, [] => match unescape b with Some t => rp t | None => None end | _, _ => None end.
Proof.
  unfold val_direct. destruct w as [|A]; intros Hc Hk.
  - rewrite val_of_private by exact Hk. reflexivity.
  - rewrite val_wrap_obj. cbn [objects] in Hc. rewrite Hc, Hk, bytes_eqb_refl. reflexivity.
Qed.
Lemma val_direct_buffer d l b : objects w l = OMBuffer b -> val_direct (S (S d)) (RObj l) = Some (bytes_value b).
Proof. unfold val_direct. destruct w as [|A]; [discriminate|]. intros Hc. rewrite val_wrap_obj. cbn [objects] in Hc. rewrite Hc. reflexivity. Qed.

Lemma content_value_seq l : content_value rp (KSeq l) = option_map VArr (all_some (map (content_value rp) l)).
Proof.
  cbn [content_value]. f_equal. induction l as [|x l IH]; [reflexivity|]. cbn [map all_some]. rewrite IH.
  destruct (content_value rp x); [|reflexivity]. destruct (all_some (map (content_value rp) l)); reflexivity.
Qed.
Definition cv_go : list (bytes * content) -> list (bytes * value) -> option (list (bytes * value)) :=
  fix go (l : list (bytes * content)) (acc : list (bytes * value)) : option (list (bytes * value)) :=
   match l with
   | [] => Some acc
   | (k, x) :: l' => match content_value rp x with Some v => go l' (obj_insert k v acc) | None => None end
   end.
Lemma cv_go_eq l : forall acc, cv_go l acc =
  option_map (fun ms => fold_left (fun m kv => obj_insert (fst kv) (snd kv) m) ms acc)
    (all_some (map (fun kx => option_map (pair (fst kx)) (content_value rp (snd kx))) l)).
Proof.
  induction l as [|[k x] l IH]; intros acc; [reflexivity|]. cbn [cv_go map all_some fst snd]. fold cv_go.
  destruct (content_value rp x) as [v|]; [|reflexivity]. cbn [option_map]. rewrite IH.
  destruct (all_some (map (fun kx => option_map (pair (fst kx)) (content_value rp (snd kx))) l)); reflexivity.
Qed.
Lemma content_value_map l : (forall k x l', l = (k, x) :: l' -> k <> raw_token) ->
  content_value rp (KMap l) = option_map (fun ms => VObj (obj_of ms))
    (all_some (map (fun kx => option_map (pair (fst kx)) (content_value rp (snd kx))) l)).
Proof.
  intros H. destruct l as [|[k x] l]; [reflexivity|].
  change (content_value rp (KMap ((k, x) :: l))) with
    (if bytes_eqb k raw_token then match x, l with KStr _ t, [] => rp t | _, _ => None end
     else option_map VObj (cv_go ((k, x) :: l) [])).
  pose proof (H k x l eq_refl) as Hk. apply bytes_eqb_neq in Hk. rewrite Hk, cv_go_eq.
  destruct (all_some (map (fun kx => option_map (pair (fst kx)) (content_value rp (snd kx))) ((k, x) :: l))); reflexivity.
Qed.

Lemma token_dec (l : list (bytes * raw)) : (exists k x l', l = (k, x) :: l' /\ unescape k = Some raw_token) \/
  (forall k x l', l = (k, x) :: l' -> unescape k <> Some raw_token).
Proof.
  destruct l as [|[k x] l]; [right; discriminate|].
  destruct (unescape k) as [u|] eqn:E; [|right; intros k' x' l' [= <- _ _]; congruence].
  destruct (bytes_eqb u raw_token) eqn:Eb.
  - apply bytes_eqb_eq in Eb. subst. left. eauto 6.
  - apply bytes_eqb_neq in Eb. right. intros k' x' l' [= <- _ _]. congruence.
Qed.
Lemma value_agree r : forall d c, cof d r = Some c -> content_value rp c = val_direct d r.
Proof.
  induction r as [|b|x|s|l IH|l IH] using raw_ind'; intros d c H.
  - injection H as <-. unfold val_direct. destruct w; reflexivity.
  - injection H as <-. unfold val_direct. destruct w; reflexivity.
  - cbn [content_of] in H. unfold val_direct. destruct w; cbn [val_of val_wrap];
      (destruct (num_of x); [injection H as <-; reflexivity|discriminate]).
  - cbn [content_of] in H. unfold val_direct. destruct w; cbn [val_of val_wrap];
      (destruct (unescape s); [injection H as <-; reflexivity|discriminate]).
  - apply content_arr in H as (d' & cs & Hd & -> & HF). apply enter_some in Hd as (e & -> & ->).
    rewrite content_value_seq, val_direct_arr. do 2 f_equal.
    induction HF as [|y k l cs Hy HF IHF]; [reflexivity|]. inversion IH as [|? ? I1 I2]; subst. cbn [map]. rewrite (I1 _ _ Hy), IHF by exact I2. reflexivity.
  - apply content_obj in H as (d' & Hd & [(b & Hb & ->)|(Hm & m & -> & HF)]); apply enter_some in Hd as (e & -> & ->).
    + rewrite (val_direct_buffer _ _ _ Hb), content_value_seq, map_map. cbn [content_value].
      rewrite (all_some_map _ (fun x => VNum (NPos (bN x)))) by reflexivity. reflexivity.
    + destruct (token_dec l) as [(k & x & l' & -> & Hk)|Hk].
      * rewrite (val_direct_token _ _ _ _ Hm Hk). inversion HF as [|[? ?] [k' c] ? m' [H1 H2] HF']; subst. cbn [fst snd] in *.
        rewrite Hk in H1. injection H1 as <-. cbn [content_value]. rewrite bytes_eqb_refl.
        destruct x as [|xb|xn|s|xl|xl]; cbn [content_of] in H2.
        -- injection H2 as <-. reflexivity.
        -- injection H2 as <-. reflexivity.
        -- destruct (num_of xn); [|discriminate]. injection H2 as <-. reflexivity.
        -- destruct (unescape s) as [t|] eqn:Es; [|discriminate]. injection H2 as <-. inversion HF'; subst; reflexivity.
        -- apply content_arr in H2 as (? & ? & _ & -> & _). reflexivity.
        -- apply content_obj in H2 as (? & _ & [(? & _ & ->)|(_ & ? & -> & _)]); reflexivity.
      * rewrite (val_direct_map _ _ Hm Hk). rewrite content_value_map.
        2: { intros k c m' ->. inversion HF as [|[k0 x0] ? l0 ? [H1 _] _]; subst. cbn [fst snd] in H1. intros ->.
             exact (Hk _ _ _ eq_refl H1). }
        do 2 f_equal. clear Hm Hk.
        induction HF as [|[k x] [k' c] l m [H1 H2] HF IHF]; [reflexivity|]. inversion IH as [|? ? I1 I2]; subst. cbn [fst snd] in *.
        cbn [map]. unfold direct_member at 1. cbn [fst snd]. rewrite H1, (I1 _ _ H2), IHF by exact I2.
        destruct (val_direct (S e) x); reflexivity.
Qed.
(** Whatever reads as a [Value] can be buffered. *)
Lemma all_some_F2 {T U} (f : T -> option U) l r : all_some (map f l) = Some r -> Forall2 (fun x y => f x = Some y) l r.
Proof.
  revert r. induction l as [|x l IH]; intros r H; [injection H as <-; constructor|]. cbn [map all_some] in H.
  destruct (f x) as [y|] eqn:E; [|discriminate]. destruct (all_some (map f l)) as [r'|]; [|discriminate]. injection H as <-. constructor; auto.
Qed.
Lemma value_buffers r : forall d v, val_direct d r = Some v -> exists c, cof d r = Some c.
Proof.
  induction r as [|b|x|s|l IH|l IH] using raw_ind'; intros d v H; try (eexists; reflexivity).
  - cbn [content_of]. unfold val_direct in H. destruct w; cbn [val_of val_wrap] in H;
      (destruct (num_of x); [eexists; reflexivity|discriminate]).
  - cbn [content_of]. unfold val_direct in H. destruct w; cbn [val_of val_wrap] in H;
      (destruct (unescape s); [eexists; reflexivity|discriminate]).
  - destruct d as [|[|d]]; [unfold val_direct in H; destruct w; discriminate..|]. rewrite val_direct_arr in H.
    destruct (all_some (map (val_direct (S d)) l)) as [vs|] eqn:E; [|discriminate]. apply all_some_F2 in E.
    assert (exists cs, Forall2 (fun x k => cof (S d) x = Some k) l cs) as [cs HF].
    { clear H. induction E as [|y k l vs Hy E IHE]; [exists []; constructor|]. inversion IH as [|? ? I1 I2]; subst.
      destruct (I1 _ _ Hy) as [c Hc]. destruct (IHE I2) as [cs Hcs]. exists (c :: cs). constructor; assumption. }
    exists (KSeq cs). apply (content_arr_of _ _ (S d)); [reflexivity|exact HF].
  - destruct d as [|[|d]]; [unfold val_direct in H; destruct w; discriminate..|].
    destruct (objects w l) as [|b|] eqn:Eo.
    + unfold val_direct in H. destruct w as [|A]; [discriminate|]. rewrite val_wrap_obj in H. cbn [objects] in Eo. rewrite Eo in H. discriminate.
    + cbn [content_of]. cbn [enter]. rewrite Eo. eauto.
    + destruct (token_dec l) as [(k & x & l' & -> & Hk)|Hk].
      * rewrite (val_direct_token _ _ _ _ Eo Hk) in H. destruct x as [| | |s| |]; try discriminate. destruct l'; [|discriminate].
        destruct (unescape s) as [t|] eqn:Es; [|discriminate].
        exists (KMap [(raw_token, KStr (no_backslash s) t)]). apply (content_map_of _ _ (S d)); [reflexivity|exact Eo|].
        constructor; [|constructor]. cbn [fst snd content_of]. rewrite Es. auto.
      * rewrite (val_direct_map _ _ Eo Hk) in H. destruct (all_some (map (direct_member (S d)) l)) as [ms|] eqn:E; [|discriminate].
        apply all_some_F2 in E.
        assert (exists m, Forall2 (fun kx kc => unescape (fst kx) = Some (fst kc) /\ cof (S d) (snd kx) = Some (snd kc)) l m) as [m HF].
        { clear H Eo Hk. induction E as [|[k x] [k' y] l ms Hy E IHE]; [exists []; constructor|]. inversion IH as [|? ? I1 I2]; subst.
          unfold direct_member in Hy. cbn [fst snd] in *. destruct (unescape k) as [u|] eqn:Ek; [|discriminate].
          destruct (val_direct (S d) x) as [v'|] eqn:Ev; [|discriminate]. destruct (I1 _ _ Ev) as [c Hc]. destruct (IHE I2) as [m Hm].
          exists ((u, c) :: m). constructor; [cbn; auto|exact Hm]. }
        exists (KMap m). apply (content_map_of _ _ (S d)); [reflexivity|exact Eo|exact HF].
Qed.

(** *** The loops over a buffer, named *)
Definition each_c (f : content -> option dval) := fix go (l : list content) : option (list dval) :=
  match l with
  | [] => Some []
  | x :: l' => match f x, go l' with Some v, Some vs => Some (v :: vs) | _, _ => None end
  end.
Definition zip_c (f : ty -> content -> option dval) := fix go (ts : list ty) (l : list content) : option (list dval) :=
  match ts, l with
  | [], [] => Some []
  | u :: ts', x :: l' => match f u x, go ts' l' with Some v, Some vs => Some (v :: vs) | _, _ => None end
  | _, _ => None
  end.
Definition zipf_c (f : ty -> content -> option dval) := fix go (fs : list (bytes * ty)) (l : list content) : option (list dval) :=
  match fs, l with
  | [], [] => Some []
  | (_, u) :: fs', x :: l' => match f u x, go fs' l' with Some v, Some vs => Some (v :: vs) | _, _ => None end
  | _, _ => None
  end.
Definition map_c (f : content -> option dval) := fix go (m : list (bytes * content)) (acc : list (bytes * dval)) : option (list (bytes * dval)) :=
  match m with
  | [] => Some acc
  | (k, x) :: m' => match f x with Some v => go m' (obj_insert k v acc) | None => None end
  end.
Definition field_c (f : ty -> content -> option dval) (m : list (bytes * content)) (n : bytes) (u : ty) : option dval :=
  match contents_named n m with [] => missing_field u | [x] => f u x | _ => None end.
Definition fields_c (f : ty -> content -> option dval) (m : list (bytes * content)) := fix go (fs : list (bytes * ty)) : option (list dval) :=
  match fs with
  | [] => Some []
  | (n, u) :: fs' => match field_c f m n u, go fs' with Some v, Some vs => Some (v :: vs) | _, _ => None end
  end.
Definition variant_c (owned : bool) x (n : bytes) (tag : vtag) (u : ty) : option dval :=
  match tag with
  | VtUnit =>
      match x with
      | KNull => Some (XVariant n XUnit)
      | KMap [] => if owned then Some (XVariant n XUnit) else None
      | _ => None
      end
  | VtTuple => match x with KSeq _ => option_map (XVariant n) (de_content rp owned u x) | _ => None end
  | _ => option_map (XVariant n) (de_content rp owned u x)
  end.
Section Owned.
Variable owned : bool.
Notation dc := (de_content rp owned).
Lemma dc_seq u l : dc (TySeq u) (KSeq l) = option_map XSeq (each_c (dc u) l).
Proof. reflexivity. Qed.
Lemma dc_tuple ts l : dc (TyTuple ts) (KSeq l) = option_map XTuple (zip_c dc ts l).
Proof. reflexivity. Qed.
Lemma dc_map u m : dc (TyMap u) (KMap m) = option_map XMap (map_c (dc u) m []).
Proof. reflexivity. Qed.
Lemma dc_struct_seq fs l : dc (TyStruct fs) (KSeq l) = option_map XStruct (zipf_c dc fs l).
Proof. reflexivity. Qed.
Lemma dc_struct_map fs m : dc (TyStruct fs) (KMap m) = option_map XStruct (fields_c dc m fs).
Proof. reflexivity. Qed.
Lemma dc_enum_str vs b s : dc (TyEnum vs) (KStr b s) = variant_of unit_named s vs.
Proof. reflexivity. Qed.
Lemma dc_enum_map vs k x : dc (TyEnum vs) (KMap [(k, x)]) = variant_of (variant_c owned x) k vs.
Proof. reflexivity. Qed.

Lemma byte_content u c : single u -> dc u (KNum (NPos (bN c))) = visit_u8 u c.
Proof. destruct u; try reflexivity; contradiction. Qed.
Lemma bytes_content u b : single u -> each_c (dc u) (map (fun x => KNum (NPos (bN x))) b) = visit_u8_all u b.
Proof.
  intros Hu. induction b as [|c b IH]; [reflexivity|]. cbn [map each_c visit_u8_all]. fold (each_c (dc u)).
  rewrite IH, byte_content by exact Hu. reflexivity.
Qed.
Lemma byte_content_octets b : content_octets (map (fun x => KNum (NPos (bN x))) b) = Some b.
Proof.
  induction b as [|c b IH]; [reflexivity|]. cbn [map content_octets]. rewrite IH. unfold content_octet.
  replace (bN c <? 256)%N with true by (symmetry; apply N.ltb_lt; apply bN_bound). rewrite byte_of_bN. reflexivity.
Qed.
Lemma octets_content d l cs : Forall2 (fun x k => cof d x = Some k) l cs -> content_octets cs = octets_of l.
Proof.
  induction 1 as [|x k l cs Hx HF IH]; [reflexivity|]. cbn [content_octets octets_of]. rewrite IH.
  assert (content_octet k = octet_of x) as ->; [|reflexivity]. unfold octet_of.
  destruct x as [|b|n|s|xl|xl]; cbn [content_of u64_of_raw] in *; try (injection Hx as <-; reflexivity).
  - destruct (num_of n) as [[m| |]|]; try discriminate; injection Hx as <-; reflexivity.
  - destruct (unescape s); [|discriminate]. injection Hx as <-. reflexivity.
  - apply content_arr in Hx as (? & ? & _ & -> & _). reflexivity.
  - apply content_obj in Hx as (? & _ & [(? & _ & ->)|(_ & ? & -> & _)]); reflexivity.
Qed.
Lemma named_content d k ml m : Forall2 (fun kx kc => fst kx = fst kc /\ cof d (snd kx) = Some (snd kc)) ml m ->
  Forall2 (fun x c => cof d x = Some c) (members_named k ml) (contents_named k m).
Proof.
  unfold members_named, contents_named. induction 1 as [|[k1 x] [k2 c] ml m [H1 H2] HF IH]; [constructor|]. cbn [fst snd] in *. subst.
  cbn [filter fst]. destruct (bytes_eqb k k2); [|exact IH]. cbn [map snd]. constructor; assumption.
Qed.

Definition agrees (t : ty) : Prop := forall d r c, cof d r = Some c -> alike bin owned t r -> dc t c = de_direct rp w t d r.

Lemma each_agree u d l cs : agrees u -> Forall2 (fun x k => cof d x = Some k) l cs -> allP (alike bin owned u) l ->
  each_c (dc u) cs = each_of (de_direct rp w u d) l.
Proof.
  intros Hu. induction 1 as [|x k l cs Hx HF IH]; intros Ha; [reflexivity|]. cbn [allP] in Ha. destruct Ha as [A1 A2].
  cbn [each_c each_of]. fold (each_c (dc u)) (each_of (de_direct rp w u d)). rewrite (Hu _ _ _ Hx A1), IH by exact A2. reflexivity.
Qed.
Definition alike_zip := fix go (ts : list ty) (l : list raw) : Prop :=
  match ts, l with u :: ts', x :: l' => alike bin owned u x /\ go ts' l' | _, _ => True end.
Lemma zip_agree d ts : Forall agrees ts -> forall l cs, Forall2 (fun x k => cof d x = Some k) l cs -> alike_zip ts l ->
  zip_c dc ts cs = zip_of (fun u => de_direct rp w u d) ts l.
Proof.
  induction 1 as [|u ts Hu Hts IH]; intros l cs HF Ha; destruct HF as [|x k l cs Hx HF]; try reflexivity.
  cbn in Ha. destruct Ha as [A1 A2]. cbn [zip_c zip_of]. fold (zip_c dc) (zip_of (fun u => de_direct rp w u d)).
  rewrite (Hu _ _ _ Hx A1), (IH _ _ HF A2). reflexivity.
Qed.
Definition alike_zipf := fix go (fs : list (bytes * ty)) (l : list raw) : Prop :=
  match fs, l with (_, u) :: fs', x :: l' => alike bin owned u x /\ go fs' l' | _, _ => True end.
Lemma zipf_agree d fs : Forall (fun f => agrees (snd f)) fs -> forall l cs, Forall2 (fun x k => cof d x = Some k) l cs -> alike_zipf fs l ->
  zipf_c dc fs cs = zip_fields (fun u => de_direct rp w u d) fs l.
Proof.
  induction 1 as [|[f u] fs Hu Hfs IH]; intros l cs HF Ha; destruct HF as [|x k l cs Hx HF]; try reflexivity.
  cbn [snd] in Hu. cbn in Ha. destruct Ha as [A1 A2]. cbn [zipf_c zip_fields]. fold (zipf_c dc) (zip_fields (fun u => de_direct rp w u d)).
  rewrite (Hu _ _ _ Hx A1), (IH _ _ HF A2). reflexivity.
Qed.
Lemma map_agree u d ml m : agrees u -> Forall2 (fun kx kc => fst kx = fst kc /\ cof d (snd kx) = Some (snd kc)) ml m ->
  (forall k x, In (k, x) ml -> alike bin owned u x) -> forall acc, map_c (dc u) m acc = map_of (de_direct rp w u d) ml acc.
Proof.
  intros Hu. induction 1 as [|[k1 x] [k2 c] ml m [H1 H2] HF IH]; intros Ha acc; [reflexivity|]. cbn [fst snd] in *. subst.
  cbn [map_c map_of]. fold (map_c (dc u)) (map_of (de_direct rp w u d)). rewrite (Hu _ _ _ H2) by (apply (Ha k2); left; reflexivity).
  destruct (de_direct rp w u d x); [|reflexivity]. apply IH. intros k y Hy. apply (Ha k). right. exact Hy.
Qed.
Lemma fields_agree d ml m fs : Forall2 (fun kx kc => fst kx = fst kc /\ cof d (snd kx) = Some (snd kc)) ml m ->
  Forall (fun f => agrees (snd f)) fs ->
  (forall f u x, In (f, u) fs -> In (f, x) ml -> alike bin owned u x) ->
  fields_c dc m fs = fields_of (fun u => de_direct rp w u d) ml fs.
Proof.
  intros HF. induction 1 as [|[f u] fs Hu Hfs IH]; intros Ha; [reflexivity|]. cbn [snd] in Hu. cbn [fields_c fields_of].
  fold (fields_c dc m) (fields_of (fun u => de_direct rp w u d) ml). rewrite IH by (intros f' u' x H1 H2; apply (Ha f' u'); [right; exact H1|exact H2]).
  assert (field_c dc m f u = field_of (fun u => de_direct rp w u d) ml f u) as ->; [|reflexivity].
  unfold field_c, field_of. pose proof (named_content d f ml m HF) as HN. 
  assert (Hin : forall x, In x (members_named f ml) -> alike bin owned u x).
  { intros x Hx. apply (Ha f u); [left; reflexivity|]. apply named_in. exact Hx. }
  destruct HN as [|x c l cs Hx HN]; [reflexivity|]. destruct HN; [|reflexivity]. apply (Hu _ _ _ Hx). apply Hin. left. reflexivity.
Qed.
Lemma variant_agree d x c k vs : cof d x = Some c -> Forall (fun v => agrees (snd (snd v))) vs ->
  (forall n tag u, In (n, (tag, u)) vs -> n = k ->
    match tag with
    | VtUnit => owned = true -> x <> RObj []
    | VtTuple => ~ attached bin x /\ alike bin owned u x
    | _ => alike bin owned u x
    end) ->
  variant_of (variant_c owned c) k vs = variant_of (variant_direct d x) k vs.
Proof.
  intros Hx. induction 1 as [|[n [tag u]] vs Hu Hvs IH]; intros Ha; [reflexivity|]. cbn [variant_of].
  fold (variant_of (variant_c owned c) k) (variant_of (variant_direct d x) k).
  destruct (bytes_eqb n k) eqn:E; [|apply IH; intros n' t' u' Hin; apply Ha; right; exact Hin].
  apply bytes_eqb_eq in E. specialize (Ha n tag u (or_introl eq_refl) E). cbn [snd] in Hu. clear IH Hvs.
  unfold variant_c, variant_direct. destruct tag.
  - destruct x as [|b|m|s|l|l]; cbn [content_of] in Hx; try (injection Hx as <-; reflexivity).
    + destruct (num_of m); [|discriminate]. injection Hx as <-. reflexivity.
    + destruct (unescape s); [|discriminate]. injection Hx as <-. reflexivity.
    + apply content_arr in Hx as (? & ? & _ & -> & _). reflexivity.
    + apply content_obj in Hx as (? & _ & [(? & _ & ->)|(_ & m & -> & HF)]); [reflexivity|].
      destruct m; [|reflexivity]. inversion HF; subst. destruct owned; [destruct (Ha eq_refl eq_refl)|reflexivity].
  - rewrite (Hu _ _ _ Hx Ha). reflexivity.
  - destruct Ha as [Hn Ha]. rewrite (Hu _ _ _ Hx Ha).
    destruct x as [|b|m|s|l|l]; cbn [content_of] in Hx; try (injection Hx as <-; reflexivity).
    + destruct (num_of m); [|discriminate]. injection Hx as <-. reflexivity.
    + destruct (unescape s); [|discriminate]. injection Hx as <-. reflexivity.
    + apply content_arr in Hx as (? & ? & _ & -> & _). reflexivity.
    + apply content_obj in Hx as (? & _ & [(b & Hb & ->)|(_ & m & -> & HF)]); [|reflexivity].
      destruct Hn. apply (attached_buffer w l b). exact Hb.
  - rewrite (Hu _ _ _ Hx Ha). reflexivity.
Qed.

(** The shapes of a buffer, by the shape of the text. *)
Ltac shapes H :=
  match type of H with
  | cof _ ?r = Some _ =>
      destruct r as [|rb|rn|rs|rl|rl];
      [ injection H as <- | injection H as <-
      | cbn [content_of] in H; let E := fresh "En" in destruct (num_of rn) as [rx|] eqn:E; [injection H as <-|discriminate H]
      | cbn [content_of] in H; let E := fresh "Es" in destruct (unescape rs) as [rt|] eqn:E; [injection H as <-|discriminate H]
      | let E := fresh "Ed" in apply content_arr in H as (d' & cs & E & -> & HF)
      | let E := fresh "Ed" in apply content_obj in H as (d' & E & [(bb & Hb & ->)|(Hm & m & -> & HF)]) ]
  end.
Lemma scalar_plain t d r : match t with TyBool | TyInt _ _ | TyF64 | TyUnit | TyIgnored | TyChar => True | _ => False end ->
  de_direct rp w t d r = de_plain rp t d r.
Proof. destruct w; [reflexivity|]. destruct t; try contradiction; reflexivity. Qed.
Lemma direct_obj_text t d l : match t with TyString | TyStr | TyBytes | TyByteBuf => True | _ => False end ->
  (forall b, objects w l <> OMBuffer b) -> de_direct rp w t d (RObj l) = None.
Proof.
  intros Ht Hb. destruct w as [|A]; [destruct t; try contradiction; reflexivity|]. cbn [objects] in Hb.
  destruct t; try contradiction; cbn [de_direct de_wrap]; destruct (enter d); try reflexivity;
    destruct (classify_obj A l) as [|b|]; try reflexivity; destruct (Hb b eq_refl).
Qed.
Lemma direct_text t d r : match t with TyString | TyStr | TyBytes => True | _ => False end ->
  (forall l, r <> RObj l) -> de_direct rp w t d r = de_plain rp t d r.
Proof. intros Ht Hr. destruct w as [|A]; [reflexivity|]. destruct t; try contradiction; destruct r as [| | | | |l]; try reflexivity; destruct (Hr l eq_refl). Qed.
Lemma no_attachment l : ~ attached bin (RObj l) -> forall b, objects w l <> OMBuffer b.
Proof. intros H b Hb. exact (H (attached_buffer w l b Hb)). Qed.

Lemma alike_field fs l f u k x : alike bin owned (TyStruct fs) (RObj l) -> In (f, u) fs -> In (k, x) l -> unescape k = Some f ->
  alike bin owned u x.
Proof.
  cbn [alike]. intros [_ H] Hf Hx Hk. induction fs as [|[f' u'] fs IH]; [destruct Hf|]. destruct H as [H1 H2].
  destruct Hf as [[= -> ->]|Hf]; [|exact (IH H2 Hf)]. rewrite allP_In in H1. exact (H1 _ Hx Hk).
Qed.
Lemma alike_variant vs k x n tag u : alike bin owned (TyEnum vs) (RObj [(k, x)]) -> In (n, (tag, u)) vs -> unescape k = Some n ->
  match tag with
  | VtUnit => owned = true -> x <> RObj []
  | VtTuple => ~ attached bin x /\ alike bin owned u x
  | _ => alike bin owned u x
  end.
Proof.
  cbn [alike]. intros H Hv Hk. induction vs as [|[n' [t' u']] vs IH]; [destruct Hv|]. destruct H as [H1 H2].
  destruct Hv as [[= -> -> ->]|Hv]; [exact (H1 Hk)|exact (IH H2 Hv)].
Qed.
Theorem content_agree t : agrees t.
Proof.
  induction t as [|lo hi| | | | | | |u IH|u IH|u IH|ts IH|u IH|fs IH|vs IH| | | |lo hi u IH] using ty_ind'; intros d r c Hc Ha.
  - rewrite scalar_plain by exact I. shapes Hc; reflexivity.
  - rewrite scalar_plain by exact I. shapes Hc; cbn [de_content de_plain]; try reflexivity. rewrite En. reflexivity.
  - rewrite scalar_plain by exact I. shapes Hc; cbn [de_content de_plain]; try reflexivity. rewrite En. reflexivity.
  - cbn [alike] in Ha. shapes Hc; try (rewrite direct_text by (exact I || discriminate); cbn [de_content de_plain]; try reflexivity).
    + rewrite Es. reflexivity.
    + rewrite direct_obj_text by (exact I || exact (no_attachment _ Ha)). reflexivity.
    + rewrite direct_obj_text by (exact I || exact (no_attachment _ Ha)). reflexivity.
  - cbn [alike] in Ha. shapes Hc; try (rewrite direct_text by (exact I || discriminate); cbn [de_content de_plain]; try reflexivity).
    + destruct (no_backslash rs) eqn:E; [|reflexivity]. rewrite (no_backslash_unescape rs E) in Es. injection Es as <-. reflexivity.
    + rewrite direct_obj_text by (exact I || exact (no_attachment _ Ha)). reflexivity.
    + rewrite direct_obj_text by (exact I || exact (no_attachment _ Ha)). reflexivity.
  - cbn [alike] in Ha. shapes Hc; try (rewrite direct_text by (exact I || discriminate); cbn [de_content de_plain]; try reflexivity).
    + destruct (no_backslash rs) eqn:E; [|reflexivity]. rewrite (no_backslash_unescape rs E) in Es. injection Es as <-. reflexivity.
    + rewrite direct_obj_text by (exact I || exact (no_attachment _ Ha)). reflexivity.
    + rewrite direct_obj_text by (exact I || exact (no_attachment _ Ha)). reflexivity.
  - cbn [alike] in Ha. rewrite scalar_plain by exact I. shapes Hc; try reflexivity. cbn [de_content de_plain].
    destruct m; [|reflexivity]. inversion HF; subst. destruct owned; [destruct (Ha eq_refl eq_refl)|reflexivity].
  - rewrite scalar_plain by exact I. reflexivity.
  - rewrite direct_option. cbn [alike] in Ha. rewrite <- (IH _ _ _ Hc Ha). shapes Hc; reflexivity.
  - rewrite direct_newtype. cbn [alike] in Ha. rewrite <- (IH _ _ _ Hc Ha). reflexivity.
  - rewrite direct_seq. cbn [alike] in Ha. destruct Ha as [Ha1 Ha2]. shapes Hc; try reflexivity; rewrite Ed.
    + rewrite dc_seq. f_equal. apply each_agree; assumption.
    + rewrite Hb, dc_seq. f_equal. apply bytes_content. apply Ha1. apply (attached_buffer w rl bb). exact Hb.
    + rewrite Hm. reflexivity.
  - rewrite direct_tuple. cbn [alike] in Ha. destruct Ha as [Ha1 Ha2]. shapes Hc; try reflexivity; rewrite Ed.
    + rewrite dc_tuple. f_equal. apply zip_agree; assumption.
    + destruct (no_attachment _ Ha1 bb Hb).
    + rewrite Hm. reflexivity.
  - rewrite direct_map. cbn [alike] in Ha. shapes Hc; try reflexivity; rewrite Ed.
    + rewrite Hb. reflexivity.
    + rewrite Hm, dc_map. apply members_content in HF as (ml & E & HF). rewrite E. f_equal. apply map_agree; auto.
      intros k x Hx. apply (str_members_in rl ml k x E) in Hx as (k0 & _ & Hx). rewrite allP_In in Ha. exact (Ha _ Hx).
  - rewrite direct_struct. assert (Ha' := Ha). cbn [alike] in Ha'. destruct Ha' as [Ha1 Ha2]. shapes Hc; try (destruct (enter d); reflexivity); rewrite Ed.
    + rewrite dc_struct_seq. f_equal. apply zipf_agree; assumption.
    + destruct (no_attachment _ Ha1 bb Hb).
    + rewrite Hm, dc_struct_map. apply members_content in HF as (ml & E & HF). rewrite E. f_equal. apply fields_agree; auto.
      intros f u x Hf Hx. apply (str_members_in rl ml f x E) in Hx as (k0 & Hk0 & Hx). exact (alike_field fs rl f u k0 x Ha Hf Hx Hk0).
  - rewrite direct_enum. shapes Hc; try reflexivity.
    + destruct (attached_buffer w rl bb Hb) as [_ Hk]. destruct rl as [|[k x] rl]; [destruct Hk|]. subst k.
      destruct rl; [|reflexivity]. destruct w as [|A]; [discriminate|]. cbn [objects] in Hb. unfold classify_obj in Hb.
      rewrite (proj1 no_backslash_keys), bytes_eqb_refl in Hb. destruct x; discriminate.
    + destruct HF as [|[k x] [k' c] rl m [H1 H2] HF]; [reflexivity|]. destruct HF as [|[? ?] [? ?] ? ? _ HF]; [|reflexivity].
      cbn [fst snd] in *. rewrite dc_enum_map, Ed, H1. apply variant_agree; [exact H2|exact IH|].
      intros n tag u Hv ->. exact (alike_variant vs k x k' tag u Ha Hv H1).
  - rewrite direct_value. cbn [de_content]. f_equal. exact (value_agree r d c Hc).
  - rewrite scalar_plain by exact I. shapes Hc; try reflexivity. cbn [de_content de_plain]. rewrite Es. reflexivity.
  - shapes Hc; try (destruct w; reflexivity).
    + cbn [de_content]. destruct w; cbn [de_direct de_plain de_wrap]; [rewrite (unescape_both _ _ Es)|rewrite Es]; reflexivity.
    + cbn [de_content]. rewrite (octets_content _ _ _ HF). destruct w; cbn [de_direct de_plain de_wrap]; rewrite Ed; reflexivity.
    + cbn [de_content]. rewrite byte_content_octets. destruct w as [|A]; [discriminate|]. cbn [objects] in Hb. cbn [de_direct de_wrap]. rewrite Ed, Hb. reflexivity.
    + rewrite direct_obj_text by (exact I || congruence). reflexivity.
  - shapes Hc; try (destruct w; reflexivity).
    + destruct w as [|A]; [discriminate|]. cbn [objects] in Hb. cbn [de_content de_direct de_wrap]. rewrite Ed, Hb. reflexivity.
    + cbn [alike] in Ha. destruct w as [|A]; cbn [de_content de_direct de_plain de_wrap bin_of objects] in *.
      * destruct rl; [|destruct (Ha eq_refl)]. inversion HF; subst. rewrite Ed. reflexivity.
      * rewrite Ed, Hm. destruct HF; reflexivity.
Qed.
End Owned.

(** What can be buffered reads as a [Value], unless the private key is in the way. *)
Lemma content_value_some r : no_token r -> forall d c, cof d r = Some c -> exists v, val_direct d r = Some v.
Proof.
  induction r as [|b|x|s|l IH|l IH] using raw_ind'; intros Ht d c H; try (rewrite <- (value_agree _ _ _ H)).
  - injection H as <-. eexists; reflexivity.
  - injection H as <-. eexists; reflexivity.
  - cbn [content_of] in H. destruct (num_of x); [|discriminate]. injection H as <-. eexists; reflexivity.
  - cbn [content_of] in H. destruct (unescape s); [|discriminate]. injection H as <-. eexists; reflexivity.
  - apply content_arr in H as (d' & cs & Hd & -> & HF). rewrite content_value_seq. cbn [no_token] in Ht.
    assert (exists vs, all_some (map (content_value rp) cs) = Some vs) as [vs ->]; [|eexists; reflexivity].
    induction HF as [|y k l cs Hy HF IHF]; [eexists; reflexivity|]. inversion IH as [|? ? I1 I2]; subst. cbn [allP] in Ht. destruct Ht as [T1 T2].
    destruct (I1 T1 _ _ Hy) as [v Hv]. rewrite <- (value_agree _ _ _ Hy) in Hv. destruct (IHF I2 T2) as [vs Hvs]. cbn [map all_some]. rewrite Hv, Hvs. eexists; reflexivity.
  - apply content_obj in H as (d' & Hd & [(b & Hb & ->)|(Hm & m & -> & HF)]).
    + rewrite content_value_seq, map_map. cbn [content_value]. rewrite (all_some_map _ (fun x => VNum (NPos (bN x)))) by reflexivity. eexists; reflexivity.
    + cbn [no_token] in Ht. destruct Ht as [T1 T2]. rewrite content_value_map.
      2: { intros k c m' ->. inversion HF as [|[k0 x0] ? l0 ? [H1 _] _]; subst. cbn [fst snd] in H1. intros ->. exact (T1 H1). }
      assert (exists vs, all_some (map (fun kx => option_map (pair (fst kx)) (content_value rp (snd kx))) m) = Some vs) as [vs ->]; [|eexists; reflexivity].
      clear Hm T1. induction HF as [|[k x] [k' c] l m [H1 H2] HF IHF]; [eexists; reflexivity|]. inversion IH as [|? ? I1 I2]; subst. cbn [fst snd] in *.
      cbn [allP] in T2. destruct T2 as [T1 T2]. destruct (I1 T1 _ _ H2) as [v Hv]. rewrite <- (value_agree _ _ _ H2) in Hv. destruct (IHF I2 T2) as [vs Hvs].
      cbn [map all_some fst snd]. rewrite Hv, Hvs. eexists; reflexivity.
Qed.
End Agree.

(** ** Arguments *)
Definition reparse_of (text : bytes) : bytes -> option value := from_str_value_n (S (length text)).
Lemma arg_enum_at e text r A : jvalue r text -> arg_enum e (Arg text A) =
  match de_enum (reparse_of text) (way_of (Arg text A)) e 128 r with Some v => Ok v | None => Err (AJsonDeError text) end.
Proof.
  intros H. unfold arg_enum, way_of, reparse_of. cbn [g_attachments g_text]. destruct A as [|s A].
  - assert (Hd : jdoc r text). { exists [], text, []. rewrite app_nil_r. repeat split; auto using ws_nil. }
    rewrite (proj2 (scan_doc_exact text r) Hd). reflexivity.
  - rewrite (scan_value_exact text r H). reflexivity.
Qed.
Lemma arg_direct t text r A : jvalue r text -> arg_deserialize t (Arg text A) =
  match de_direct (reparse_of text) (way_of (Arg text A)) t 128 r with Some v => Ok v | None => Err (AJsonDeError text) end.
Proof.
  intros H. unfold way_of, reparse_of. cbn [g_attachments]. destruct A as [|s A].
  - unfold arg_deserialize, from_str_typed. cbn [g_attachments g_text].
    assert (Hd : jdoc r text). { exists [], text, []. rewrite app_nil_r. repeat split; auto using ws_nil. }
    rewrite (proj2 (scan_doc_exact text r) Hd). reflexivity.
  - apply arg_some; [exact H|discriminate].
Qed.
Lemma arg_direct_ok t text r A v : jvalue r text ->
  arg_deserialize t (Arg text A) = Ok v <-> de_direct (reparse_of text) (way_of (Arg text A)) t 128 r = Some v.
Proof. intros H. rewrite (arg_direct t text r A H). destruct (de_direct _ _ t 128 r); split; congruence. Qed.
Lemma arg_enum_ok e text r A v : jvalue r text ->
  arg_enum e (Arg text A) = Ok v <-> de_enum (reparse_of text) (way_of (Arg text A)) e 128 r = Some v.
Proof. intros H. rewrite (arg_enum_at e text r A H). destruct (de_enum _ _ e 128 r); split; congruence. Qed.
Lemma bin_way text A : bin_of (way_of (Arg text A)) = has_some A.
Proof. destruct A; reflexivity. Qed.
Lemma value_arg_buffers text r A v : jvalue r text -> arg_deserialize TyValue (Arg text A) = Ok v ->
  exists c, content_of (objects (way_of (Arg text A))) 128 r = Some c.
Proof.
  intros Hr Hv. apply (arg_direct_ok _ _ _ _ _ Hr) in Hv. rewrite direct_value in Hv.
  match type of Hv with option_map _ ?X = _ => destruct X as [x|] eqn:E; [|discriminate] end.
  exact (value_buffers (reparse_of text) _ r 128 x E).
Qed.

(** ** C74: untagged enums *)
Lemma null_content cls d r : content_of cls d r = Some KNull <-> r = RNull.
Proof.
  split; [|intros ->; reflexivity]. destruct r as [|b|n|s|l|l]; intros H; [reflexivity|discriminate| | | |].
  - cbn [content_of] in H. destruct (num_of n); discriminate.
  - cbn [content_of] in H. destruct (unescape s); discriminate.
  - apply content_arr in H as (? & ? & _ & ? & _). discriminate.
  - apply content_obj in H as (? & _ & [(? & _ & ?)|(_ & ? & ? & _)]); discriminate.
Qed.
Lemma map_content w d r m : content_of (objects w) d r = Some (KMap m) -> exists l, r = RObj l.
Proof.
  destruct r as [|b|n|s|l|l]; intros H; [discriminate|discriminate| | | |eauto].
  - cbn [content_of] in H. destruct (num_of n); discriminate.
  - cbn [content_of] in H. destruct (unescape s); discriminate.
  - apply content_arr in H as (? & ? & _ & ? & _). discriminate.
Qed.
Lemma obj_content w d l c : content_of (objects w) d (RObj l) = Some c -> ~ attached (bin_of w) (RObj l) -> exists m, c = KMap m.
Proof.
  intros H Ha. apply content_obj in H as (? & _ & [(b & Hb & _)|(_ & m & -> & _)]); [|eauto].
  destruct Ha. apply (attached_buffer w l b Hb).
Qed.
Lemma alone_content text r A a c v : jvalue r text -> content_of (objects (way_of (Arg text A))) 128 r = Some c ->
  alt_alike (has_some A) false a r ->
  alone a r (Arg text A) v <-> alt_content (reparse_of text) false a c = Some v.
Proof.
  intros Hr Hc Ha. destruct a as [|t|fs]; cbn [alone alt_content alt_alike] in *.
  - split.
    + intros [-> ->]. injection Hc as <-. reflexivity.
    + destruct c; try discriminate. intros [= <-]. apply null_content in Hc. auto.
  - rewrite (arg_direct_ok _ _ _ _ _ Hr). rewrite <- (bin_way text A) in Ha. rewrite (content_agree (reparse_of text) _ false t 128 r c Hc Ha). reflexivity.
  - rewrite (arg_direct_ok _ _ _ _ _ Hr). rewrite <- (bin_way text A) in Ha. rewrite <- (content_agree (reparse_of text) _ false (TyStruct fs) 128 r c Hc Ha). split.
    + intros [[l ->] H]. cbn [alike] in Ha. destruct (obj_content _ _ _ _ Hc (proj1 Ha)) as [m ->]. exact H.
    + destruct c; try discriminate. intros H. split; [exact (map_content _ _ _ _ Hc)|exact H].
Qed.
Lemma try_first rp alts c x : try_alts rp alts c = Some x <->
  exists before n a after v, alts = before ++ (n, a) :: after /\ x = XVariant n v /\
    alt_content rp false a c = Some v /\ Forall (fun na => forall u, alt_content rp false (snd na) c <> Some u) before.
Proof.
  induction alts as [|[n a] alts IH]; cbn [try_alts].
  - split; [discriminate|]. intros (b & n & a & af & v & E & _). destruct b; discriminate.
  - destruct (alt_content rp false a c) as [v|] eqn:E; split.
    + intros [= <-]. exists [], n, a, alts, v. auto.
    + intros (b & n' & a' & af & v' & Eb & -> & Ha & Hb). destruct b as [|[n0 a0] b].
      * injection Eb as -> -> ->. congruence.
      * injection Eb as -> -> ->. inversion Hb; subst. cbn [snd] in *. congruence.
    + intros H. apply IH in H as (b & n' & a' & af & v' & -> & -> & Ha & Hb). exists ((n, a) :: b), n', a', af, v'.
      split; [reflexivity|]. split; [reflexivity|]. split; [exact Ha|]. constructor; [cbn; congruence|exact Hb].
    + intros (b & n' & a' & af & v' & Eb & -> & Ha & Hb). apply IH. destruct b as [|[n0 a0] b].
      * injection Eb as -> -> ->. congruence.
      * injection Eb as -> -> ->. inversion Hb; subst. exists b, n', a', af, v'. auto.
Qed.
Theorem untagged_first alts text r A x0 x : jvalue r text -> arg_deserialize TyValue (Arg text A) = Ok x0 ->
  Forall (fun na => alt_alike (has_some A) false (snd na) r) alts ->
  arg_enum (Untagged alts) (Arg text A) = Ok x <-> first_reading alts r (Arg text A) x.
Proof.
  intros Hr Hv Hal. destruct (value_arg_buffers _ _ _ _ Hr Hv) as [c Hc]. rewrite (arg_enum_ok _ _ _ _ _ Hr).
  cbn [de_enum]. unfold de_untagged. rewrite Hc, try_first. unfold first_reading. split.
  - intros (b & n & a & af & v & -> & -> & Ha & Hb). exists b, n, a, af, v. rewrite Forall_app in Hal. destruct Hal as [L1 L2].
    inversion L2 as [|? ? La _]; subst. split; [reflexivity|]. split; [reflexivity|]. split.
    + apply (alone_content text r A a c v Hr Hc La). exact Ha.
    + rewrite Forall_forall in *. intros [n' a'] Hin u Hu. apply (Hb _ Hin u). apply (alone_content text r A a' c u Hr Hc (L1 _ Hin)). exact Hu.
  - intros (b & n & a & af & v & -> & -> & Ha & Hb). exists b, n, a, af, v. rewrite Forall_app in Hal. destruct Hal as [L1 L2].
    inversion L2 as [|? ? La _]; subst. split; [reflexivity|]. split; [reflexivity|]. split.
    + apply (alone_content text r A a c v Hr Hc La). exact Ha.
    + rewrite Forall_forall in *. intros [n' a'] Hin u Hu. apply (Hb _ Hin u). apply (alone_content text r A a' c u Hr Hc (L1 _ Hin)). exact Hu.
Qed.
(** What does not read as a [Value] reads as no untagged enum. *)
Theorem untagged_needs_value alts text r A x : jvalue r text -> no_token r ->
  arg_enum (Untagged alts) (Arg text A) = Ok x -> exists v, arg_deserialize TyValue (Arg text A) = Ok (XValue v).
Proof.
  intros Hr Ht H. apply (arg_enum_ok _ _ _ _ _ Hr) in H. cbn [de_enum] in H. unfold de_untagged in H.
  destruct (content_of (objects (way_of (Arg text A))) 128 r) as [c|] eqn:Hc; [|discriminate].
  destruct (content_value_some (reparse_of text) _ r Ht _ _ Hc) as [v Hv]. exists v. apply (arg_direct_ok _ _ _ _ _ Hr).
  rewrite direct_value. unfold val_direct in Hv. rewrite Hv. reflexivity.
Qed.
(** An attachment is not given to variants of strings or borrowed bytes. *)
Theorem untagged_no_bytes alts text l A x : jvalue (RObj l) text -> attached (has_some A) (RObj l) ->
  Forall (fun na => In (snd na) [ANewtype TyString; ANewtype TyStr; ANewtype TyBytes]) alts ->
  arg_enum (Untagged alts) (Arg text A) <> Ok x.
Proof.
  intros Hr Hat Hal H. apply (arg_enum_ok _ _ _ _ _ Hr) in H. cbn [de_enum] in H. unfold de_untagged in H.
  destruct (content_of (objects (way_of (Arg text A))) 128 (RObj l)) as [c|] eqn:Hc; [|discriminate].
  assert (Hs : forall b s, c <> KStr b s). { intros b s ->. apply content_obj in Hc as (? & _ & [(? & _ & ?)|(_ & ? & ? & _)]); discriminate. }
  apply try_first in H as (b & n & a & af & v & -> & _ & Ha & _). apply Forall_app in Hal as [_ Hal]. inversion Hal as [|? ? Hin _]; subst.
  cbn [snd In] in Hin. destruct c; try (destruct Hin as [<-|[<-|[<-|[]]]]; discriminate Ha). destruct (Hs _ _ eq_refl).
Qed.
