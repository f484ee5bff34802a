(** Proofs about substituting placeholders in values (C23). *)
From Verif Require Export BuildFacts SpecRead.

Section ValueInd.
  Variable P : value -> Prop.
  Hypothesis Hnull : P VNull.
  Hypothesis Hbool : forall b, P (VBool b).
  Hypothesis Hnum : forall n, P (VNum n).
  Hypothesis Hstr : forall s, P (VStr s).
  Hypothesis Harr : forall l, Forall P l -> P (VArr l).
  Hypothesis Hobj : forall m, Forall (fun a => P (snd a)) m -> P (VObj m).
  Fixpoint value_ind' (v : value) : P v :=
    match v with
    | VNull => Hnull | VBool b => Hbool b | VNum n => Hnum n | VStr s => Hstr s
    | VArr l => Harr l ((fix go (l : list value) : Forall P l :=
        match l with [] => Forall_nil _ | x :: l' => Forall_cons _ (value_ind' x) (go l') end) l)
    | VObj m => Hobj m ((fix go (l : list (bytes * value)) : Forall (fun a => P (snd a)) l :=
        match l with [] => Forall_nil _ | x :: l' => Forall_cons x (value_ind' (snd x)) (go l') end) m)
    end.
End ValueInd.

(** The loops of [fill_placeholders]. *)
Fixpoint fill_list A (l : list value) : res aerror (list value) :=
  match l with
  | [] => Ok []
  | x :: l' => rbind (fill_placeholders A x) (fun x' => rmap (cons x') (fill_list A l'))
  end.
Fixpoint fill_members A (l : list (bytes * value)) : res aerror (list (bytes * value)) :=
  match l with
  | [] => Ok []
  | (k, x) :: l' => rbind (fill_placeholders A x) (fun x' => rmap (cons (k, x')) (fill_members A l'))
  end.
Lemma fill_arr A l : fill_placeholders A (VArr l) = rmap VArr (fill_list A l).
Proof. cbn [fill_placeholders]. f_equal. induction l as [|x l IH]; [reflexivity|]. cbn [fill_list]. rewrite <- IH. reflexivity. Qed.
Lemma fill_obj A m : fill_placeholders A (VObj m) =
  match obj_get key_placeholder m with
  | Some _ =>
      match match obj_get key_num m with Some n => as_u64 n | None => None end with
      | None => Err (ANoNumInPlaceholderObject (VObj m))
      | Some idx =>
          if (idx <? N.of_nat (length A))%N then
            match nth_error A (N.to_nat idx) with
            | Some b => match sub_deref_vec b with Some d => Ok (bytes_value d) | None => Panic end
            | None => Panic
            end
          else Err (APlaceholderIndexOutOfRange idx (N.of_nat (length A)))
      end
  | None => rmap VObj (fill_members A m)
  end.
Proof.
  cbn [fill_placeholders]. destruct (obj_get key_placeholder m); [reflexivity|]. f_equal.
  induction m as [|[k x] l IH]; [reflexivity|]. cbn [fill_members]. rewrite <- IH. reflexivity.
Qed.

Lemma has_pkey_get m : has_pkey m <-> obj_get key_placeholder m <> None.
Proof.
  unfold has_pkey. induction m as [|[k x] m IH]; cbn [map fst In obj_get]; [split; [contradiction|congruence]|].
  destruct (bytes_eqb key_placeholder k) eqn:E.
  - apply bytes_eqb_eq in E. subst. split; [discriminate|auto].
  - rewrite <- IH. split; [|auto]. intros [->|H]; [rewrite bytes_eqb_refl in E; discriminate|exact H].
Qed.

Lemma all_some_length {A} (l : list (option A)) r : all_some l = Some r -> length l = length r.
Proof.
  revert r. induction l as [|[x|] l IH]; intros r H; cbn [all_some] in H; try discriminate.
  - injection H as <-. reflexivity.
  - destruct (all_some l) as [r'|] eqn:E; [|discriminate]. injection H as <-. cbn. f_equal. apply IH. reflexivity.
Qed.
Lemma contents_nth A bl i : contents A = Some bl ->
  nth_error bl i = match nth_error A i with Some s => sub_deref_vec s | None => None end.
Proof.
  unfold contents. revert bl i. induction A as [|s A IH]; intros bl i H; cbn [map all_some] in H.
  - injection H as <-. destruct i; reflexivity.
  - destruct (sub_deref_vec s) as [b|] eqn:Es; [|discriminate]. destruct (all_some (map sub_deref_vec A)) as [r|] eqn:E; [|discriminate].
    injection H as <-. destruct i as [|i]; cbn [nth_error]; [rewrite Es; reflexivity|]. apply IH. reflexivity.
Qed.
Lemma contents_length A bl : contents A = Some bl -> length bl = length A.
Proof. unfold contents. intros H. apply all_some_length in H. rewrite map_length in H. auto. Qed.

Section Fill.
Variables (A : list subslice_t) (bl : list bytes).
Hypothesis HA : contents A = Some bl.

(** What the model does with each kind of object. *)
Lemma fill_pkey m : has_pkey m ->
  fill_placeholders A (VObj m) =
    match obj_get key_num m with
    | Some (VNum (NPos k)) =>
        match nth_error bl (N.to_nat k) with
        | Some b => Ok (byte_array b)
        | None => Err (APlaceholderIndexOutOfRange k (N.of_nat (length bl)))
        end
    | _ => Err (ANoNumInPlaceholderObject (VObj m))
    end.
Proof.
  intros H. rewrite fill_obj. apply has_pkey_get in H. destruct (obj_get key_placeholder m); [clear H|congruence].
  destruct (obj_get key_num m) as [[| |[k| |]| | |]|]; cbn [as_u64]; try reflexivity.
  rewrite (contents_nth A bl _ HA), (contents_length A bl HA).
  destruct (N.ltb_spec k (N.of_nat (length A))).
  - destruct (nth_error A (N.to_nat k)) as [s|] eqn:E.
    + destruct (sub_deref_vec s) as [d|] eqn:Ed; [reflexivity|].
      pose proof (contents_nth A bl (N.to_nat k) HA) as Hn. rewrite E, Ed in Hn.
      apply nth_error_None in Hn. rewrite (contents_length A bl HA) in Hn. lia.
    + apply nth_error_None in E. lia.
  - destruct (nth_error A (N.to_nat k)) as [s|] eqn:E; [|reflexivity].
    assert (N.to_nat k < length A) by (apply nth_error_Some; congruence). lia.
Qed.

Definition fill_spec (v : value) : Prop :=
  (forall v', fill_placeholders A v = Ok v' <-> filled bl v v') /\
  (forall e, fill_placeholders A v = Err e <-> fails bl v e) /\
  fill_placeholders A v <> Panic.

Lemma fill_list_spec l : Forall fill_spec l ->
  (forall l', fill_list A l = Ok l' <-> Forall2 (filled bl) l l') /\
  (forall e, fill_list A l = Err e <->
     exists pre x post, l = pre ++ x :: post /\ Forall (fun y => exists y', filled bl y y') pre /\ fails bl x e) /\
  fill_list A l <> Panic.
Proof.
  induction 1 as [|x l (H1 & H2 & H3) Hl (I1 & I2 & I3)].
  - split; [|split]; [| |discriminate].
    + intros l'. cbn. split; [intros [= <-]; constructor|]. intros H. inversion H. reflexivity.
    + intros e. cbn. split; [discriminate|]. intros (pre & x & post & E & _). destruct pre; discriminate.
  - cbn [fill_list]. split; [|split].
    + intros l'. split.
      * destruct (fill_placeholders A x) as [y|e|] eqn:Ex; cbn [rbind]; try discriminate.
        destruct (fill_list A l) as [ys|e|] eqn:El; cbn [rmap]; try discriminate. intros [= <-].
        constructor; [apply H1; reflexivity|apply I1; reflexivity].
      * intros H. inversion H as [|? y ? ys Hx Hys]; subst. apply H1 in Hx. apply I1 in Hys. rewrite Hx, Hys. reflexivity.
    + intros e. split.
      * destruct (fill_placeholders A x) as [y|e0|] eqn:Ex; cbn [rbind]; try discriminate.
        -- destruct (fill_list A l) as [ys|e0|] eqn:El; cbn [rmap]; try discriminate. intros [= <-].
           destruct (proj1 (I2 e0) eq_refl) as (pre & z & post & -> & Hp & Hz).
           exists (x :: pre), z, post. repeat split; auto. constructor; [|exact Hp]. exists y. apply H1. reflexivity.
        -- intros [= <-]. exists [], x, l. repeat split; auto. apply H2. reflexivity.
      * intros (pre & z & post & E & Hp & Hz). destruct pre as [|y pre]; cbn [app] in E; injection E as <- ->.
        -- apply H2 in Hz. rewrite Hz. reflexivity.
        -- inversion Hp as [|? ? [y' Hy] Hp']; subst. apply H1 in Hy. rewrite Hy. cbn [rbind].
           rewrite (proj2 (I2 e)); [reflexivity|]. exists pre, z, post. auto.
    + destruct (fill_placeholders A x); cbn [rbind]; try discriminate; [|contradiction].
      destruct (fill_list A l); cbn [rmap]; try discriminate. contradiction.
Qed.
Lemma fill_members_spec l : Forall (fun a => fill_spec (snd a)) l ->
  (forall l', fill_members A l = Ok l' <-> Forall2 (fun a b => fst a = fst b /\ filled bl (snd a) (snd b)) l l') /\
  (forall e, fill_members A l = Err e <->
     exists pre k x post, l = pre ++ (k, x) :: post /\ Forall (fun m => exists y', filled bl (snd m) y') pre /\ fails bl x e) /\
  fill_members A l <> Panic.
Proof.
  induction 1 as [|[k x] l (H1 & H2 & H3) Hl (I1 & I2 & I3)]; [|cbn [snd] in *].
  - split; [|split]; [| |discriminate].
    + intros l'. cbn. split; [intros [= <-]; constructor|]. intros H. inversion H. reflexivity.
    + intros e. cbn. split; [discriminate|]. intros (pre & k & x & post & E & _). destruct pre; discriminate.
  - cbn [fill_members]. split; [|split].
    + intros l'. split.
      * destruct (fill_placeholders A x) as [y|e|] eqn:Ex; cbn [rbind]; try discriminate.
        destruct (fill_members A l) as [ys|e|] eqn:El; cbn [rmap]; try discriminate. intros [= <-].
        constructor; [split; [reflexivity|apply H1; reflexivity]|apply I1; reflexivity].
      * intros H. inversion H as [|? [k' y] ? ys [Hk Hx] Hys]; subst. cbn [fst snd] in *. subst.
        apply H1 in Hx. apply I1 in Hys. rewrite Hx, Hys. reflexivity.
    + intros e. split.
      * destruct (fill_placeholders A x) as [y|e0|] eqn:Ex; cbn [rbind]; try discriminate.
        -- destruct (fill_members A l) as [ys|e0|] eqn:El; cbn [rmap]; try discriminate. intros [= <-].
           destruct (proj1 (I2 e0) eq_refl) as (pre & k' & z & post & -> & Hp & Hz).
           exists ((k, x) :: pre), k', z, post. repeat split; auto. constructor; [|exact Hp]. exists y. apply H1. reflexivity.
        -- intros [= <-]. exists [], k, x, l. repeat split; auto. apply H2. reflexivity.
      * intros (pre & k' & z & post & E & Hp & Hz). destruct pre as [|y pre]; cbn [app] in E.
        -- injection E as <- <- ->. apply H2 in Hz. rewrite Hz. reflexivity.
        -- injection E as <- ->. inversion Hp as [|? ? [y' Hy] Hp']; subst. cbn [snd] in Hy. apply H1 in Hy. rewrite Hy. cbn [rbind].
           rewrite (proj2 (I2 e)); [reflexivity|]. exists pre, k', z, post. auto.
    + destruct (fill_placeholders A x); cbn [rbind]; try discriminate; [|contradiction].
      destruct (fill_members A l); cbn [rmap]; try discriminate. contradiction.
Qed.

Theorem fill_exact v : fill_spec v.
Proof.
  induction v as [|b|n|s|l IH|m IH] using value_ind'; try (
    split; [|split]; [intros v'; cbn; split; [intros [= <-]; constructor|intros H; inversion H; reflexivity]
                     |intros e; cbn; split; [discriminate|intros H; inversion H]|discriminate]).
  - destruct (fill_list_spec l IH) as (I1 & I2 & I3). unfold fill_spec. rewrite fill_arr. split; [|split].
    + intros v'. split.
      * destruct (fill_list A l) as [l'| |] eqn:E; cbn [rmap]; try discriminate. intros [= <-]. constructor. apply I1. reflexivity.
      * intros H. inversion H as [| | | |? l' Hl| |]; subst. apply I1 in Hl. rewrite Hl. reflexivity.
    + intros e. split.
      * destruct (fill_list A l) as [l'|e0|] eqn:E; cbn [rmap]; try discriminate. intros [= <-].
        destruct (proj1 (I2 e0) eq_refl) as (pre & x & post & -> & Hp & Hx). constructor; assumption.
      * intros H. inversion H as [| |pre x post ? Hp Hx|]; subst. rewrite (proj2 (I2 e)); [reflexivity|]. exists pre, x, post. auto.
    + destruct (fill_list A l); cbn [rmap]; try discriminate. contradiction.
  - unfold fill_spec. destruct (obj_get key_placeholder m) as [pv|] eqn:Ep.
    + assert (Hp : has_pkey m) by (apply has_pkey_get; congruence). rewrite fill_pkey by exact Hp.
      assert (Hr : forall k : N, (N.of_nat (length bl) <= k)%N -> nth_error bl (N.to_nat k) = None).
      { intros k Hk. apply nth_error_None. lia. }
      destruct (obj_get key_num m) as [[| |[k| |]| | |]|] eqn:En; try (
        split; [|split]; [intros v'; split; [discriminate|intros H; inversion H; subst; [contradiction|congruence]]
                         |intros e; split; [intros [= <-]; constructor; [exact Hp|intros k0; congruence]
                                           |intros H; inversion H; subst; [reflexivity|congruence|contradiction]]|discriminate]).
      destruct (nth_error bl (N.to_nat k)) as [b|] eqn:Eb.
      * split; [|split]; [| |discriminate].
        -- intros v'. split; [intros [= <-]; econstructor; eauto|]. intros H. inversion H; subst; [contradiction|congruence].
        -- intros e. split; [discriminate|]. intros H. inversion H as [m' ? Hk|m' k0 ? Hk Hle| |]; subst; [destruct (Hk k); exact En| |contradiction].
           rewrite En in Hk. injection Hk as <-. rewrite Hr in Eb by exact Hle. discriminate.
      * split; [|split]; [| |discriminate].
        -- intros v'. split; [discriminate|]. intros H. inversion H; subst; [contradiction|congruence].
        -- intros e. apply nth_error_None in Eb. split.
           ++ intros [= <-]. constructor; auto. lia.
           ++ intros H. inversion H as [m' ? Hk|m' k0 ? Hk Hle| |]; subst; [destruct (Hk k); exact En| |contradiction].
              rewrite En in Hk. injection Hk as <-. reflexivity.
    + assert (Hp : ~ has_pkey m) by (rewrite has_pkey_get; congruence). rewrite fill_obj, Ep.
      destruct (fill_members_spec m IH) as (I1 & I2 & I3). split; [|split].
      * intros v'. split.
        -- destruct (fill_members A m) as [l'| |] eqn:E; cbn [rmap]; try discriminate. intros [= <-]. constructor; [exact Hp|]. apply I1. reflexivity.
        -- intros H. inversion H as [| | | | |? l' Hn Hl|]; subst; [|contradiction]. apply I1 in Hl. rewrite Hl. reflexivity.
      * intros e. split.
        -- destruct (fill_members A m) as [l'|e0|] eqn:E; cbn [rmap]; try discriminate. intros [= <-].
           destruct (proj1 (I2 e0) eq_refl) as (pre & k & x & post & -> & Hpr & Hx). constructor; assumption.
        -- intros H. inversion H as [| | |pre k x post ? Hn Hpr Hx]; subst; try contradiction.
           rewrite (proj2 (I2 e)); [reflexivity|]. exists pre, k, x, post. auto.
      * destruct (fill_members A m); cbn [rmap]; try discriminate. contradiction.
Qed.
End Fill.

Lemma filled_unmarked bl v : unmarked v -> forall v', filled bl v v' <-> v' = v.
Proof.
  induction v as [|b|n|s|l IH|m IH] using value_ind'; intros Hu v'; try (
    split; [intros H; inversion H; reflexivity|intros ->; constructor]).
  - inversion Hu as [| | | |? Hl|]; subst. split.
    + intros H. inversion H as [| | | |? l' Hf| |]; subst. f_equal. clear - IH Hl Hf.
      induction Hf as [|x y l l' Hx Hf IHf]; [reflexivity|]. inversion IH; inversion Hl; subst.
      f_equal; [|auto]. apply H1; auto.
    + intros ->. constructor. clear - IH Hl. induction l as [|x l I]; [constructor|].
      inversion IH; inversion Hl; subst. constructor; [|auto]. apply H1; auto.
  - inversion Hu as [| | | | |? Hn Hl]; subst. split.
    + intros H. inversion H as [| | | | |? l' _ Hf|]; subst; [|contradiction]. f_equal. clear - IH Hl Hf.
      induction Hf as [|[k x] [k' y] l l' [Hk Hx] Hf IHf]; [reflexivity|]. inversion IH; inversion Hl; subst. cbn [fst snd] in *.
      f_equal; [|auto]. subst. f_equal. apply H1; auto.
    + intros ->. constructor; [exact Hn|]. clear - IH Hl. induction m as [|[k x] l I]; [constructor|].
      inversion IH; inversion Hl; subst. constructor; [split; [reflexivity|]|auto]. apply H1; auto.
Qed.

(** C23 *)
Lemma substitution_exact t A bl v : from_str_value t = Some v -> contents A = Some bl -> A <> [] ->
  (forall v', to_json_value (Arg t A) = Ok v' <-> filled bl v v') /\
  (forall e, to_json_value (Arg t A) = Err e <-> fails bl v e) /\
  to_json_value (Arg t A) <> Panic.
Proof.
  intros Hv HA Hne. unfold to_json_value. cbn [g_text g_attachments]. rewrite Hv.
  destruct A as [|s A]; [congruence|]. apply fill_exact. exact HA.
Qed.
Lemma no_attachments t v : from_str_value t = Some v -> to_json_value (Arg t []) = Ok v.
Proof. intros H. unfold to_json_value. cbn [g_text g_attachments]. rewrite H. reflexivity. Qed.
