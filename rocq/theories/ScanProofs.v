(** Cutting a JSON array text: no proper suffix of it is again a JSON array.  Used to show that a
    header that is cut in the wrong place is never accepted. *)
From Verif Require Export WriterProofs.

(** A scanner that only tracks strings and nesting. *)
Inductive sst := SOut (d : nat) | SIn (d : nat) | SEsc (d : nat) | SBad.
Definition sstep (s : sst) (c : byte) : sst :=
  match s with
  | SOut d =>
      if c =b x22 then SIn d
      else if c =b x5c then SBad
      else if (c =b "[") || (c =b "{") then SOut (S d)
      else if (c =b "]") || (c =b "}") then match d with O => SBad | S d' => SOut d' end
      else SOut d
  | SIn d => if c =b x22 then SOut d else if c =b x5c then SEsc d else SIn d
  | SEsc d => SIn d
  | SBad => SBad
  end.
Definition srun (t : bytes) (s : sst) : sst := fold_left sstep t s.
Definition lev (s : sst) : nat := match s with SOut d | SIn d | SEsc d => d | SBad => 0 end.
Definition safe (d : nat) (t : bytes) : Prop :=
  srun t (SOut d) = SOut d /\ forall x y, t = x ++ y -> d <= lev (srun x (SOut d)).

Lemma srun_app a b s : srun (a ++ b) s = srun b (srun a s).
Proof. apply fold_left_app. Qed.
Lemma srun_bad t : srun t SBad = SBad.
Proof. induction t; cbn; auto. Qed.
Lemma safe_nil d : safe d [].
Proof. split; [reflexivity|]. intros x y H. symmetry in H. apply app_eq_nil in H as [-> _]. cbn. lia. Qed.
Lemma prefix_app {A} (a b x y : list A) : a ++ b = x ++ y -> (exists z, a = x ++ z /\ y = z ++ b) \/ (exists x' , x = a ++ x' /\ b = x' ++ y).
Proof.
  revert x. induction a as [|c a IH]; intros x H; cbn in H.
  - right. exists x. auto.
  - destruct x as [|d x]; [left; exists (c :: a); auto|]. cbn in H. injection H as -> H.
    destruct (IH x H) as [(z & -> & ->)|(x' & -> & ->)]; [left; exists z; auto|right; exists x'; auto].
Qed.
Lemma safe_app d a b : safe d a -> safe d b -> safe d (a ++ b).
Proof.
  intros [A1 A2] [B1 B2]. split; [rewrite srun_app, A1; exact B1|].
  intros x y H. apply prefix_app in H as [(z & -> & _)|(x' & -> & ->)]; [eapply A2; reflexivity|].
  rewrite srun_app, A1. eapply B2. reflexivity.
Qed.
Definition neutral (c : byte) : bool :=
  negb (c =b x22) && negb (c =b x5c) && negb (c =b "[") && negb (c =b "{") && negb (c =b "]") && negb (c =b "}").
Lemma neutral_step c d : neutral c = true -> sstep (SOut d) c = SOut d.
Proof.
  unfold neutral. rewrite !andb_true_iff, !negb_true_iff. intros [[[[[H1 H2] H3] H4] H5] H6].
  unfold sstep. rewrite H1, H2, H3, H4, H5, H6. reflexivity.
Qed.
Lemma safe_neutral d t : forallb neutral t = true -> safe d t.
Proof.
  induction t as [|c t IH]; [intros _; apply safe_nil|]. cbn [forallb]. intros H. apply andb_true_iff in H as [Hc H].
  apply (safe_app d [c] t); [|apply IH; exact H]. split; [apply neutral_step; exact Hc|].
  intros [|e [|f x]] y E; [cbn; lia| |discriminate]. injection E as <- _.
  change (srun [c] (SOut d)) with (sstep (SOut d) c). rewrite neutral_step by exact Hc. cbn. lia.
Qed.
Lemma safe_cons d c t : neutral c = true -> safe d t -> safe d (c :: t).
Proof. intros Hc H. apply (safe_app d [c] t); [apply safe_neutral; cbn; rewrite Hc; reflexivity|exact H]. Qed.
Lemma ws_neutral w : ws w -> forallb neutral w = true.
Proof.
  intros H. apply forallb_forall. intros c Hc. unfold ws in H. rewrite Forall_forall in H. specialize (H c Hc).
  cbn in H. destruct H as [<-|[<-|[<-|[<-|[]]]]]; reflexivity.
Qed.
Lemma num_neutral n : numlit_ok n -> forallb neutral (numlit_text n) = true.
Proof.
  intros H. apply num_chars in H. rewrite forallb_forall in *. intros c Hc. specialize (H c Hc).
  pose proof (byte_forall (fun c => implb (num_char c) (neutral c)) ltac:(vm_compute; reflexivity) c) as X.
  cbv beta in X. rewrite H in X. exact X.
Qed.
Lemma body_step c d : c <> x22 -> c <> x5c -> sstep (SIn d) c = SIn d.
Proof. intros H1 H2. cbn. apply byte_eqb_neq in H1, H2. rewrite H1, H2. reflexivity. Qed.
Lemma body_in d b : jbody b -> srun b (SIn d) = SIn d /\ forall x y, b = x ++ y -> d <= lev (srun x (SIn d)).
Proof.
  assert (P : forall c b, srun b (sstep (SIn d) c) = SIn d -> (forall x y, b = x ++ y -> d <= lev (srun x (sstep (SIn d) c))) ->
    srun (c :: b) (SIn d) = SIn d /\ forall x y, c :: b = x ++ y -> d <= lev (srun x (SIn d))).
  { intros c b0 H1 H2. split; [exact H1|]. intros [|e x] y E; [cbn; lia|]. cbn in E. injection E as <- E.
    exact (H2 x y E). }
  induction 1 as [|c b H1 H2 _ H [I1 I2]|e b He H [I1 I2]|h1 h2 h3 h4 b Hh H [I1 I2]].
  - split; [reflexivity|]. intros x y E. symmetry in E. apply app_eq_nil in E as [-> _]. cbn. lia.
  - apply P; rewrite body_step by assumption; assumption.
  - apply P.
    + exact I1.
    + intros [|f x] y E; [cbn; lia|]. cbn in E. injection E as <- E. exact (I2 x y E).
  - assert (Hx : forall h, is_hex h = true -> h <> x22 /\ h <> x5c).
    { intros h Hx. split; intros ->; discriminate. }
    rewrite Forall_forall in Hh.
    assert (S1 : forall h, In h [h1; h2; h3; h4] -> sstep (SIn d) h = SIn d).
    { intros h Hin. apply Hh, Hx in Hin as [A B]. apply body_step; assumption. }
    assert (T : forall h c, In h [h1; h2; h3; h4] -> srun c (SIn d) = SIn d /\ (forall x y, c = x ++ y -> d <= lev (srun x (SIn d))) ->
      srun (h :: c) (SIn d) = SIn d /\ forall x y, h :: c = x ++ y -> d <= lev (srun x (SIn d))).
    { intros h c Hin [A B]. apply P; rewrite S1 by exact Hin; assumption. }
    destruct (T h1 (h2 :: h3 :: h4 :: b)) as [J1 J2]; [cbn; auto| |].
    { apply T; [cbn; auto|]. apply T; [cbn; auto|]. apply T; [cbn; auto|]. auto. }
    apply P; [exact J1|]. intros [|f x] y E; [cbn; lia|]. cbn in E. injection E as <- E. exact (J2 x y E).
Qed.
Lemma safe_str d b : jbody b -> safe d (x22 :: b ++ [x22]).
Proof.
  intros H. destruct (body_in d b H) as [H1 H2]. split.
  - unfold srun. cbn [fold_left]. change (srun (b ++ [x22]) (SIn d) = SOut d). rewrite srun_app, H1. reflexivity.
  - intros [|c x] y E; [cbn; lia|]. cbn [app] in E. injection E as <- E.
    change (d <= lev (srun x (SIn d))). apply prefix_app in E as [(z & -> & _)|(x' & -> & E)]; [eapply H2; reflexivity|].
    rewrite srun_app, H1. destruct x' as [|e [|f x']]; try discriminate; cbn; [lia|].
    injection E as <- _. cbn. lia.
Qed.
(** Inside brackets the level is higher. *)
Lemma bracket_level d a z u x y : ((a =b "[") || (a =b "{")) = true -> safe (S d) u -> a :: u ++ [z] = x ++ y ->
  x <> [] -> y <> [] -> S d <= lev (srun x (SOut d)).
Proof.
  intros Ha [H1 H2] E Hx Hy. destruct x as [|c x]; [congruence|]. cbn [app] in E. injection E as <- E.
  assert (Sa : sstep (SOut d) a = SOut (S d)).
  { cbn. destruct (a =b x22) eqn:E1; [apply byte_eqb_eq in E1; subst; discriminate|].
    destruct (a =b x5c) eqn:E2; [apply byte_eqb_eq in E2; subst; discriminate|]. rewrite Ha. reflexivity. }
  unfold srun. cbn [fold_left]. rewrite Sa. change (S d <= lev (srun x (SOut (S d)))).
  apply prefix_app in E as [(w & -> & _)|(x' & -> & E)]; [eapply H2; reflexivity|].
  destruct x' as [|e x']; [rewrite app_nil_r, H1; cbn; lia|].
  cbn in E. injection E as _ E. symmetry in E. apply app_eq_nil in E as [_ E]. congruence.
Qed.
Lemma safe_bracket d a z u : (a =b "[") || (a =b "{") = true -> (z =b "]") || (z =b "}") = true -> safe (S d) u -> safe d (a :: u ++ [z]).
Proof.
  intros Ha Hz H. pose proof H as [H1 H2].
  assert (Sa : sstep (SOut d) a = SOut (S d)).
  { cbn. destruct (a =b x22) eqn:E1; [apply byte_eqb_eq in E1; subst; discriminate|].
    destruct (a =b x5c) eqn:E2; [apply byte_eqb_eq in E2; subst; discriminate|]. rewrite Ha. reflexivity. }
  assert (Sz : sstep (SOut (S d)) z = SOut d).
  { cbn. destruct (z =b x22) eqn:E1; [apply byte_eqb_eq in E1; subst; discriminate|].
    destruct (z =b x5c) eqn:E2; [apply byte_eqb_eq in E2; subst; discriminate|].
    destruct ((z =b "[") || (z =b "{")) eqn:E3.
    { apply orb_true_iff in E3 as [E3|E3]; apply byte_eqb_eq in E3; subst; discriminate. }
    rewrite Hz. reflexivity. }
  assert (R : srun (a :: u ++ [z]) (SOut d) = SOut d).
  { unfold srun. cbn [fold_left]. rewrite Sa. change (srun (u ++ [z]) (SOut (S d)) = SOut d).
    rewrite srun_app, H1. exact Sz. }
  split; [exact R|]. intros x y E. destruct x as [|c x]; [cbn; lia|]. destruct y as [|e y].
  - rewrite app_nil_r in E. rewrite <- E, R. cbn. lia.
  - pose proof (bracket_level d a z u (c :: x) (e :: y) Ha H E ltac:(discriminate) ltac:(discriminate)). lia.
Qed.
Lemma json_safe :
  (forall r t, jvalue r t -> forall d, safe d t) /\ (forall l t, jelems l t -> forall d, safe d t) /\
  (forall l t, jmembers l t -> forall d, safe d t).
Proof.
  apply json_mutind; intros.
  - apply safe_neutral. reflexivity.
  - apply safe_neutral. reflexivity.
  - apply safe_neutral. reflexivity.
  - apply safe_neutral, num_neutral. assumption.
  - apply safe_str. assumption.
  - apply safe_bracket; [reflexivity|reflexivity|]. apply safe_neutral, ws_neutral. assumption.
  - apply safe_bracket; [reflexivity|reflexivity|]. auto.
  - apply safe_bracket; [reflexivity|reflexivity|]. apply safe_neutral, ws_neutral. assumption.
  - apply safe_bracket; [reflexivity|reflexivity|]. auto.
  - repeat apply safe_app; auto using safe_neutral, ws_neutral.
  - repeat apply safe_app; auto using safe_neutral, ws_neutral. apply safe_cons; [reflexivity|]. auto.
  - apply safe_app; [auto using safe_neutral, ws_neutral|].
    change (safe d (x22 :: k ++ [x22] ++ w2 ++ [":"%byte] ++ w3 ++ t ++ w4)).
    rewrite app_comm_cons, app_assoc. apply safe_app; [apply safe_str; assumption|].
    repeat apply safe_app; auto using safe_neutral, ws_neutral.
  - apply safe_app; [auto using safe_neutral, ws_neutral|].
    change (safe d (x22 :: k ++ [x22] ++ w2 ++ [":"%byte] ++ w3 ++ t ++ w4 ++ [","%byte] ++ t')).
    rewrite app_comm_cons, app_assoc. apply safe_app; [apply safe_str; assumption|].
    repeat apply safe_app; auto using safe_neutral, ws_neutral.
Qed.
Lemma jitems_safe ts t : jitems ts t -> forall d, safe d t.
Proof.
  destruct json_safe as [J _].
  induction 1; intros d; repeat apply safe_app; eauto using safe_neutral, ws_neutral.
  apply safe_cons; [reflexivity|]. auto.
Qed.
Lemma jarray_safe ts t : jarray ts t -> forall d, safe d t.
Proof.
  intros (wa & body & wb & Ha & Hb & -> & H) d. apply safe_app; [auto using safe_neutral, ws_neutral|].
  change (safe d ("["%byte :: body ++ ["]"%byte] ++ wb)). rewrite app_comm_cons, app_assoc.
  apply safe_app; [|auto using safe_neutral, ws_neutral]. apply safe_bracket; [reflexivity|reflexivity|].
  destruct H as [[_ H]|H]; [auto using safe_neutral, ws_neutral|eapply jitems_safe; eauto].
Qed.

(** Two scanners, one inside and one outside a string, stay opposite. *)
Definition opposite (s1 s2 : sst) : Prop :=
  match s1, s2 with SOut _, SIn _ | SIn _, SOut _ => True | _, _ => False end.
Lemma opposite_run y : forall s1 s2, opposite s1 s2 -> srun y s1 <> SBad -> srun y s2 <> SBad ->
  opposite (srun y s1) (srun y s2).
Proof.
  induction y as [|c y IH]; intros s1 s2 H H1 H2; [exact H|].
  change (srun (c :: y) s1) with (srun y (sstep s1 c)) in *. change (srun (c :: y) s2) with (srun y (sstep s2 c)) in *.
  apply IH; auto.
  assert (N : forall s, srun y s <> SBad -> s <> SBad) by (intros s Hs ->; rewrite srun_bad in Hs; congruence).
  apply N in H1, H2. destruct s1 as [d|d|d|], s2 as [e|e|e|]; try contradiction; cbn [sstep] in *.
  - destruct (c =b x22); [exact I|]. destruct (c =b x5c); [congruence|].
    destruct ((c =b "[") || (c =b "{")); [exact I|]. destruct ((c =b "]") || (c =b "}")); [|exact I].
    destruct d; [congruence|exact I].
  - destruct (c =b x22); [exact I|]. destruct (c =b x5c); [congruence|].
    destruct ((c =b "[") || (c =b "{")); [exact I|]. destruct ((c =b "]") || (c =b "}")); [|exact I].
    destruct e; [congruence|exact I].
Qed.
Lemma no_array_suffix u x y ts : safe 1 u -> "["%byte :: u ++ ["]"%byte] = x ++ "["%byte :: y ->
  jarray ts ("["%byte :: y) -> x = [].
Proof.
  intros Hu E J. destruct x as [|c x]; [reflexivity|exfalso].
  pose proof (bracket_level 0 "[" "]" u (c :: x) ("["%byte :: y) eq_refl Hu E ltac:(discriminate) ltac:(discriminate)) as L.
  assert (R : srun ("["%byte :: u ++ ["]"%byte]) (SOut 0) = SOut 0).
  { change (srun (u ++ ["]"%byte]) (SOut 1) = SOut 0). rewrite srun_app. rewrite (proj1 Hu). reflexivity. }
  rewrite E, srun_app in R.
  destruct (srun (c :: x) (SOut 0)) as [d|d|d|] eqn:Es; cbn [lev] in L.
  - rewrite (proj1 (jarray_safe _ _ J d)) in R. injection R as ->. lia.
  - pose proof (proj1 (jarray_safe _ _ J 0)) as R0.
    pose proof (opposite_run ("["%byte :: y) (SOut 0) (SIn d) I ltac:(congruence) ltac:(congruence)) as O.
    rewrite R, R0 in O. exact O.
  - pose proof (proj1 (jarray_safe _ _ J 0)) as R0.
    change (srun y (SIn d) = SOut 0) in R. change (srun y (SOut 1) = SOut 0) in R0.
    pose proof (opposite_run y (SOut 1) (SIn d) I ltac:(congruence) ltac:(congruence)) as O.
    rewrite R, R0 in O. exact O.
  - lia.
Qed.
Lemma seps_safe ts rs : Forall2 jvalue rs ts -> forall first d, safe d (seps first ts).
Proof.
  induction 1 as [|r t rs ts H1 H IH]; intros first d; cbn [seps]; [apply safe_nil|].
  apply safe_app; [destruct first; [apply safe_nil|apply safe_neutral; reflexivity]|].
  apply safe_app; [|apply IH]. eapply (proj1 json_safe); eauto.
Qed.

(** ** Reading a well-formed packet text *)
Lemma wire_text_parts w w' : wire_ok w -> wire_ok w' -> wire_text w = wire_text w' ->
  w_kind w = w_kind w' /\ w_count w = w_count w' /\
  opt_text (fun x => x ++ bs ",") (w_ns w) ++ opt_text dec (w_id w) ++ opt_text (fun a => a) (w_args w) =
  opt_text (fun x => x ++ bs ",") (w_ns w') ++ opt_text dec (w_id w') ++ opt_text (fun a => a) (w_args w').
Proof.
  intros H H' E. unfold wire_text in E. injection E as Ek E.
  split. { destruct (w_kind w), (w_kind w'); (reflexivity || discriminate). }
  set (R := opt_text (fun x => x ++ bs ",") (w_ns w) ++ opt_text dec (w_id w) ++ opt_text (fun a => a) (w_args w)) in *.
  set (R' := opt_text (fun x => x ++ bs ",") (w_ns w') ++ opt_text dec (w_id w') ++ opt_text (fun a => a) (w_args w')) in *.
  assert (T : forall v (S := opt_text (fun x => x ++ bs ",") (w_ns v) ++ opt_text dec (w_id v) ++ opt_text (fun a => a) (w_args v)),
    wire_ok v -> take_att (opt_text (fun n => dec n ++ bs "-") (w_count v) ++ S) = (option_map dec (w_count v), S)).
  { intros v S Hv. destruct (w_count v) as [n|] eqn:En; cbn [opt_text option_map app].
    - rewrite <- app_assoc. apply take_att_some. apply canon_dec_dec.
    - apply take_att_none. intros d r Ed Hd.
      apply hdr_of_ok in Hv as (_ & _ & Hn & Hc & Ha). cbn [hdr_of hd_ns hd_id hd_args] in *.
      apply (no_dash_rest (w_ns v) (option_map dec (w_id v)) (w_args v) Hn Hc Ha d r); [|exact Hd].
      rewrite <- Ed. unfold S. destruct (w_id v); reflexivity. }
  pose proof (T w H) as T1. pose proof (T w' H') as T2. cbv zeta in T1, T2. fold R in T1. fold R' in T2.
  rewrite E, T2 in T1. injection T1 as Ec ->. split; [|reflexivity].
  destruct (w_count w), (w_count w'); cbn in Ec; try discriminate; [|reflexivity].
  injection Ec as Ec. apply dec_inj in Ec. congruence.
Qed.
Lemma dec_no_comma n : ~ (exists a b, dec n = a ++ ","%byte :: b).
Proof.
  pose proof (dec_digits n) as D. rewrite forallb_forall in D.
  intros (a & b & E). specialize (D ","%byte). rewrite E in D. specialize (D (in_elt _ a b)). discriminate.
Qed.
(** How a text composed as intended can be misread: with a longer namespace, and then the rest is
    a proper suffix of the intended arguments. *)
Lemma longer_ns w w' a : wire_ok w -> wire_ok w' -> w_args w = Some a -> wire_text w = wire_text w' -> ns_length w < ns_length w' ->
  exists x a' ns', w_ns w <> None /\ w_args w' = Some ("["%byte :: a') /\ a = x ++ "["%byte :: a' /\ x <> [] /\
    w_ns w' = Some ns' /\ w_kind w = w_kind w' /\
    exists q, x = q ++ ","%byte :: opt_text dec (w_id w').
Proof.
  intros Hok Hok' Ea Et Hlt.
  destruct (wire_text_parts w w' Hok Hok' Et) as (Hk & _ & E).
  destruct (w_ns w') as [ns'|] eqn:En'; [|unfold ns_length in Hlt; rewrite En' in Hlt; cbn in Hlt; lia].
  rewrite Ea in E. cbn [opt_text] in E.
  destruct Hok as [Hn Ha]. destruct Hok' as [Hn' Ha'].
  destruct (Ha a Ea) as [[a0 ->] _]. destruct (Hn' ns' En') as [(c1 & r1 & Ens') _].
  destruct (w_ns w) as [ns|] eqn:En.
  - cbn [opt_text] in E. unfold ns_length in Hlt. rewrite En, En' in Hlt. cbn [opt_text] in Hlt.
    rewrite <- !app_assoc in E. cbn [app] in E. change (bs ",") with [","%byte] in E. cbn [app] in E.
    (* ns ++ "," ++ id ++ a = ns' ++ "," ++ id' ++ a' with ns' longer *)
    apply prefix_app in E as [(z & Ez & _)|(x' & Ex & E)].
    { exfalso. rewrite Ez, app_length in Hlt. lia. }
    destruct x' as [|c x']; [exfalso; rewrite app_nil_r in Ex; subst; lia|]. cbn [app] in E. injection E as <- E.
    (* idtext ++ a = x' ++ "," ++ idtext' ++ a' *)
    assert (Hargs : exists a', w_args w' = Some ("["%byte :: a')).
    { destruct (w_args w') as [a'|] eqn:Ea'; [destruct (Ha' a' eq_refl) as [[b ->] _]; eauto|].
      exfalso. cbn [opt_text] in E. rewrite app_nil_r in E.
      assert (Hlast : last (opt_text dec (w_id w) ++ "["%byte :: a0 ++ ["]"%byte]) x00 = "]"%byte).
      { rewrite app_comm_cons, app_assoc. apply last_last. }
      rewrite E in Hlast. destruct (w_id w') as [i|]; cbn [opt_text] in Hlast.
      - destruct (dec_spec i) as (Hdig & Hnil & _). destruct (exists_last Hnil) as (d & e & Ed). rewrite Ed in Hlast, Hdig.
        rewrite app_comm_cons, app_assoc, last_last in Hlast. subst e.
        rewrite forallb_app in Hdig. apply andb_true_iff in Hdig as [_ Hdig]. discriminate.
      - rewrite last_last in Hlast. discriminate. }
    destruct Hargs as [a' Ea']. rewrite Ea' in E. cbn [opt_text] in E.
    change (opt_text dec (w_id w) ++ ("["%byte :: a0 ++ ["]"%byte]) = x' ++ [","%byte] ++ opt_text dec (w_id w') ++ "["%byte :: a') in E.
    rewrite !app_assoc in E. apply prefix_app in E as [(z & Ez & _)|(y & Ey & E)].
    + (* the cut lies inside the id: impossible, it contains a comma *)
      exfalso. destruct (w_id w) as [i|]; cbn [opt_text] in Ez.
      * apply (dec_no_comma i). exists x', (opt_text dec (w_id w') ++ z). rewrite Ez, <- !app_assoc. reflexivity.
      * destruct x'; discriminate.
    + exists y, a', ns'. split; [congruence|]. split; [exact Ea'|]. split; [exact E|].
      assert (Hq : exists q, y = q ++ ","%byte :: opt_text dec (w_id w')).
      { rewrite <- app_assoc in Ey. change ([","%byte] ++ opt_text dec (w_id w')) with (","%byte :: opt_text dec (w_id w')) in Ey.
        symmetry in Ey. apply prefix_app in Ey as [(z & Ez & Ey)|(q & _ & Eq)]; [|exists q; exact Eq].
        destruct z as [|c0 z]; [exists []; symmetry; exact Ey|exfalso].
        cbn [app] in Ey. injection Ey as <- _. destruct (w_id w) as [i|]; cbn [opt_text] in Ez; [|destruct x'; discriminate].
        apply (dec_no_comma i). eauto. }
      split; [|auto]. destruct Hq as [q ->]. destruct q; discriminate.
  - exfalso. cbn [opt_text app] in E. subst ns'. cbn [app] in E.
    destruct (w_id w) as [i|]; cbn [opt_text app] in E; [|discriminate].
    destruct (dec_spec i) as (Hdig & Hnil & _). destruct (dec i) as [|c d]; [congruence|]. injection E as -> _. discriminate.
Qed.
Lemma misread w w' a : wire_ok w -> w_args w = Some a -> reads_as (wire_text w) w' -> w' <> w ->
  exists x a' ns', w_ns w <> None /\ w_args w' = Some ("["%byte :: a') /\ a = x ++ "["%byte :: a' /\ x <> [] /\
    w_ns w' = Some ns' /\ w_kind w = w_kind w' /\
    exists q, x = q ++ ","%byte :: opt_text dec (w_id w').
Proof.
  intros Hok Ea Hr Hne. pose proof Hr as (Et & Hok' & Hmax). apply longer_ns; try assumption.
  pose proof (Hmax w eq_refl Hok) as Hle. destruct (Nat.eq_dec (ns_length w) (ns_length w')) as [El|El]; [|lia].
  exfalso. apply Hne. apply (reads_as_unique (wire_text w)); [exact Hr|]. split; [reflexivity|]. split; [exact Hok|].
  intros v Ev Hv. rewrite El. apply Hmax; assumption.
Qed.
