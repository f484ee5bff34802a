(** Proofs about callbacks that call callbacks. *)
From Verif Require Export SpecNest SharedProofs.
From Coq Require Import Lia.

(** The bodies that thread [t] executes, from the observations. *)
Fixpoint stack (t : nat) (o : list cobs) (acc : list cb) : list cb :=
  match o with
  | [] => acc
  | CBegin t' f :: o' => stack t o' (if Nat.eqb t' t then f :: acc else acc)
  | CEnd t' _ _ :: o' => stack t o' (if Nat.eqb t' t then tl acc else acc)
  | CRefused _ _ :: o' => stack t o' acc
  end.
Lemma stack_app t o : forall o' acc, stack t (o ++ o') acc = stack t o' (stack t o acc).
Proof. induction o as [|x o IH]; intros; [reflexivity|]. destruct x; cbn; apply IH. Qed.

Record okm (m : cb -> mutex) (o : list cobs) : Prop := Okm {
  ok_holder : forall f t, x_holder (m f) = Some t <-> In f (stack t o []);
  ok_nodup : forall t, NoDup (stack t o []);
  ok_exec : forall t f, In f (stack t o []) <-> executes o t f;
  ok_poison : forall f, x_poisoned (m f) = true <-> was_passed o f;
  ok_deep : forall t fs1 f fs2, stack t o [] = fs1 ++ f :: fs2 ->
    exists o1 o2, o = o1 ++ CBegin t f :: o2 /\ (forall t' p, ~ In (CEnd t' f p) o2) /\ forall g, executes o2 t g -> In g fs1 }.

Lemma executes_snoc o t f x : executes (o ++ [x]) t f <-> x = CBegin t f \/ (executes o t f /\ forall t' p, x <> CEnd t' f p).
Proof.
  split.
  - intros (o1 & o2 & E & N). destruct o2 as [|y o2] using rev_ind.
    + apply app_inj_tail in E. left. tauto.
    + rewrite app_comm_cons, app_assoc in E. apply app_inj_tail in E. destruct E as [-> ->]. right. split.
      * exists o1, o2. split; [reflexivity|]. intros t' p A. apply (N t' p). apply in_or_app. auto.
      * intros t' p ->. apply (N t' p). apply in_or_app. cbn. auto.
  - intros [->|[(o1 & o2 & -> & N) A]].
    + exists o, []. split; [reflexivity|]. cbn. tauto.
    + exists o1, (o2 ++ [x]). split; [rewrite <- app_assoc; reflexivity|]. intros t' p B. apply in_app_or in B.
      destruct B as [B|[B|[]]]; [exact (N _ _ B)|exact (A _ _ B)].
Qed.
Lemma passed_snoc o f x : was_passed (o ++ [x]) f <-> was_passed o f \/ exists t, x = CEnd t f true.
Proof.
  split.
  - intros [t A]. apply in_app_or in A. destruct A as [A|[->|[]]]; [left; exists t; exact A|right; eauto].
  - intros [[t A]|[t ->]]; exists t; apply in_or_app; cbn; auto.
Qed.
Lemma cb_dec (f g : cb) : f = g \/ f <> g.
Proof. destruct (N.eq_dec f g); auto. Qed.
Lemma set_mutex_eq f x m : set_mutex f x m f = x.
Proof. unfold set_mutex. rewrite N.eqb_refl. reflexivity. Qed.
Lemma set_mutex_neq f g x m : g <> f -> set_mutex f x m g = m g.
Proof. intros A. unfold set_mutex. destruct (N.eqb_spec g f); congruence. Qed.

Lemma okm_begin m o t f : okm m o -> m f = Mutex None false -> okm (set_mutex f (Mutex (Some t) false) m) (o ++ [CBegin t f]).
Proof.
  intros [H D E P DP] A.
  assert (F : forall t', ~ In f (stack t' o [])) by (intros t' B; apply H in B; rewrite A in B; discriminate).
  constructor.
  - intros g t'. rewrite stack_app. cbn. destruct (cb_dec g f) as [->|B].
    + rewrite set_mutex_eq. cbn. destruct (Nat.eqb_spec t t') as [->|C].
      * cbn. tauto.
      * split; [congruence|]. intros G. elim (F _ G).
    + rewrite set_mutex_neq by exact B. rewrite H. destruct (Nat.eqb t t'); cbn; [|tauto]. split; [auto|]. intros [<-|G]; [congruence|exact G].
  - intros t'. rewrite stack_app. cbn. destruct (Nat.eqb t t'); [constructor; auto|auto].
  - intros t' g. rewrite executes_snoc, <- E, stack_app. cbn. destruct (Nat.eqb_spec t t') as [->|C]; cbn.
    + split; [intros [->|G]; [auto|right; split; [exact G|discriminate]]|]. intros [G|[G _]]; [injection G; auto|auto].
    + split; [intros G; right; split; [exact G|discriminate]|]. intros [G|[G _]]; [congruence|exact G].
  - intros g. rewrite passed_snoc. destruct (cb_dec g f) as [->|B].
    + rewrite set_mutex_eq. cbn. split; [discriminate|]. intros [G|[? G]]; [|discriminate]. apply P in G. rewrite A in G. exact G.
    + rewrite set_mutex_neq by exact B. rewrite P. split; [auto|]. intros [G|[? G]]; [exact G|discriminate].
  - intros t' fs1 g fs2. rewrite stack_app. cbn. intros S.
    assert (Q : t' <> t \/ t' = t) by lia. destruct Q as [Q| ->].
    + destruct (Nat.eqb_spec t t'); [congruence|]. destruct (DP _ _ _ _ S) as (o1 & o2 & EO & N1 & N2); subst o.
      exists o1, (o2 ++ [CBegin t f]). rewrite <- app_assoc. split; [reflexivity|]. split.
      * intros u p I. apply in_app_or in I. destruct I as [I|[I|[]]]; [exact (N1 _ _ I)|discriminate].
      * intros h I. apply executes_snoc in I. destruct I as [I|[I _]]; [congruence|auto].
    + rewrite Nat.eqb_refl in S. destruct fs1 as [|h fs1]; injection S as <- S.
      * exists o, []. split; [reflexivity|]. split; [cbn; tauto|]. intros h (a & b & I & _). destruct a; discriminate.
      * destruct (DP _ _ _ _ S) as (o1 & o2 & EO & N1 & N2); subst o. exists o1, (o2 ++ [CBegin t f]). rewrite <- app_assoc. split; [reflexivity|]. split.
        -- intros u p I. apply in_app_or in I. destruct I as [I|[I|[]]]; [exact (N1 _ _ I)|discriminate].
        -- intros h I. apply executes_snoc in I. destruct I as [I|[I _]]; [injection I as <-; cbn; auto|cbn; auto].
Qed.
Lemma okm_end m o t f fs p b : okm m o -> stack t o [] = f :: fs -> b = (p || x_poisoned (m f))%bool ->
  okm (set_mutex f (Mutex None b) m) (o ++ [CEnd t f p]).
Proof.
  intros [H D E P DP] A Hb.
  assert (F : x_holder (m f) = Some t) by (apply H; rewrite A; cbn; auto).
  assert (G0 : ~ In f fs) by (specialize (D t); rewrite A in D; inversion D; assumption).
  assert (S0 : forall t' g, In g (stack t' (o ++ [CEnd t f p]) []) <-> In g (stack t' o []) /\ g <> f).
  { intros t' g. rewrite stack_app. cbn. destruct (Nat.eqb_spec t t') as [<-|C].
    - rewrite A. cbn. split; [intros B; split; [auto|intros ->; auto]|]. intros [[->|B] N]; [congruence|exact B].
    - split; [|tauto]. intros B. split; [exact B|]. intros ->. apply H in B. rewrite F in B. congruence. }
  constructor.
  - intros g t'. rewrite S0, <- H. destruct (cb_dec g f) as [->|B].
    + rewrite set_mutex_eq. cbn. split; [discriminate|tauto].
    + rewrite set_mutex_neq by exact B. tauto.
  - intros t'. rewrite stack_app. cbn. destruct (Nat.eqb_spec t t') as [<-|C]; [|apply D].
    rewrite A. cbn. specialize (D t). rewrite A in D. inversion D. assumption.
  - intros t' g. rewrite S0, E, executes_snoc. split.
    + intros [B N]. right. split; [exact B|]. congruence.
    + intros [B|[B N]]; [discriminate|]. split; [exact B|]. intros ->. exact (N t p eq_refl).
  - intros g. rewrite passed_snoc. destruct (cb_dec g f) as [->|B].
    + rewrite set_mutex_eq. cbn. subst b. rewrite Bool.orb_true_iff, P. split.
      * intros [->|B]; [right; eauto|auto].
      * intros [B|[? B]]; [auto|]. left. congruence.
    + rewrite set_mutex_neq by exact B. rewrite P. split; [auto|]. intros [G|[? G]]; [exact G|congruence].
  - intros t' fs1 g fs2 S. assert (I0 : In g (stack t' (o ++ [CEnd t f p]) [])) by (rewrite S; apply in_or_app; cbn; auto).
    apply S0 in I0. destruct I0 as [_ I0]. rewrite stack_app in S. cbn in S.
    assert (Q : t' <> t \/ t' = t) by lia. destruct Q as [Q| ->].
    + destruct (Nat.eqb_spec t t'); [congruence|]. destruct (DP _ _ _ _ S) as (o1 & o2 & EO & N1 & N2); subst o.
      exists o1, (o2 ++ [CEnd t f p]). rewrite <- app_assoc. split; [reflexivity|]. split.
      * intros u q I. apply in_app_or in I. destruct I as [I|[I|[]]]; [exact (N1 _ _ I)|congruence].
      * intros h I. apply executes_snoc in I. destruct I as [I|[I _]]; [discriminate|auto].
    + rewrite Nat.eqb_refl, A in S. cbn in S. subst fs. destruct (DP t (f :: fs1) g fs2 A) as (o1 & o2 & -> & N1 & N2).
      exists o1, (o2 ++ [CEnd t f p]). rewrite <- app_assoc. split; [reflexivity|]. split.
      * intros u q I. apply in_app_or in I. destruct I as [I|[I|[]]]; [exact (N1 _ _ I)|congruence].
      * intros h I. apply executes_snoc in I. destruct I as [I|[I I1]]; [discriminate|]. apply N2 in I. destruct I as [->|I]; [|exact I].
        elim (I1 t p eq_refl).
Qed.
Lemma okm_refused m o t f : okm m o -> okm m (o ++ [CRefused t f]).
Proof.
  intros [H D E P DP]. constructor.
  - intros g t'. rewrite stack_app. cbn. apply H.
  - intros t'. rewrite stack_app. cbn. apply D.
  - intros t' g. rewrite stack_app, executes_snoc. cbn. rewrite E. split; [intros A; right; split; [exact A|discriminate]|].
    intros [A|[A _]]; [discriminate|exact A].
  - intros g. rewrite passed_snoc, P. split; [auto|]. intros [A|[? A]]; [exact A|discriminate].
  - intros t' fs1 g fs2. rewrite stack_app. cbn. intros S. destruct (DP _ _ _ _ S) as (o1 & o2 & EO & N1 & N2); subst o.
    exists o1, (o2 ++ [CRefused t f]). rewrite <- app_assoc. split; [reflexivity|]. split.
    + intros u p I. apply in_app_or in I. destruct I as [I|[I|[]]]; [exact (N1 _ _ I)|discriminate].
    + intros h I. apply executes_snoc in I. destruct I as [I|[I _]]; [discriminate|auto].
Qed.
Lemma okm_unwind t : forall fs m o rest, okm m o -> stack t o [] = fs ++ rest -> okm (unwind fs m) (o ++ map (fun g => CEnd t g true) fs).
Proof.
  induction fs as [|f fs IH]; intros m o rest K A; cbn.
  - rewrite app_nil_r. exact K.
  - replace (o ++ CEnd t f true :: map (fun g => CEnd t g true) fs) with ((o ++ [CEnd t f true]) ++ map (fun g => CEnd t g true) fs)
      by (rewrite <- app_assoc; reflexivity).
    apply IH with rest; [apply (okm_end m o t f (fs ++ rest)); [exact K|exact A|reflexivity]|].
    rewrite stack_app. cbn. rewrite Nat.eqb_refl, A. reflexivity.
Qed.
Lemma stack_ends t t' fs : forall acc, stack t' (map (fun g => CEnd t g true) fs) acc = if Nat.eqb t t' then skipn (length fs) acc else acc.
Proof.
  induction fs as [|f fs IH]; intros acc; cbn.
  - destruct (Nat.eqb t t'); reflexivity.
  - rewrite IH. destruct (Nat.eqb t t'); [|reflexivity]. destruct acc; cbn; [destruct (length fs); reflexivity|reflexivity].
Qed.

Definition ok_threads (s : nest) (o : list cobs) : Prop :=
  forall t, match nth_error (n_threads s) t with Some th => t_runs th = stack t o [] | None => stack t o [] = [] end.
Definition ok (s : nest) (o : list cobs) : Prop := okm (n_locks s) o /\ ok_threads s o.

Lemma ok_init n : ok (nest_init n) [].
Proof.
  split.
  - constructor; cbn.
    + intros f t. split; [discriminate|tauto].
    + intros _. constructor.
    + intros t f. split; [tauto|]. intros (o1 & o2 & A & _). destruct o1; discriminate.
    + intros f. split; [discriminate|]. intros [t []].
    + intros t fs1 f fs2 A. destruct fs1; discriminate.
  - intros t. cbn. destruct (nth_error (repeat (Thread [] None) n) t) eqn:A; [|reflexivity].
    apply nth_error_In, repeat_spec in A. subst. reflexivity.
Qed.
Lemma ok_update s o t th0 th m o' : ok_threads s o -> nth_error (n_threads s) t = Some th0 -> t_runs th = stack t (o ++ o') [] ->
  (forall t', t' <> t -> stack t' (o ++ o') [] = stack t' o []) -> ok_threads (Nest (list_update t th (n_threads s)) m) (o ++ o').
Proof.
  intros K A B C t'. cbn. rewrite nth_update. destruct (Nat.eqb_spec t t') as [<-|D].
  - rewrite A. exact B.
  - rewrite C by congruence. apply K.
Qed.
Lemma firstn_exact {A} k (l : list A) : k <= length l -> length (firstn k l) = k.
Proof. intros. rewrite firstn_length. lia. Qed.
Lemma ok_step s o l s' o' : ok s o -> cstep s l = Some (s', o') -> ok s' (o ++ o').
Proof.
  intros [K T] E. destruct l as [t f|t|t k|t|t k]; cbv beta iota zeta delta [cstep] in E.
  - destruct (nth_error (n_threads s) t) as [[fs [|]]|] eqn:A; try discriminate. injection E as <- <-. split; [rewrite app_nil_r; exact K|].
    pose proof (T t) as B. rewrite A in B. cbn in B. eapply ok_update; [exact T|exact A|rewrite app_nil_r; exact B|]. intros. rewrite app_nil_r. reflexivity.
  - destruct (nth_error (n_threads s) t) as [[fs [f|]]|] eqn:A; try discriminate. destruct (n_locks s f) as [[|] []] eqn:M; try discriminate.
    injection E as <- <-. split; [apply okm_begin; assumption|].
    pose proof (T t) as B. rewrite A in B. cbn in B. eapply ok_update; [exact T|exact A|rewrite stack_app; cbn; rewrite Nat.eqb_refl, B; reflexivity|].
    intros t' C. rewrite stack_app. cbn. destruct (Nat.eqb_spec t t'); congruence.
  - destruct (nth_error (n_threads s) t) as [[fs [f|]]|] eqn:A; try discriminate. destruct (n_locks s f) as [[|] []] eqn:M; try discriminate.
    destruct (Nat.leb_spec k (length fs)) as [L|L]; [|discriminate]. injection E as <- <-.
    pose proof (T t) as B. rewrite A in B. cbn in B.
    replace (o ++ CRefused t f :: map (fun g => CEnd t g true) (firstn k fs)) with ((o ++ [CRefused t f]) ++ map (fun g => CEnd t g true) (firstn k fs))
      by (rewrite <- app_assoc; reflexivity).
    split.
    + cbn. apply okm_unwind with (skipn k fs); [apply okm_refused; exact K|]. rewrite stack_app. cbn. rewrite <- B. symmetry. apply firstn_skipn.
    + rewrite <- app_assoc. eapply ok_update; [exact T|exact A| |].
      * rewrite !stack_app. cbn. rewrite stack_ends, Nat.eqb_refl, firstn_exact by exact L. rewrite <- B. reflexivity.
      * intros t' C. rewrite !stack_app. cbn. rewrite stack_ends. destruct (Nat.eqb_spec t t'); congruence.
  - destruct (nth_error (n_threads s) t) as [[[|f fs] [|]]|] eqn:A; try discriminate. injection E as <- <-.
    pose proof (T t) as B. rewrite A in B. cbn in B. split.
    + cbn. eapply okm_end; [exact K|symmetry; exact B|reflexivity].
    + eapply ok_update; [exact T|exact A|rewrite stack_app; cbn; rewrite Nat.eqb_refl, <- B; reflexivity|].
      intros t' C. rewrite stack_app. cbn. destruct (Nat.eqb_spec t t'); congruence.
  - destruct (nth_error (n_threads s) t) as [[fs [|]]|] eqn:A; try discriminate.
    destruct (Nat.leb 1 k && Nat.leb k (length fs))%bool eqn:L; [|discriminate]. injection E as <- <-.
    apply andb_prop in L. destruct L as [_ L]. apply Nat.leb_le in L.
    pose proof (T t) as B. rewrite A in B. cbn in B. split.
    + cbn. apply okm_unwind with (skipn k fs); [exact K|]. rewrite <- B. symmetry. apply firstn_skipn.
    + eapply ok_update; [exact T|exact A| |].
      * rewrite !stack_app. cbn. rewrite stack_ends, Nat.eqb_refl, firstn_exact by exact L. rewrite <- B. reflexivity.
      * intros t' C. rewrite !stack_app. cbn. rewrite stack_ends. destruct (Nat.eqb_spec t t'); congruence.
Qed.
Lemma cexecute_app ls : forall s ls', cexecute s (ls ++ ls') =
  match cexecute s ls with
  | Some (s1, o1) => match cexecute s1 ls' with Some (s2, o2) => Some (s2, o1 ++ o2) | None => None end
  | None => None
  end.
Proof.
  induction ls as [|l ls IH]; intros s ls'; cbn.
  - destruct (cexecute s ls') as [[]|]; reflexivity.
  - destruct (cstep s l) as [[s1 o1]|]; [|reflexivity]. rewrite IH. destruct (cexecute s1 ls) as [[s2 o2]|]; [|reflexivity].
    destruct (cexecute s2 ls') as [[s3 o3]|]; [|reflexivity]. rewrite app_assoc. reflexivity.
Qed.
Lemma ok_execute ls : forall s o s' o', ok s o -> cexecute s ls = Some (s', o') -> ok s' (o ++ o').
Proof.
  induction ls as [|l ls IH]; intros s o s' o' K E; cbn in E.
  - injection E as <- <-. rewrite app_nil_r. exact K.
  - destruct (cstep s l) as [[s1 o1]|] eqn:A; [|discriminate]. destruct (cexecute s1 ls) as [[s2 o2]|] eqn:B; [|discriminate].
    injection E as <- <-. rewrite app_assoc. eapply IH; [|exact B]. eapply ok_step; eauto.
Qed.
Lemma run_ok n ls s o : nest_run n ls s o -> ok s o.
Proof. intros R. exact (ok_execute ls _ [] _ _ (ok_init n) R). Qed.
Lemma nest_snoc n ls l s o : nest_run n (ls ++ [l]) s o -> exists s0 o0 o1, nest_run n ls s0 o0 /\ cstep s0 l = Some (s, o1) /\ o = o0 ++ o1.
Proof.
  unfold nest_run. rewrite cexecute_app. destruct (cexecute (nest_init n) ls) as [[s0 o0]|]; [|discriminate]. cbn.
  destruct (cstep s0 l) as [[s1 o1]|] eqn:A; [|discriminate]. intros E. injection E as <- <-. exists s0, o0, o1.
  rewrite app_nil_r. auto.
Qed.
Lemma snoc_run n ls l s o s' o' : nest_run n ls s o -> cstep s l = Some (s', o') -> nest_run n (ls ++ [l]) s' (o ++ o').
Proof. unfold nest_run. intros R E. rewrite cexecute_app, R. cbn. rewrite E, app_nil_r. reflexivity. Qed.
(** Where an observation comes from. *)
Lemma obs_source n ls : forall s o x o1 o2, nest_run n ls s o -> o = o1 ++ x :: o2 ->
  exists ls1 l ls2 s0 s1 o0 oa ob, ls = ls1 ++ l :: ls2 /\ nest_run n ls1 s0 o0 /\ cstep s0 l = Some (s1, oa ++ x :: ob) /\ o1 = o0 ++ oa.
Proof.
  induction ls as [|l ls IH] using rev_ind; intros s o x o1 o2 R E.
  - unfold nest_run in R. cbn in R. injection R as <- <-. destruct o1; discriminate.
  - apply nest_snoc in R. destruct R as (s0 & o0 & oz & R & A & ->).
    destruct (le_lt_dec (length o0) (length o1)) as [L|L].
    + assert (B : exists oa, o1 = o0 ++ oa).
      { exists (skipn (length o0) o1). assert (C := f_equal (firstn (length o0)) E). rewrite firstn_app, firstn_all, Nat.sub_diag, app_nil_r in C.
        rewrite firstn_app in C. replace (length o0 - length o1) with 0 in C by lia. rewrite app_nil_r in C. rewrite C at 1. symmetry. apply firstn_skipn. }
      destruct B as [oa ->]. rewrite <- app_assoc in E. apply app_inv_head in E. subst oz.
      exists ls, l, [], s0, s, o0, oa, o2. auto.
    + assert (B : exists ob, o0 = o1 ++ x :: ob).
      { assert (C := f_equal (firstn (length o0)) E). rewrite firstn_app, firstn_all, Nat.sub_diag, app_nil_r, firstn_app in C.
        rewrite firstn_all2 in C by lia. destruct (length o0 - length o1) as [|k] eqn:Q; [lia|]. cbn in C. eauto. }
      destruct B as [ob ->]. destruct (IH _ _ _ _ _ R eq_refl) as (ls1 & l1 & ls2 & a & b & c & d & e & -> & H1 & H2 & H3).
      exists ls1, l1, (ls2 ++ [l]), a, b, c, d, e. rewrite <- app_assoc. auto.
Qed.

(** ** One run of a callback at a time *)
Lemma map_end_in t fs a x b : map (fun g : cb => CEnd t g true) fs = a ++ x :: b -> exists g, x = CEnd t g true.
Proof. intros E. assert (A : In x (map (fun g : cb => CEnd t g true) fs)) by (rewrite E; apply in_or_app; cbn; auto). apply in_map_iff in A. destruct A as (g & <- & _). eauto. Qed.
Lemma begin_source s l s1 oa t f ob : cstep s l = Some (s1, oa ++ CBegin t f :: ob) -> l = CEnter t /\ calls s t f /\ n_locks s f = Mutex None false /\ oa = [] /\ ob = [].
Proof.
  destruct l as [t' f'|t'|t' k|t'|t' k]; cbv beta iota zeta delta [cstep]; intros E.
  - destruct (nth_error (n_threads s) t') as [[fs [|]]|] eqn:A; try discriminate. injection E as _ E. destruct oa; discriminate.
  - destruct (nth_error (n_threads s) t') as [[fs [g|]]|] eqn:A; try discriminate. destruct (n_locks s g) as [[|] []] eqn:M; try discriminate.
    injection E as _ E. destruct oa as [|? oa]; [|destruct oa; discriminate]. injection E as <- <- <-. unfold calls. eauto 6.
  - destruct (nth_error (n_threads s) t') as [[fs [g|]]|] eqn:A; try discriminate. destruct (n_locks s g) as [[|] []] eqn:M; try discriminate.
    destruct (Nat.leb k (length fs)); [|discriminate]. injection E as _ E. destruct oa as [|? oa]; [discriminate|]. injection E as _ E.
    apply map_end_in in E. destruct E; discriminate.
  - destruct (nth_error (n_threads s) t') as [[[|g fs] [|]]|] eqn:A; try discriminate. injection E as _ E. destruct oa as [|? oa]; [discriminate|destruct oa; discriminate].
  - destruct (nth_error (n_threads s) t') as [[fs [|]]|] eqn:A; try discriminate.
    destruct (Nat.leb 1 k && Nat.leb k (length fs))%bool eqn:L; [|discriminate]. injection E as _ E. apply map_end_in in E. destruct E; discriminate.
Qed.
Lemma begins_alone n ls s o o1 t f o2 : nest_run n ls s o -> o = o1 ++ CBegin t f :: o2 ->
  (forall t', ~ executes o1 t' f) /\ ~ was_passed o1 f.
Proof.
  intros R E. destruct (obs_source _ _ _ _ _ _ _ R E) as (ls1 & l & ls2 & s0 & s1 & o0 & oa & ob & -> & R0 & A & ->).
  apply begin_source in A. destruct A as (-> & _ & M & -> & ->). rewrite app_nil_r. destruct (run_ok _ _ _ _ R0) as [K _]. split.
  - intros t' B. apply (ok_exec _ _ K), (ok_holder _ _ K) in B. rewrite M in B. discriminate.
  - intros B. apply (ok_poison _ _ K) in B. rewrite M in B. discriminate.
Qed.
Lemma one_executes n ls s o t t' f : nest_run n ls s o -> executes o t f -> executes o t' f -> t = t'.
Proof.
  intros R A B. destruct (run_ok _ _ _ _ R) as [K _]. apply (ok_exec _ _ K), (ok_holder _ _ K) in A. apply (ok_exec _ _ K), (ok_holder _ _ K) in B. congruence.
Qed.

Lemma cut {A} (p : list A) : forall q o1 o2 x y, p ++ x :: q = o1 ++ y :: o2 ->
  (p = o1 /\ x = y /\ q = o2) \/ (exists z, o1 = p ++ x :: z /\ q = z ++ y :: o2) \/ (exists z, p = o1 ++ y :: z /\ o2 = z ++ x :: q).
Proof.
  induction p as [|a p IH]; intros q [|b o1] o2 x y E; cbn in E.
  - injection E as -> ->. auto.
  - injection E as -> ->. right. left. exists o1. auto.
  - injection E as -> <-. right. right. exists p. auto.
  - injection E as -> E. destruct (IH _ _ _ _ _ E) as [(-> & -> & ->)|[(z & -> & ->)|(z & -> & ->)]]; [auto|right; left; exists z; auto|right; right; exists z; auto].
Qed.
Lemma innermost_iff m o t f : okm m o -> innermost o t f <-> exists fs, stack t o [] = f :: fs.
Proof.
  intros K. split.
  - intros (o1 & o2 & E & N & X). assert (I : executes o t f) by (exists o1, o2; auto). apply (ok_exec _ _ K) in I.
    destruct (stack t o []) as [|h fs] eqn:S; [destruct I|]. destruct (cb_dec h f) as [->|C]; [eauto|].
    destruct (ok_deep _ _ K t [] h fs S) as (p & q & E' & N' & X'). rewrite E in E'. destruct (cut _ _ _ _ _ _ E') as [(-> & A & ->)|[(z & -> & ->)|(z & -> & ->)]].
    + congruence.
    + elim (X h). exists z, q. auto.
    + elim (X' f). exists z, o2. auto.
  - intros [fs S]. destruct (ok_deep _ _ K t [] f fs S) as (p & q & E' & N' & X'). exists p, q. auto.
Qed.
Lemma map_end_split t (fs : list cb) oa x ob : map (fun g => CEnd t g true) fs = oa ++ x :: ob ->
  exists fs1 g fs2, fs = fs1 ++ g :: fs2 /\ oa = map (fun g => CEnd t g true) fs1 /\ x = CEnd t g true.
Proof.
  revert fs. induction oa as [|y oa IH]; intros [|f fs] E; try discriminate; cbn in E.
  - injection E as <- _. exists [], f, fs. auto.
  - injection E as <- E. destruct (IH _ E) as (fs1 & g & fs2 & -> & -> & ->). exists (f :: fs1), g, fs2. auto.
Qed.
(** What ends is the innermost body of its thread; by a panic if and only if one passes. *)
Lemma end_source s o l s1 oa t f p ob : ok s o -> cstep s l = Some (s1, oa ++ CEnd t f p :: ob) ->
  (exists fs, stack t (o ++ oa) [] = f :: fs) /\
  (if p then exists k, l = CPanic t k \/ l = CRefuse t k else l = CReturn t).
Proof.
  intros [K T]. destruct l as [t' f'|t'|t' k|t'|t' k]; cbv beta iota zeta delta [cstep]; intros E.
  - destruct (nth_error (n_threads s) t') as [[fs [|]]|] eqn:A; try discriminate. injection E as _ E. destruct oa; discriminate.
  - destruct (nth_error (n_threads s) t') as [[fs [g|]]|] eqn:A; try discriminate. destruct (n_locks s g) as [[|] []] eqn:M; try discriminate.
    injection E as _ E. destruct oa as [|? oa]; [discriminate|destruct oa; discriminate].
  - destruct (nth_error (n_threads s) t') as [[fs [g|]]|] eqn:A; try discriminate. destruct (n_locks s g) as [[|] []] eqn:M; try discriminate.
    destruct (Nat.leb k (length fs)); [|discriminate]. injection E as _ E. destruct oa as [|? oa]; [discriminate|]. injection E as <- E.
    pose proof (T t') as B. rewrite A in B. cbn in B.
    apply map_end_split in E. destruct E as (fs1 & h & fs2 & E & -> & C). injection C as -> -> ->. split; [|eauto].
    exists (fs2 ++ skipn k fs). rewrite stack_app. cbn. rewrite stack_ends, Nat.eqb_refl, <- B. rewrite <- (firstn_skipn k fs), E at 1.
    rewrite <- app_assoc, skipn_app, skipn_all, Nat.sub_diag. reflexivity.
  - destruct (nth_error (n_threads s) t') as [[[|g fs] [|]]|] eqn:A; try discriminate. injection E as _ E. destruct oa as [|? oa]; [|destruct oa; discriminate].
    injection E as -> -> <-. pose proof (T t) as B. rewrite A in B. cbn in B. rewrite app_nil_r. split; [eauto|reflexivity].
  - destruct (nth_error (n_threads s) t') as [[fs [|]]|] eqn:A; try discriminate.
    destruct (Nat.leb 1 k && Nat.leb k (length fs))%bool eqn:L; [|discriminate]. injection E as _ E.
    pose proof (T t') as B. rewrite A in B. cbn in B.
    apply map_end_split in E. destruct E as (fs1 & h & fs2 & E & -> & C). injection C as -> -> ->. split; [|eauto].
    exists (fs2 ++ skipn k fs). rewrite stack_app. rewrite stack_ends, Nat.eqb_refl, <- B. rewrite <- (firstn_skipn k fs), E at 1.
    rewrite <- app_assoc, skipn_app, skipn_all, Nat.sub_diag. reflexivity.
Qed.
Lemma ends_innermost n ls s o o1 t f p o2 : nest_run n ls s o -> o = o1 ++ CEnd t f p :: o2 -> innermost o1 t f.
Proof.
  intros R E. destruct (obs_source _ _ _ _ _ _ _ R E) as (ls1 & l & ls2 & s0 & s1 & o0 & oa & ob & -> & R0 & A & ->).
  pose proof (run_ok _ _ _ _ R0) as [K T]. destruct (end_source _ _ _ _ _ _ _ _ _ (conj K T) A) as [[fs S] _].
  (* the observations of one step up to here are a step's worth of endings *)
  assert (Q : exists m, okm m (o0 ++ oa)).
  { destruct l as [t' f'|t'|t' k|t'|t' k]; cbv beta iota zeta delta [cstep] in A.
    - destruct (nth_error (n_threads s0) t') as [[gs [|]]|] eqn:B; try discriminate. injection A as _ A. destruct oa; discriminate.
    - destruct (nth_error (n_threads s0) t') as [[gs [g|]]|] eqn:B; try discriminate. destruct (n_locks s0 g) as [[|] []] eqn:M; try discriminate.
      injection A as _ A. destruct oa as [|? oa]; [discriminate|destruct oa; discriminate].
    - destruct (nth_error (n_threads s0) t') as [[gs [g|]]|] eqn:B; try discriminate. destruct (n_locks s0 g) as [[|] []] eqn:M; try discriminate.
      destruct (Nat.leb k (length gs)); [|discriminate]. injection A as _ A. destruct oa as [|? oa]; [discriminate|]. injection A as <- A.
      pose proof (T t') as C. rewrite B in C. cbn in C.
      apply map_end_split in A. destruct A as (fs1 & h & fs2 & A & -> & _). exists (unwind fs1 (n_locks s0)).
      replace (o0 ++ CRefused t' g :: map (fun h => CEnd t' h true) fs1) with ((o0 ++ [CRefused t' g]) ++ map (fun h => CEnd t' h true) fs1)
        by (rewrite <- app_assoc; reflexivity).
      apply okm_unwind with (h :: fs2 ++ skipn k gs); [apply okm_refused; exact K|]. rewrite stack_app. cbn. rewrite <- C, <- (firstn_skipn k gs), A at 1.
      rewrite <- app_assoc. reflexivity.
    - destruct (nth_error (n_threads s0) t') as [[[|g gs] [|]]|] eqn:B; try discriminate. injection A as _ A. destruct oa as [|? oa]; [|destruct oa; discriminate].
      rewrite app_nil_r. eauto.
    - destruct (nth_error (n_threads s0) t') as [[gs [|]]|] eqn:B; try discriminate.
      destruct (Nat.leb 1 k && Nat.leb k (length gs))%bool eqn:L; [|discriminate]. injection A as _ A.
      pose proof (T t') as C. rewrite B in C. cbn in C.
      apply map_end_split in A. destruct A as (fs1 & h & fs2 & A & -> & _). exists (unwind fs1 (n_locks s0)).
      apply okm_unwind with (h :: fs2 ++ skipn k gs); [exact K|]. rewrite <- C, <- (firstn_skipn k gs), A at 1.
      rewrite <- app_assoc. reflexivity. }
  destruct Q as [m Q]. apply (innermost_iff _ _ _ _ Q). eauto.
Qed.
Lemma goes_on n ls s o t f : nest_run n ls s o -> calls s t f ->
  ((exists s' o', cstep s (CEnter t) = Some (s', o')) <-> (forall t', ~ executes o t' f) /\ ~ was_passed o f) /\
  ((exists s' o', cstep s (CRefuse t 0) = Some (s', o')) <-> (forall t', ~ executes o t' f) /\ was_passed o f).
Proof.
  intros R [fs A]. destruct (run_ok _ _ _ _ R) as [K T]. cbn. rewrite A.
  assert (H : (forall t', ~ executes o t' f) <-> x_holder (n_locks s f) = None).
  { split.
    - intros B. destruct (x_holder (n_locks s f)) as [u|] eqn:C; [|reflexivity]. apply (ok_holder _ _ K), (ok_exec _ _ K) in C. elim (B _ C).
    - intros B t' C. apply (ok_exec _ _ K), (ok_holder _ _ K) in C. congruence. }
  rewrite H, <- (ok_poison _ _ K). destruct (n_locks s f) as [[u|] []]; cbn; split; split; intros C;
    try (destruct C as (? & ? & C); discriminate C); try (destruct C as [C1 C2]; congruence); try (split; congruence); eauto.
Qed.

(** ** Panics *)
Lemma refused_source s l s1 oa t f ob : cstep s l = Some (s1, oa ++ CRefused t f :: ob) -> exists k, l = CRefuse t k /\ calls s t f /\ n_locks s f = Mutex None true /\ oa = [].
Proof.
  destruct l as [t' f'|t'|t' k|t'|t' k]; cbv beta iota zeta delta [cstep]; intros E.
  - destruct (nth_error (n_threads s) t') as [[fs [|]]|] eqn:A; try discriminate. injection E as _ E. destruct oa; discriminate.
  - destruct (nth_error (n_threads s) t') as [[fs [g|]]|] eqn:A; try discriminate. destruct (n_locks s g) as [[|] []] eqn:M; try discriminate.
    injection E as _ E. destruct oa as [|? oa]; [discriminate|destruct oa; discriminate].
  - destruct (nth_error (n_threads s) t') as [[fs [g|]]|] eqn:A; try discriminate. destruct (n_locks s g) as [[|] []] eqn:M; try discriminate.
    destruct (Nat.leb k (length fs)); [|discriminate]. injection E as _ E. destruct oa as [|? oa].
    + injection E as -> -> _. exists k. unfold calls. eauto 6.
    + injection E as _ E. apply map_end_in in E. destruct E; discriminate.
  - destruct (nth_error (n_threads s) t') as [[[|g fs] [|]]|] eqn:A; try discriminate. injection E as _ E. destruct oa as [|? oa]; [discriminate|destruct oa; discriminate].
  - destruct (nth_error (n_threads s) t') as [[fs [|]]|] eqn:A; try discriminate.
    destruct (Nat.leb 1 k && Nat.leb k (length fs))%bool eqn:L; [|discriminate]. injection E as _ E. apply map_end_in in E. destruct E; discriminate.
Qed.
Lemma refused_passed n ls s o o1 t f o2 : nest_run n ls s o -> o = o1 ++ CRefused t f :: o2 ->
  was_passed o1 f /\ forall t', ~ executes o1 t' f.
Proof.
  intros R E. destruct (obs_source _ _ _ _ _ _ _ R E) as (ls1 & l & ls2 & s0 & s1 & o0 & oa & ob & -> & R0 & A & ->).
  apply refused_source in A. destruct A as (k & -> & _ & M & ->). rewrite app_nil_r. destruct (run_ok _ _ _ _ R0) as [K _]. split.
  - apply (ok_poison _ _ K). rewrite M. reflexivity.
  - intros t' B. apply (ok_exec _ _ K), (ok_holder _ _ K) in B. rewrite M in B. discriminate.
Qed.
Lemma passed_cause n ls s o f : nest_run n ls s o -> was_passed o f ->
  exists ls1 l ls2 s0 o0 t k, ls = ls1 ++ l :: ls2 /\ nest_run n ls1 s0 o0 /\ executes o0 t f /\
    ((l = CPanic t k /\ exists g, innermost o0 t g) \/ (l = CRefuse t k /\ exists g, calls s0 t g /\ was_passed o0 g)).
Proof.
  intros R [t A]. apply in_split in A. destruct A as (o1 & o2 & E).
  destruct (obs_source _ _ _ _ _ _ _ R E) as (ls1 & l & ls2 & s0 & s1 & o0 & oa & ob & -> & R0 & A & ->).
  pose proof (run_ok _ _ _ _ R0) as [K T]. destruct (end_source _ _ _ _ _ _ _ _ _ (conj K T) A) as [_ [k L]].
  exists ls1, l, ls2, s0, o0, t, k. split; [reflexivity|]. split; [exact R0|].
  destruct L as [->| ->]; cbv beta iota zeta delta [cstep] in A.
  - destruct (nth_error (n_threads s0) t) as [[gs [|]]|] eqn:B; try discriminate.
    destruct (Nat.leb 1 k && Nat.leb k (length gs))%bool eqn:L; [|discriminate]. injection A as _ A.
    pose proof (T t) as C. rewrite B in C. cbn in C. apply map_end_split in A. destruct A as (fs1 & h & fs2 & A & _ & D). injection D as <-.
    assert (I : In f gs) by (rewrite <- (firstn_skipn k gs), A; apply in_or_app; left; apply in_or_app; cbn; auto).
    split; [apply (ok_exec _ _ K); rewrite <- C; exact I|]. left. split; [reflexivity|]. destruct gs as [|g gs]; [destruct I|]. exists g. apply (innermost_iff _ _ _ _ K). eauto.
  - destruct (nth_error (n_threads s0) t) as [[gs [g|]]|] eqn:B; try discriminate. destruct (n_locks s0 g) as [[|] []] eqn:M; try discriminate.
    destruct (Nat.leb k (length gs)); [|discriminate]. injection A as _ A. destruct oa as [|? oa]; [discriminate|]. injection A as <- A.
    pose proof (T t) as C. rewrite B in C. cbn in C. apply map_end_split in A. destruct A as (fs1 & h & fs2 & A & _ & D). injection D as <-.
    assert (I : In f gs) by (rewrite <- (firstn_skipn k gs), A; apply in_or_app; left; apply in_or_app; cbn; auto).
    split; [apply (ok_exec _ _ K); rewrite <- C; exact I|]. right. split; [reflexivity|]. exists g. split; [exists gs; exact B|]. apply (ok_poison _ _ K). rewrite M. reflexivity.
Qed.
Lemma caught_panics n ls s o t f : nest_run n ls s o -> bodies_catch ls -> In (CRefused t f) o -> has_panicked_itself n ls f.
Proof.
  intros R BC A. apply in_split in A. destruct A as (o1 & o2 & E). destruct (refused_passed _ _ _ _ _ _ _ _ R E) as [[u P] _].
  apply in_split in P. destruct P as (oc & od & ->). rewrite <- app_assoc in E. cbn in E. rename E into E0.
  destruct (obs_source _ _ _ _ _ _ _ R E0) as (ls1 & l & ls2 & s0 & s1 & o0 & oa & ob & -> & R0 & A & ->).
  pose proof (run_ok _ _ _ _ R0) as [K T]. destruct (end_source _ _ _ _ _ _ _ _ _ (conj K T) A) as [[fs S] [k L]].
  assert (I : In l (ls1 ++ l :: ls2)) by (apply in_or_app; cbn; auto).
  destruct L as [->| ->].
  - apply (proj1 (BC u k)) in I. subst k. assert (oa = []).
    { cbv beta iota zeta delta [cstep] in A. destruct (nth_error (n_threads s0) u) as [[gs [|]]|] eqn:B; try discriminate.
      destruct (Nat.leb 1 1 && Nat.leb 1 (length gs))%bool eqn:L; [|discriminate]. injection A as _ A. destruct gs as [|g gs]; [discriminate|].
      cbn in A. destruct oa as [|? oa]; [reflexivity|destruct oa; discriminate]. }
    subst oa. rewrite app_nil_r in S. exists ls1, u, 1, ls2, s0, o0. split; [reflexivity|]. split; [exact R0|]. apply (innermost_iff _ _ _ _ K). eauto.
  - apply (proj2 (BC u k)) in I. subst k. exfalso. cbn in A. destruct (nth_error (n_threads s0) u) as [[gs [g|]]|] eqn:B; try discriminate.
    destruct (n_locks s0 g) as [[|] []]; try discriminate. injection A as _ A. destruct oa as [|? oa]; [discriminate|destruct oa; discriminate].
Qed.

(** ** Deadlocks *)
Definition blocks (s : nest) (t : nat) : option nat :=
  match nth_error (n_threads s) t with Some (Thread _ (Some f)) => x_holder (n_locks s f) | _ => None end.
Lemma awaits_iff s o t t' : ok s o -> awaits s o t t' <-> blocks s t = Some t'.
Proof.
  intros [K T]. unfold awaits, blocks, calls. split.
  - intros (f & [fs A] & B). rewrite A. apply (ok_exec _ _ K), (ok_holder _ _ K) in B. exact B.
  - destruct (nth_error (n_threads s) t) as [[fs [f|]]|] eqn:A; try discriminate. intros B. exists f. split; [eauto|].
    apply (ok_exec _ _ K), (ok_holder _ _ K). exact B.
Qed.
Definition acts (l : clabel) : nat := match l with CCall t _ | CEnter t | CRefuse t _ | CReturn t | CPanic t _ => t end.
Lemma unwind_other fs : forall m f, ~ In f fs -> unwind fs m f = m f.
Proof.
  induction fs as [|g fs IH]; intros m f A; cbn; [reflexivity|]. cbn in A. rewrite IH by tauto. apply set_mutex_neq. intros ->. tauto.
Qed.
Lemma other_threads s l s' o' t : cstep s l = Some (s', o') -> t <> acts l -> nth_error (n_threads s') t = nth_error (n_threads s) t.
Proof.
  intros E A. destruct l as [u f|u|u k|u|u k]; cbv beta iota zeta delta [cstep] in E; cbn [acts] in A;
    destruct (nth_error (n_threads s) u) as [[fs [g|]]|] eqn:B; try discriminate.
  - injection E as <- _. cbn. rewrite nth_update. destruct (Nat.eqb_spec u t); congruence.
  - destruct (n_locks s g) as [[|] []]; try discriminate. injection E as <- _. cbn. rewrite nth_update. destruct (Nat.eqb_spec u t); congruence.
  - destruct (n_locks s g) as [[|] []]; try discriminate. destruct (Nat.leb k (length fs)); [|discriminate]. injection E as <- _. cbn. rewrite nth_update. destruct (Nat.eqb_spec u t); congruence.
  - destruct fs; discriminate.
  - destruct fs as [|g fs]; [discriminate|]. injection E as <- _. cbn. rewrite nth_update. destruct (Nat.eqb_spec u t); congruence.
  - destruct (Nat.leb 1 k && Nat.leb k (length fs))%bool; [|discriminate]. injection E as <- _. cbn. rewrite nth_update. destruct (Nat.eqb_spec u t); congruence.
Qed.
Lemma blocked_stays s l s' o' : cstep s l = Some (s', o') -> blocks s (acts l) = None.
Proof.
  intros E. unfold blocks. destruct l as [u f|u|u k|u|u k]; cbv beta iota zeta delta [cstep] in E; cbn [acts];
    destruct (nth_error (n_threads s) u) as [[fs [g|]]|] eqn:B; try discriminate; try reflexivity.
  - destruct (n_locks s g) as [[|] []]; try discriminate. reflexivity.
  - destruct (n_locks s g) as [[|] []]; try discriminate. reflexivity.
  - destruct fs; discriminate.
Qed.
Lemma keeps_holding s o l s' o' t f : ok s o -> cstep s l = Some (s', o') -> t <> acts l -> x_holder (n_locks s f) = Some t -> x_holder (n_locks s' f) = Some t.
Proof.
  intros K E A B. pose proof (ok_step _ _ _ _ _ K E) as [K' T']. destruct K as [K T].
  apply (ok_holder _ _ K') . apply (ok_holder _ _ K) in B. pose proof (T t) as T1. pose proof (T' t) as T2. rewrite (other_threads _ _ _ _ _ E A) in T2.
  destruct (nth_error (n_threads s) t) as [th|]; congruence.
Qed.
Lemma deadlock_step s o l s' o' (S : nat -> Prop) : ok s o -> cstep s l = Some (s', o') -> (forall x, S x -> exists y, S y /\ blocks s x = Some y) ->
  (forall x, S x -> exists y, S y /\ blocks s' x = Some y) /\ forall x, S x -> nth_error (n_threads s') x = nth_error (n_threads s) x.
Proof.
  intros K E H.
  assert (N : forall x, S x -> x <> acts l).
  { intros x A ->. destruct (H _ A) as (y & _ & B). rewrite (blocked_stays _ _ _ _ E) in B. discriminate. }
  assert (U : forall x, S x -> nth_error (n_threads s') x = nth_error (n_threads s) x) by (intros x A; eapply other_threads; eauto).
  split; [|exact U]. intros x A. destruct (H _ A) as (y & B & C). exists y. split; [exact B|]. unfold blocks in *. rewrite (U _ A).
  destruct (nth_error (n_threads s) x) as [[fs [f|]]|]; try discriminate. eapply keeps_holding; eauto.
Qed.
Lemma deadlock_later (S : nat -> Prop) ls : forall s o s' o', ok s o -> cexecute s ls = Some (s', o') -> (forall x, S x -> exists y, S y /\ blocks s x = Some y) ->
  (forall x, S x -> exists y, S y /\ blocks s' x = Some y) /\ forall x, S x -> nth_error (n_threads s') x = nth_error (n_threads s) x.
Proof.
  induction ls as [|l ls IH]; intros s o s' o' K E H; cbn in E.
  - injection E as <- <-. auto.
  - destruct (cstep s l) as [[s1 o1]|] eqn:A; [|discriminate]. destruct (cexecute s1 ls) as [[s2 o2]|] eqn:B; [|discriminate].
    injection E as <- <-. destruct (deadlock_step _ _ _ _ _ S K A H) as [H1 H2]. destruct (IH _ _ _ _ (ok_step _ _ _ _ _ K A) B H1) as [H3 H4].
    split; [exact H3|]. intros x C. rewrite (H4 _ C). auto.
Qed.
Lemma deadlock_stays n ls s o ls' s' o' t : nest_run n ls s o -> in_deadlock s o t -> cexecute s ls' = Some (s', o') ->
  in_deadlock s' (o ++ o') t /\ nth_error (n_threads s') t = nth_error (n_threads s) t.
Proof.
  intros R (S & A & B) E. pose proof (run_ok _ _ _ _ R) as K. pose proof (ok_execute _ _ _ _ _ K E) as K'.
  destruct (deadlock_later S ls' s o s' o' K E) as [C D].
  { intros x I. destruct (B x I) as (y & I' & W). exists y. split; [exact I'|]. apply (awaits_iff _ _ _ _ K). exact W. }
  split; [|auto]. exists S. split; [exact A|]. intros x I. destruct (C x I) as (y & I' & W). exists y. split; [exact I'|].
  apply (awaits_iff _ _ _ _ K'). exact W.
Qed.

(** Who is in no deadlock can go on. *)
Definition idle (s : nest) (t : nat) : Prop := forall th, nth_error (n_threads s) t = Some th -> th = Thread [] None.
Definition calmer (s s' : nest) : Prop := forall t, nth_error (n_threads s') t = nth_error (n_threads s) t \/ idle s' t.
Lemma return_all t : forall fs s o, ok s o -> nth_error (n_threads s) t = Some (Thread fs None) ->
  exists ls s' o', cexecute s ls = Some (s', o') /\ idle s' t /\ forall u, u <> t -> nth_error (n_threads s') u = nth_error (n_threads s) u.
Proof.
  induction fs as [|f fs IH]; intros s o K A.
  - exists [], s, []. split; [reflexivity|]. split; [|auto]. intros th B. congruence.
  - assert (E : cstep s (CReturn t) = Some (Nest (list_update t (Thread fs None) (n_threads s)) (set_mutex f (Mutex None (x_poisoned (n_locks s f))) (n_locks s)), [CEnd t f false]))
      by (cbn; rewrite A; reflexivity).
    pose proof (ok_step _ _ _ _ _ K E) as K'. destruct (IH _ _ K') as (ls & s' & o' & B & C & D).
    { cbn. rewrite nth_update, Nat.eqb_refl, A. reflexivity. }
    exists (CReturn t :: ls), s', ([CEnd t f false] ++ o'). cbn [cexecute]. rewrite E, B. split; [reflexivity|]. split; [exact C|].
    intros u U. rewrite (D u U). exact (other_threads _ _ _ _ _ E U).
Qed.
Lemma free_ends s o t : ok s o -> blocks s t = None ->
  exists ls s' o', cexecute s ls = Some (s', o') /\ idle s' t /\ forall u, u <> t -> nth_error (n_threads s') u = nth_error (n_threads s) u.
Proof.
  intros K A. unfold blocks in A. destruct (nth_error (n_threads s) t) as [[fs [f|]]|] eqn:B.
  - destruct (n_locks s f) as [h b] eqn:M. cbn in A. subst h. destruct b.
    + assert (E : cstep s (CRefuse t (length fs)) = Some (Nest (list_update t (Thread (skipn (length fs) fs) None) (n_threads s)) (unwind (firstn (length fs) fs) (n_locks s)),
          CRefused t f :: map (fun g => CEnd t g true) (firstn (length fs) fs))) by (cbv beta iota zeta delta [cstep]; rewrite B, M, Nat.leb_refl; reflexivity).
      eexists [_], _, _. cbn [cexecute]. rewrite E. split; [reflexivity|]. split.
      * intros th. cbn. rewrite nth_update, Nat.eqb_refl, B, skipn_all. congruence.
      * intros u U. exact (other_threads _ _ _ _ _ E U).
    + assert (E : cstep s (CEnter t) = Some (Nest (list_update t (Thread (f :: fs) None) (n_threads s)) (set_mutex f (Mutex (Some t) false) (n_locks s)), [CBegin t f]))
        by (cbn; rewrite B, M; reflexivity).
      pose proof (ok_step _ _ _ _ _ K E) as K'. destruct (return_all t (f :: fs) _ _ K') as (ls & s' & o' & C & D & F).
      { cbn. rewrite nth_update, Nat.eqb_refl, B. reflexivity. }
      exists (CEnter t :: ls), s', ([CBegin t f] ++ o'). cbn [cexecute]. rewrite E, C. split; [reflexivity|]. split; [exact D|].
      intros u U. rewrite (F u U). exact (other_threads _ _ _ _ _ E U).
  - eapply return_all; eauto.
  - exists [], s, []. split; [reflexivity|]. split; [|auto]. intros th C. congruence.
Qed.
Lemma free_calmer s o t : ok s o -> blocks s t = None -> exists ls s' o', cexecute s ls = Some (s', o') /\ idle s' t /\ calmer s s'.
Proof.
  intros K A. destruct (free_ends _ _ _ K A) as (ls & s' & o' & B & C & D). exists ls, s', o'. split; [exact B|]. split; [exact C|].
  intros u. destruct (Nat.eq_dec u t) as [->|U]; [auto|left; auto].
Qed.
Lemma resolves s o (K : ok s o) t : Acc (fun y x => blocks s x = Some y) t -> exists ls s' o', cexecute s ls = Some (s', o') /\ idle s' t /\ calmer s s'.
Proof.
  intros W. induction W as [t _ IH]. destruct (blocks s t) as [y|] eqn:A; [|eapply free_calmer; eauto].
  destruct (IH y eq_refl) as (ls & s' & o' & B & C & D). pose proof (ok_execute _ _ _ _ _ K B) as K'.
  destruct (D t) as [E|E].
  - assert (F : blocks s' t = None).
    { unfold blocks in *. rewrite E. destruct (nth_error (n_threads s) t) as [[fs [f|]]|] eqn:G; try discriminate.
      destruct (x_holder (n_locks s' f)) as [z|] eqn:Z; [|reflexivity]. exfalso.
      assert (Z' := Z). apply (ok_holder _ _ (proj1 K')) in Z'. pose proof (proj2 K' z) as T'.
      destruct (nth_error (n_threads s') z) as [th|] eqn:Q; [|rewrite T' in Z'; destruct Z'].
      destruct (D z) as [U|U].
      - rewrite Q in U. pose proof (proj2 K z) as T1. rewrite <- U in T1. rewrite <- T', T1 in Z'. apply (ok_holder _ _ (proj1 K)) in Z'.
        rewrite A in Z'. injection Z' as <-. rewrite (C _ Q) in T'. cbn in T'. apply (ok_holder _ _ (proj1 K')) in Z. rewrite <- T' in Z. destruct Z.
      - rewrite (U _ Q) in T'. cbn in T'. rewrite <- T' in Z'. destruct Z'. }
    destruct (free_ends _ _ _ K' F) as (ls2 & s2 & o2 & G1 & G2 & G3). exists (ls ++ ls2), s2, (o' ++ o2). rewrite cexecute_app, B, G1.
    split; [reflexivity|]. split; [exact G2|]. intros u. destruct (Nat.eq_dec u t) as [->|U]; [auto|].
    destruct (D u) as [V|V]; [left; rewrite (G3 u U); exact V|right]. intros th H. apply V. rewrite <- (G3 u U). exact H.
  - exists ls, s', o'. auto.
Qed.
(** Either the threads that one waits for end somewhere, or in a circle. *)
Fixpoint wchain (s : nest) (l : list nat) : Prop :=
  match l with a :: ((b :: _) as l') => blocks s b = Some a /\ wchain s l' | _ => True end.
Lemma wchain_acc s c : forall e, wchain s (e :: c) -> Acc (fun y x => blocks s x = Some y) e -> forall x, In x (e :: c) -> Acc (fun y x => blocks s x = Some y) x.
Proof.
  induction c as [|b c IH]; intros e W A x I.
  - destruct I as [<-|[]]. exact A.
  - destruct W as [W1 W2]. destruct I as [<-|I]; [exact A|]. apply (IH b W2); [|exact I]. constructor. intros y H. rewrite W1 in H. injection H as <-. exact A.
Qed.
Lemma wchain_next s c : forall e x, wchain s (e :: c) -> In x c -> exists y, In y (e :: c) /\ blocks s x = Some y.
Proof.
  induction c as [|b c IH]; intros e x W I; [destruct I|]. destruct W as [W1 W2]. destruct I as [<-|I].
  - exists e. cbn. auto.
  - destruct (IH b x W2 I) as (y & A & B). exists y. split; [right; exact A|exact B].
Qed.
Lemma blocks_bound s o t y : ok s o -> blocks s t = Some y -> y < length (n_threads s).
Proof.
  intros [K T] A. unfold blocks in A. destruct (nth_error (n_threads s) t) as [[fs [f|]]|]; try discriminate.
  apply (ok_holder _ _ K) in A. pose proof (T y) as B. destruct (nth_error (n_threads s) y) eqn:C; [apply nth_error_Some; congruence|].
  rewrite B in A. destruct A.
Qed.
Lemma chase s o : ok s o -> forall k e c, length (n_threads s) < length c + k -> NoDup (e :: c) -> (forall x, In x (e :: c) -> x < length (n_threads s)) -> wchain s (e :: c) ->
  (forall x, In x (e :: c) -> Acc (fun y x => blocks s x = Some y) x) \/
  (exists S : nat -> Prop, (forall x, In x (e :: c) -> S x) /\ forall x, S x -> exists y, S y /\ blocks s x = Some y).
Proof.
  intros K. induction k as [|k IH]; intros e c L D B W.
  - exfalso. assert (Q : length (e :: c) <= length (seq 0 (length (n_threads s)))).
    { apply NoDup_incl_length; [exact D|]. intros x I. apply in_seq. specialize (B x I). lia. }
    rewrite seq_length in Q. cbn in Q. lia.
  - destruct (blocks s e) as [y|] eqn:A.
    + destruct (in_dec Nat.eq_dec y (e :: c)) as [I|I].
      * right. exists (fun x => In x (e :: c)). split; [auto|]. intros x J. destruct J as [<-|J]; [eauto|]. eapply wchain_next; eauto.
      * destruct (IH y (e :: c)) as [P|(S & P & Q)].
        -- cbn. lia.
        -- constructor; assumption.
        -- intros x [<-|J]; [eapply blocks_bound; eauto|auto].
        -- cbn. auto.
        -- left. intros x J. apply P. right. exact J.
        -- right. exists S. split; [|exact Q]. intros x J. apply P. right. exact J.
    + left. intros x J. eapply wchain_acc; [exact W| |exact J]. constructor. intros y H. rewrite A in H. discriminate.
Qed.
Lemma deadlock_or_ends n ls s o t : nest_run n ls s o -> in_deadlock s o t \/ exists ls' s' o', cexecute s ls' = Some (s', o') /\ idle s' t.
Proof.
  intros R. pose proof (run_ok _ _ _ _ R) as K. destruct (le_lt_dec (length (n_threads s)) t) as [L|L].
  - right. exists [], s, []. split; [reflexivity|]. intros th A. apply nth_error_None in L. congruence.
  - destruct (chase s o K (S (length (n_threads s))) t []) as [A|(S & A & B)].
    + cbn. lia.
    + constructor; [cbn; tauto|constructor].
    + intros x [<-|[]]. exact L.
    + exact I.
    + right. destruct (resolves s o K t) as (ls' & s' & o' & B & C & _); [apply A; cbn; auto|]. eauto.
    + left. exists S. split; [apply A; cbn; auto|]. intros x J. destruct (B x J) as (y & J' & C). exists y. split; [exact J'|]. apply (awaits_iff _ _ _ _ K). exact C.
Qed.
Lemma deadlocked_calls s o t : in_deadlock s o t -> exists f, calls s t f.
Proof. intros (S & A & B). destruct (B t A) as (y & _ & f & C & _). eauto. Qed.
Lemma waits_for_ever_exactly n ls s o t : nest_run n ls s o ->
  in_deadlock s o t <-> forall s', after s s' -> exists f, calls s' t f.
Proof.
  intros R. split.
  - intros D s' (ls' & o' & E). destruct (deadlock_stays _ _ _ _ _ _ _ _ R D E) as [D' _]. eapply deadlocked_calls; eauto.
  - intros H. destruct (deadlock_or_ends _ _ _ _ t R) as [D|(ls' & s' & o' & E & C)]; [exact D|]. exfalso.
    destruct (H s') as (f & fs & A); [exists ls', o'; exact E|]. specialize (C _ A). discriminate.
Qed.
Lemma calls_itself n ls s o t f ls' s' o' : nest_run n ls s o -> calls s t f -> executes o t f -> cexecute s ls' = Some (s', o') ->
  nth_error (n_threads s') t = nth_error (n_threads s) t /\ executes (o ++ o') t f.
Proof.
  intros R A B E. pose proof (run_ok _ _ _ _ R) as K. assert (D : in_deadlock s o t).
  { exists (fun x => x = t). split; [reflexivity|]. intros x ->. exists t. split; [reflexivity|]. exists f. auto. }
  destruct (deadlock_stays _ _ _ _ _ _ _ _ R D E) as [_ N]. split; [exact N|]. pose proof (ok_execute _ _ _ _ _ K E) as [K' T'].
  apply (ok_exec _ _ K'). apply (ok_exec _ _ (proj1 K)) in B. pose proof (T' t) as T1. rewrite N in T1. pose proof (proj2 K t) as T2.
  destruct (nth_error (n_threads s) t); congruence.
Qed.

(** ** Callbacks that call only callbacks of smaller rank *)
Fixpoint rising (rank : cb -> nat) (fs : list cb) : Prop :=
  match fs with a :: ((b :: _) as l) => rank a < rank b /\ rising rank l | _ => True end.
Lemma rising_all rank fs : forall f, rising rank (f :: fs) -> forall g, In g fs -> rank f < rank g.
Proof.
  induction fs as [|h fs IH]; intros f W g I; [destruct I|]. destruct W as [W1 W2]. destruct I as [<-|I]; [exact W1|].
  specialize (IH h W2 g I). lia.
Qed.
Lemma rising_tail rank f fs : rising rank (f :: fs) -> rising rank fs.
Proof. destruct fs; [reflexivity|]. intros [_ H]. exact H. Qed.
Lemma rising_skip rank k : forall fs, rising rank fs -> rising rank (skipn k fs).
Proof. induction k as [|k IH]; intros fs W; [exact W|]. destruct fs as [|f fs]; [exact W|]. cbn. apply IH. eapply rising_tail; eauto. Qed.
Definition descends (rank : cb -> nat) (s : nest) : Prop := forall t fs c, nth_error (n_threads s) t = Some (Thread fs c) ->
  rising rank match c with Some f => f :: fs | None => fs end.
Lemma descend_run rank n ls : forall s o, nest_run n ls s o -> calls_descend rank n ls -> descends rank s.
Proof.
  induction ls as [|l ls IH] using rev_ind; intros s o R C.
  - unfold nest_run in R. cbn in R. injection R as <- _. intros t fs c A. cbn in A. apply nth_error_In, repeat_spec in A. injection A as -> ->. exact I.
  - apply nest_snoc in R. destruct R as (s0 & o0 & o1 & R & E & ->).
    assert (D : descends rank s0).
    { apply (IH _ _ R). intros ls1 t f ls2 s1 oo -> R1. eapply C; [|exact R1]. rewrite <- app_assoc. reflexivity. }
    intros t fs c A. destruct (Nat.eq_dec t (acts l)) as [->|N]; [|rewrite (other_threads _ _ _ _ _ E N) in A; eauto].
    destruct l as [u f|u|u k|u|u k]; cbv beta iota zeta delta [cstep] in E; cbn [acts] in A;
      destruct (nth_error (n_threads s0) u) as [[gs [g|]]|] eqn:B; try discriminate.
    + injection E as <- _. cbn in A. rewrite nth_update, Nat.eqb_refl, B in A. injection A as <- <-. specialize (D _ _ _ B). cbn in D.
      destruct gs as [|g gs]; [exact I|]. split; [|exact D]. pose proof (run_ok _ _ _ _ R) as [K T]. pose proof (T u) as T1. rewrite B in T1. cbn in T1.
      eapply (C ls u f [] _ _ eq_refl R). apply (innermost_iff _ _ _ _ K). eauto.
    + specialize (D _ _ _ B). cbn in D. destruct (n_locks s0 g) as [[|] []]; try discriminate. injection E as <- _. cbn in A. rewrite nth_update, Nat.eqb_refl, B in A. injection A as <- <-. exact D.
    + specialize (D _ _ _ B). destruct (n_locks s0 g) as [[|] []]; try discriminate. destruct (Nat.leb k (length gs)); [|discriminate].
      injection E as <- _. cbn in A. rewrite nth_update, Nat.eqb_refl, B in A. injection A as <- <-. apply rising_skip. eapply rising_tail; eauto.
    + destruct gs; discriminate.
    + specialize (D _ _ _ B). destruct gs as [|g gs]; [discriminate|]. injection E as <- _. cbn in A. rewrite nth_update, Nat.eqb_refl, B in A. injection A as <- <-. eapply rising_tail; eauto.
    + specialize (D _ _ _ B). destruct (Nat.leb 1 k && Nat.leb k (length gs))%bool; [|discriminate]. injection E as <- _. cbn in A. rewrite nth_update, Nat.eqb_refl, B in A. injection A as <- <-.
      apply rising_skip. exact D.
Qed.
Lemma no_deadlock_by_rank rank n ls s o t : nest_run n ls s o -> calls_descend rank n ls -> ~ in_deadlock s o t.
Proof.
  intros R C (S & A & B). pose proof (run_ok _ _ _ _ R) as [K T]. pose proof (descend_run _ _ _ _ _ R C) as D.
  assert (H : forall k x f, S x -> calls s x f -> rank f < k -> False).
  { induction k as [|k IH]; intros x f I J L; [lia|]. destruct (B x I) as (y & I' & f' & [fs J'] & X). destruct J as [fs2 J]. rewrite J in J'. injection J' as <- <-.
    destruct (B y I') as (z & _ & g & [gs Y] & _). apply (IH y g I'); [exists gs; exact Y|]. pose proof (D _ _ _ Y) as W. cbn beta iota in W.
    apply (ok_exec _ _ K) in X. pose proof (T y) as T1. rewrite Y in T1. cbn in T1. rewrite <- T1 in X. pose proof (rising_all _ _ _ W f X). lia. }
  destruct (B t A) as (y & _ & f & J & _). exact (H _ t f A J (Nat.lt_succ_diag_r _)).
Qed.
(** What a thread that does not wait can do. *)
Lemma run_threads n ls s o : nest_run n ls s o -> length (n_threads s) = n.
Proof.
  revert s o. induction ls as [|l ls IH] using rev_ind; intros s o R.
  - unfold nest_run in R. cbn in R. injection R as <- _. apply repeat_length.
  - apply nest_snoc in R. destruct R as (s0 & o0 & o1 & R & E & _). rewrite <- (IH _ _ R).
    assert (N : forall t, nth_error (n_threads s) t = None <-> nth_error (n_threads s0) t = None).
    { intros t. destruct (Nat.eq_dec t (acts l)) as [->|U]; [|rewrite (other_threads _ _ _ _ _ E U); tauto].
      destruct l as [u f|u|u k|u|u k]; cbv beta iota zeta delta [cstep] in E; cbn [acts];
        destruct (nth_error (n_threads s0) u) as [[gs [g|]]|] eqn:B; try discriminate.
      - injection E as <- _. cbn. rewrite nth_update, Nat.eqb_refl, B. split; discriminate.
      - destruct (n_locks s0 g) as [[|] []]; try discriminate. injection E as <- _. cbn. rewrite nth_update, Nat.eqb_refl, B. split; discriminate.
      - destruct (n_locks s0 g) as [[|] []]; try discriminate. destruct (Nat.leb k (length gs)); [|discriminate]. injection E as <- _. cbn. rewrite nth_update, Nat.eqb_refl, B. split; discriminate.
      - destruct gs; discriminate.
      - destruct gs as [|g gs]; [discriminate|]. injection E as <- _. cbn. rewrite nth_update, Nat.eqb_refl, B. split; discriminate.
      - destruct (Nat.leb 1 k && Nat.leb k (length gs))%bool; [|discriminate]. injection E as <- _. cbn. rewrite nth_update, Nat.eqb_refl, B. split; discriminate. }
    pose proof (N (length (n_threads s))) as N1. pose proof (N (length (n_threads s0))) as N2. rewrite !nth_error_None in N1, N2. lia.
Qed.
Lemma may_do n ls s o t : nest_run n ls s o -> t < n -> (forall f, ~ calls s t f) ->
  (forall f, exists s', cstep s (CCall t f) = Some (s', []) /\ calls s' t f) /\
  (forall f, innermost o t f -> (exists s', cstep s (CReturn t) = Some (s', [CEnd t f false])) /\ exists s', cstep s (CPanic t 1) = Some (s', [CEnd t f true])).
Proof.
  intros R L N. pose proof (run_ok _ _ _ _ R) as [K T]. rewrite <- (run_threads _ _ _ _ R) in L. apply nth_error_Some in L.
  destruct (nth_error (n_threads s) t) as [[fs [g|]]|] eqn:A; [|clear L|congruence].
  - elim (N g). exists fs. exact A.
  - split.
    + intros f. cbn. rewrite A. eexists. split; [reflexivity|]. exists fs. cbn. rewrite nth_update, Nat.eqb_refl, A. reflexivity.
    + intros f I. apply (innermost_iff _ _ _ _ K) in I. destruct I as [gs I]. pose proof (T t) as B. rewrite A in B. cbn in B. rewrite I in B. subst fs.
      split; eexists; cbn; rewrite A; reflexivity.
Qed.
