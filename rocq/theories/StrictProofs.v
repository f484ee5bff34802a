(** Which JSON texts have a [Value] (C22), and independence of the reader's recursion bound. *)
From Verif Require Export FillProofs.

Section RawInd.
  Variable P : raw -> Prop.
  Hypothesis Hnull : P RNull.
  Hypothesis Hbool : forall b, P (RBool b).
  Hypothesis Hnum : forall n, P (RNum n).
  Hypothesis Hstr : forall s, P (RStr s).
  Hypothesis Harr : forall l, Forall P l -> P (RArr l).
  Hypothesis Hobj : forall m, Forall (fun a => P (snd a)) m -> P (RObj m).
  Fixpoint raw_ind' (r : raw) : P r :=
    match r with
    | RNull => Hnull | RBool b => Hbool b | RNum n => Hnum n | RStr s => Hstr s
    | RArr l => Harr l ((fix go (l : list raw) : Forall P l :=
        match l with [] => Forall_nil _ | x :: l' => Forall_cons _ (raw_ind' x) (go l') end) l)
    | RObj m => Hobj m ((fix go (l : list (bytes * raw)) : Forall (fun a => P (snd a)) l :=
        match l with [] => Forall_nil _ | x :: l' => Forall_cons x (raw_ind' (snd x)) (go l') end) m)
    end.
End RawInd.

(** All strings of a tree are shorter than [n]. *)
Fixpoint short (n : nat) (r : raw) : Prop :=
  match r with
  | RStr b => length b < n
  | RArr l => allP (short n) l
  | RObj l => allP (fun '(_, x) => short n x) l
  | _ => True
  end.
Lemma short_le r : forall n m, n <= m -> short n r -> short m r.
Proof.
  induction r as [|b|x|s|l IH|l IH] using raw_ind'; intros n m Hle; cbn [short]; auto; [lia| |].
  - induction IH as [|x l Hx IH I]; cbn; [auto|]. intros [H1 H2]. split; [eapply Hx; eauto|auto].
  - induction IH as [|[k x] l Hx IH I]; cbn; [auto|]. intros [H1 H2]. split; [eapply Hx; eauto|auto].
Qed.
Lemma jvalue_short :
  (forall r t, jvalue r t -> short (length t) r) /\
  (forall l t, jelems l t -> allP (short (length t)) l) /\
  (forall l t, jmembers l t -> allP (fun '(_, x) => short (length t) x) l).
Proof.
  assert (Hl : forall l n m, n <= m -> allP (short n) l -> allP (short m) l).
  { induction l as [|x l IH]; cbn; auto. intros n m Hle [H1 H2]. split; [eapply short_le; eauto|eauto]. }
  assert (Hm : forall (l : list (bytes * raw)) n m, n <= m -> allP (fun '(_, x) => short n x) l -> allP (fun '(_, x) => short m x) l).
  { induction l as [|[k x] l IH]; cbn; auto. intros n m Hle [H1 H2]. split; [eapply short_le; eauto|eauto]. }
  apply json_mutind; intros; cbn [short allP]; auto.
  - cbn [length]. rewrite app_length. cbn. lia.
  - eapply Hl; [|eassumption]. cbn [length]. rewrite app_length. lia.
  - eapply Hm; [|eassumption]. cbn [length]. rewrite app_length. lia.
  - split; [|exact I]. eapply short_le; [|eassumption]. rewrite !app_length. lia.
  - split; [eapply short_le|eapply Hl]; try eassumption; rewrite !app_length; cbn [length]; lia.
  - split; [|exact I]. eapply short_le; [|eassumption]. repeat (rewrite app_length; cbn [length]). lia.
  - split; [eapply short_le|eapply Hm]; try eassumption; repeat (rewrite app_length; cbn [length]); lia.
Qed.

Lemma utf8_encode_length n : length (utf8_encode n) <= 4.
Proof. unfold utf8_encode. repeat (destruct (_ <? _)%N); cbn; lia. Qed.
Lemma unescape_length_n n : forall s t, length s <= n -> unescape s = Some t -> length t <= length s.
Proof.
  induction n as [|n IH]; intros s t Hn H.
  - destruct s; [|cbn in Hn; lia]. injection H as <-. reflexivity.
  - destruct s as [|c r]; [injection H as <-; reflexivity|]. cbn [length] in Hn. cbn [unescape] in H.
    destruct (c =b backslash).
    + destruct r as [|e r1]; [discriminate|]. cbn [length] in *. destruct (simple_esc e).
      * destruct (unescape r1) as [u|] eqn:E; [|discriminate]. injection H as <-. apply IH in E; [|lia]. cbn. lia.
      * destruct r1 as [|h1 [|h2 [|h3 [|h4 r2]]]]; try discriminate. cbn [length] in *.
        destruct (_ && _)%N; [discriminate|]. destruct (_ || _)%N.
        -- destruct (unescape r2) as [u|] eqn:E; [|discriminate]. injection H as <-. apply IH in E; [|lia].
           rewrite app_length. pose proof (utf8_encode_length (hex4 h1 h2 h3 h4)). lia.
        -- destruct r2 as [|b1 [|u1 [|g1 [|g2 [|g3 [|g4 r3]]]]]]; try discriminate. cbn [length] in *.
           destruct (_ && _); [|discriminate]. destruct (_ || _)%N; [discriminate|].
           destruct (unescape r3) as [u|] eqn:E; [|discriminate]. injection H as <-. apply IH in E; [|lia].
           rewrite app_length.
           match goal with |- context [length (utf8_encode ?z)] => pose proof (utf8_encode_length z) end. lia.
    + destruct (unescape r) as [u|] eqn:E; [|discriminate]. injection H as <-. apply IH in E; [|lia]. cbn. lia.
Qed.
Lemma unescape_length s t : unescape s = Some t -> length t <= length s.
Proof. apply (unescape_length_n (length s)). lia. Qed.

Lemma val_of_private rp d k x l : unescape k = Some raw_token ->
  val_of rp (S (S d)) (RObj ((k, x) :: l)) =
    match x, l with RStr b, [] => match unescape b with Some t => rp t | None => None end | _, _ => None end.
Proof. intros H. cbn [val_of]. rewrite H, bytes_eqb_refl. reflexivity. Qed.
Lemma val_of_obj_bad rp d l : val_of rp (S (S d)) (RObj l) = None \/ exists v, val_of rp (S (S d)) (RObj l) = Some v.
Proof. destruct (val_of rp (S (S d)) (RObj l)); eauto. Qed.
Lemma private_dec (l : list (bytes * raw)) :
  (exists k x l', l = (k, x) :: l' /\ unescape k = Some raw_token) \/
  (forall k x l', l = (k, x) :: l' -> unescape k <> Some raw_token).
Proof.
  destruct l as [|[k x] l]; [right; intros; discriminate|].
  destruct (unescape k) as [u|] eqn:E.
  - destruct (bytes_eqb u raw_token) eqn:Eu.
    + apply bytes_eqb_eq in Eu. subst. left. eauto.
    + right. intros k' x' l' [= <- <- <-]. apply bytes_eqb_neq in Eu. congruence.
  - right. intros k' x' l' [= <- <- <-]. congruence.
Qed.
Lemma val_of_obj' rp d l : (forall k x l', l = (k, x) :: l' -> unescape k <> Some raw_token) ->
  val_of rp (S (S d)) (RObj l) = option_map (fun ms => VObj (obj_of ms)) (all_some (map (val_member rp (S d)) l)).
Proof. intros H. apply val_of_obj. intros k x l' k' E Hk ->. apply (H k x l' E Hk). Qed.

(** The reader of private strings matters only on strings of the text. *)
Definition same_below (n : nat) (rp rp' : bytes -> option value) : Prop := forall t, length t < n -> rp t = rp' t.
Lemma val_of_same rp rp' n r : short n r -> same_below n rp rp' -> forall d, val_of rp d r = val_of rp' d r.
Proof.
  intros Hs Hr. induction r as [|b|x|s|l IH|l IH] using raw_ind'; intros d; try reflexivity.
  - destruct d as [|[|d]]; try reflexivity. rewrite !val_of_arr. do 2 f_equal. cbn [short] in Hs.
    induction IH as [|x l Hx IH I]; [reflexivity|]. cbn in Hs. destruct Hs. cbn [map]. f_equal; auto.
  - destruct d as [|[|d]]; try reflexivity. destruct (private_dec l) as [(k & x & l' & -> & Hk)|Hk].
    + rewrite !val_of_private by exact Hk. destruct x as [| | |b| |]; try reflexivity. destruct l'; [|reflexivity].
      destruct (unescape b) as [t|] eqn:E; [|reflexivity]. apply Hr. apply unescape_length in E.
      cbn in Hs. lia.
    + rewrite !val_of_obj' by exact Hk. do 2 f_equal. cbn [short] in Hs. clear Hk.
      induction IH as [|[k x] l Hx IH I]; [reflexivity|]. cbn in Hs. destruct Hs. cbn [map]. f_equal; auto.
      unfold val_member. cbn [fst snd] in *. rewrite Hx by assumption. reflexivity.
Qed.
Lemma jdoc_short r t : jdoc r t -> short (length t) r.
Proof.
  intros (w1 & u & w2 & _ & _ & H & ->). eapply short_le; [|apply jvalue_short; exact H]. rewrite !app_length. lia.
Qed.
Lemma from_str_stable n : forall m m' t, length t < n -> n <= m -> n <= m' -> from_str_value_n m t = from_str_value_n m' t.
Proof.
  induction n as [|n IH]; intros m m' t Ht Hm Hm'; [lia|].
  destruct m as [|m]; [lia|]. destruct m' as [|m']; [lia|]. cbn [from_str_value_n].
  destruct (scan_doc t) as [r|] eqn:E; [|reflexivity]. apply scan_doc_exact in E.
  apply (val_of_same _ _ (length t)); [apply jdoc_short; exact E|]. intros u Hu. apply IH; lia.
Qed.
Lemma from_str_eq t r : jdoc r t -> from_str_value t = val_of from_str_value 128 r.
Proof.
  intros H. unfold from_str_value at 1. cbn [from_str_value_n]. rewrite (proj2 (scan_doc_exact t r) H).
  apply (val_of_same _ _ (length t)); [apply jdoc_short; exact H|]. intros u Hu.
  apply (from_str_stable (S (length u))); lia.
Qed.
Lemma from_str_none t : (forall r, ~ jdoc r t) -> from_str_value t = None.
Proof.
  intros H. unfold from_str_value. cbn [from_str_value_n]. destruct (scan_doc t) as [r|] eqn:E; [|reflexivity].
  apply scan_doc_exact in E. destruct (H r E).
Qed.

Lemma all_some_none {A} (l : list (option A)) : all_some l <> None <-> Forall (fun o => o <> None) l.
Proof.
  induction l as [|[x|] l IH]; cbn [all_some].
  - split; [constructor|discriminate].
  - split.
    + intros H. constructor; [discriminate|]. apply IH. destruct (all_some l); [discriminate|]. cbn in H. congruence.
    + intros H. inversion H as [|? ? _ Hl]; subst. apply IH in Hl. destruct (all_some l); [discriminate|congruence].
  - split; [congruence|]. intros H. inversion H; subst. congruence.
Qed.
Lemma option_map_none {A B} (f : A -> B) o : option_map f o <> None <-> o <> None.
Proof. destruct o; cbn; split; congruence. Qed.

Lemma val_of_strict rp N r : short N r ->
  (forall t, length t < N -> rp t <> None <-> exists r', jdoc r' t /\ strict 127 r') ->
  forall n, val_of rp (S n) r <> None <-> strict n r.
Proof.
  intros Hs Hr. induction r as [|b|x|s|l IH|l IH] using raw_ind'; intros n.
  - split; [constructor|discriminate].
  - split; [constructor|discriminate].
  - cbn [val_of]. split.
    + intros H. constructor. destruct (num_of x); [discriminate|congruence].
    + intros H. inversion H; subst. destruct (num_of x); [discriminate|congruence].
  - cbn [val_of]. split.
    + intros H. constructor. destruct (unescape s); [discriminate|congruence].
    + intros H. inversion H; subst. destruct (unescape s); [discriminate|congruence].
  - destruct n as [|n].
    + cbn [val_of]. split; [congruence|]. intros H. inversion H.
    + rewrite val_of_arr, option_map_none, all_some_none. cbn [short] in Hs. split.
      * intros H. constructor. revert Hs H. induction IH as [|x l Hx IH I]; cbn; [constructor|].
        intros [S1 S2] H. inversion H; subst. constructor; [apply Hx; assumption|auto].
      * intros H. inversion H as [| | | |? ? Hl| |]; subst. revert Hs Hl. clear H. induction IH as [|x l Hx IH I]; cbn; [constructor|].
        intros [S1 S2] H. inversion H; subst. constructor; [apply Hx; assumption|auto].
  - destruct n as [|n].
    + cbn [val_of]. split; [congruence|]. intros H. inversion H.
    + destruct (private_dec l) as [(k & x & l' & -> & Hk)|Hk].
      * rewrite val_of_private by exact Hk. split.
        -- intros H. destruct x as [| | |b| |]; try congruence. destruct l'; [|congruence].
           destruct (unescape b) as [t|] eqn:E; [|congruence].
           assert (Hl : length t < N). { apply unescape_length in E. cbn in Hs. lia. }
           apply (Hr t Hl) in H. destruct H as (r' & Hd & Hst). eapply st_private; eauto.
        -- intros H. inversion H as [| | | | |? ? Hn|? ? b t r' _ Hb Hd Hst]; subst; [destruct (Hn k x l' eq_refl Hk)|].
           rewrite Hb. apply Hr; [|eauto]. apply unescape_length in Hb. cbn in Hs. lia.
      * rewrite val_of_obj' by exact Hk. rewrite option_map_none, all_some_none. cbn [short] in Hs. split.
        -- intros H. apply st_obj; [exact Hk|]. clear Hk. revert Hs H. induction IH as [|[k x] l Hx IH I]; cbn; [constructor|].
           intros [S1 S2] H. inversion H as [|? ? H1 H2]; subst. constructor; [|auto]. cbn [fst snd] in *.
           unfold val_member in H1. cbn [fst snd] in H1. split.
           ++ destruct (unescape k); [discriminate|]. cbn in H1. congruence.
           ++ apply Hx; [assumption|]. destruct (unescape k); [|cbn in H1; congruence]. destruct (val_of rp (S n) x); [discriminate|cbn in H1; congruence].
        -- intros H. assert (Hl : Forall (fun m => unescape (fst m) <> None /\ strict n (snd m)) l).
           { inversion H as [| | | | |? ? _ Hl|? k b t r' Hu]; subst; [exact Hl|]. destruct (Hk k (RStr b) [] eq_refl Hu). }
           clear H Hk. revert Hs Hl. induction IH as [|[k x] l Hx IH I]; cbn; [constructor|].
           intros [S1 S2] H. inversion H as [|? ? [H1 H2] H3]; subst. constructor; [|auto]. cbn [fst snd] in *.
           unfold val_member. cbn [fst snd]. apply Hx in H2; [|assumption].
           destruct (unescape k); [|congruence]. destruct (val_of rp (S n) x); [discriminate|congruence].
Qed.
Lemma from_str_strict_n n : forall t, length t < n -> from_str_value t <> None <-> exists r, jdoc r t /\ strict 127 r.
Proof.
  induction n as [|n IH]; intros t Ht; [lia|]. destruct (scan_doc t) as [r|] eqn:E.
  - apply scan_doc_exact in E. rewrite (from_str_eq t r E).
    rewrite (val_of_strict from_str_value (length t) r (jdoc_short r t E)); [|intros u Hu; apply IH; lia].
    split; [eauto|]. intros (r' & Hd & Hs). rewrite (jdoc_unique t r r' E Hd). exact Hs.
  - rewrite from_str_none; [|intros r Hr; apply scan_doc_exact in Hr; congruence]. split; [congruence|].
    intros (r & Hd & _). apply scan_doc_exact in Hd. congruence.
Qed.
Lemma from_str_strict t r : jvalue r t -> from_str_value t <> None <-> strict 127 r.
Proof.
  intros H. assert (Hd : jdoc r t). { exists [], t, []. rewrite app_nil_r. repeat split; auto using ws_nil. }
  rewrite (from_str_strict_n (S (length t))) by lia. split; [|eauto].
  intros (r' & Hd' & Hs). rewrite (jdoc_unique t r r' Hd Hd'). exact Hs.
Qed.

(** ** Arguments of accepted packets *)
Lemma argument_facts m t l g : sub_deref_str m = Some t -> Forall emsg_ok l -> argument_of m l g ->
  (exists r, jvalue r (g_text g)) /\ exists bl, contents (g_attachments g) = Some bl /\ length bl = length l.
Proof.
  intros Hm Hl (p & d & a & i & Hr & Hd & Ha & Hg).
  destruct (accessors_ok m t l p Hm Hl Hr) as (_ & d' & Hd' & Hacc). rewrite Hd in Hd'. injection Hd' as <-.
  destruct (Hacc a Ha) as (_ & _ & Hatt). clear Hacc.
  destruct (arguments_are_elements m t l p d a Hm Hl Hr Hd Ha) as (w & ts & _ & Hel & _ & Hget & _ & _ & Hlen).
  pose proof Hg as Hg'. rewrite Hget in Hg'. destruct (nth_error ts i) as [x|] eqn:E; [|discriminate]. injection Hg' as <-.
  cbn [g_text g_attachments]. split.
  - apply nth_error_In in E. destruct (w_args w) as [u|]; cbn [elements] in Hel; [|subst; destruct E].
    apply jarray_items in Hel. rewrite Forall_forall in Hel. exact (Hel x E).
  - destruct (contents (a_attachments a)) as [bl|] eqn:Ec.
    + exists bl. split; [reflexivity|]. apply contents_length in Ec. lia.
    + exfalso. revert Ec. apply all_some_none. apply Forall_map. exact Hatt.
Qed.
(** C22 *)
Lemma argument_panics_exactly m t l g : sub_deref_str m = Some t -> Forall emsg_ok l -> argument_of m l g ->
  exists r, jvalue r (g_text g) /\ (to_json_value g = Panic <-> ~ strict 127 r).
Proof.
  intros Hm Hl Hg. destruct (argument_facts m t l g Hm Hl Hg) as [[r Hr] (bl & Hbl & _)]. exists r. split; [exact Hr|].
  rewrite <- (from_str_strict (g_text g) r Hr). unfold to_json_value. destruct (from_str_value (g_text g)) as [v|] eqn:E.
  - split; [|intros H; exfalso; apply H; discriminate]. intros H. exfalso.
    destruct (g_attachments g) as [|s A] eqn:EA; [discriminate|]. destruct (fill_exact (s :: A) bl Hbl v) as (_ & _ & H'). contradiction.
  - split; [intros _ H; congruence|reflexivity].
Qed.
Lemma argument_no_panic m t l g r : sub_deref_str m = Some t -> Forall emsg_ok l -> argument_of m l g ->
  jvalue r (g_text g) -> strict 127 r -> to_json_value g <> Panic.
Proof.
  intros Hm Hl Hg Hr Hs. destruct (argument_panics_exactly m t l g Hm Hl Hg) as (r' & Hr' & H).
  rewrite (jvalue_unique _ _ _ Hr Hr') in Hs. rewrite H. auto.
Qed.
