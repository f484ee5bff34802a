(** On valid UTF-8 matching bytes (Regex.v) and matching characters (CharRegex.v) is the same for
    the pattern of socket/de.rs. *)
From Verif Require Import Bytes BytesProofs Regex RegexProofs CharRegex Utf8.

Definition st_valid (st : mst) : Prop := utf8_valid (m_rest st) = true.
Definition cont (c : byte) : bool := in_rng 128 191 c.

Ltac ands := repeat match goal with
  | H : _ && _ = true |- _ => apply andb_prop in H; destruct H
  | H : (if ?b then _ else _) = true |- _ => destruct b eqn:?; try discriminate
  end.
Lemma cont_of lo hi b : in_rng lo hi b = true -> (128 <= lo)%N -> (hi <= 191)%N -> cont b = true.
Proof.
  unfold cont, in_rng. intros H L U. apply andb_prop in H. destruct H as [H1 H2].
  apply N.leb_le in H1, H2. apply andb_true_intro. split; apply N.leb_le; lia.
Qed.

(** The first character of a valid text: one ASCII byte, or a lead byte followed by up to three
    continuation bytes. *)
Lemma valid_inv s : utf8_valid s = true -> s <> [] ->
  (exists c r, s = c :: r /\ in_rng 0 127 c = true /\ utf8_valid r = true /\ next_char s = Some ([c], r)) \/
  (exists c t r, s = c :: t ++ r /\ in_rng 0 127 c = false /\ cont c = false /\ t <> [] /\ forallb cont t = true /\
                 utf8_valid r = true /\ next_char s = Some (c :: t, r)).
Proof.
  destruct s as [|c r]; [congruence|]. intros H _. cbn [utf8_valid] in H.
  unfold next_char, char_len.
  assert (Hc : in_rng 0 127 c = false -> in_rng 194 223 c = true \/ in_rng 224 239 c = true \/ in_rng 240 244 c = true ->
               cont c = false).
  { intros _ D. destruct (cont c) eqn:E; [|reflexivity]. exfalso. revert E D. unfold cont, in_rng.
    rewrite !andb_true_iff, !N.leb_le. lia. }
  destruct (in_rng 0 127 c) eqn:E0.
  { left. exists c, r. cbn. auto. }
  right. destruct (in_rng 194 223 c) eqn:E1.
  { destruct r as [|b r]; [discriminate|]. ands. exists c, [b], r.
    assert (cont b = true) by (eapply cont_of; eauto; lia).
    repeat split; auto; cbn; try congruence. rewrite H1. reflexivity. }
  destruct (in_rng 224 239 c) eqn:E2.
  { destruct r as [|b [|d r]]; try discriminate. apply andb_prop in H. destruct H as [H Hr].
    apply andb_prop in H. destruct H as [Hb Hd]. exists c, [b; d], r.
    assert (cont d = true) by (eapply cont_of; eauto; lia).
    assert (cont b = true) by (destruct (c =b xe0); [|destruct (c =b xed)]; eapply cont_of; eauto; lia).
    repeat split; auto; cbn; try congruence. rewrite H, H0. reflexivity. }
  destruct (in_rng 240 244 c) eqn:E3; [|discriminate].
  destruct r as [|b [|d [|e r]]]; try discriminate. apply andb_prop in H. destruct H as [H Hr].
  apply andb_prop in H. destruct H as [H He]. apply andb_prop in H. destruct H as [Hb Hd].
  exists c, [b; d; e], r.
  assert (cont d = true) by (eapply cont_of; eauto; lia).
  assert (cont e = true) by (eapply cont_of; eauto; lia).
  assert (cont b = true) by (destruct (c =b xf0); [|destruct (c =b xf4)]; eapply cont_of; eauto; lia).
  repeat split; auto; cbn; try congruence. rewrite H, H0, H1. reflexivity.
Qed.

(** Patterns all of whose classes are ASCII. *)
Definition asc (p : byte -> bool) : Prop := forall c, p c = true -> in_rng 0 127 c = true.
Fixpoint embed (r : rx) : crx :=
  match r with
  | XChar p => ascii p
  | XSeq a b => CSeq (embed a) (embed b)
  | XAlt a b => CAlt (embed a) (embed b)
  | XOpt a => COpt (embed a)
  | XStar a => CStar (embed a)
  | XGroup n a => CGroup n (embed a)
  | XBegin => CBegin
  | XEnd => CEnd
  end.
Fixpoint all_ascii (r : rx) : Prop :=
  match r with
  | XChar p => asc p
  | XSeq a b | XAlt a b => all_ascii a /\ all_ascii b
  | XOpt a | XStar a | XGroup _ a => all_ascii a
  | XBegin | XEnd => True
  end.

Lemma flat_map_in_ext {A B} (f g : A -> list B) l :
  (forall x, In x l -> f x = g x) -> flat_map f l = flat_map g l.
Proof.
  induction l as [|x l IH]; intros H; cbn; [reflexivity|].
  rewrite (H x (or_introl eq_refl)), IH; [reflexivity|]. intros y Hy. apply H. now right.
Qed.
Lemma map_in_ext {A B} (f g : A -> B) l : (forall x, In x l -> f x = g x) -> map f l = map g l.
Proof.
  induction l as [|x l IH]; intros H; cbn; [reflexivity|].
  rewrite (H x (or_introl eq_refl)), IH; [reflexivity|]. intros y Hy. apply H. now right.
Qed.

Lemma class_same p st : asc p -> crun (ascii p) st = run (XChar p) st.
Proof.
  intros Hp. destruct st as [pos s caps]. unfold ascii. cbn [crun run m_rest m_pos m_caps].
  destruct s as [|c s]; [reflexivity|]. unfold next_char, char_len.
  destruct (in_rng 0 127 c) eqn:A.
  - cbn [firstn skipn length]. rewrite Nat.add_1_r. reflexivity.
  - assert (p c = false) as ->.
    { destruct (p c) eqn:P; [|reflexivity]. rewrite (Hp _ P) in A. discriminate. }
    assert (H : forall n, match firstn (S n) (c :: s) with [d] => p d | _ => false end = false).
    { intros n. cbn [firstn]. destruct (firstn n s); [|reflexivity].
      destruct (p c) eqn:P; [|reflexivity]. rewrite (Hp _ P) in A. discriminate. }
    destruct (in_rng 194 223 c); [|destruct (in_rng 224 239 c)]; rewrite H; reflexivity.
Qed.
Lemma ascii_same r : all_ascii r -> forall st, crun (embed r) st = run r st.
Proof.
  induction r as [p|a IHa b IHb|a IHa b IHb|a IHa|a IHa|n a IHa| |]; intros Ha st.
  - cbn [embed]. apply class_same; assumption.
  - destruct Ha as [Ha Hb]. cbn [embed crun run]. rewrite IHa by assumption.
    apply flat_map_in_ext. auto.
  - destruct Ha as [Ha Hb]. cbn [embed crun run]. rewrite IHa, IHb by assumption. reflexivity.
  - cbn [embed crun run]. rewrite IHa by assumption. reflexivity.
  - cbn [embed crun run]. generalize (length (m_rest st)). intros n. revert st.
    induction n as [|n IHn]; intros st; [reflexivity|]. rewrite IHa by assumption. f_equal.
    apply flat_map_in_ext. intros x _. destruct (m_pos st <? m_pos x); auto.
  - cbn [embed crun run]. rewrite IHa by assumption. reflexivity.
  - reflexivity.
  - reflexivity.
Qed.

(** ** Stars of dots *)
Definition dies (F : mst -> list mst) : Prop := forall pos c r caps, cont c = true -> F (MSt pos (c :: r) caps) = [].

Lemma cont_any c : cont c = true -> any_no_nl c = true.
Proof.
  intros H. unfold any_no_nl. destruct (c =b x0a) eqn:E; [|reflexivity].
  apply byte_eqb_eq in E. subst. discriminate.
Qed.
Lemma starlist_cont F t : dies F -> forallb cont t = true -> forall r pos caps,
  flat_map F (starlist any_no_nl pos (t ++ r) caps) = flat_map F (starlist any_no_nl (pos + length t) r caps).
Proof.
  intros D. induction t as [|c t IH]; intros Ht r pos caps; cbn [app length].
  - now rewrite Nat.add_0_r.
  - cbn [forallb] in Ht. apply andb_prop in Ht. destruct Ht as [Hc Ht]. cbn [starlist].
    rewrite (cont_any _ Hc), flat_map_app, IH by assumption. cbn [flat_map].
    rewrite (D _ _ _ _ Hc). cbn [app]. rewrite app_nil_r. f_equal. f_equal. lia.
Qed.
Lemma dot_char ch : negb (bytes_eqb ch [x0a]) = match ch with [c] => any_no_nl c | _ => true end.
Proof.
  unfold any_no_nl. destruct ch as [|c [|d t]]; cbn; try reflexivity.
  - destruct (c =b x0a); reflexivity.
  - now destruct (c =b x0a).
Qed.
Lemma high_any c : in_rng 0 127 c = false -> any_no_nl c = true.
Proof.
  intros H. unfold any_no_nl. destruct (c =b x0a) eqn:E; [|reflexivity].
  apply byte_eqb_eq in E. subst. discriminate.
Qed.
Lemma run_dot pos s caps : utf8_valid s = true ->
  crun dot (MSt pos s caps) =
  match next_char s with
  | Some (ch, r) => if (match ch with [c] => any_no_nl c | _ => true end) then [MSt (pos + length ch) r caps] else []
  | None => []
  end.
Proof.
  intros _. cbn [crun dot m_rest m_pos m_caps]. destruct (next_char s) as [[ch r]|]; [|reflexivity].
  rewrite dot_char. reflexivity.
Qed.
Lemma star_dot F (D : dies F) pos s caps : utf8_valid s = true ->
  flat_map F (crun (CStar dot) (MSt pos s caps)) = flat_map F (starlist any_no_nl pos s caps).
Proof.
  intros V. cbn [crun m_rest].
  assert (G : forall n s pos, utf8_valid s = true -> length s <= n ->
    flat_map F ((fix star (n : nat) (st : mst) : list mst :=
         match n with
         | O => [st]
         | S n' =>
             flat_map (fun st' => if m_pos st <? m_pos st' then star n' st' else []) (crun dot st)
             ++ [st]
         end) n (MSt pos s caps)) = flat_map F (starlist any_no_nl pos s caps)).
  { clear s V pos. induction n as [|n IH]; intros s pos V L.
    { destruct s; [reflexivity|cbn in L; lia]. }
    destruct s as [|c0 s0]; [reflexivity|].
    rewrite run_dot by exact V.
    destruct (valid_inv (c0 :: s0) V) as [(c & r & E & A & Vr & N)|(c & t & r & E & A & _ & Ht & Hc & Vr & N)];
      [congruence| |]; rewrite N; injection E as -> ->.
    - cbn [starlist]. destruct (any_no_nl c) eqn:Ec; [|reflexivity].
      cbn [flat_map m_pos length]. rewrite Nat.add_1_r.
      assert (pos <? S pos = true) as -> by (apply Nat.ltb_lt; lia).
      rewrite app_nil_r, !flat_map_app, IH; [reflexivity|exact Vr|cbn in L; lia].
    - destruct t as [|b t]; [congruence|].
      cbn [flat_map m_pos]. 
      assert (pos <? pos + length (c :: b :: t) = true) as -> by (apply Nat.ltb_lt; cbn; lia).
      rewrite app_nil_r, flat_map_app, IH; [|exact Vr|cbn in L |- *; rewrite app_length in L; lia].
      change (starlist any_no_nl pos (c :: (b :: t) ++ r) caps)
        with (if any_no_nl c then starlist any_no_nl (S pos) ((b :: t) ++ r) caps ++ [MSt pos (c :: (b :: t) ++ r) caps]
              else [MSt pos (c :: (b :: t) ++ r) caps]).
      rewrite (high_any _ A), flat_map_app, (starlist_cont F (b :: t) D Hc).
      f_equal. f_equal. f_equal. cbn [length]. lia. }
  apply G; auto.
Qed.
(** One dot and a star of dots. *)
Lemma plus_dot F (D : dies F) pos s caps : utf8_valid s = true ->
  flat_map F (crun (CSeq dot (CStar dot)) (MSt pos s caps)) =
  flat_map F (run (XSeq (XChar any_no_nl) (XStar (XChar any_no_nl))) (MSt pos s caps)).
Proof.
  intros V.
  change (crun (CSeq dot (CStar dot)) (MSt pos s caps)) with (flat_map (crun (CStar dot)) (crun dot (MSt pos s caps))).
  rewrite run_seq, run_dot by exact V. rewrite run_char. cbn [m_rest m_pos m_caps].
  destruct s as [|c0 s0]; [reflexivity|].
  destruct (valid_inv (c0 :: s0) V) as [(c & r & E & A & Vr & N)|(c & t & r & E & A & _ & Ht & Hc & Vr & N)];
    [congruence| |]; rewrite N; injection E as -> ->.
  - destruct (any_no_nl c); [|reflexivity]. cbn [length]. rewrite Nat.add_1_r.
    cbn [flat_map]. rewrite !app_nil_r, run_star. cbn [m_pos m_rest m_caps]. apply star_dot; assumption.
  - destruct t as [|b t]; [congruence|]. rewrite (high_any _ A).
    cbn [flat_map]. rewrite !app_nil_r, run_star. cbn [m_pos m_rest m_caps].
    rewrite (star_dot F D) by exact Vr. rewrite (starlist_cont F (b :: t) D Hc). f_equal. f_equal. cbn [length]. lia.
Qed.

(** Any character but those of the given byte kills a continuation byte. *)
Lemma chr_dies c : cont c = false -> dies (run (chr c)).
Proof.
  intros H pos d r caps Hd. unfold chr. rewrite run_char. cbn [m_rest].
  destruct (d =b c) eqn:E; [|reflexivity]. apply byte_eqb_eq in E. congruence.
Qed.
Lemma asc_chr c : in_rng 0 127 c = true -> asc (fun d => d =b c).
Proof. intros H d E. apply byte_eqb_eq in E. subst. exact H. Qed.
Lemma flat_map_nil {A B} (f : A -> list B) l : (forall x, f x = []) -> flat_map f l = [].
Proof. intros H. induction l as [|x l IH]; cbn; [reflexivity|]. rewrite H, IH. reflexivity. Qed.


(** ** What is left after matching is a suffix *)
Lemma run_suffix r : forall st st', In st' (run r st) -> exists x, m_rest st = x ++ m_rest st'.
Proof.
  induction r as [p|a IHa b IHb|a IHa b IHb|a IHa|a IHa|n a IHa| |]; intros st st' H.
  - rewrite run_char in H. destruct (m_rest st) as [|c s]; [destruct H|]. destruct (p c); [|destruct H].
    destruct H as [<-|[]]. exists [c]. reflexivity.
  - rewrite run_seq in H. apply in_flat_map in H. destruct H as (x & H1 & H2).
    destruct (IHa _ _ H1) as [u ->]. destruct (IHb _ _ H2) as [v ->]. exists (u ++ v). now rewrite app_assoc.
  - rewrite run_alt in H. apply in_app_iff in H. destruct H; auto.
  - rewrite run_opt in H. apply in_app_iff in H. destruct H as [H|[<-|[]]]; [auto|]. exists []. reflexivity.
  - cbn [run] in H. revert H. generalize (length (m_rest st)). intros n. revert st.
    induction n as [|n IHn]; intros st H.
    + destruct H as [<-|[]]. exists []. reflexivity.
    + apply in_app_iff in H. destruct H as [H|[<-|[]]]; [|exists []; reflexivity].
      apply in_flat_map in H. destruct H as (x & H1 & H2). destruct (m_pos st <? m_pos x); [|destruct H2].
      destruct (IHa _ _ H1) as [u ->]. destruct (IHn _ H2) as [v ->]. exists (u ++ v). now rewrite app_assoc.
  - rewrite run_group in H. apply in_map_iff in H. destruct H as (x & <- & H). cbn [m_rest]. auto.
  - cbn in H. destruct (m_pos st =? 0); [|destruct H]. destruct H as [<-|[]]. exists []. reflexivity.
  - rewrite run_end in H. destruct (m_rest st) eqn:E; [|destruct H]. destruct H as [<-|[]]. exists []. now rewrite E.
Qed.
Lemma valid_after x : forall c r, utf8_valid (x ++ c :: r) = true -> in_rng 0 127 c = true -> utf8_valid r = true.
Proof.
  induction x as [x IH] using (well_founded_induction (Wf_nat.well_founded_ltof _ (@length byte))).
  intros c r V A.
  destruct (valid_inv (x ++ c :: r) V) as [(d & s & E & _ & Vs & _)|(d & t & s & E & H & _ & _ & Ht & Vs & _)];
    [destruct x; discriminate| |].
  - destruct x as [|e x]; injection E as -> E.
    + subst. exact Vs.
    + subst s. apply (IH x) with (c := c); auto. unfold Wf_nat.ltof. cbn. lia.
  - destruct x as [|e x]; injection E as -> E; [congruence|].
    assert (G : exists y, s = y ++ c :: r /\ length y <= length x).
    { clear - E Ht A. revert x E. induction t as [|b t IHt]; intros x E.
      - exists x. split; [now symmetry in E|lia].
      - cbn [forallb] in Ht. apply andb_prop in Ht. destruct Ht as [Hb Ht].
        destruct x as [|e x]; injection E as E1 E.
        + subst. revert A Hb. unfold cont, in_rng. rewrite !andb_true_iff, !N.leb_le. lia.
        + destruct (IHt Ht x E) as (y & Ey & L). exists y. split; [exact Ey|cbn; lia]. }
    destruct G as (y & -> & L). apply (IH y) with (c := c); auto. unfold Wf_nat.ltof. cbn. lia.
Qed.
(** After an ASCII character the rest is valid. *)
Lemma valid_chr c st : in_rng 0 127 c = true ->
  forall st0 x, m_rest st0 = x ++ m_rest st -> st_valid st0 ->
  forall st', In st' (run (chr c) st) -> st_valid st'.
Proof.
  intros A st0 x E V st' H. unfold chr in H. rewrite run_char in H. destruct (m_rest st) as [|d s] eqn:Es; [destruct H|].
  destruct (d =b c) eqn:Ed; [|destruct H]. apply byte_eqb_eq in Ed. subst d. destruct H as [<-|[]].
  unfold st_valid in *. cbn [m_rest]. rewrite E in V. eapply valid_after; eauto.
Qed.

(** ** The pieces of the pattern *)
Lemma brackets_same st : st_valid st ->
  crun (CSeq (cchr "[") (CSeq (CStar dot) (cchr "]"))) st =
  run (XSeq (chr "[") (XSeq (XStar (XChar any_no_nl)) (chr "]"))) st.
Proof.
  intros V. cbn [crun run].
  change (flat_map (fun st1 => flat_map (crun (cchr "]")) (crun (CStar dot) st1)) (crun (cchr "[") st) =
          flat_map (fun st1 => flat_map (run (chr "]")) (run (XStar (XChar any_no_nl)) st1)) (run (chr "[") st)).
  unfold cchr at 2. rewrite class_same by (apply asc_chr; reflexivity).
  apply flat_map_in_ext. intros x Hx.
  assert (Vx : st_valid x) by exact (valid_chr "[" st eq_refl st [] eq_refl V x Hx).
  rewrite run_star. destruct x as [pos s caps]. cbn [m_pos m_rest m_caps] in *.
  rewrite (flat_map_ext' (crun (cchr "]")) (run (chr "]"))).
  - apply star_dot; [apply chr_dies; reflexivity|exact Vx].
  - intros y. apply class_same. apply asc_chr. reflexivity.
Qed.
Definition crx_args : crx := CSeq (COpt (CGroup 7 (CSeq (cchr "[") (CSeq (CStar dot) (cchr "]"))))) CEnd.
Lemma args_same st : st_valid st -> crun crx_args st = run rx_args st.
Proof.
  intros V. unfold crx_args, rx_args.
  change (flat_map (crun CEnd) (map (fun st' => MSt (m_pos st') (m_rest st') ((7, (m_pos st, m_pos st')) :: m_caps st'))
            (crun (CSeq (cchr "[") (CSeq (CStar dot) (cchr "]"))) st) ++ [st]) =
          flat_map (run XEnd) (map (fun st' => MSt (m_pos st') (m_rest st') ((7, (m_pos st, m_pos st')) :: m_caps st'))
            (run (XSeq (chr "[") (XSeq (XStar (XChar any_no_nl)) (chr "]"))) st) ++ [st])).
  rewrite brackets_same by exact V. reflexivity.
Qed.
Lemma num_ascii n : all_ascii (rx_num n).
Proof.
  repeat split; intros c H.
  - apply byte_eqb_eq in H. subst. reflexivity.
  - revert H. revert c. assert (G : forallb (fun c => implb (is_19 c) (in_rng 0 127 c)) all_bytes = true) by reflexivity.
    intros c H. rewrite forallb_forall in G. specialize (G c (all_bytes_in c)). rewrite H in G. exact G.
  - assert (G : forallb (fun c => implb (is_digit c) (in_rng 0 127 c)) all_bytes = true) by reflexivity.
    rewrite forallb_forall in G. specialize (G c (all_bytes_in c)). rewrite H in G. exact G.
Qed.

Definition crx_tail : crx := CSeq (COpt (cnum 6)) crx_args.
Lemma opt_num_valid n st : st_valid st -> forall st', In st' (run (XOpt (rx_num n)) st) -> st_valid st'.
Proof.
  intros V st' H. rewrite run_opt in H. apply in_app_iff in H. destruct H as [H|[<-|[]]]; [|exact V].
  (* one digit at a time *)
  assert (G : forall s c d, utf8_valid (c :: s) = true -> in_rng 0 127 c = true -> d = s -> utf8_valid d = true).
  { intros s c d Vs A ->. exact (valid_after [] c s Vs A). }
  unfold rx_num in H. rewrite run_group in H. apply in_map_iff in H. destruct H as (x & <- & H).
  unfold st_valid. cbn [m_rest]. rewrite run_alt in H. apply in_app_iff in H. destruct H as [H|H].
  - exact (valid_chr "0" st eq_refl st [] eq_refl V x H).
  - rewrite run_seq in H. apply in_flat_map in H. destruct H as (y & H1 & H2).
    assert (Vy : utf8_valid (m_rest y) = true).
    { rewrite run_char in H1. destruct (m_rest st) as [|c s] eqn:Es; [destruct H1|].
      destruct (is_19 c) eqn:Ec; [|destruct H1]. destruct H1 as [<-|[]]. cbn [m_rest].
      unfold st_valid in V. rewrite Es in V. apply (G s c s V); [|reflexivity].
      exact (proj1 (proj2 (num_ascii 0)) c Ec). }
    rewrite run_star in H2. destruct y as [pos s caps]. cbn [m_pos m_rest m_caps] in *. clear H1.
    revert pos Vy H2. induction s as [|c s IH]; intros pos Vy H2; cbn [starlist] in H2.
    + destruct H2 as [<-|[]]. reflexivity.
    + destruct (is_digit c) eqn:Ec.
      * apply in_app_iff in H2. destruct H2 as [H2|[<-|[]]]; [|exact Vy].
        apply (IH (S pos)); [|exact H2]. apply (G s c s Vy); [|reflexivity].
        exact (proj2 (proj2 (num_ascii 0)) c Ec).
      * destruct H2 as [<-|[]]. exact Vy.
Qed.
Lemma tail_same st : st_valid st -> crun crx_tail st = run rx_tail st.
Proof.
  intros V. unfold crx_tail, rx_tail. cbn [crun run].
  change (flat_map (crun crx_args) (crun (embed (XOpt (rx_num 6))) st) =
          flat_map (run rx_args) (run (XOpt (rx_num 6)) st)).
  rewrite ascii_same by (exact (num_ascii 6)).
  apply flat_map_in_ext. intros x Hx. apply args_same. eapply opt_num_valid; eauto.
Qed.

Definition crx_ns : crx := CGroup 4 (CSeq (CGroup 5 (CSeq (cchr "/") (CSeq dot (CStar dot)))) (cchr ",")).
Lemma ns_same st : st_valid st -> crun crx_ns st = run rx_ns st.
Proof.
  intros V. unfold crx_ns, rx_ns.
  set (G5 := fun st' => MSt (m_pos st') (m_rest st') ((5, (m_pos st, m_pos st')) :: m_caps st')).
  set (G4 := fun st' => MSt (m_pos st') (m_rest st') ((4, (m_pos st, m_pos st')) :: m_caps st')).
  change (map G4 (flat_map (crun (cchr ",")) (map G5 (flat_map (crun (CSeq dot (CStar dot))) (crun (cchr "/") st)))) =
          map G4 (flat_map (run (chr ",")) (map G5 (flat_map (run (XSeq (XChar any_no_nl) (XStar (XChar any_no_nl)))) (run (chr "/") st))))).
  f_equal. unfold cchr at 2. rewrite class_same by (apply asc_chr; reflexivity).
  rewrite !flat_map_map, !flat_map_flat_map.
  apply flat_map_in_ext. intros x Hx.
  assert (Vx : st_valid x) by exact (valid_chr "/" st eq_refl st [] eq_refl V x Hx).
  rewrite (flat_map_ext' (fun y => crun (cchr ",") (G5 y)) (fun y => run (chr ",") (G5 y))).
  - destruct x as [pos s caps]. apply plus_dot; [|exact Vx].
    intros p c r k Hc. unfold G5. cbn [m_pos m_rest m_caps]. apply chr_dies; [reflexivity|exact Hc].
  - intros y. apply class_same. apply asc_chr. reflexivity.
Qed.
Lemma ns_valid st : st_valid st -> forall st', In st' (run rx_ns st) -> st_valid st'.
Proof.
  intros V st' H. unfold rx_ns in H. rewrite run_group in H. apply in_map_iff in H. destruct H as (x & <- & H).
  rewrite run_seq in H. apply in_flat_map in H. destruct H as (y & H1 & H2).
  destruct (run_suffix _ _ _ H1) as [u E]. exact (valid_chr "," y eq_refl st u E V x H2).
Qed.
Definition crx_nstail : crx := CSeq (COpt crx_ns) crx_tail.
Lemma nstail_same st : st_valid st -> crun crx_nstail st = run rx_nstail st.
Proof.
  intros V. unfold crx_nstail, rx_nstail.
  change (flat_map (crun crx_tail) (crun crx_ns st ++ [st]) = flat_map (run rx_tail) (run rx_ns st ++ [st])).
  rewrite ns_same by exact V. apply flat_map_in_ext. intros x Hx. apply tail_same.
  apply in_app_iff in Hx. destruct Hx as [Hx|[<-|[]]]; [|exact V]. eapply ns_valid; eauto.
Qed.
Definition rx_count : rx := XOpt (XGroup 2 (XSeq (rx_num 3) (chr "-"))).
Lemma count_ascii : all_ascii rx_count.
Proof. split; [exact (num_ascii 3)|]. apply asc_chr. reflexivity. Qed.
Lemma count_valid st : st_valid st -> forall st', In st' (run rx_count st) -> st_valid st'.
Proof.
  intros V st' H. unfold rx_count in H. rewrite run_opt in H. apply in_app_iff in H. destruct H as [H|[<-|[]]]; [|exact V].
  rewrite run_group in H. apply in_map_iff in H. destruct H as (x & <- & H).
  rewrite run_seq in H. apply in_flat_map in H. destruct H as (y & H1 & H2).
  destruct (run_suffix _ _ _ H1) as [u E]. exact (valid_chr "-" y eq_refl st u E V x H2).
Qed.
Definition rx_type : rx := XGroup 1 (one_of (bs "012356")).
Lemma type_ascii : all_ascii rx_type.
Proof.
  intros c H. assert (G : forallb (fun c => implb (existsb (fun d => c =b d) (bs "012356")) (in_rng 0 127 c)) all_bytes = true) by reflexivity.
  rewrite forallb_forall in G. specialize (G c (all_bytes_in c)). rewrite H in G. exact G.
Qed.
Lemma type_valid st : st_valid st -> forall st', In st' (run rx_type st) -> st_valid st'.
Proof.
  intros V st' H. unfold rx_type, one_of in H. rewrite run_group, run_char in H. apply in_map_iff in H. destruct H as (x & <- & H).
  unfold st_valid in *. destruct (m_rest st) as [|c s] eqn:Es; [destruct H|]. destruct (existsb _ _) eqn:Ec; [|destruct H].
  destruct H as [<-|[]]. cbn [m_rest]. exact (valid_after [] c s V (type_ascii c Ec)).
Qed.
Lemma cre_same st : st_valid st -> crun DESERIALIZE_CRE st = run DESERIALIZE_RE st.
Proof.
  intros V.
  change (flat_map (fun st0 => flat_map (fun st1 => flat_map (crun crx_nstail) (crun (embed rx_count) st1)) (crun (embed rx_type) st0)) (crun CBegin st) =
          flat_map (fun st0 => flat_map (fun st1 => flat_map (run rx_nstail) (run rx_count st1)) (run rx_type st0)) (run XBegin st)).
  change (crun CBegin st) with (run XBegin st). apply flat_map_in_ext. intros x Hx.
  assert (Vx : st_valid x) by (cbn in Hx; destruct (m_pos st =? 0); [destruct Hx as [<-|[]]; exact V|destruct Hx]).
  rewrite ascii_same by exact type_ascii. apply flat_map_in_ext. intros y Hy.
  assert (Vy : st_valid y) by (eapply type_valid; eauto).
  rewrite ascii_same by exact count_ascii. apply flat_map_in_ext. intros z Hz.
  apply nstail_same. eapply count_valid; eauto.
Qed.

(** Matching characters is matching bytes. *)
Lemma captures_same t : utf8_valid t = true -> ccaptures DESERIALIZE_CRE t = captures DESERIALIZE_RE t.
Proof.
  intros V. unfold ccaptures, captures.
  assert (N : forall pos s, run DESERIALIZE_RE (MSt (S pos) s []) = []) by reflexivity.
  assert (CN : forall pos s, crun DESERIALIZE_CRE (MSt (S pos) s []) = []) by reflexivity.
  assert (S1 : forall s pos, search_from DESERIALIZE_RE (S pos) s = None).
  { induction s as [|c s IH]; intros pos; cbn [search_from]; rewrite N; auto. }
  assert (S2 : forall n s pos, csearch_from n DESERIALIZE_CRE (S pos) s = None).
  { induction n as [|n IH]; intros s pos; cbn [csearch_from]; rewrite CN; [reflexivity|].
    destruct (next_char s) as [[ch s']|]; [|reflexivity]. cbn [Nat.add]. apply IH. }
  pose proof (cre_same (MSt 0 t []) V) as E.
  destruct t as [|c t]; [reflexivity|]. cbn [length]. 
  change (csearch_from (S (length t)) DESERIALIZE_CRE 0 (c :: t)) with
    (match crun DESERIALIZE_CRE (MSt 0 (c :: t) []) with
     | st :: _ => Some (m_caps st)
     | [] => match next_char (c :: t) with
             | Some (ch, s') => csearch_from (length t) DESERIALIZE_CRE (0 + length ch) s'
             | None => None end
     end).
  change (search_from DESERIALIZE_RE 0 (c :: t)) with
    (match run DESERIALIZE_RE (MSt 0 (c :: t) []) with
     | st :: _ => Some (m_caps st)
     | [] => search_from DESERIALIZE_RE 1 t
     end).
  rewrite E. destruct (run DESERIALIZE_RE (MSt 0 (c :: t) [])) as [|st l]; [|reflexivity].
  rewrite S1. unfold next_char.
  assert (exists k, length (firstn (char_len c) (c :: t)) = S k) as [k ->].
  { unfold char_len. destruct (in_rng 0 127 c), (in_rng 194 223 c), (in_rng 224 239 c); cbn [firstn length]; eauto. }
  apply S2.
Qed.
