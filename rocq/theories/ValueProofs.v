(** The value that is read is the one the text means. *)
From Verif Require Export SpecValue TreeProofs ReadProofs.
From Coq Require Import ZArith Lia.

(** ** Strings *)
Ltac divmod := Zify.zify; Z.div_mod_to_equations; lia.

Lemma utf8_char_encode n u : utf8_char n u -> u = utf8_encode n.
Proof.
  intros H. destruct H as [a Ha|n a b x y E Hn Hy Ea Eb|n a b c x y z E Hn _ Hy Hz Ea Eb Ec|n a b c d x y z t E Hn Hy Hz Ht Ea Eb Ec Ed]; unfold utf8_encode.
  - apply N.ltb_lt in Ha. rewrite Ha, byte_of_bN. reflexivity.
  - replace (n <? 128)%N with false by (symmetry; apply N.ltb_ge; lia). replace (n <? 2048)%N with true by (symmetry; apply N.ltb_lt; lia).
    replace (n / 64)%N with x by divmod. replace (n mod 64)%N with y by divmod. rewrite <- Ea, <- Eb, !byte_of_bN. reflexivity.
  - replace (n <? 128)%N with false by (symmetry; apply N.ltb_ge; lia). replace (n <? 2048)%N with false by (symmetry; apply N.ltb_ge; lia).
    replace (n <? 65536)%N with true by (symmetry; apply N.ltb_lt; lia).
    replace (n / 4096)%N with x by divmod. replace (n / 64)%N with (x * 64 + y)%N by divmod. replace ((x * 64 + y) mod 64)%N with y by divmod.
    replace (n mod 64)%N with z by divmod. rewrite <- Ea, <- Eb, <- Ec, !byte_of_bN. reflexivity.
  - replace (n <? 128)%N with false by (symmetry; apply N.ltb_ge; lia). replace (n <? 2048)%N with false by (symmetry; apply N.ltb_ge; lia).
    replace (n <? 65536)%N with false by (symmetry; apply N.ltb_ge; lia).
    replace (n / 262144)%N with x by divmod. replace (n / 4096)%N with (x * 64 + y)%N by divmod. replace ((x * 64 + y) mod 64)%N with y by divmod.
    replace (n / 64)%N with ((x * 64 + y) * 64 + z)%N by divmod. replace (((x * 64 + y) * 64 + z) mod 64)%N with z by divmod.
    replace (n mod 64)%N with t by divmod. rewrite <- Ea, <- Eb, <- Ec, <- Ed, !byte_of_bN. reflexivity.
Qed.
Lemma utf8_encode_char n : (n <= 1114111)%N -> ~ (55296 <= n <= 57343)%N -> utf8_char n (utf8_encode n).
Proof.
  intros Hn Hs. unfold utf8_encode. destruct (N.ltb_spec n 128) as [H1|H1].
  { rewrite <- (bN_byte_of n) at 1 by lia. apply u8_1. rewrite bN_byte_of; lia. }
  destruct (N.ltb_spec n 2048) as [H2|H2].
  { apply (u8_2 n _ _ (n / 64) (n mod 64)); try (rewrite bN_byte_of); divmod. }
  destruct (N.ltb_spec n 65536) as [H3|H3].
  { apply (u8_3 n _ _ _ (n / 4096) ((n / 64) mod 64) (n mod 64)); try (rewrite bN_byte_of); try exact Hs; divmod. }
  apply (u8_4 n _ _ _ _ (n / 262144) ((n / 4096) mod 64) ((n / 64) mod 64) (n mod 64)); try (rewrite bN_byte_of); divmod.
Qed.

Lemma hex_digit_val h v : hex_digit h v <-> is_hex h = true /\ v = hex_val h.
Proof.
  split.
  - assert (K : forall l, length l = 16 -> forall i, nth_error l i = Some h -> i < 16) by (intros l E i Hi; rewrite <- E; apply nth_error_Some; congruence).
    assert (G : N.to_nat v < 16 -> v = N.of_nat (N.to_nat v)) by (rewrite N2Nat.id; reflexivity).
    intros [H|H]; [pose proof (K (bs "0123456789abcdef") eq_refl _ H) as L|pose proof (K (bs "0123456789ABCDEF") eq_refl _ H) as L]; rewrite (G L); clear G K; revert H L; generalize (N.to_nat v) as i; intros i H L;
      do 16 (destruct i as [|i]; [injection H as <-; split; reflexivity|]); lia.
  - intros [H ->].
    assert (B : forall b, (negb (is_hex b) || match nth_error (bs "0123456789abcdef") (N.to_nat (hex_val b)) with Some c => c =b b | None => false end
       || match nth_error (bs "0123456789ABCDEF") (N.to_nat (hex_val b)) with Some c => c =b b | None => false end) = true)
      by (apply byte_forall; vm_compute; reflexivity).
    specialize (B h). rewrite H in B. cbn [negb orb] in B. apply Bool.orb_true_iff in B as [B|B]; [left|right];
      (destruct (nth_error _ _) as [c|]; [|discriminate]); apply byte_eqb_eq in B; subst; reflexivity.
Qed.
Lemma hex_quad_val h1 h2 h3 h4 n : hex_quad h1 h2 h3 h4 n <->
  Forall (fun h => is_hex h = true) [h1; h2; h3; h4] /\ n = hex4 h1 h2 h3 h4.
Proof.
  unfold hex_quad, hex4. split.
  - intros (a & b & c & d & H1 & H2 & H3 & H4 & ->). apply hex_digit_val in H1 as [? ->], H2 as [? ->], H3 as [? ->], H4 as [? ->].
    split; [repeat constructor; assumption|lia].
  - intros [H ->]. inversion H as [|? ? A1 H']; subst. inversion H' as [|? ? A2 H'']; subst. inversion H'' as [|? ? A3 H3]; subst. inversion H3 as [|? ? A4 _]; subst.
    exists (hex_val h1), (hex_val h2), (hex_val h3), (hex_val h4). rewrite !hex_digit_val. repeat split; auto. lia.
Qed.
Lemma hex_val_bound h : is_hex h = true -> (hex_val h < 16)%N.
Proof.
  intros H. assert (B : forall b, (negb (is_hex b) || (hex_val b <? 16)%N) = true) by (apply byte_forall; vm_compute; reflexivity).
  specialize (B h). rewrite H in B. apply N.ltb_lt. exact B.
Qed.
Lemma hex4_bound h1 h2 h3 h4 : Forall (fun h => is_hex h = true) [h1; h2; h3; h4] -> (hex4 h1 h2 h3 h4 < 65536)%N.
Proof.
  intros H. inversion H as [|? ? A1 H']; subst. inversion H' as [|? ? A2 H'']; subst. inversion H'' as [|? ? A3 H3]; subst. inversion H3 as [|? ? A4 _]; subst.
  apply hex_val_bound in A1, A2, A3, A4. unfold hex4. lia.
Qed.
Lemma simple_esc_table e c : simple_esc e = Some c <-> In (e, c) escape_table.
Proof.
  split.
  - unfold simple_esc. repeat (match goal with |- context [if (?a =b ?b) then _ else _] => destruct (a =b b) eqn:? end;
      [intros X; injection X as <-; match goal with E : (_ =b _) = true |- _ => apply byte_eqb_eq in E; subst; cbn; tauto end|]). discriminate.
  - cbn. intros H. repeat (destruct H as [H|H]; [injection H as <- <-; reflexivity|]). destruct H.
Qed.

Lemma means_unescape b s : string_means b s -> unescape b = Some s.
Proof.
  induction 1 as [|c b s Hc _ IH|e c b s He _ IH|h1 h2 h3 h4 n u b s Hq Hn Hu _ IH|h1 h2 h3 h4 g1 g2 g3 g4 hi lo u b s Hq Hq' Hhi Hlo Hu _ IH].
  - reflexivity.
  - cbn [unescape]. apply byte_eqb_neq in Hc. change backslash with x5c. rewrite Hc, IH. reflexivity.
  - cbn [unescape]. change (x5c =b backslash) with true. apply simple_esc_table in He. rewrite He, IH. reflexivity.
  - apply hex_quad_val in Hq as [_ ->]. cbn [unescape]. change (x5c =b backslash) with true. change (simple_esc "u") with (@None byte). cbv iota.
    destruct (N.leb_spec 56320 (hex4 h1 h2 h3 h4)); destruct (N.leb_spec (hex4 h1 h2 h3 h4) 57343); cbn [andb]; try lia;
      (destruct (N.ltb_spec (hex4 h1 h2 h3 h4) 55296); destruct (N.ltb_spec 56319 (hex4 h1 h2 h3 h4)); cbn [orb]; try lia);
      rewrite IH, (utf8_char_encode _ _ Hu); reflexivity.
  - apply hex_quad_val in Hq as [_ ->], Hq' as [_ ->]. cbn [unescape]. change (x5c =b backslash) with true. change (simple_esc "u") with (@None byte).
    change ("u" =b "u") with true. cbv iota. cbn [andb].
    replace (56320 <=? hex4 h1 h2 h3 h4)%N with false by (symmetry; apply N.leb_gt; lia). cbn [andb].
    replace (hex4 h1 h2 h3 h4 <? 55296)%N with false by (symmetry; apply N.ltb_ge; lia). replace (56319 <? hex4 h1 h2 h3 h4)%N with false by (symmetry; apply N.ltb_ge; lia). cbn [orb].
    replace (hex4 g1 g2 g3 g4 <? 56320)%N with false by (symmetry; apply N.ltb_ge; lia). replace (57343 <? hex4 g1 g2 g3 g4)%N with false by (symmetry; apply N.ltb_ge; lia). cbn [orb].
    rewrite IH, (utf8_char_encode _ _ Hu). do 3 f_equal. lia.
Qed.
Lemma unescape_means_n n : forall b s, length b <= n -> jbody b -> unescape b = Some s -> string_means b s.
Proof.
  induction n as [|n IH]; intros b s Hn Hb H.
  { destruct b; [|cbn in Hn; lia]. injection H as <-. constructor. }
  inversion Hb as [|c b' H1 H2 H3 Hb'|e b' He Hb'|h1 h2 h3 h4 b' Hh Hb']; subst; cbn [length] in Hn.
  - injection H as <-. constructor.
  - cbn [unescape] in H. apply byte_eqb_neq in H2 as H2'. change backslash with x5c in H. rewrite H2' in H.
    destruct (unescape b') as [t|] eqn:E; [|discriminate]. injection H as <-. apply sm_char; [exact H2|]. apply IH; auto. lia.
  - cbn [unescape] in H. change (x5c =b backslash) with true in H. cbv iota in H. destruct (simple_esc e) as [c|] eqn:Ee.
    + destruct (unescape b') as [t|] eqn:E; [|discriminate]. injection H as <-. apply sm_escape; [apply simple_esc_table; exact Ee|]. apply IH; auto. lia.
    + exfalso. apply simple_esc_in in He. contradiction.
  - cbn [unescape] in H. change (x5c =b backslash) with true in H. change (simple_esc "u") with (@None byte) in H. cbv iota zeta in H.
    pose proof (hex4_bound _ _ _ _ Hh) as Hx.
    destruct (N.leb_spec 56320 (hex4 h1 h2 h3 h4)) as [A|A]; destruct (N.leb_spec (hex4 h1 h2 h3 h4) 57343) as [B|B]; cbn [andb] in H; try discriminate; try lia.
    all: destruct (N.ltb_spec (hex4 h1 h2 h3 h4) 55296) as [C|C]; destruct (N.ltb_spec 56319 (hex4 h1 h2 h3 h4)) as [D|D]; cbn [orb] in H; try lia.
    1, 2: (destruct (unescape b') as [t|] eqn:E; [|discriminate]; injection H as <-;
      apply (sm_unicode h1 h2 h3 h4 (hex4 h1 h2 h3 h4)); [apply hex_quad_val; auto|lia|apply utf8_encode_char; lia|apply IH; auto; lia]).
    destruct b' as [|b1 [|u1 [|g1 [|g2 [|g3 [|g4 r3]]]]]]; try discriminate. destruct (b1 =b backslash) eqn:Eb; [|discriminate]. destruct (u1 =b "u") eqn:Eu; [|discriminate].
    cbn [andb] in H. apply byte_eqb_eq in Eb, Eu. subst b1 u1.
    destruct (N.ltb_spec (hex4 g1 g2 g3 g4) 56320) as [F|F]; [discriminate|]. destruct (N.ltb_spec 57343 (hex4 g1 g2 g3 g4)) as [G|G]; [discriminate|]. cbn [orb] in H.
    destruct (unescape r3) as [t|] eqn:E; [|discriminate]. injection H as <-. cbn [length] in Hn.
    inversion Hb' as [|? ? _ X|? ? X|? ? ? ? ? Hg Hr]; subst; [destruct (X eq_refl)| |].
    { exfalso. cbn in X. repeat (destruct X as [X|X]; [discriminate|]). destruct X. }
    apply (sm_pair h1 h2 h3 h4 g1 g2 g3 g4 (hex4 h1 h2 h3 h4) (hex4 g1 g2 g3 g4)); try lia; try (apply hex_quad_val; auto).
    + replace (65536 + (hex4 h1 h2 h3 h4 - 55296) * 1024 + (hex4 g1 g2 g3 g4 - 56320))%N with ((hex4 h1 h2 h3 h4 - 55296) * 1024 + (hex4 g1 g2 g3 g4 - 56320) + 65536)%N by lia.
      apply utf8_encode_char; lia.
    + apply IH; auto. lia.
Qed.
Lemma unescape_exact b s : jbody b -> (unescape b = Some s <-> string_means b s).
Proof. intros H. split; [apply (unescape_means_n (length b)); auto|apply means_unescape]. Qed.

(** ** Numbers *)
Lemma magnitude_from ds : forallb is_digit ds = true -> forall a,
  fold_left (fun a c => a * 10 + (Z.of_N (bN c) - 48))%Z ds (Z.of_N a) = Z.of_N (undec_from a ds).
Proof.
  induction ds as [|c ds IH]; intros H a; [reflexivity|]. cbn [forallb] in H. apply andb_true_iff in H as [Hc H]. cbn [fold_left undec_from].
  rewrite <- (IH H). f_equal. unfold is_digit in Hc. unfold digit_val. lia.
Qed.
Lemma magnitude_undec ds : forallb is_digit ds = true -> magnitude ds = Z.of_N (undec ds).
Proof. intros H. exact (magnitude_from ds H 0%N). Qed.

Lemma undec_from_eq ds : forall a, undec_from a ds = (a * 10 ^ N.of_nat (length ds) + undec ds)%N.
Proof.
  unfold undec. induction ds as [|c ds IH]; intros a; [cbn; lia|]. cbn [undec_from length]. rewrite (IH (a * 10 + digit_val c)%N), (IH (0 * 10 + digit_val c)%N).
  rewrite Nat2N.inj_succ, N.pow_succ_r'. lia.
Qed.
Lemma undec_bound ds : forallb is_digit ds = true -> (undec ds < 10 ^ N.of_nat (length ds))%N.
Proof.
  induction ds as [|c ds IH]; intros H; [cbn; lia|]. cbn [forallb] in H. apply andb_true_iff in H as [Hc H].
  unfold undec. cbn [undec_from length]. rewrite undec_from_eq, Nat2N.inj_succ, N.pow_succ_r'. specialize (IH H). unfold undec in IH.
  apply digit_val_bound in Hc. unfold undec. nia.
Qed.
(** What [absorb] takes. *)
Lemma absorb_spec ds : forallb is_digit ds = true -> forall s s' r, (s <= u64_max)%N -> absorb s ds = (s', r) ->
  exists c, ds = c ++ r /\ s' = undec_from s c /\ (s' <= u64_max)%N /\ (r <> [] -> u64_max < s' * 10 + 9 /\ u64_max < undec_from s ds)%N.
Proof.
  induction ds as [|d ds IH]; intros H s s' r Hs E.
  - injection E as <- <-. exists []. repeat split; auto; contradiction.
  - cbn [forallb] in H. apply andb_true_iff in H as [Hc H]. cbn [absorb] in E. destruct (N.ltb_spec u64_max (s * 10 + digit_val d)) as [L|L].
    + injection E as <- <-. exists []. split; [reflexivity|]. split; [reflexivity|]. split; [exact Hs|]. intros _. apply digit_val_bound in Hc. split; [lia|].
      cbn [undec_from]. rewrite undec_from_eq. assert (1 <= 10 ^ N.of_nat (length ds))%N by (apply N.lt_pred_le; apply N.neq_0_lt_0; apply N.pow_nonzero; discriminate). nia.
    + destruct (IH H _ _ _ L E) as (c & -> & -> & A & B). exists (d :: c). repeat split; auto; apply B; assumption.
Qed.
Lemma absorb_whole ds : forallb is_digit ds = true -> forall s' r, absorb 0 ds = (s', r) ->
  (r = [] -> s' = undec ds) /\ (r = [] <-> (undec ds <= u64_max)%N).
Proof.
  intros H s' r E. destruct (absorb_spec ds H 0 s' r ltac:(cbv; discriminate) E) as (c & -> & -> & A & B). split.
  - intros ->. rewrite app_nil_r. reflexivity.
  - split; [intros ->; rewrite app_nil_r; exact A|]. intros L. destruct r as [|x r]; [reflexivity|]. destruct (B ltac:(discriminate)) as [_ B']. unfold undec in L. lia.
Qed.

Lemma int_digits i : int_part i -> forallb is_digit i = true.
Proof. intros [->|[H _]]; [reflexivity|]. apply digits_forallb in H. tauto. Qed.

Lemma num_exact x y : numlit_ok x -> (num_of x = Some y <-> number_means x y).
Proof.
  intros (Hi & _ & _). apply int_digits in Hi. pose proof (magnitude_undec _ Hi) as Hm.
  assert (D : (is_u64 x /\ num_of x = Some (NPos (Z.to_N (magnitude (nl_int x))))) \/ (is_i64 x /\ num_of x = Some (NNeg (- magnitude (nl_int x)))) \/
              (~ is_u64 x /\ ~ is_i64 x /\ (num_of x = None \/ num_of x = Some (NFloat x)))).
  { unfold is_u64, is_i64, whole, num_of. destruct (absorb 0 (nl_int x)) as [sig more] eqn:Ea.
    destruct (absorb_whole _ Hi _ _ Ea) as [A B]. rewrite Hm. clear Hm Ea.
    destruct (nl_frac x) as [f|].
    { right; right. split; [intros [[X _] _]; discriminate|]. split; [intros [[X _] _]; discriminate|]. destruct (absorb sig f) as [sig' more'].
      destruct (exp_ok _ _ _); auto. }
    destruct (nl_exp x) as [e|].
    { right; right. split; [intros [[_ X] _]; discriminate|]. split; [intros [[_ X] _]; discriminate|]. destruct (exp_ok _ _ _); auto. }
    destruct more as [|d more].
    - rewrite (A eq_refl). assert (L : (undec (nl_int x) <= u64_max)%N) by (apply B; reflexivity). unfold u64_max in L. destruct (nl_neg x).
      + destruct (N.ltb_spec 0 (undec (nl_int x))); destruct (N.leb_spec (undec (nl_int x)) 9223372036854775808); cbn [andb].
        * right; left. split; [|reflexivity]. repeat split; lia.
        * right; right. split; [intros (_ & X & _); discriminate|]. split; [intros (_ & _ & X); lia|]. auto.
        * right; right. split; [intros (_ & X & _); discriminate|]. split; [intros (_ & _ & X); lia|]. auto.
        * right; right. split; [intros (_ & X & _); discriminate|]. split; [intros (_ & _ & X); lia|]. auto.
      + left. split; [repeat split; lia|]. rewrite N2Z.id. reflexivity.
    - assert (L : ~ (undec (nl_int x) <= u64_max)%N) by (intros X; apply B in X; discriminate). unfold u64_max in L. right; right.
      split; [intros (_ & _ & X); lia|]. split; [intros (_ & _ & X); lia|]. destruct (exp_ok _ _ _); auto. }
  assert (X : ~ (is_u64 x /\ is_i64 x)) by (intros [(_ & E & _) (_ & E' & _)]; congruence).
  destruct D as [[D ->]|[[D ->]|(D1 & D2 & D)]].
  - split; [intros E; injection E as <-; constructor; exact D|]. intros H. inversion H; subst; [reflexivity|exfalso; auto|contradiction].
  - split; [intros E; injection E as <-; constructor; exact D|]. intros H. inversion H; subst; [exfalso; auto|reflexivity|contradiction].
  - split.
    + intros E. destruct D as [D|D]; rewrite D in E; [discriminate|]. injection E as <-. constructor; auto. congruence.
    + intros H. inversion H; subst; try contradiction. destruct D as [D|D]; congruence.
Qed.

(** ** Objects *)
Lemma key_less_ltb a : forall b, key_less a b <-> bytes_ltb a b = true.
Proof.
  induction a as [|x a IH]; intros [|y b]; cbn [bytes_ltb].
  - split; [|discriminate]. intros [(c & r & E)|(p & u & w & r & r' & E & _)]; [discriminate|destruct p; discriminate].
  - split; [reflexivity|]. intros _. left. exists y, b. reflexivity.
  - split; [|discriminate]. intros [(c & r & E)|(p & u & w & r & r' & _ & E & _)]; [discriminate|destruct p; discriminate].
  - specialize (IH b). split.
    + intros [(c & r & E)|(p & u & w & r & r' & E1 & E2 & L)].
      * injection E as -> E. rewrite N.ltb_irrefl. apply IH. left. eauto.
      * destruct p as [|z p]; cbn in E1, E2; injection E1 as -> E1; injection E2 as -> E2.
        -- apply N.ltb_lt in L. rewrite L. reflexivity.
        -- rewrite N.ltb_irrefl. apply IH. right. exists p, u, w, r, r'. auto.
    + intros H. destruct (N.ltb_spec (bN x) (bN y)) as [L|L].
      * right. exists [], x, y, a, b. auto.
      * destruct (N.ltb_spec (bN y) (bN x)) as [L'|L']; [discriminate|]. assert (x = y) as -> by (apply bN_inj; lia).
        apply IH in H as [(c & r & ->)|(p & u & w & r & r' & -> & -> & K)].
        -- left. exists c, r. reflexivity.
        -- right. exists (y :: p), u, w, r, r'. auto.
Qed.
Lemma sorted_iff {A} (m : list (bytes * A)) : StronglySorted (fun a b => key_less (fst a) (fst b)) m <-> in_key_order m.
Proof.
  unfold in_key_order. split; induction 1 as [|p m Hm IH Hf]; constructor; auto; (eapply Forall_impl; [|exact Hf]); intros q; apply key_less_ltb.
Qed.
Lemma insert_in_iff {A} k (v : A) m : in_key_order m -> forall k' v', In (k', v') (obj_insert k v m) <-> (k' = k /\ v' = v) \/ (k' <> k /\ In (k', v') m).
Proof.
  unfold in_key_order. induction 1 as [|[k1 v1] m Hm IH Hf]; intros k' v'; cbn [obj_insert].
  - cbn. split; [intros [X|[]]; injection X as <- <-; auto|]. intros [[-> ->]|[_ []]]. auto.
  - rewrite Forall_forall in Hf. destruct (bytes_eqb k k1) eqn:E.
    + apply bytes_eqb_eq in E. subst k1. cbn. split.
      * intros [X|X]; [injection X as <- <-; auto|]. right. split; [|auto]. intros ->. apply Hf in X. cbn in X. rewrite bytes_ltb_irrefl in X. discriminate.
      * intros [[-> ->]|[N [X|X]]]; [auto|injection X as <- <-; contradiction|auto].
    + apply bytes_eqb_neq in E. destruct (bytes_ltb k k1) eqn:L.
      * cbn. split.
        -- intros [X|X]; [injection X as <- <-; auto|]. right. split; [|exact X]. intros ->. destruct X as [X|X]; [injection X as X _; congruence|].
           apply Hf in X. cbn in X. pose proof (bytes_ltb_trans _ _ _ L X) as Y. rewrite bytes_ltb_irrefl in Y. discriminate.
        -- intros [[-> ->]|[_ X]]; auto.
      * cbn. rewrite IH. split.
        -- intros [X|[X|[N X]]]; [injection X as <- <-; right; split; [congruence|auto]|auto|auto].
        -- intros [X|[N [X|X]]]; auto.
Qed.
Definition inserted {T} (ms : list (bytes * T)) : list (bytes * T) :=
  fold_left (fun m kv => obj_insert (fst kv) (snd kv) m) ms [].
Lemma inserted_snoc {T} ms k (v : T) : inserted (ms ++ [(k, v)]) = obj_insert k v (inserted ms).
Proof. unfold inserted. rewrite fold_left_app. reflexivity. Qed.
Lemma inserted_members {T} (ms : list (bytes * T)) : map_of_members ms (inserted ms).
Proof.
  split; [apply sorted_iff, inserted_order; constructor|].
  induction ms as [|[k v] ms IH] using rev_ind; intros k' v'.
  - cbn. split; [intros []|]. intros (pre & post & E & _). destruct pre; discriminate.
  - rewrite inserted_snoc, insert_in_iff by (apply inserted_order; constructor). rewrite IH. split.
    + intros [[-> ->]|[N (pre & post & -> & H)]].
      * exists ms, []. auto.
      * exists pre, (post ++ [(k, v)]). split; [rewrite <- app_assoc; reflexivity|]. rewrite map_app, in_app_iff. cbn. intros [X|[X|[]]]; [auto|congruence].
    + intros (pre & post & E & H). destruct post as [|p post _] using rev_ind.
      * apply app_inj_tail in E as [-> E]. injection E as -> ->. auto.
      * change (pre ++ (k', v') :: post ++ [p]) with (pre ++ ((k', v') :: post) ++ [p]) in E. rewrite app_assoc in E. apply app_inj_tail in E as [-> <-].
        rewrite map_app, in_app_iff in H. cbn in H. right. split; [intros ->; tauto|]. exists pre, post. split; [reflexivity|tauto].
Qed.
Lemma obj_of_members ms : map_of_members ms (obj_of ms).
Proof. apply inserted_members. Qed.
Lemma members_unique {T} (ms m m' : list (bytes * T)) : map_of_members ms m -> map_of_members ms m' -> m = m'.
Proof.
  intros [H1 H2] [H1' H2']. apply sorted_iff in H1, H1'. apply order_unique; auto. apply NoDup_Permutation.
  - apply order_nodup in H1. apply NoDup_map_inv in H1. exact H1.
  - apply order_nodup in H1'. apply NoDup_map_inv in H1'. exact H1'.
  - intros [k v]. rewrite H2, H2'. reflexivity.
Qed.

(** ** Values *)
(** All strings, keys and numbers of a tree are well formed. *)
Fixpoint well (r : raw) : Prop :=
  match r with
  | RNum x => numlit_ok x
  | RStr b => jbody b
  | RArr l => allP well l
  | RObj l => allP (fun '(k, x) => jbody k /\ well x) l
  | _ => True
  end.
Lemma jvalue_well :
  (forall r t, jvalue r t -> well r) /\ (forall l t, jelems l t -> allP well l) /\
  (forall l t, jmembers l t -> allP (fun '(k, x) => jbody k /\ well x) l).
Proof. apply json_mutind; intros; cbn [well allP]; auto. Qed.
Lemma all_some_map_F2 {A B} (f : A -> option B) l : forall r, all_some (map f l) = Some r <-> Forall2 (fun a b => f a = Some b) l r.
Proof.
  induction l as [|x l IH]; intros r; cbn [map all_some].
  - split; [intros E; injection E as <-; constructor|]. intros H. inversion H. reflexivity.
  - split.
    + destruct (f x) as [y|] eqn:E; [|discriminate]. destruct (all_some (map f l)) as [ys|]; [|discriminate]. cbn. intros X. injection X as <-.
      constructor; [exact E|]. apply IH. reflexivity.
    + intros H. inversion H as [|? y ? ys H1 H2]; subst. rewrite H1. apply IH in H2. rewrite H2. reflexivity.
Qed.
Lemma F2_iff {A B} (P Q : A -> B -> Prop) l : forall r, Forall (fun a => forall b, P a b <-> Q a b) l -> (Forall2 P l r <-> Forall2 Q l r).
Proof.
  induction l as [|x l IH]; intros r H.
  - split; intros X; inversion X; constructor.
  - inversion H as [|? ? H1 H2]; subst. split; intros X; inversion X; subst; constructor; try (apply H1; assumption); apply (IH _ H2); assumption.
Qed.
Lemma val_of_means rp N r : short N r -> well r ->
  (forall t v, length t < N -> rp t = Some v <-> exists r', jdoc r' t /\ means 127 r' v) ->
  forall n v, val_of rp (S n) r = Some v <-> means n r v.
Proof.
  intros Hs Hw Hr. induction r as [|b|x|s|l IH|l IH] using raw_ind'; intros n v.
  - cbn [val_of]. split; [intros E; injection E as <-; constructor|]. intros H. inversion H. reflexivity.
  - cbn [val_of]. split; [intros E; injection E as <-; constructor|]. intros H. inversion H. reflexivity.
  - cbn [val_of]. cbn [well] in Hw. split.
    + destruct (num_of x) as [y|] eqn:E; [|discriminate]. intros X. injection X as <-. constructor. apply num_exact; assumption.
    + intros H. inversion H as [| |? ? y Hy| | | |]; subst. apply num_exact in Hy; [|exact Hw]. rewrite Hy. reflexivity.
  - cbn [val_of]. cbn [well] in Hw. split.
    + destruct (unescape s) as [y|] eqn:E; [|discriminate]. intros X. injection X as <-. constructor. apply unescape_exact; assumption.
    + intros H. inversion H as [| | |? ? y Hy| | |]; subst. apply unescape_exact in Hy; [|exact Hw]. rewrite Hy. reflexivity.
  - destruct n as [|n]; [cbn [val_of]; split; [discriminate|]; intros H; inversion H|]. rewrite val_of_arr. cbn [short] in Hs. cbn [well] in Hw.
    assert (F : Forall (fun a => forall b, val_of rp (S n) a = Some b <-> means n a b) l).
    { revert Hs Hw. clear -IH. induction IH as [|x l Hx IH I]; cbn; [constructor|]. intros [S1 S2] [W1 W2]. constructor; auto. }
    split.
    + destruct (all_some (map (val_of rp (S n)) l)) as [vs|] eqn:E; [|discriminate]. cbn. intros X. injection X as <-. constructor.
      apply all_some_map_F2 in E. apply (F2_iff _ _ _ _ F). exact E.
    + intros H. inversion H as [| | | |? ? vs Hv| |]; subst. apply (F2_iff _ _ _ _ F) in Hv. apply all_some_map_F2 in Hv. rewrite Hv. reflexivity.
  - destruct n as [|n]; [cbn [val_of]; split; [discriminate|]; intros H; inversion H|]. cbn [short] in Hs. cbn [well] in Hw.
    destruct (private_dec l) as [(k & x & l' & -> & Hk)|Hk].
    + rewrite val_of_private by exact Hk. cbn [allP] in Hw. destruct Hw as [[Wk Wx] _]. pose proof (proj1 (unescape_exact _ _ Wk) Hk) as Hk'. split.
      * destruct x as [| | |b| |]; try discriminate. destruct l'; [|discriminate]. destruct (unescape b) as [t|] eqn:E; [|discriminate].
        intros H. cbn [well] in Wx. pose proof (proj1 (unescape_exact _ _ Wx) E) as E'. assert (Hl : length t < N) by (apply unescape_length in E; cbn in Hs; lia).
        apply (Hr t v Hl) in H as (r' & Hd & Hm). eapply me_private; eauto.
      * intros H. inversion H as [| | | | |? ? ms m Hn|? ? b t r' ? _ Hb Hd Hm]; subst; [destruct (Hn _ _ _ eq_refl Hk')|].
        apply means_unescape in Hb as Hb'. rewrite Hb'. apply Hr; [|eauto]. apply unescape_length in Hb'. cbn in Hs. lia.
    + rewrite val_of_obj' by exact Hk.
      assert (F : Forall (fun a => forall b, val_member rp (S n) a = Some b <-> string_means (fst a) (fst b) /\ means n (snd a) (snd b)) l).
      { revert Hs Hw. clear -IH. induction IH as [|[k x] l Hx IH I]; cbn; [constructor|]. intros [S1 S2] [[W0 W1] W2]. constructor; [|auto].
        intros [k' v']. unfold val_member. cbn [fst snd] in *. rewrite <- (unescape_exact k k' W0), <- (Hx S1 W1).
        destruct (unescape k); cbn [pair_opt]; [|split; [discriminate|intros [X _]; discriminate]].
        destruct (val_of rp (S n) x); [|split; [discriminate|intros [_ X]; discriminate]]. split; [intros X; injection X as -> ->; auto|]. intros [X Y]. congruence. }
      split.
      * destruct (all_some (map (val_member rp (S n)) l)) as [ms|] eqn:E; [|discriminate]. cbn. intros X. injection X as <-.
        apply (me_obj n l ms); [|apply all_some_map_F2 in E; apply (F2_iff _ _ _ _ F); exact E|apply obj_of_members].
        intros k x l' E' Hm. apply means_unescape in Hm. exact (Hk _ _ _ E' Hm).
      * intros H. inversion H as [| | | | |? ? ms m _ Hf Hm|? k b t r' ? Hu]; subst.
        -- apply (F2_iff _ _ _ _ F) in Hf. apply all_some_map_F2 in Hf. rewrite Hf. cbn. do 2 f_equal. apply (members_unique ms); [apply obj_of_members|exact Hm].
        -- apply means_unescape in Hu. destruct (Hk _ _ _ eq_refl Hu).
Qed.
Lemma jdoc_well r t : jdoc r t -> well r.
Proof. intros (w1 & u & w2 & _ & _ & H & _). apply jvalue_well in H. exact H. Qed.
Lemma from_str_means_n n : forall t v, length t < n -> from_str_value t = Some v <-> exists r, jdoc r t /\ means 127 r v.
Proof.
  induction n as [|n IH]; intros t v Ht; [lia|]. destruct (scan_doc t) as [r|] eqn:E.
  - apply scan_doc_exact in E. rewrite (from_str_eq t r E).
    rewrite (val_of_means from_str_value (length t) r (jdoc_short r t E) (jdoc_well r t E)); [|intros u w Hu; apply IH; lia].
    split; [eauto|]. intros (r' & Hd & Hs). rewrite (jdoc_unique t r r' E Hd). exact Hs.
  - rewrite from_str_none; [|intros r Hr; apply scan_doc_exact in Hr; congruence]. split; [congruence|].
    intros (r & Hd & _). apply scan_doc_exact in Hd. congruence.
Qed.
Lemma from_str_means t v : from_str_value t = Some v <-> exists r, jdoc r t /\ means 127 r v.
Proof. apply (from_str_means_n (S (length t))). lia. Qed.

(** ** Arguments *)
Lemma jvalue_doc r t : jvalue r t -> jdoc r t.
Proof. intros H. exists [], t, []. rewrite app_nil_r. repeat split; auto using ws_nil. Qed.
Lemma from_str_value_means r t v : jvalue r t -> (from_str_value t = Some v <-> means 127 r v).
Proof.
  intros H. rewrite from_str_means. split; [|intros X; exists r; auto using jvalue_doc].
  intros (r' & Hd & Hm). rewrite (jdoc_unique _ _ _ (jvalue_doc _ _ H) Hd). exact Hm.
Qed.
Lemma argument_value_exact m t l g : sub_deref_str m = Some t -> Forall emsg_ok l -> argument_of m l g ->
  exists r bl, jvalue r (g_text g) /\ contents (g_attachments g) = Some bl /\ length bl = length l /\
    forall v, to_json_value g = Ok v <-> exists v0, means 127 r v0 /\ (l = [] /\ v = v0 \/ l <> [] /\ filled bl v0 v).
Proof.
  intros Hm Hl Hg. destruct (argument_facts m t l g Hm Hl Hg) as [[r Hr] (bl & Hbl & Hlen)]. exists r, bl. split; [exact Hr|]. split; [exact Hbl|]. split; [exact Hlen|].
  intros v. pose proof (contents_length _ _ Hbl) as Hcl.
  assert (HA : g_attachments g = [] <-> l = []).
  { split; intros X; [rewrite X in Hcl|rewrite X in Hlen]; cbn in *; [destruct l; [reflexivity|cbn in *; lia]|destruct (g_attachments g); [reflexivity|cbn in *; lia]]. }
  destruct g as [text A]. cbn [g_text g_attachments] in *. split.
  - intros H. destruct (from_str_value text) as [v0|] eqn:E.
    + exists v0. split; [apply (from_str_value_means r text v0 Hr); exact E|]. destruct A as [|a A].
      * left. split; [apply HA; reflexivity|]. rewrite (no_attachments _ _ E) in H. congruence.
      * right. split; [intros X; apply HA in X; discriminate|]. destruct (substitution_exact text (a :: A) bl v0 E Hbl ltac:(discriminate)) as (K & _). apply K. exact H.
    + unfold to_json_value in H. cbn [g_text] in H. rewrite E in H. discriminate.
  - intros (v0 & Hv & D). apply (from_str_value_means r text v0 Hr) in Hv as E. destruct D as [[D ->]|[D F]].
    + apply HA in D. subst A. apply no_attachments. exact E.
    + destruct (substitution_exact text A bl v0 E Hbl ltac:(intros X; apply HA in X; contradiction)) as (K & _). apply K. exact F.
Qed.
