(** Byte strings, and maps with integer keys, are read as what they mean (C62). *)
From Verif Require Export AgreeProofs Utf8Proofs SpecShape.
From Coq Require Import ZArith Lia.

(** ** Byte strings *)
Lemma surrogate_three n : (55296 <= n <= 57343)%N -> exists a b c x y z, utf8_encode n = [a; b; c] /\
  n = ((x * 64 + y) * 64 + z)%N /\ (y < 64)%N /\ (z < 64)%N /\ bN a = (224 + x)%N /\ bN b = (128 + y)%N /\ bN c = (128 + z)%N.
Proof.
  intros H. unfold utf8_encode. replace (n <? 128)%N with false by (symmetry; apply N.ltb_ge; lia). replace (n <? 2048)%N with false by (symmetry; apply N.ltb_ge; lia).
  replace (n <? 65536)%N with true by (symmetry; apply N.ltb_lt; lia).
  do 3 eexists. exists (n / 4096)%N, ((n / 64) mod 64)%N, (n mod 64)%N. split; [reflexivity|].
  rewrite !bN_byte_of by divmod. repeat split; divmod.
Qed.
Lemma three_surrogate n x y z a b c : (55296 <= n <= 57343)%N -> n = ((x * 64 + y) * 64 + z)%N -> (y < 64)%N -> (z < 64)%N ->
  bN a = (224 + x)%N -> bN b = (128 + y)%N -> bN c = (128 + z)%N -> utf8_encode n = [a; b; c].
Proof.
  intros H E Hy Hz Ea Eb Ec. destruct (surrogate_three n H) as (a' & b' & c' & x' & y' & z' & -> & E' & Hy' & Hz' & Ea' & Eb' & Ec').
  assert (x = x' /\ y = y' /\ z = z') as (-> & -> & ->) by divmod.
  rewrite <- Ea' in Ea. rewrite <- Eb' in Eb. rewrite <- Ec' in Ec.
  assert (B : forall p q, bN p = bN q -> p = q) by (intros p q X; rewrite <- (byte_of_bN p), <- (byte_of_bN q), X; reflexivity).
  apply B in Ea, Eb, Ec. congruence.
Qed.
Definition pair_next (n : N) (r : bytes) : bool :=
  negb ((n <? 55296)%N || (56319 <? n)%N) &&
  match r with
  | b1 :: u1 :: g1 :: g2 :: g3 :: g4 :: _ =>
      (b1 =b backslash) && (u1 =b "u") && ((56320 <=? hex4 g1 g2 g3 g4)%N && (hex4 g1 g2 g3 g4 <=? 57343)%N)
  | _ => false
  end.
Lemma jbody_unicode g1 g2 g3 g4 b : jbody (x5c :: "u"%byte :: g1 :: g2 :: g3 :: g4 :: b) -> Forall (fun h => is_hex h = true) [g1; g2; g3; g4] /\ jbody b.
Proof.
  intros H. inversion H as [|? ? _ X|? ? X|? ? ? ? ? Hg Hr]; subst; [destruct (X eq_refl)| |auto].
  exfalso. cbn in X. repeat (destruct X as [X|X]; [discriminate|]). destruct X.
Qed.
Lemma pair_next_iff n r : (55296 <= n <= 57343)%N -> jbody r -> pair_next n r = true <-> has_partner n r.
Proof.
  intros Hn Hr. unfold pair_next, has_partner. split.
  - intros H. apply andb_true_iff in H as [H1 H]. apply negb_true_iff, orb_false_iff in H1 as [_ H1]. apply N.ltb_ge in H1. split; [exact H1|].
    destruct r as [|b1 [|u1 [|g1 [|g2 [|g3 [|g4 r]]]]]]; try discriminate. apply andb_true_iff in H as [H H2]. apply andb_true_iff in H as [Eb Eu].
    apply byte_eqb_eq in Eb, Eu. subst b1 u1. apply andb_true_iff in H2 as [H2 H3]. apply N.leb_le in H2, H3.
    exists g1, g2, g3, g4, (hex4 g1 g2 g3 g4), r. split; [reflexivity|]. split; [|lia]. apply hex_quad_val. split; [|reflexivity].
    apply jbody_unicode in Hr. tauto.
  - intros [H1 (g1 & g2 & g3 & g4 & lo & b' & -> & Hq & Hl)]. apply hex_quad_val in Hq as [_ ->].
    replace (n <? 55296)%N with false by (symmetry; apply N.ltb_ge; lia). replace (56319 <? n)%N with false by (symmetry; apply N.ltb_ge; lia).
    change (x5c =b backslash) with true. change ("u" =b "u") with true. cbn [negb orb andb].
    apply andb_true_iff. rewrite !N.leb_le. lia.
Qed.
Lemma octets_unicode h1 h2 h3 h4 r : unescape_octets (x5c :: "u"%byte :: h1 :: h2 :: h3 :: h4 :: r) =
  if pair_next (hex4 h1 h2 h3 h4) r then
    match r with
    | _ :: _ :: g1 :: g2 :: g3 :: g4 :: r3 =>
        option_map (fun t => utf8_encode ((hex4 h1 h2 h3 h4 - 55296) * 1024 + (hex4 g1 g2 g3 g4 - 56320) + 65536)%N ++ t) (unescape_octets r3)
    | _ => None
    end
  else option_map (fun t => utf8_encode (hex4 h1 h2 h3 h4) ++ t) (unescape_octets r).
Proof.
  cbn [unescape_octets]. change (x5c =b backslash) with true. change (simple_esc "u") with (@None byte). cbv iota zeta. unfold pair_next.
  destruct ((hex4 h1 h2 h3 h4 <? 55296)%N || (56319 <? hex4 h1 h2 h3 h4)%N); [reflexivity|]. cbn [negb andb].
  destruct r as [|b1 [|u1 [|g1 [|g2 [|g3 [|g4 r]]]]]]; try reflexivity.
Qed.
Lemma octets_exact_n n : forall b s, length b <= n -> jbody b -> unescape_octets b = Some s <-> octets_mean b s.
Proof.
  induction n as [|n IH]; intros b s Hn Hb.
  { destruct b; [|cbn in Hn; lia]. split; [intros [= <-]; constructor|]. intros H. inversion H. reflexivity. }
  inversion Hb as [|c b' H1 H2 H3 Hb'|e b' He Hb'|h1 h2 h3 h4 b' Hh Hb']; subst; cbn [length] in Hn.
  - split; [intros [= <-]; constructor|]. intros H. inversion H. reflexivity.
  - cbn [unescape_octets]. apply byte_eqb_neq in H2 as H2'. change backslash with x5c. rewrite H2'. split.
    + destruct (unescape_octets b') as [t|] eqn:E; [|discriminate]. intros [= <-]. apply oc_char; [exact H2|]. apply IH; [lia|assumption|exact E].
    + intros H. inversion H; subst; try (destruct (H2 eq_refl)).
      match goal with X : octets_mean b' _ |- _ => apply IH in X; [|lia|assumption]; rewrite X end. reflexivity.
  - assert (Hu : simple_esc e <> None) by (apply simple_esc_in; exact He).
    cbn [unescape_octets]. change (x5c =b backslash) with true. cbv iota. destruct (simple_esc e) as [c|] eqn:Ee; [|congruence]. split.
    + destruct (unescape_octets b') as [t|] eqn:E; [|discriminate]. intros [= <-]. apply oc_escape; [apply simple_esc_table; exact Ee|]. apply IH; [lia|assumption|exact E].
    + intros H. inversion H as [|? ? ? X|? c' ? ? Hc Ho| | |]; subst; try discriminate; [destruct (X eq_refl)|].
      apply simple_esc_table in Hc. rewrite Ee in Hc. injection Hc as <-. apply IH in Ho; [|lia|assumption]. rewrite Ho. reflexivity.
  - rewrite octets_unicode. pose proof (hex4_bound _ _ _ _ Hh) as Hx. remember (hex4 h1 h2 h3 h4) as k eqn:Ek.
    assert (Hq : hex_quad h1 h2 h3 h4 k) by (apply hex_quad_val; auto).
    assert (Hqu : forall k', hex_quad h1 h2 h3 h4 k' -> k' = k) by (intros k' X; apply hex_quad_val in X as [_ ->]; auto).
    destruct (N.leb_spec 55296 k) as [A|A]; [destruct (N.leb_spec k 57343) as [B|B]|].
    + pose proof (pair_next_iff k b' (conj A B) Hb') as Hp. split.
      * destruct (pair_next k b') eqn:P.
        -- assert (X : has_partner k b') by (apply Hp; reflexivity). destruct X as (Hk & g1 & g2 & g3 & g4 & lo & r & -> & Hg & Hl).
           destruct (unescape_octets r) as [t|] eqn:E; [|discriminate]. intros [= <-]. apply jbody_unicode in Hb' as [_ Hr]. cbn [length] in Hn.
           pose proof Hg as Hg'. apply hex_quad_val in Hg' as [_ El]. rewrite <- El.
           apply (oc_pair h1 h2 h3 h4 g1 g2 g3 g4 k lo); try assumption; try lia.
           ++ replace (65536 + (k - 55296) * 1024 + (lo - 56320))%N with ((k - 55296) * 1024 + (lo - 56320) + 65536)%N by lia. apply utf8_encode_char; lia.
           ++ apply IH; [lia|assumption|exact E].
        -- destruct (unescape_octets b') as [t|] eqn:E; [|discriminate]. intros [= <-].
           destruct (surrogate_three k (conj A B)) as (a & b & c & x & y & z & -> & E1 & Hy & Hz & Ea & Eb & Ec).
           apply (oc_lone h1 h2 h3 h4 k x y z); try assumption; try lia; [|apply IH; [lia|assumption|exact E]].
           intros X. apply Hp in X. discriminate.
      * intros H. inversion H as [|? ? ? X|? ? ? ? X|? ? ? ? ? ? ? ? X1 X2|? ? ? ? g1 g2 g3 g4 hi lo u b s' Y1 Y2 Y3 Y4 Y5 Y6|? ? ? ? m x y z a b c t s' Y1 Y2 Y3 Y4 Y5 Y6 Y7 Y8 Y9 Y10]; subst s.
        -- destruct (X eq_refl).
        -- exfalso. subst. cbn in X. repeat (destruct X as [X|X]; [discriminate|]). destruct X.
        -- apply Hqu in X1. lia.
        -- subst b'. apply Hqu in Y1. subst hi. assert (P : pair_next k (x5c :: "u"%byte :: g1 :: g2 :: g3 :: g4 :: b) = true).
           { apply Hp. split; [lia|]. exists g1, g2, g3, g4, lo, b. auto. }
           rewrite P. apply jbody_unicode in Hb' as [_ Hr]. cbn [length] in Hn. apply IH in Y6; [|lia|assumption]. rewrite Y6. cbn [option_map].
           apply hex_quad_val in Y2 as [_ ->]. rewrite (utf8_char_encode _ _ Y5). do 3 f_equal. lia.
        -- apply Hqu in Y1. subst m. clear Ek. replace (pair_next k b') with false.
           2:{ symmetry. apply not_true_iff_false. intros P. apply Y3, Hp, P. }
           apply IH in Y10; [|lia|assumption]. rewrite Y10. cbn [option_map]. rewrite (three_surrogate _ x y z a b c Y2 Y4 Y5 Y6 Y7 Y8 Y9). reflexivity.
    + assert (P : pair_next k b' = false) by (unfold pair_next; replace (56319 <? k)%N with true by (symmetry; apply N.ltb_lt; lia); rewrite orb_true_r; reflexivity).
      rewrite P. split.
      * destruct (unescape_octets b') as [t|] eqn:E; [|discriminate]. intros [= <-]. apply (oc_unicode h1 h2 h3 h4 k); [assumption|lia|apply utf8_encode_char; lia|apply IH; [lia|assumption|exact E]].
      * intros H. inversion H as [|? ? ? X|? ? ? ? X|? ? ? ? ? ? ? ? X1 X2 X3 X4|? ? ? ? ? ? ? ? ? ? ? ? ? Y1 _ Y3|? ? ? ? ? ? ? ? ? ? ? ? ? Y1 Y2]; subst s.
        -- destruct (X eq_refl).
        -- exfalso. subst. cbn in X. repeat (destruct X as [X|X]; [discriminate|]). destruct X.
        -- apply Hqu in X1. subst n0. subst. apply IH in X4; [|lia|assumption]. rewrite X4. cbn [option_map]. rewrite (utf8_char_encode _ _ X3). reflexivity.
        -- apply Hqu in Y1. lia.
        -- apply Hqu in Y1. lia.
    + assert (P : pair_next k b' = false) by (unfold pair_next; replace (k <? 55296)%N with true by (symmetry; apply N.ltb_lt; lia); reflexivity).
      rewrite P. split.
      * destruct (unescape_octets b') as [t|] eqn:E; [|discriminate]. intros [= <-]. apply (oc_unicode h1 h2 h3 h4 k); [assumption|lia|apply utf8_encode_char; lia|apply IH; [lia|assumption|exact E]].
      * intros H. inversion H as [|? ? ? X|? ? ? ? X|? ? ? ? ? ? ? ? X1 X2 X3 X4|? ? ? ? ? ? ? ? ? ? ? ? ? Y1 _ Y3|? ? ? ? ? ? ? ? ? ? ? ? ? Y1 Y2]; subst s.
        -- destruct (X eq_refl).
        -- exfalso. subst. cbn in X. repeat (destruct X as [X|X]; [discriminate|]). destruct X.
        -- apply Hqu in X1. subst n0. subst. apply IH in X4; [|lia|assumption]. rewrite X4. cbn [option_map]. rewrite (utf8_char_encode _ _ X3). reflexivity.
        -- apply Hqu in Y1. lia.
        -- apply Hqu in Y1. lia.
Qed.
Lemma octets_exact b s : jbody b -> (unescape_octets b = Some s <-> octets_mean b s).
Proof. intros H. apply (octets_exact_n (length b)); auto. Qed.

(** ** Arrays of bytes *)
Lemma octet_iff r c : well r -> (octet_of r = Some c <-> exists x, r = RNum x /\ number_means x (NPos (bN c))).
Proof.
  intros Hw. unfold octet_of, u64_of_raw. destruct r as [| |x| | |]; try (split; [discriminate|intros (y & E & _); discriminate]). cbn [well] in Hw.
  pose proof (fun y => num_exact x y Hw) as E. split.
  - destruct (num_of x) as [[k| |]|]; try discriminate. destruct (N.ltb_spec k 256) as [L|L]; [|discriminate]. intros [= <-].
    exists x. split; [reflexivity|]. rewrite bN_byte_of by exact L. apply E. reflexivity.
  - intros (y & [= <-] & H). apply E in H. rewrite H. replace (bN c <? 256)%N with true by (symmetry; apply N.ltb_lt; apply bN_bound). rewrite byte_of_bN. reflexivity.
Qed.
Lemma octets_iff l : forall b, well (RArr l) -> (octets_of l = Some b <-> Forall2 (fun r c => exists x, r = RNum x /\ number_means x (NPos (bN c))) l b).
Proof.
  induction l as [|r l IH]; intros b Hw; cbn [octets_of].
  - split; [intros [= <-]; constructor|]. intros H. inversion H. reflexivity.
  - destruct Hw as [Hr Hl]. split.
    + destruct (octet_of r) as [c|] eqn:E; [|discriminate]. destruct (octets_of l) as [b'|] eqn:El; [|discriminate]. intros [= <-].
      constructor; [apply octet_iff; assumption|]. apply IH; [exact Hl|reflexivity].
    + intros H. inversion H as [|? c ? b' H1 H2]; subst. apply octet_iff in H1; [|exact Hr]. apply IH in H2; [|exact Hl]. rewrite H1, H2. reflexivity.
Qed.

(** ** Maps with integer keys *)
Lemma int_insert_in_iff {T} k (v : T) m : in_int_order m -> forall k' v',
  In (k', v') (int_insert k v m) <-> (k' = k /\ v' = v) \/ (k' <> k /\ In (k', v') m).
Proof.
  unfold in_int_order. induction 1 as [|[k1 v1] m Hm IH Hf]; intros k' v'; cbn [int_insert].
  - cbn. split; [intros [X|[]]; injection X as <- <-; auto|]. intros [[-> ->]|[_ []]]. auto.
  - rewrite Forall_forall in Hf. destruct (Z.eqb_spec k k1) as [E|E].
    + subst k1. cbn. split.
      * intros [X|X]; [injection X as <- <-; auto|]. right. split; [|auto]. intros ->. apply Hf in X. cbn in X. lia.
      * intros [[-> ->]|[N [X|X]]]; [auto|injection X as <- <-; contradiction|auto].
    + destruct (Z.ltb_spec k k1) as [L|L].
      * cbn. split.
        -- intros [X|X]; [injection X as <- <-; auto|]. right. split; [|exact X]. intros ->. destruct X as [X|X]; [injection X as X _; congruence|].
           apply Hf in X. cbn in X. lia.
        -- intros [[-> ->]|[_ X]]; auto.
      * cbn. rewrite IH. split.
        -- intros [X|[X|[N X]]]; [injection X as <- <-; right; split; [congruence|auto]|auto|auto].
        -- intros [X|[N [X|X]]]; auto.
Qed.
Definition int_inserted {T} (ms : list (Z * T)) : list (Z * T) := fold_left (fun m kv => int_insert (fst kv) (snd kv) m) ms [].
Lemma int_inserted_members {T} (ms : list (Z * T)) : int_map_of_members ms (int_inserted ms).
Proof.
  split; [apply int_inserted_order; constructor|].
  induction ms as [|[k v] ms IH] using rev_ind; intros k' v'.
  - cbn. split; [intros []|]. intros (pre & post & E & _). destruct pre; discriminate.
  - unfold int_inserted. rewrite fold_left_app. cbn [fold_left fst snd]. fold (int_inserted ms).
    rewrite int_insert_in_iff by (apply int_inserted_order; constructor). rewrite IH. split.
    + intros [[-> ->]|[N (pre & post & -> & H)]].
      * exists ms, []. auto.
      * exists pre, (post ++ [(k, v)]). split; [rewrite <- app_assoc; reflexivity|]. rewrite map_app, in_app_iff. cbn. intros [X|[X|[]]]; [auto|congruence].
    + intros (pre & post & E & H). destruct post as [|p post _] using rev_ind.
      * apply app_inj_tail in E as [-> E]. injection E as -> ->. auto.
      * change (pre ++ (k', v') :: post ++ [p]) with (pre ++ ((k', v') :: post) ++ [p]) in E. rewrite app_assoc in E. apply app_inj_tail in E as [-> <-].
        rewrite map_app, in_app_iff in H. cbn in H. right. split; [intros ->; tauto|]. exists pre, post. split; [reflexivity|tauto].
Qed.
Lemma int_members_unique {T} (ms m m' : list (Z * T)) : int_map_of_members ms m -> int_map_of_members ms m' -> m = m'.
Proof.
  intros [H1 H2] [H1' H2']. apply int_order_unique; auto. apply NoDup_Permutation.
  - apply int_order_nodup in H1. apply NoDup_map_inv in H1. exact H1.
  - apply int_order_nodup in H1'. apply NoDup_map_inv in H1'. exact H1'.
  - intros [k v]. rewrite H2, H2'. reflexivity.
Qed.
Lemma int_map_iff lo hi f l : forall acc r, int_map_of lo hi f l acc = Some r <->
  exists ms, Forall2 (fun a b => int_key lo hi (fst a) = Some (fst b) /\ f (snd a) = Some (snd b)) l ms /\
    r = fold_left (fun m kv => int_insert (fst kv) (snd kv) m) ms acc.
Proof.
  induction l as [|[k x] l IH]; intros acc r; cbn [int_map_of].
  - split; [intros [= <-]; exists []; split; [constructor|reflexivity]|]. intros (ms & H & ->). inversion H. reflexivity.
  - fold (int_map_of lo hi f). split.
    + destruct (int_key lo hi k) as [z|] eqn:Ez; [|discriminate]. destruct (f x) as [v|] eqn:E; [|discriminate]. intros H. apply IH in H as (ms & H & ->). exists ((z, v) :: ms).
      split; [constructor; auto|reflexivity].
    + intros (ms & H & ->). inversion H as [|? [z v] ? ms' [H1 H2] H3]; subst. cbn [fst snd] in *. rewrite H1, H2. apply IH. eauto.
Qed.
