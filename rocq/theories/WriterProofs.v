(** Proofs about the JSON writers: strings, numbers, and building blocks shared by both modes. *)
From Verif Require Export SocketProofs SpecSer.

(** ** Strings *)
Definition esc_shape (c : byte) : bool :=
  match esc_byte c with
  | [d] => (d =b c) && negb (c =b x22) && negb (c =b x5c) && (32 <=? bN c)%N
  | [b; e] => (b =b x5c) && match simple_esc e with Some d => d =b c | None => false end
  | [b; u; h1; h2; h3; h4] =>
      (b =b x5c) && (u =b "u") && is_hex h1 && is_hex h2 && is_hex h3 && is_hex h4
      && (hex4 h1 h2 h3 h4 =? bN c)%N && (bN c <? 128)%N
  | _ => false
  end && forallb (fun d => negb (d =b x0a)) (esc_byte c)
      && (if (bN c <? 128)%N then forallb (fun d => (bN d <? 128)%N) (esc_byte c)
          else match esc_byte c with [d] => d =b c | _ => false end).
Lemma esc_shape_all c : esc_shape c = true.
Proof. apply (byte_forall esc_shape). vm_compute. reflexivity. Qed.

Lemma esc_cases c :
  (esc_byte c = [c] /\ c <> x22 /\ c <> x5c /\ (32 <= bN c)%N) \/
  (exists e, esc_byte c = [x5c; e] /\ simple_esc e = Some c) \/
  (exists h1 h2 h3 h4, esc_byte c = [x5c; "u"%byte; h1; h2; h3; h4] /\
     Forall (fun h => is_hex h = true) [h1; h2; h3; h4] /\ hex4 h1 h2 h3 h4 = bN c /\ (bN c < 128)%N).
Proof.
  pose proof (esc_shape_all c) as H. unfold esc_shape in H. apply andb_true_iff in H as [H _].
  apply andb_true_iff in H as [H _].
  destruct (esc_byte c) as [|a [|b [|d [|e [|f [|g [|? ?]]]]]]]; try discriminate.
  - rewrite !andb_true_iff, !negb_true_iff in H. destruct H as [[[H1 H2] H3] H4].
    apply byte_eqb_eq in H1. subst a. apply byte_eqb_neq in H2, H3. apply N.leb_le in H4. auto.
  - apply andb_true_iff in H as [H1 H2]. apply byte_eqb_eq in H1. subst a.
    destruct (simple_esc b) as [x|] eqn:E; [|discriminate]. apply byte_eqb_eq in H2. subst x. right. left. eauto.
  - rewrite !andb_true_iff in H. destruct H as [[[[[[[H1 H2] H3] H4] H5] H6] H7] H8].
    apply byte_eqb_eq in H1, H2. subst a b. apply N.eqb_eq in H7. apply N.ltb_lt in H8.
    right. right. exists d, e, f, g. repeat split; auto.
Qed.
Lemma escape_cons c s : escape (c :: s) = esc_byte c ++ escape s.
Proof. reflexivity. Qed.
Lemma escape_body s : jbody (escape s).
Proof.
  induction s as [|c s IH]; [constructor|]. rewrite escape_cons.
  destruct (esc_cases c) as [(E & H1 & H2 & H3)|[(e & E & H)|(h1 & h2 & h3 & h4 & E & H & _)]]; rewrite E; cbn [app].
  - constructor; assumption.
  - constructor; [|exact IH]. apply simple_esc_in. congruence.
  - constructor; assumption.
Qed.
Lemma simple_esc_u : simple_esc "u" = None. Proof. reflexivity. Qed.
Lemma unescape_escape s : unescape (escape s) = Some s.
Proof.
  induction s as [|c s IH]; [reflexivity|]. rewrite escape_cons.
  destruct (esc_cases c) as [(E & H1 & H2 & H3)|[(e & E & H)|(h1 & h2 & h3 & h4 & E & H & Hh & Hc)]]; rewrite E; cbn [app].
  - cbn [unescape]. apply byte_eqb_neq in H2. change backslash with x5c. rewrite H2, IH. reflexivity.
  - cbn [unescape]. change (x5c =b backslash) with true. cbn [app]. rewrite H, IH. reflexivity.
  - cbn [unescape]. change (x5c =b backslash) with true. cbn [app]. rewrite simple_esc_u, Hh.
    replace (56320 <=? bN c)%N with false by (symmetry; apply N.leb_gt; lia). cbn [andb].
    replace (bN c <? 55296)%N with true by (symmetry; apply N.ltb_lt; lia). cbn [orb]. rewrite IH.
    unfold utf8_encode. replace (bN c <? 128)%N with true by (symmetry; apply N.ltb_lt; lia).
    rewrite byte_of_bN. reflexivity.
Qed.
Lemma escape_no_newline s : no_newline (escape s).
Proof.
  induction s as [|c s IH]; [intros []|]. rewrite escape_cons. intros H. apply in_app_or in H as [H|H]; [|exact (IH H)].
  pose proof (esc_shape_all c) as S. unfold esc_shape in S. apply andb_true_iff in S as [S _].
  apply andb_true_iff in S as [_ S]. rewrite forallb_forall in S. specialize (S _ H). discriminate.
Qed.
Lemma no_newline_app a b : no_newline a -> no_newline b -> no_newline (a ++ b).
Proof. intros H1 H2 H. apply in_app_or in H as [H|H]; [exact (H1 H)|exact (H2 H)]. Qed.
Lemma no_newline_cons c b : (c =b x0a) = false -> no_newline b -> no_newline (c :: b).
Proof. intros H1 H2 [H|H]; [subst; discriminate|exact (H2 H)]. Qed.
Lemma no_newline_nil : no_newline [].
Proof. intros []. Qed.
Lemma no_newline_forallb s : forallb (fun d => negb (d =b x0a)) s = true -> no_newline s.
Proof. intros H X. rewrite forallb_forall in H. specialize (H _ X). discriminate. Qed.
Lemma json_str_value s : jvalue (RStr (escape s)) (json_str s).
Proof. apply jv_str. apply escape_body. Qed.
Lemma json_str_no_newline s : no_newline (json_str s).
Proof.
  apply no_newline_cons; [reflexivity|]. apply no_newline_app; [apply escape_no_newline|].
  apply no_newline_forallb. reflexivity.
Qed.

(** ** UTF-8 *)
Lemma utf8_valid_ind (P : bytes -> Prop) :
  P [] ->
  (forall p s, p <> [] -> utf8_valid p = true -> (forall q, utf8_valid (p ++ q) = utf8_valid q) ->
     (length p = 1 -> forall c, p = [c] -> (bN c < 128)%N) -> (length p <> 1 -> Forall (fun c => (128 <= bN c)%N) p) ->
     utf8_valid s = true -> P s -> P (p ++ s)) ->
  forall s, utf8_valid s = true -> P s.
Proof.
  intros P0 PS s. remember (length s) as n eqn:En. assert (Hn : length s <= n) by lia. clear En.
  revert s Hn. induction n as [|n IH]; intros s Hn H.
  { destruct s; [exact P0|cbn in Hn; lia]. }
  destruct s as [|a r]; [exact P0|]. cbn [utf8_valid] in H. cbn [length] in Hn.
  assert (C : forall lo hi c, in_rng lo hi c = true -> (128 <= lo)%N -> (128 <= bN c)%N).
  { unfold in_rng. intros lo hi c X Hlo. apply andb_true_iff in X as [X _]. apply N.leb_le in X. lia. }
  destruct (in_rng 0 127 a) eqn:E1.
  { apply (PS [a] r); auto; try discriminate.
    - cbn [utf8_valid]. rewrite E1. reflexivity.
    - intros q. cbn [app utf8_valid]. rewrite E1. reflexivity.
    - intros _ c [= <-]. unfold in_rng in E1. apply andb_true_iff in E1 as [_ E1]. apply N.leb_le in E1. lia.
    - cbn. congruence.
    - apply IH; [lia|exact H]. }
  destruct (in_rng 194 223 a) eqn:E2.
  { destruct r as [|b r1]; [discriminate|]. apply andb_true_iff in H as [Hb H]. cbn [length] in Hn.
    apply (PS [a; b] r1); auto; try discriminate.
    - cbn [utf8_valid]. rewrite E1, E2, Hb. reflexivity.
    - intros q. cbn [app utf8_valid]. rewrite E1, E2, Hb. reflexivity.
    - repeat constructor; eapply C; eauto; lia.
    - apply IH; [lia|exact H]. }
  destruct (in_rng 224 239 a) eqn:E3.
  { destruct r as [|b [|c r2]]; try discriminate. apply andb_true_iff in H as [Hb H]. apply andb_true_iff in Hb as [Hb Hc].
    cbn [length] in Hn.
    apply (PS [a; b; c] r2); auto; try discriminate.
    - cbn [utf8_valid]. rewrite E1, E2, E3, Hb, Hc. reflexivity.
    - intros q. cbn [app utf8_valid]. rewrite E1, E2, E3, Hb, Hc. reflexivity.
    - intros _. repeat constructor; try (eapply C; eauto; lia).
      destruct (a =b xe0); [|destruct (a =b xed)]; eapply C; eauto; lia.
    - apply IH; [lia|exact H]. }
  destruct (in_rng 240 244 a) eqn:E4; [|discriminate].
  destruct r as [|b [|c [|d r3]]]; try discriminate. apply andb_true_iff in H as [Hb H].
  apply andb_true_iff in Hb as [Hb Hd]. apply andb_true_iff in Hb as [Hb Hc]. cbn [length] in Hn.
  apply (PS [a; b; c; d] r3); auto; try discriminate.
  - cbn [utf8_valid]. rewrite E1, E2, E3, E4, Hb, Hc, Hd. reflexivity.
  - intros q. cbn [app utf8_valid]. rewrite E1, E2, E3, E4, Hb, Hc, Hd. reflexivity.
  - intros _. repeat constructor; try (eapply C; eauto; lia).
    destruct (a =b xf0); [|destruct (a =b xf4)]; eapply C; eauto; lia.
  - apply IH; [lia|exact H].
Qed.
Lemma utf8_app a : utf8_valid a = true -> forall b, utf8_valid (a ++ b) = utf8_valid b.
Proof.
  intros H. pattern a. apply utf8_valid_ind; [reflexivity| |exact H].
  intros p s _ _ Hp _ _ _ IH b. rewrite <- app_assoc, Hp. apply IH.
Qed.
Lemma utf8_app_true a b : utf8_valid a = true -> utf8_valid b = true -> utf8_valid (a ++ b) = true.
Proof. intros Ha Hb. rewrite utf8_app; assumption. Qed.
Lemma utf8_ascii s : forallb (fun c => (bN c <? 128)%N) s = true -> utf8_valid s = true.
Proof.
  induction s as [|c s IH]; cbn [forallb]; [reflexivity|]. intros H. apply andb_true_iff in H as [H1 H2].
  cbn [utf8_valid]. replace (in_rng 0 127 c) with true; [auto|]. apply N.ltb_lt in H1.
  unfold in_rng. symmetry. apply andb_true_iff. split; apply N.leb_le; lia.
Qed.
Lemma escape_app a b : escape (a ++ b) = escape a ++ escape b.
Proof. apply flat_map_app. Qed.
Lemma escape_high s : Forall (fun c => (128 <= bN c)%N) s -> escape s = s.
Proof.
  induction 1 as [|c s Hc H IH]; [reflexivity|]. rewrite escape_cons, IH.
  pose proof (esc_shape_all c) as S. unfold esc_shape in S. apply andb_true_iff in S as [_ S].
  replace (bN c <? 128)%N with false in S by (symmetry; apply N.ltb_ge; exact Hc).
  destruct (esc_byte c) as [|d [|? ?]]; try discriminate. apply byte_eqb_eq in S. subst. reflexivity.
Qed.
Lemma escape_low c : (bN c < 128)%N -> utf8_valid (esc_byte c) = true.
Proof.
  intros H. pose proof (esc_shape_all c) as S. unfold esc_shape in S. apply andb_true_iff in S as [_ S].
  replace (bN c <? 128)%N with true in S by (symmetry; apply N.ltb_lt; exact H). apply utf8_ascii. exact S.
Qed.
Lemma escape_utf8 s : utf8_valid s = true -> utf8_valid (escape s) = true.
Proof.
  intros H. pattern s. apply utf8_valid_ind; [reflexivity| |exact H].
  intros p r Hne Hp _ H1 H2 _ IH. rewrite escape_app. apply utf8_app_true; [|exact IH].
  destruct (Nat.eq_dec (length p) 1) as [E|E].
  - destruct p as [|c [|? ?]]; try discriminate. rewrite escape_cons. cbn [escape flat_map]. rewrite app_nil_r.
    apply escape_low. apply (H1 E c eq_refl).
  - rewrite escape_high by (apply H2; exact E). exact Hp.
Qed.
Lemma json_str_utf8 s : utf8_valid s = true -> utf8_valid (json_str s) = true.
Proof.
  intros H. unfold json_str. change (quote :: escape s ++ [quote]) with ([quote] ++ escape s ++ [quote]).
  apply utf8_app_true; [reflexivity|]. apply utf8_app_true; [apply escape_utf8; exact H|reflexivity].
Qed.

(** ** Numbers *)
Lemma undec_from_ge s : forall acc, (acc <= undec_from acc s)%N.
Proof. induction s as [|c s IH]; intros acc; cbn [undec_from]; [lia|]. specialize (IH (acc * 10 + digit_val c)%N). lia. Qed.
Lemma absorb_all s : forall acc, (undec_from acc s <= u64_max)%N -> absorb acc s = (undec_from acc s, []).
Proof.
  induction s as [|c s IH]; intros acc H; cbn [absorb undec_from] in *; [reflexivity|].
  pose proof (undec_from_ge s (acc * 10 + digit_val c)%N).
  replace (u64_max <? acc * 10 + digit_val c)%N with false by (symmetry; apply N.ltb_ge; lia). apply IH. exact H.
Qed.
Definition int_lit (neg : bool) (n : N) : numlit := NumLit neg (dec n) None None.
Lemma dec_int_part n : int_part (dec n).
Proof.
  destruct (dec_spec n) as (H1 & H2 & _ & H3 & _). destruct (dec n) as [|c d] eqn:E; [contradiction|].
  destruct (c =b "0") eqn:E0.
  - left. apply H3. reflexivity.
  - right. split; [apply digits_forallb; auto|]. cbn. apply byte_eqb_neq. exact E0.
Qed.
Lemma int_lit_ok neg n : numlit_ok (int_lit neg n).
Proof. split; [apply dec_int_part|]. cbn. auto. Qed.
Lemma int_lit_text n : numlit_text (int_lit false n) = dec n.
Proof. unfold numlit_text. cbn. rewrite !app_nil_r. reflexivity. Qed.
Lemma int_lit_text_neg n : numlit_text (int_lit true n) = "-"%byte :: dec n.
Proof. unfold numlit_text. cbn. rewrite !app_nil_r. reflexivity. Qed.
Lemma num_of_nat n : (n <= u64_max)%N -> num_of (int_lit false n) = Some (NPos n).
Proof.
  intros H. unfold num_of, int_lit. cbn [nl_int nl_frac nl_exp nl_neg].
  rewrite absorb_all; change (undec_from 0 (dec n)) with (undec (dec n)); rewrite undec_dec; [reflexivity|exact H].
Qed.
Lemma num_of_neg n : (0 < n <= 9223372036854775808)%N -> num_of (int_lit true n) = Some (NNeg (- Z.of_N n)).
Proof.
  intros H. unfold num_of, int_lit. cbn [nl_int nl_frac nl_exp nl_neg].
  rewrite absorb_all; change (undec_from 0 (dec n)) with (undec (dec n)); rewrite undec_dec.
  - replace (0 <? n)%N with true by (symmetry; apply N.ltb_lt; lia).
    replace (n <=? 9223372036854775808)%N with true by (symmetry; apply N.leb_le; lia). reflexivity.
  - unfold u64_max. lia.
Qed.
Lemma digits_ascii s : forallb is_digit s = true -> forallb (fun c => (bN c <? 128)%N) s = true.
Proof.
  intros H. rewrite forallb_forall in *. intros c Hc. specialize (H c Hc). unfold is_digit in H.
  apply andb_true_iff in H as [_ H]. apply N.leb_le in H. apply N.ltb_lt. lia.
Qed.
Lemma digits_no_newline s : forallb is_digit s = true -> no_newline s.
Proof. intros H X. rewrite forallb_forall in H. specialize (H _ X). discriminate. Qed.
Definition num_char (c : byte) : bool :=
  is_digit c || (c =b "-") || (c =b "+") || (c =b ".") || (c =b "e") || (c =b "E").
Lemma digits_num s : digits s -> forallb num_char s = true.
Proof.
  intros [_ H]. apply forallb_forall. intros c Hc. rewrite Forall_forall in H. unfold num_char.
  rewrite (H c Hc). reflexivity.
Qed.
Lemma num_chars n : numlit_ok n -> forallb num_char (numlit_text n) = true.
Proof.
  intros (Hi & Hf & He). rewrite numlit_text_eq, !forallb_app. rewrite !andb_true_iff. repeat split.
  - destruct (nl_neg n); reflexivity.
  - destruct Hi as [->|[Hi _]]; [reflexivity|apply digits_num; exact Hi].
  - destruct (nl_frac n) as [f|]; [|reflexivity]. cbn [forallb]. apply digits_num. exact Hf.
  - destruct (nl_exp n) as [[[e sg] d]|]; [|reflexivity]. destruct He as (He & Hs & Hd). cbn [exp_text forallb].
    rewrite forallb_app. rewrite !andb_true_iff. repeat split.
    + cbn in He. destruct He as [<-|[<-|[]]]; reflexivity.
    + cbn in Hs. destruct Hs as [<-|[<-|[<-|[]]]]; reflexivity.
    + apply digits_num. exact Hd.
Qed.
Lemma num_char_facts c : num_char c = true -> (bN c <? 128)%N = true /\ (c =b x0a) = false /\ (c =b x22) = false /\
  (c =b x5c) = false /\ (32 <=? bN c)%N = true.
Proof.
  pose proof (byte_forall (fun c => implb (num_char c) ((bN c <? 128)%N && negb (c =b x0a) && negb (c =b x22)
    && negb (c =b x5c) && (32 <=? bN c)%N)) ltac:(vm_compute; reflexivity) c) as H. cbv beta in H.
  intros E. rewrite E in H. cbn [implb] in H. rewrite !andb_true_iff, !negb_true_iff in H. tauto.
Qed.
Lemma num_no_newline n : numlit_ok n -> no_newline (numlit_text n).
Proof.
  intros H X. apply num_chars in H. rewrite forallb_forall in H. apply H in X. discriminate.
Qed.
Lemma num_utf8 n : numlit_ok n -> utf8_valid (numlit_text n) = true.
Proof.
  intros H. apply utf8_ascii. apply num_chars in H. rewrite forallb_forall in *. intros c Hc. apply num_char_facts. auto.
Qed.
(** Text without quotes, backslashes and control characters is its own string body. *)
Definition plain_char (c : byte) : bool := negb (c =b x22) && negb (c =b x5c) && (32 <=? bN c)%N.
Lemma plain_body s : forallb plain_char s = true -> jbody s /\ unescape s = Some s.
Proof.
  induction s as [|c s IH]; cbn [forallb]; [split; [constructor|reflexivity]|].
  intros H. apply andb_true_iff in H as [H Hs]. destruct (IH Hs) as [I1 I2].
  unfold plain_char in H. rewrite !andb_true_iff, !negb_true_iff in H. destruct H as [[H1 H2] H3]. split.
  - constructor; [apply byte_eqb_neq; exact H1|apply byte_eqb_neq; exact H2|apply N.leb_le; exact H3|exact I1].
  - cbn [unescape]. change backslash with x5c. rewrite H2, I2. reflexivity.
Qed.
Lemma num_plain s : forallb num_char s = true -> forallb plain_char s = true.
Proof.
  intros H. rewrite forallb_forall in *. intros c Hc. apply H in Hc. apply num_char_facts in Hc as (_ & _ & H1 & H2 & H3).
  unfold plain_char. rewrite H1, H2, H3. reflexivity.
Qed.
Lemma decZ_text z : decZ z = numlit_text (int_lit (z <? 0)%Z (Z.to_N (Z.abs z))).
Proof. destruct z as [|p|p]; [rewrite int_lit_text|rewrite int_lit_text|rewrite int_lit_text_neg]; reflexivity. Qed.
Lemma decZ_num z : (- 2 ^ 63 <= z <= Z.of_N u64_max)%Z ->
  num_of (int_lit (z <? 0)%Z (Z.to_N (Z.abs z))) = Some (if (z <? 0)%Z then NNeg z else NPos (Z.to_N z)).
Proof.
  intros H. destruct (Z.ltb_spec z 0).
  - rewrite num_of_neg by lia. do 2 f_equal. lia.
  - rewrite num_of_nat by lia. do 2 f_equal. lia.
Qed.

(** ** Arrays and objects *)
(** Texts separated by commas, as both writers emit them. *)
Fixpoint seps (first : bool) (ts : list bytes) : bytes :=
  match ts with [] => [] | t :: ts' => comma_unless first ++ t ++ seps false ts' end.
Lemma jelems_seps rs ts : Forall2 jvalue rs ts -> rs <> [] -> jelems rs (seps true ts).
Proof.
  induction 1 as [|r t rs ts H1 H IH]; [congruence|intros _]. cbn [seps comma_unless app].
  destruct H as [|r' t' rs ts H2 H].
  - cbn [seps]. apply (je_one r t [] []); auto using ws_nil.
  - assert (X := IH ltac:(discriminate)). cbn [seps comma_unless app] in *.
    apply (je_cons r t [] [] (r' :: rs)); auto using ws_nil.
Qed.
Lemma jarr_seps rs ts : Forall2 jvalue rs ts -> jvalue (RArr rs) ("["%byte :: seps true ts ++ ["]"%byte]).
Proof.
  intros H. destruct rs as [|r rs].
  - inversion H. cbn. apply (jv_arr0 []). apply ws_nil.
  - apply jv_arr. apply jelems_seps; [exact H|discriminate].
Qed.
(** One member as written. *)
Definition jmember (kv : bytes * raw) (m : bytes) : Prop :=
  exists t, m = x22 :: fst kv ++ x22 :: ":"%byte :: t /\ jbody (fst kv) /\ jvalue (snd kv) t.
Lemma jmembers_seps rs ts : Forall2 jmember rs ts -> rs <> [] -> jmembers rs (seps true ts).
Proof.
  induction 1 as [|[k r] t rs ts H1 H IH]; [congruence|intros _]. cbn [seps comma_unless app].
  destruct H1 as (u & -> & Hk & Hu). cbn [fst snd] in *.
  destruct H as [|r' t' rs ts H2 H].
  - cbn [seps]. rewrite app_nil_r. pose proof (jm_one k r u [] [] [] [] ws_nil ws_nil ws_nil ws_nil Hk Hu) as X.
    cbn [app] in X. rewrite app_nil_r in X. exact X.
  - assert (X := IH ltac:(discriminate)). cbn [seps comma_unless app] in *.
    pose proof (jm_cons k r u [] [] [] [] (r' :: rs) _ ws_nil ws_nil ws_nil ws_nil Hk Hu X) as Y.
    cbn [app] in Y. rewrite <- app_assoc. cbn [app]. exact Y.
Qed.
Lemma jobj_seps rs ts : Forall2 jmember rs ts -> jvalue (RObj rs) ("{"%byte :: seps true ts ++ ["}"%byte]).
Proof.
  intros H. destruct rs as [|r rs].
  - inversion H. cbn. apply (jv_obj0 []). apply ws_nil.
  - apply jv_obj. apply jmembers_seps; [exact H|discriminate].
Qed.
Lemma seps_no_newline ts : Forall no_newline ts -> forall first, no_newline (seps first ts).
Proof.
  induction 1 as [|t ts H1 H IH]; intros first; cbn [seps]; [apply no_newline_nil|].
  apply no_newline_app; [destruct first; apply no_newline_forallb; reflexivity|]. apply no_newline_app; auto.
Qed.
Lemma seps_utf8 ts : Forall (fun t => utf8_valid t = true) ts -> forall first, utf8_valid (seps first ts) = true.
Proof.
  induction 1 as [|t ts H1 H IH]; intros first; cbn [seps]; [reflexivity|].
  apply utf8_app_true; [destruct first; reflexivity|]. apply utf8_app_true; auto.
Qed.

(** ** Strict reading of arrays and objects *)
Lemma val_of_arr rp d l : val_of rp (S (S d)) (RArr l) = option_map VArr (all_some (map (val_of rp (S d)) l)).
Proof.
  cbn [val_of].
  match goal with |- match ?X with _ => _ end = _ => assert (E : X = all_some (map (val_of rp (S d)) l)) end.
  { induction l as [|x l IH]; [reflexivity|]. cbn [map all_some]. rewrite IH.
    destruct (val_of rp (S d) x); [|reflexivity]. destruct (all_some (map (val_of rp (S d)) l)); reflexivity. }
  rewrite E. destruct (all_some (map (val_of rp (S d)) l)); reflexivity.
Qed.
Definition val_member rp d (kx : bytes * raw) : option (bytes * value) :=
  pair_opt (unescape (fst kx)) (val_of rp d (snd kx)).
Definition val_go rp d : list (bytes * raw) -> list (bytes * value) -> option (list (bytes * value)) :=
  fix go (l : list (bytes * raw)) (acc : list (bytes * value)) : option (list (bytes * value)) :=
   match l with
   | [] => Some acc
   | (k, x) :: l' =>
       match unescape k with
       | None => None
       | Some k' => match val_of rp d x with None => None | Some v => go l' (obj_insert k' v acc) end
       end
   end.
Lemma val_go_eq rp d l : forall acc, val_go rp d l acc =
  option_map (fun ms => fold_left (fun m kv => obj_insert (fst kv) (snd kv) m) ms acc) (all_some (map (val_member rp d) l)).
Proof.
  induction l as [|[k x] l IH]; intros acc; [reflexivity|]. cbn [val_go map all_some val_member fst snd].
  unfold val_member at 1. cbn [fst snd]. destruct (unescape k) as [k'|]; [|reflexivity].
  destruct (val_of rp d x) as [v|]; [|reflexivity]. cbn [pair_opt]. fold (val_go rp d). rewrite IH.
  destruct (all_some (map (val_member rp d) l)); reflexivity.
Qed.
Lemma val_of_obj rp d l :
  (forall k x l' k', l = (k, x) :: l' -> unescape k = Some k' -> k' <> raw_token) ->
  val_of rp (S (S d)) (RObj l) = option_map (fun ms => VObj (obj_of ms)) (all_some (map (val_member rp (S d)) l)).
Proof.
  intros H. cbn [val_of]. fold (val_go rp (S d)). destruct l as [|[k x] l]; [reflexivity|].
  destruct (unescape k) as [k'|] eqn:Ek.
  - specialize (H k x l k' eq_refl Ek). apply bytes_eqb_neq in H. rewrite H.
    change (match val_go rp (S d) ((k, x) :: l) [] with Some m => Some (VObj m) | None => None end =
      option_map (fun ms => VObj (obj_of ms)) (all_some (map (val_member rp (S d)) ((k, x) :: l)))).
    rewrite val_go_eq. destruct (all_some (map (val_member rp (S d)) ((k, x) :: l))); reflexivity.
  - cbn [map all_some]. unfold val_member at 1. cbn [fst snd]. rewrite Ek. reflexivity.
Qed.

(** ** Induction over values *)
Section SvalInd.
Variable P : sval -> Prop.
Hypothesis Hbool : forall b, P (SBool b).
Hypothesis Hu8 : forall b, P (SU8 b).
Hypothesis Hint : forall z, P (SInt z).
Hypothesis Hfloat : forall t, P (SFloat t).
Hypothesis Hchar : forall c, P (SChar c).
Hypothesis Hstr : forall s, P (SStr s).
Hypothesis Hbytes : forall b, P (SBytes b).
Hypothesis Hnone : P SNone.
Hypothesis Hsome : forall v, P v -> P (SSome v).
Hypothesis Hunit : P SUnit.
Hypothesis Hunits : P SUnitStruct.
Hypothesis Hunitv : forall n, P (SUnitVariant n).
Hypothesis Hnew : forall v, P v -> P (SNewtypeStruct v).
Hypothesis Hnewv : forall n v, P v -> P (SNewtypeVariant n v).
Hypothesis Hseq : forall l, Forall P l -> P (SSeq l).
Hypothesis Htup : forall l, Forall P l -> P (STuple l).
Hypothesis Htups : forall l, Forall P l -> P (STupleStruct l).
Hypothesis Htupv : forall n l, Forall P l -> P (STupleVariant n l).
Hypothesis Hmap : forall l, Forall (fun kx => P (snd kx)) l -> P (SMap l).
Hypothesis Hstruct : forall l, Forall (fun kx => P (snd kx)) l -> P (SStruct l).
Hypothesis Hstructv : forall n l, Forall (fun kx => P (snd kx)) l -> P (SStructVariant n l).
Hypothesis Hfail : P SFail.
Fixpoint sval_ind' (v : sval) : P v :=
  let list_ind := fix go (l : list sval) : Forall P l :=
    match l with [] => Forall_nil _ | x :: l' => Forall_cons _ (sval_ind' x) (go l') end in
  let map_ind := fix go (l : list (sval * sval)) : Forall (fun kx => P (snd kx)) l :=
    match l with [] => Forall_nil _ | kx :: l' => Forall_cons kx (sval_ind' (snd kx)) (go l') end in
  let fld_ind := fix go (l : list (bytes * sval)) : Forall (fun kx => P (snd kx)) l :=
    match l with [] => Forall_nil _ | kx :: l' => Forall_cons kx (sval_ind' (snd kx)) (go l') end in
  match v with
  | SBool b => Hbool b | SU8 b => Hu8 b | SInt z => Hint z | SFloat t => Hfloat t
  | SChar c => Hchar c | SStr s => Hstr s | SBytes b => Hbytes b | SNone => Hnone
  | SSome x => Hsome x (sval_ind' x) | SUnit => Hunit | SUnitStruct => Hunits
  | SUnitVariant n => Hunitv n | SNewtypeStruct x => Hnew x (sval_ind' x)
  | SNewtypeVariant n x => Hnewv n x (sval_ind' x)
  | SSeq l => Hseq l (list_ind l) | STuple l => Htup l (list_ind l)
  | STupleStruct l => Htups l (list_ind l) | STupleVariant n l => Htupv n l (list_ind l)
  | SMap l => Hmap l (map_ind l) | SStruct l => Hstruct l (fld_ind l)
  | SStructVariant n l => Hstructv n l (fld_ind l) | SFail => Hfail
  end.
End SvalInd.
