(** Facts about bytes, spans, decimal numbers, slices and UTF-8. *)
From Verif Require Export Bytes Utf8 Subslice.
From Coq Require Export ZifyBool ZifyNat ZifyN.
Ltac Zify.zify_post_hook ::= Z.div_mod_to_equations.

Definition all_bytes : list byte := map (fun n => byte_of (N.of_nat n)) (seq 0 256).

Lemma bN_bound b : (bN b < 256)%N.
Proof. destruct b; vm_compute; reflexivity. Qed.
Lemma byte_of_bN b : byte_of (bN b) = b.
Proof. destruct b; vm_compute; reflexivity. Qed.
Lemma bN_inj a b : bN a = bN b -> a = b.
Proof. intros H. rewrite <- (byte_of_bN a), H. apply byte_of_bN. Qed.

Lemma all_bytes_in b : In b all_bytes.
Proof.
  unfold all_bytes. apply in_map_iff. exists (N.to_nat (bN b)). split.
  - rewrite N2Nat.id. apply byte_of_bN.
  - apply in_seq. pose proof (bN_bound b). lia.
Qed.

(** Finite sweep over the 256 bytes. *)
Lemma byte_forall (p : byte -> bool) : forallb p all_bytes = true -> forall b, p b = true.
Proof. intros H b. rewrite forallb_forall in H. apply H, all_bytes_in. Qed.

Lemma bN_byte_of n : (n < 256)%N -> bN (byte_of n) = n.
Proof.
  intros H. unfold bN, byte_of.
  destruct (Byte.of_N n) eqn:E.
  - apply Byte.to_of_N in E. exact E.
  - apply Byte.of_N_None_iff in E. lia.
Qed.

Lemma byte_eqb_eq a b : (a =b b) = true <-> a = b.
Proof. split; [apply Byte.byte_dec_bl | intros ->; apply Byte.byte_dec_lb; reflexivity]. Qed.
Lemma byte_eqb_refl a : (a =b a) = true.
Proof. apply byte_eqb_eq; reflexivity. Qed.
Lemma byte_eqb_neq a b : (a =b b) = false <-> a <> b.
Proof.
  destruct (a =b b) eqn:E.
  - apply byte_eqb_eq in E. split; [discriminate | intros H; contradiction].
  - split; [|reflexivity]. intros _ ->. rewrite byte_eqb_refl in E. discriminate.
Qed.
Lemma byte_eqb_sym a b : (a =b b) = (b =b a).
Proof.
  destruct (a =b b) eqn:E.
  - apply byte_eqb_eq in E. subst. symmetry. apply byte_eqb_refl.
  - apply byte_eqb_neq in E. symmetry. apply byte_eqb_neq. congruence.
Qed.
Lemma byte_eq_dec (a b : byte) : {a = b} + {a <> b}.
Proof. destruct (a =b b) eqn:E; [left; apply byte_eqb_eq; exact E | right; apply byte_eqb_neq; exact E]. Qed.

Ltac byte_cases c :=
  let H := fresh in
  match goal with
  | |- context [c =b ?d] => destruct (c =b d) eqn:H;
      [apply byte_eqb_eq in H; subst c | apply byte_eqb_neq in H]
  end.

Lemma bytes_eqb_eq a : forall b, bytes_eqb a b = true <-> a = b.
Proof.
  induction a as [|x a IH]; intros [|y b]; cbn [bytes_eqb]; try (split; congruence).
  rewrite andb_true_iff, byte_eqb_eq, IH. split; [intros [-> ->]; reflexivity | intros [= -> ->]; auto].
Qed.
Lemma bytes_eqb_refl a : bytes_eqb a a = true.
Proof. apply bytes_eqb_eq; reflexivity. Qed.
Lemma bytes_eqb_neq a b : bytes_eqb a b = false <-> a <> b.
Proof.
  destruct (bytes_eqb a b) eqn:E.
  - apply bytes_eqb_eq in E. split; [discriminate | intros H; contradiction].
  - split; [|reflexivity]. intros _ ->. rewrite bytes_eqb_refl in E. discriminate.
Qed.
Lemma bytes_eqb_sym a b : bytes_eqb a b = bytes_eqb b a.
Proof.
  destruct (bytes_eqb a b) eqn:E.
  - apply bytes_eqb_eq in E. subst. symmetry. apply bytes_eqb_refl.
  - apply bytes_eqb_neq in E. symmetry. apply bytes_eqb_neq. congruence.
Qed.
Lemma bytes_eq_dec (a b : bytes) : {a = b} + {a <> b}.
Proof. destruct (bytes_eqb a b) eqn:E; [left; apply bytes_eqb_eq; exact E | right; apply bytes_eqb_neq; exact E]. Qed.

Lemma bytes_ltb_irrefl a : bytes_ltb a a = false.
Proof. induction a as [|x a IH]; cbn [bytes_ltb]; [reflexivity|]. rewrite N.ltb_irrefl. exact IH. Qed.
Lemma bytes_ltb_trans a : forall b c, bytes_ltb a b = true -> bytes_ltb b c = true -> bytes_ltb a c = true.
Proof.
  induction a as [|x a IH]; intros [|y b] [|z c]; cbn [bytes_ltb]; try discriminate; auto.
  destruct (N.ltb_spec (bN x) (bN y)); destruct (N.ltb_spec (bN y) (bN x)); try lia;
  destruct (N.ltb_spec (bN y) (bN z)); destruct (N.ltb_spec (bN z) (bN y)); try lia;
  destruct (N.ltb_spec (bN x) (bN z)); destruct (N.ltb_spec (bN z) (bN x)); try lia; try discriminate; auto.
  apply IH.
Qed.
Lemma bytes_ltb_total a : forall b, bytes_ltb a b = false -> bytes_ltb b a = false -> a = b.
Proof.
  induction a as [|x a IH]; intros [|y b]; cbn [bytes_ltb]; try discriminate; auto.
  destruct (N.ltb_spec (bN x) (bN y)); destruct (N.ltb_spec (bN y) (bN x)); try lia; try discriminate.
  intros H1 H2. f_equal; [apply bN_inj; lia | apply IH; assumption].
Qed.

(** ** span *)
Lemma span_app p s a b : span p s = (a, b) -> s = a ++ b.
Proof.
  revert a b. induction s as [|c s IH]; intros a b; cbn [span].
  - intros [= <- <-]. reflexivity.
  - destruct (p c); [|intros [= <- <-]; reflexivity].
    destruct (span p s) as [a' b']. intros [= <- <-]. cbn. f_equal. apply IH. reflexivity.
Qed.
Lemma span_all p s a b : span p s = (a, b) -> forallb p a = true.
Proof.
  revert a b. induction s as [|c s IH]; intros a b; cbn [span].
  - intros [= <- <-]. reflexivity.
  - destruct (p c) eqn:E; [|intros [= <- <-]; reflexivity].
    destruct (span p s) as [a' b']. intros [= <- <-]. cbn. rewrite E. apply (IH a' b'). reflexivity.
Qed.
Lemma span_stop p s a b : span p s = (a, b) -> match b with [] => True | c :: _ => p c = false end.
Proof.
  revert a b. induction s as [|c s IH]; intros a b; cbn [span].
  - intros [= <- <-]. exact I.
  - destruct (p c) eqn:E; [|intros [= <- <-]; exact E].
    destruct (span p s) as [a' b']. intros [= <- <-]. apply (IH a' b'). reflexivity.
Qed.
Lemma span_make p a b : forallb p a = true -> match b with [] => True | c :: _ => p c = false end ->
  span p (a ++ b) = (a, b).
Proof.
  intros Ha Hb. induction a as [|c a IH]; cbn [app span].
  - destruct b as [|c b]; [reflexivity|]. cbn. rewrite Hb. reflexivity.
  - cbn in Ha. apply andb_true_iff in Ha as [-> Ha]. rewrite IH by exact Ha. reflexivity.
Qed.

(** ** Decimal numbers *)
Lemma is_digit_digit_of n : (n < 10)%N -> is_digit (digit_of n) = true.
Proof. intros H. unfold is_digit, digit_of. rewrite bN_byte_of by lia. lia. Qed.
Lemma digit_val_of n : (n < 10)%N -> digit_val (digit_of n) = n.
Proof. intros H. unfold digit_val, digit_of. rewrite bN_byte_of by lia. lia. Qed.
Lemma digit_val_bound c : is_digit c = true -> (digit_val c < 10)%N.
Proof. unfold is_digit, digit_val. lia. Qed.

Lemma undec_from_app s t : forall acc, undec_from acc (s ++ t) = undec_from (undec_from acc s) t.
Proof. induction s as [|c s IH]; intros acc; cbn [app undec_from]; [reflexivity | apply IH]. Qed.
Lemma dec_fuel_acc k : forall n acc, dec_fuel k n acc = dec_fuel k n [] ++ acc.
Proof.
  induction k as [|k IH]; intros n acc; cbn [dec_fuel]; [reflexivity|].
  destruct (n <? 10)%N; [reflexivity|].
  rewrite (IH _ (_ :: acc)), (IH _ [_]). rewrite <- app_assoc. reflexivity.
Qed.
Lemma size_nat_bound k : forall n, (N.size_nat n <= k)%nat -> (n < 2 ^ N.of_nat k)%N.
Proof.
  intros n H. destruct (N.eq_dec n 0) as [->|Hn]; [lia|].
  assert (Hs : N.size n = N.of_nat (N.size_nat n)).
  { destruct n as [|p]; [reflexivity|]. cbn [N.size N.size_nat]. clear.
    induction p as [p IH|p IH|]; cbn [Pos.size Pos.size_nat]; [| |reflexivity];
      rewrite Nat2N.inj_succ, <- IH; reflexivity. }
  pose proof (N.size_gt n) as G. rewrite Hs in G.
  eapply N.lt_le_trans; [exact G|]. apply N.pow_le_mono_r; lia.
Qed.
Lemma dec_fuel_S k n acc : dec_fuel (S k) n acc =
  if (n <? 10)%N then digit_of (n mod 10) :: acc
  else dec_fuel k (n / 10)%N (digit_of (n mod 10) :: acc).
Proof. reflexivity. Qed.
Lemma dec_fuel_spec k : forall n, (n < 2 ^ N.of_nat k)%N ->
  let d := dec_fuel (S k) n [] in
  forallb is_digit d = true /\ d <> [] /\ undec d = n /\
  (match d with c :: _ => (c =b "0") = true -> d = ["0"%byte] | [] => False end) /\
  (n <> 0%N -> match d with c :: _ => (c =b "0") = false | [] => False end).
Proof.
  induction k as [|k IH]; intros n Hn.
  - assert (n = 0%N) as -> by (cbn in Hn; lia). vm_compute. repeat split; congruence.
  - cbn zeta. rewrite dec_fuel_S.
    destruct (N.ltb_spec n 10) as [H|H].
    + assert (Hd : is_digit (digit_of (n mod 10)) = true) by (apply is_digit_digit_of; lia).
      repeat split; cbn [forallb undec undec_from]; try discriminate.
      * rewrite Hd. reflexivity.
      * unfold undec. cbn [undec_from]. rewrite digit_val_of by lia. lia.
      * intros E. apply byte_eqb_eq in E. rewrite E. reflexivity.
      * intros Hz. apply byte_eqb_neq. intros E.
        apply (f_equal digit_val) in E. rewrite digit_val_of in E by lia.
        change (digit_val "0") with 0%N in E. lia.
    + rewrite dec_fuel_acc.
      assert (Hq : (n / 10 < 2 ^ N.of_nat k)%N).
      { rewrite Nat2N.inj_succ, N.pow_succ_r' in Hn. lia. }
      specialize (IH _ Hq). cbn zeta in IH.
      set (d := dec_fuel (S k) (n / 10) []) in *. clearbody d.
      destruct IH as (H1 & H2 & H3 & H4 & H5).
      assert (Hd : is_digit (digit_of (n mod 10)) = true) by (apply is_digit_digit_of; lia).
      repeat split.
      * rewrite forallb_app, H1. cbn. rewrite Hd. reflexivity.
      * destruct d; discriminate.
      * unfold undec in *. rewrite undec_from_app, H3. cbn [undec_from].
        rewrite digit_val_of by lia. lia.
      * destruct d as [|c d']; [congruence|]. cbn [app].
        intros E. rewrite H5 in E by lia. discriminate.
      * intros _. destruct d as [|c d']; [congruence|]. cbn [app]. apply H5. lia.
Qed.
Lemma dec_spec n :
  let d := dec n in
  forallb is_digit d = true /\ d <> [] /\ undec d = n /\
  (match d with c :: _ => (c =b "0") = true -> d = ["0"%byte] | [] => False end) /\
  (n <> 0%N -> match d with c :: _ => (c =b "0") = false | [] => False end).
Proof. apply dec_fuel_spec. apply size_nat_bound. lia. Qed.
Lemma dec_digits n : forallb is_digit (dec n) = true.
Proof. apply dec_spec. Qed.
Lemma dec_nonempty n : dec n <> [].
Proof. apply dec_spec. Qed.
Lemma undec_dec n : undec (dec n) = n.
Proof. apply dec_spec. Qed.
Lemma dec_inj a b : dec a = dec b -> a = b.
Proof. intros H. rewrite <- (undec_dec a), H. apply undec_dec. Qed.
Lemma parse_u64_dec n : (n <= u64_max)%N -> parse_u64 (dec n) = Some n.
Proof. intros H. unfold parse_u64. rewrite undec_dec. apply N.leb_le in H. rewrite H. reflexivity. Qed.

(** Canonical decimal text: "0" or no leading zero. *)
Definition canon_dec (s : bytes) : bool :=
  match s with
  | [] => false
  | c :: r => if c =b "0" then match r with [] => true | _ => false end else forallb is_digit s
  end.
Lemma canon_dec_dec n : canon_dec (dec n) = true.
Proof.
  pose proof (dec_spec n) as H. cbn zeta in H. destruct H as (H1 & H2 & _ & H4 & _).
  unfold canon_dec. destruct (dec n) as [|c r]; [congruence|].
  destruct (c =b "0") eqn:E; [|exact H1].
  specialize (H4 eq_refl). injection H4 as _ ->. reflexivity.
Qed.
Lemma canon_dec_digits s : canon_dec s = true -> forallb is_digit s = true.
Proof.
  destruct s as [|c r]; cbn [canon_dec]; [discriminate|].
  destruct (c =b "0") eqn:E; [|auto]. apply byte_eqb_eq in E. subst. destruct r; [reflexivity|discriminate].
Qed.

(** ** Slices *)
Lemma slice_length a b s : b <= length s -> length (slice a b s) = b - a.
Proof. intros H. unfold slice. rewrite firstn_length, skipn_length. lia. Qed.
Lemma slice_all s : slice 0 (length s) s = s.
Proof. unfold slice. rewrite Nat.sub_0_r. cbn [skipn]. apply firstn_all. Qed.
Lemma slice_app_mid x y z : slice (length x) (length x + length y) (x ++ y ++ z) = y.
Proof.
  unfold slice. rewrite skipn_app, skipn_all, Nat.sub_diag. cbn [skipn app].
  replace (length x + length y - length x) with (length y) by lia.
  rewrite firstn_app, Nat.sub_diag, firstn_all. cbn [firstn]. apply app_nil_r.
Qed.
Lemma skipn_skipn {A} (l : list A) : forall a b, skipn a (skipn b l) = skipn (a + b) l.
Proof.
  induction l as [|x l IH]; intros a b; [rewrite !skipn_nil; reflexivity|].
  destruct b as [|b]; [rewrite Nat.add_0_r; reflexivity|].
  rewrite Nat.add_succ_r. cbn [skipn]. apply IH.
Qed.
Lemma slice_slice a b c d s :
  c <= d -> d <= b - a -> slice c d (slice a b s) = slice (a + c) (a + d) s.
Proof.
  intros H1 H2. unfold slice.
  rewrite skipn_firstn_comm, firstn_firstn, skipn_skipn.
  replace (a + d - (a + c)) with (d - c) by lia.
  replace (Nat.min (d - c) (b - a - c)) with (d - c) by lia.
  rewrite (Nat.add_comm c a). reflexivity.
Qed.
Lemma slice_split a b s : a <= b -> b <= length s -> s = firstn a s ++ slice a b s ++ skipn b s.
Proof.
  intros H1 H2. unfold slice.
  rewrite <- (firstn_skipn a s) at 1. f_equal.
  rewrite <- (firstn_skipn (b - a) (skipn a s)) at 1. f_equal.
  rewrite skipn_skipn. f_equal. lia.
Qed.
Lemma vec_slice_some s a b : a <= b -> b <= length s -> vec_slice s (a, b) = Some (slice a b s).
Proof.
  intros H1 H2. unfold vec_slice. cbn [fst snd].
  apply Nat.leb_le in H1. apply Nat.leb_le in H2. rewrite H1, H2. reflexivity.
Qed.

(** The canonical decimal texts are exactly the printed numbers. *)
Lemma dec_fuel_indep k : forall k' n acc, (n < 2 ^ N.of_nat k)%N -> (n < 2 ^ N.of_nat k')%N ->
  dec_fuel (S k) n acc = dec_fuel (S k') n acc.
Proof.
  induction k as [|k IH]; intros k' n acc H H'.
  - cbn in H. assert (n = 0%N) by lia. subst. reflexivity.
  - rewrite (dec_fuel_S (S k)), (dec_fuel_S k'). destruct (n <? 10)%N eqn:E; [reflexivity|].
    destruct k' as [|k']; [cbn in H'; lia|].
    apply IH.
    + rewrite Nat2N.inj_succ, N.pow_succ_r' in H. lia.
    + rewrite Nat2N.inj_succ, N.pow_succ_r' in H'. lia.
Qed.
Lemma dec_snoc n x : (n <> 0)%N -> (x < 10)%N -> dec (n * 10 + x) = dec n ++ [digit_of x].
Proof.
  intros Hn Hx. unfold dec.
  pose proof (size_nat_bound _ (n * 10 + x) (Nat.le_refl _)) as B1.
  pose proof (size_nat_bound _ n (Nat.le_refl _)) as B2.
  rewrite dec_fuel_S. replace (n * 10 + x <? 10)%N with false by lia.
  replace ((n * 10 + x) mod 10)%N with x by (symmetry; rewrite N.add_comm, N.mod_add by lia; apply N.mod_small; lia).
  replace ((n * 10 + x) / 10)%N with n by (rewrite N.add_comm, N.div_add by lia; rewrite N.div_small by lia; lia).
  destruct (N.size_nat (n * 10 + x)) as [|k] eqn:E; [cbn in B1; lia|].
  rewrite dec_fuel_acc. f_equal. apply dec_fuel_indep; [|exact B2].
  rewrite Nat2N.inj_succ, N.pow_succ_r' in B1. lia.
Qed.
Lemma digit_of_val c : is_digit c = true -> digit_of (digit_val c) = c.
Proof.
  intros H. unfold digit_of, digit_val, is_digit in *.
  replace (48 + (bN c - 48))%N with (bN c) by lia. apply byte_of_bN.
Qed.
Lemma undec_nonzero s : canon_dec s = true -> s <> ["0"%byte] -> undec s <> 0%N.
Proof.
  intros H Hn. destruct s as [|c r]; [discriminate|]. cbn [canon_dec] in H.
  destruct (c =b "0") eqn:E.
  - apply byte_eqb_eq in E. subst. destruct r; [congruence|discriminate].
  - cbn [forallb] in H. apply andb_true_iff in H as [Hc _]. apply byte_eqb_neq in E.
    unfold undec. cbn [undec_from].
    assert (Hv : (digit_val c <> 0)%N).
    { intros Z. apply E. rewrite <- (digit_of_val c Hc), Z. reflexivity. }
    assert (G : forall r a, (a <> 0)%N -> undec_from a r <> 0%N).
    { clear. induction r as [|d r IH]; intros a Ha; cbn [undec_from]; [exact Ha|]. apply IH. lia. }
    apply G. lia.
Qed.
Lemma dec_undec s : canon_dec s = true -> dec (undec s) = s.
Proof.
  induction s as [|c s IH] using rev_ind; [discriminate|]. intros H.
  assert (Hd : is_digit c = true).
  { apply canon_dec_digits in H. rewrite forallb_app in H. cbn [forallb] in H.
    apply andb_true_iff in H as [_ H]. apply andb_true_iff in H. tauto. }
  unfold undec. rewrite undec_from_app. fold (undec s). cbn [undec_from].
  destruct s as [|d s].
  - cbn [app] in *. unfold undec. cbn [undec_from]. apply digit_val_bound in Hd as Hb.
    rewrite N.mul_0_l, N.add_0_l. unfold dec. rewrite dec_fuel_S.
    replace (digit_val c <? 10)%N with true by lia. rewrite N.mod_small by lia. rewrite digit_of_val by exact Hd. reflexivity.
  - assert (Hc : canon_dec (d :: s) = true /\ d :: s <> ["0"%byte]).
    { cbn [app canon_dec] in *. destruct (d =b "0") eqn:E.
      - destruct (s ++ [c]) eqn:X; [destruct s; discriminate|discriminate].
      - split; [|intros [= -> _]; discriminate]. cbn [forallb] in *. rewrite forallb_app in H.
        apply andb_true_iff in H as [H1 H2]. apply andb_true_iff in H2 as [H2 _]. rewrite H1. exact H2. }
    destruct Hc as [Hc Hz]. apply digit_val_bound in Hd as Hb.
    rewrite dec_snoc; [|apply undec_nonzero; assumption|exact Hb].
    rewrite IH by exact Hc. rewrite digit_of_val by exact Hd. reflexivity.
Qed.
