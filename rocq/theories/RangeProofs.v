(** The range of doubles: how far the rounding of serde_json is from the exact value of a literal. *)
From Verif Require Import ValueProofs.
From Coq Require Import Lia ZArith.
Local Open Scope Z_scope.

Lemma round53_near x : 0 < x -> (2 ^ 53 - 1) * x <= 2 ^ 53 * round53 x <= (2 ^ 53 + 1) * x.
Proof.
  intros H. unfold round53. destruct (Z.leb_spec (Z.log2 x - 52) 0) as [L|L]; [lia|].
  destruct (Z.log2_spec x H) as [Lo _]. set (e := Z.log2 x - 52) in *.
  replace (Z.log2 x) with (52 + e) in Lo by (unfold e; lia). rewrite Z.pow_add_r in Lo by lia.
  assert (Hm : 0 < 2 ^ e) by (apply Z.pow_pos_nonneg; lia). set (m := 2 ^ e) in *. clearbody m. clear L e.
  pose proof (Z.div_mod x m ltac:(lia)) as E. pose proof (Z.mod_pos_bound x m Hm) as B.
  set (q := x / m) in *. set (r := x mod m) in *. clearbody q r.
  change (2 ^ 52) with 4503599627370496 in Lo. change (2 ^ 53) with 9007199254740992.
  assert (D : 2 * Z.abs ((if if 2 * r =? m then Z.odd q else m <? 2 * r then q + 1 else q) * m - x) <= m).
  { destruct (Z.eqb_spec (2 * r) m) as [T|T]; [destruct (Z.odd q)|destruct (Z.ltb_spec m (2 * r))]; nia. }
  set (v := (if if 2 * r =? m then Z.odd q else m <? 2 * r then q + 1 else q) * m) in *. clearbody v. lia.
Qed.
Lemma round53_pos x : 0 < x -> 0 < round53 x.
Proof. intros H. pose proof (round53_near x H). change (2 ^ 53) with 9007199254740992 in *. lia. Qed.

(** Three roundings. *)
Lemma thrice s t : 0 < s -> 0 < t ->
  let M := 2 ^ 53 in (M - 1) ^ 3 * (s * t) <= M ^ 3 * round53 (round53 s * round53 t) <= (M + 1) ^ 3 * (s * t).
Proof.
  intros Hs Ht M. pose proof (round53_near s Hs) as A. pose proof (round53_near t Ht) as B.
  pose proof (round53_pos s Hs) as Ps. pose proof (round53_pos t Ht) as Pt.
  pose proof (round53_near (round53 s * round53 t) ltac:(nia)) as C. fold M in A, B, C.
  assert (HM : 1 < M) by reflexivity. clearbody M.
  set (a := round53 s) in *. set (b := round53 t) in *. set (c := round53 (a * b)) in *. clearbody a b c.
  assert (L1 : ((M - 1) * s) * ((M - 1) * t) <= (M * a) * (M * b)) by (apply Z.mul_le_mono_nonneg; nia).
  assert (L2 : (M * a) * (M * b) <= ((M + 1) * s) * ((M + 1) * t)) by (apply Z.mul_le_mono_nonneg; nia).
  split.
  - replace ((M - 1) ^ 3 * (s * t)) with ((M - 1) * (((M - 1) * s) * ((M - 1) * t))) by ring.
    replace (M ^ 3 * c) with (M * M * (M * c)) by ring.
    transitivity ((M - 1) * ((M * a) * (M * b))); [apply Z.mul_le_mono_nonneg_l; lia|].
    replace ((M - 1) * ((M * a) * (M * b))) with (M * M * ((M - 1) * (a * b))) by ring. apply Z.mul_le_mono_nonneg_l; [nia|lia].
  - replace ((M + 1) ^ 3 * (s * t)) with ((M + 1) * (((M + 1) * s) * ((M + 1) * t))) by ring.
    replace (M ^ 3 * c) with (M * M * (M * c)) by ring.
    transitivity ((M + 1) * ((M * a) * (M * b))); [|apply Z.mul_le_mono_nonneg_l; lia].
    replace ((M + 1) * ((M * a) * (M * b))) with (M * M * ((M + 1) * (a * b))) by ring. apply Z.mul_le_mono_nonneg_l; [nia|lia].
Qed.

Definition low_limit : Z := 2 ^ 1024 - 2 ^ 973.
Definition high_limit : Z := 2 ^ 1024 + 2 ^ 974.

(** The decision, given the exact value [num / den] of which [sig * 10 ^ e] is a good approximation. *)
Lemma range_decision sig e P Q num den :
  0 < den -> 0 <= num -> (Z.of_N sig < 2 ^ 64) ->
  (2 ^ 60 - 1) * num <= 2 ^ 60 * (Z.of_N sig * 10 ^ P) <= (2 ^ 60 + 1) * num ->
  0 <= P -> 0 <= Q -> den = 10 ^ Q -> P = e + Q ->
  (num <= low_limit * den -> f64_in_range sig e = true) /\
  (high_limit * den <= num -> f64_in_range sig e = false).
Proof.
  intros Hd Hn Hs A HP HQ Ed EP.
  assert (P10 : forall k, 0 <= k -> 0 < 10 ^ k) by (intros; apply Z.pow_pos_nonneg; lia).
  unfold f64_in_range. destruct (Z.ltb_spec e 0) as [L|L].
  - split; [reflexivity|]. intros Hh. exfalso.
    assert (10 ^ P <= den) by (rewrite Ed; apply Z.pow_le_mono_r; lia).
    assert (B : Z.of_N sig * 10 ^ P <= 2 ^ 64 * den) by (apply Z.mul_le_mono_nonneg; try lia; pose proof (P10 P HP); lia).
    assert (C : 2 ^ 60 * (2 ^ 64 * den) < (2 ^ 60 - 1) * (high_limit * den)).
    { replace (2 ^ 60 * (2 ^ 64 * den)) with ((2 ^ 60 * 2 ^ 64) * den) by ring. replace ((2 ^ 60 - 1) * (high_limit * den)) with (((2 ^ 60 - 1) * high_limit) * den) by ring.
      apply Z.mul_lt_mono_pos_r; [exact Hd|vm_compute; reflexivity]. }
    assert ((2 ^ 60 - 1) * (high_limit * den) <= (2 ^ 60 - 1) * num) by (apply Z.mul_le_mono_nonneg_l; [vm_compute; discriminate|exact Hh]).
    assert (2 ^ 60 * (Z.of_N sig * 10 ^ P) <= 2 ^ 60 * (2 ^ 64 * den)) by (apply Z.mul_le_mono_nonneg_l; [vm_compute; discriminate|exact B]).
    eapply Z.lt_irrefl, Z.lt_le_trans; [exact C|]. eapply Z.le_trans; [eassumption|]. eapply Z.le_trans; [apply A|assumption].
  - assert (EPd : 10 ^ P = 10 ^ e * den) by (rewrite EP, Ed; apply Z.pow_add_r; lia). rewrite EPd in A. clear EPd EP Ed HP HQ P Q.
    set (t := 10 ^ e) in *. assert (Ht : 0 < t) by (apply P10; exact L).
    destruct (N.eqb_spec sig 0) as [->|Nz].
    { assert (num <= 0).
      { destruct A as [A _]. change (Z.of_N 0) with 0 in A. rewrite !Z.mul_0_l, Z.mul_0_r in A.
        apply Z.nlt_ge. intros X. assert (0 < (2 ^ 60 - 1) * num) by (apply Z.mul_pos_pos; [reflexivity|exact X]). lia. }
      split; [destruct (Z.ltb_spec 308 e); reflexivity|]. intros Hh. exfalso.
      assert (0 < high_limit * den) by (apply Z.mul_pos_pos; [reflexivity|exact Hd]). lia. }
    assert (Sp : 0 < Z.of_N sig) by lia. set (s := Z.of_N sig) in *.
    destruct (Z.ltb_spec 308 e) as [B|B].
    { split; [|reflexivity]. intros Hl. exfalso.
      assert (T : 10 ^ 309 <= t) by (apply Z.pow_le_mono_r; lia). clearbody s t.
      assert (X1 : 2 ^ 60 * (10 ^ 309 * den) <= 2 ^ 60 * (s * (t * den))).
      { apply Z.mul_le_mono_nonneg_l; [vm_compute; discriminate|]. transitivity (1 * (10 ^ 309 * den)); [lia|]. apply Z.mul_le_mono_nonneg; try lia.
        apply Z.mul_le_mono_nonneg_r; lia. }
      assert (X2 : (2 ^ 60 + 1) * num <= (2 ^ 60 + 1) * (low_limit * den)) by (apply Z.mul_le_mono_nonneg_l; [vm_compute; discriminate|exact Hl]).
      assert (X3 : (2 ^ 60 + 1) * (low_limit * den) < 2 ^ 60 * (10 ^ 309 * den)).
      { rewrite !Z.mul_assoc. apply Z.mul_lt_mono_pos_r; [exact Hd|vm_compute; reflexivity]. }
      eapply Z.lt_irrefl, Z.lt_le_trans; [exact X3|]. eapply Z.le_trans; [exact X1|]. eapply Z.le_trans; [apply A|exact X2]. }
    pose proof (thrice s t Sp Ht) as T. cbv zeta in T. set (R := round53 (round53 s * round53 t)) in *.
    change (round53 (round53 s * round53 (10 ^ e))) with R. clearbody s t R.
    set (M := 2 ^ 53) in *. set (K := 2 ^ 60) in *. destruct T as [T1 T2]. destruct A as [A1 A2].
    assert (P3 : 0 < M ^ 3 * K * den) by (apply Z.mul_pos_pos; [reflexivity|exact Hd]).
    split; intros Hl.
    + apply Z.ltb_lt. apply (Z.mul_lt_mono_pos_l (M ^ 3 * K * den)); [exact P3|].
      apply (Z.le_lt_trans _ ((M + 1) ^ 3 * (K + 1) * (low_limit * den))).
      * transitivity ((M + 1) ^ 3 * (K * (s * (t * den)))).
        { replace (M ^ 3 * K * den * R) with (K * den * (M ^ 3 * R)) by ring. replace ((M + 1) ^ 3 * (K * (s * (t * den)))) with (K * den * ((M + 1) ^ 3 * (s * t))) by ring.
          apply Z.mul_le_mono_nonneg_l; [apply Z.mul_nonneg_nonneg; [vm_compute; discriminate|lia]|exact T2]. }
        transitivity ((M + 1) ^ 3 * ((K + 1) * num)); [apply Z.mul_le_mono_nonneg_l; [vm_compute; discriminate|exact A2]|].
        rewrite <- Z.mul_assoc. apply Z.mul_le_mono_nonneg_l; [vm_compute; discriminate|]. apply Z.mul_le_mono_nonneg_l; [vm_compute; discriminate|exact Hl].
      * replace ((M + 1) ^ 3 * (K + 1) * (low_limit * den)) with ((M + 1) ^ 3 * (K + 1) * low_limit * den) by ring.
        replace (M ^ 3 * K * den * 2 ^ 1024) with (M ^ 3 * K * 2 ^ 1024 * den) by ring. apply Z.mul_lt_mono_pos_r; [exact Hd|vm_compute; reflexivity].
    + apply Z.ltb_ge. apply (Z.mul_le_mono_pos_l _ _ (M ^ 3 * K * den)); [exact P3|].
      transitivity ((M - 1) ^ 3 * (K - 1) * (high_limit * den)).
      * replace ((M - 1) ^ 3 * (K - 1) * (high_limit * den)) with ((M - 1) ^ 3 * (K - 1) * high_limit * den) by ring.
        replace (M ^ 3 * K * den * 2 ^ 1024) with (M ^ 3 * K * 2 ^ 1024 * den) by ring. apply Z.mul_le_mono_nonneg_r; [lia|vm_compute; discriminate].
      * transitivity ((M - 1) ^ 3 * ((K - 1) * num)).
        { rewrite <- (Z.mul_assoc ((M - 1) ^ 3)). apply Z.mul_le_mono_nonneg_l; [vm_compute; discriminate|]. apply Z.mul_le_mono_nonneg_l; [vm_compute; discriminate|exact Hl]. }
        transitivity ((M - 1) ^ 3 * (K * (s * (t * den)))); [apply Z.mul_le_mono_nonneg_l; [vm_compute; discriminate|exact A1]|].
        replace (M ^ 3 * K * den * R) with (K * den * (M ^ 3 * R)) by ring. replace ((M - 1) ^ 3 * (K * (s * (t * den)))) with (K * den * ((M - 1) ^ 3 * (s * t))) by ring.
        apply Z.mul_le_mono_nonneg_l; [apply Z.mul_nonneg_nonneg; [vm_compute; discriminate|lia]|exact T1].
Qed.

(** ** Digits *)
Lemma undec_app a b : undec (a ++ b) = (undec a * 10 ^ N.of_nat (length b) + undec b)%N.
Proof.
  rewrite <- undec_from_eq. unfold undec. generalize 0%N. induction a as [|c a IH]; intros n; [reflexivity|]. cbn [app undec_from]. apply IH.
Qed.
Lemma digits_near int frac sig more sig' more' :
  forallb is_digit int = true -> forallb is_digit frac = true -> absorb 0 int = (sig, more) -> absorb sig frac = (sig', more') ->
  let D := magnitude (int ++ frac) in
  (Z.of_N sig' < 2 ^ 64) /\ 0 <= D /\ (length more <= length int)%nat /\ (length more' <= length frac)%nat /\
  (2 ^ 60 - 1) * D <= 2 ^ 60 * (Z.of_N sig' * 10 ^ (Z.of_nat (length more) + Z.of_nat (length more'))) <= (2 ^ 60 + 1) * D.
Proof.
  intros Hi Hf Ea Eb D.
  assert (Ed : D = Z.of_N (undec (int ++ frac))) by (apply magnitude_undec; rewrite forallb_app, Hi, Hf; reflexivity).
  destruct (absorb_spec int Hi 0 sig more ltac:(cbv; discriminate) Ea) as (c & Ei & Es & A1 & A2).
  destruct (absorb_spec frac Hf sig sig' more' A1 Eb) as (c' & Ef & Es' & B1 & B2).
  assert (Hc : forallb is_digit more = true /\ forallb is_digit c' = true /\ forallb is_digit more' = true).
  { rewrite Ei, forallb_app in Hi. rewrite Ef, forallb_app in Hf. apply andb_true_iff in Hi, Hf. tauto. }
  destruct Hc as (Hm & Hc' & Hm'). apply undec_bound in Hm, Hm', Hc'. change (undec_from 0 c) with (undec c) in Es.
  rewrite undec_from_eq in Es'. clear Ea Eb.
  split; [unfold u64_max in B1; lia|]. split; [lia|]. split; [rewrite Ei, app_length; lia|]. split; [rewrite Ef, app_length; lia|].
  replace (10 ^ (Z.of_nat (length more) + Z.of_nat (length more'))) with (Z.of_N (10 ^ N.of_nat (length more) * 10 ^ N.of_nat (length more')))
    by (rewrite N2Z.inj_mul, !N2Z.inj_pow, !nat_N_Z, Z.pow_add_r by lia; reflexivity).
  assert (P0 : forall k, (1 <= 10 ^ k)%N) by (intros k; apply N.lt_pred_le; apply N.neq_0_lt_0; apply N.pow_nonzero; discriminate).
  pose proof (P0 (N.of_nat (length more))) as Pm. pose proof (P0 (N.of_nat (length more'))) as Pm'. pose proof (P0 (N.of_nat (length c'))) as Pc'.
  assert (Eu : undec (int ++ frac) = ((undec c * 10 ^ N.of_nat (length more) + undec more) * (10 ^ N.of_nat (length c') * 10 ^ N.of_nat (length more')) + (undec c' * 10 ^ N.of_nat (length more') + undec more'))%N).
  { rewrite Ei, Ef, !undec_app, !app_length, !Nat2N.inj_add, !N.pow_add_r. reflexivity. }
  rewrite Ed, Eu. rewrite <- Es. clear Ed Eu Es Hi Hf. clearbody D.
  set (K := 2 ^ 60). assert (EK : K = 1152921504606846976) by reflexivity. clearbody K.
  assert (Q1 : more = [] \/ K <= Z.of_N sig) by (destruct more; [left; reflexivity|right; destruct (A2 ltac:(discriminate)) as [X _]; unfold u64_max in X; lia]).
  assert (Q2 : more' = [] \/ K <= Z.of_N sig') by (destruct more'; [left; reflexivity|right; destruct (B2 ltac:(discriminate)) as [X _]; unfold u64_max in X; lia]).
  clear A1 A2 B1 B2 P0. assert (PK : 0 < K) by lia. clear EK.
  destruct Q1 as [->|Q1].
  - cbn [length] in *. change (10 ^ N.of_nat 0)%N with 1%N in *. assert (undec [] = 0)%N as -> by reflexivity. clear Hm Pm.
    rewrite Es' in *. destruct Q2 as [->|Q2].
    + cbn [length] in *. change (10 ^ N.of_nat 0)%N with 1%N in *. assert (undec [] = 0)%N as -> by reflexivity. lia.
    + set (v := (sig * 10 ^ N.of_nat (length c') + undec c')%N) in *. set (p := (10 ^ N.of_nat (length more'))%N) in *. set (q := undec more') in *.
      replace ((sig * 1 + 0) * (10 ^ N.of_nat (length c') * p) + (undec c' * p + q))%N with (v * p + q)%N by (unfold v; ring).
      clearbody v p q. rewrite !N2Z.inj_add, !N2Z.inj_mul. change (Z.of_N 1) with 1.
      assert (B : K * Z.of_N q <= Z.of_N v * Z.of_N p) by (apply Z.mul_le_mono_nonneg; try lia).
      assert (Q0 : 0 <= Z.of_N q) by lia. rewrite Z.mul_1_l. set (vp := Z.of_N v * Z.of_N p) in *. set (qz := Z.of_N q) in *. clearbody vp qz.
      clear -B Q0 PK. nia.
  - set (p := (10 ^ N.of_nat (length more))%N) in *. set (p' := (10 ^ N.of_nat (length more'))%N) in *. set (k := (10 ^ N.of_nat (length c'))%N) in *.
    (* both are between sig and sig + 1, in units of p * k * p' *)
    set (u := (p * k * p')%N).
    assert (X1 : (sig * u <= (sig * p + undec more) * (k * p') + (undec c' * p' + undec more'))%N).
    { unfold u. replace (sig * (p * k * p'))%N with (sig * p * (k * p'))%N by ring. transitivity ((sig * p + undec more) * (k * p'))%N; [apply N.mul_le_mono_r; lia|lia]. }
    assert (X2 : ((sig * p + undec more) * (k * p') + (undec c' * p' + undec more') <= (sig + 1) * u)%N).
    { assert (undec c' * p' + undec more' <= k * p')%N by (transitivity ((undec c' + 1) * p')%N; [lia|apply N.mul_le_mono_r; lia]).
      transitivity ((sig * p + undec more + 1) * (k * p'))%N; [lia|]. unfold u. replace ((sig + 1) * (p * k * p'))%N with ((sig * p + p) * (k * p'))%N by ring. apply N.mul_le_mono_r. lia. }
    assert (X3 : (sig * u <= sig' * (p * p'))%N) by (rewrite Es'; unfold u; replace (sig * (p * k * p'))%N with (sig * k * (p * p'))%N by ring; apply N.mul_le_mono_r; lia).
    assert (X4 : (sig' * (p * p') <= (sig + 1) * u)%N) by (rewrite Es'; unfold u; replace ((sig + 1) * (p * k * p'))%N with ((sig * k + k) * (p * p'))%N by ring; apply N.mul_le_mono_r; lia).
    assert (X5 : K * Z.of_N u <= Z.of_N (sig * u)) by (rewrite N2Z.inj_mul; apply Z.mul_le_mono_nonneg_r; lia).
    rewrite <- N2Z.inj_mul. set (a := (sig' * (p * p'))%N) in *. set (b := ((sig * p + undec more) * (k * p') + (undec c' * p' + undec more'))%N) in *.
    replace ((sig + 1) * u)%N with (sig * u + u)%N in * by ring. set (w := (sig * u)%N) in *. clearbody a b w u. clear -X1 X2 X3 X4 X5 PK.
    assert (Y1 : K * (Z.of_N b - Z.of_N a) <= K * Z.of_N u) by (apply Z.mul_le_mono_nonneg_l; lia).
    assert (Y2 : K * (Z.of_N a - Z.of_N b) <= K * Z.of_N u) by (apply Z.mul_le_mono_nonneg_l; lia).
    rewrite Z.mul_sub_distr_l in Y1, Y2. rewrite Z.mul_sub_distr_r, Z.mul_add_distr_r. lia.
Qed.

Lemma exp_in_range sig start x : numlit_ok x -> Z.abs start <= 2 ^ 30 -> exp_ok sig start (nl_exp x) = f64_in_range sig (start + exponent x).
Proof.
  intros (_ & _ & He) Hs. unfold exp_ok, exponent. destruct (nl_exp x) as [[[e sg] ds]|]; [|rewrite Z.add_0_r; reflexivity].
  destruct He as (_ & _ & Hd). apply digits_forallb in Hd as [_ Hd]. rewrite (magnitude_undec _ Hd). change ["-"%byte] with (bs "-").
  change (2 ^ 30) with 1073741824 in Hs. set (n := Z.of_N (undec ds)). assert (0 <= n) by (unfold n; lia). clearbody n. unfold i32_max, sat_i32, i32_min, i32_max.
  assert (Neg : forall e1, e1 < 0 -> f64_in_range sig e1 = true) by (intros e1 L; unfold f64_in_range; rewrite (proj2 (Z.ltb_lt _ _) L); reflexivity).
  assert (Big : forall e1, 308 < e1 -> f64_in_range sig e1 = (sig =? 0)%N).
  { intros e1 L. unfold f64_in_range. destruct (Z.ltb_spec e1 0); [lia|]. rewrite (proj2 (Z.ltb_lt _ _) L). reflexivity. }
  destruct (bytes_eqb sg (bs "-")); cbn [negb].
  - destruct (Z.ltb_spec 2147483647 n) as [A|A]; [rewrite andb_false_r, Neg by lia; reflexivity|].
    change (start + - n) with (start - n).
    destruct (Z.ltb_spec 2147483647 (start - n)); [lia|]. destruct (Z.ltb_spec (start - n) (-2147483648)); [rewrite !Neg by lia; reflexivity|reflexivity].
  - destruct (Z.ltb_spec 2147483647 n) as [A|A]; [rewrite andb_true_r, negb_involutive, Big by lia; reflexivity|].
    destruct (Z.ltb_spec 2147483647 (start + n)); [rewrite !Big by lia; reflexivity|]. destruct (Z.ltb_spec (start + n) (-2147483648)); [lia|reflexivity].
Qed.

(** Every literal whose value is not between the two limits is decided as its value says. *)
Lemma double_range x : numlit_ok x -> Z.of_nat (length (nl_int x)) <= 2 ^ 30 -> Z.of_nat (length (fraction x)) <= 2 ^ 30 ->
  (scaled_num x <= (2 ^ 1024 - 2 ^ 973) * scaled_den x -> num_of x <> None) /\
  ((2 ^ 1024 + 2 ^ 974) * scaled_den x <= scaled_num x -> num_of x = None).
Proof.
  intros Hx Li Lf. pose proof Hx as (Hi & Hf & _). apply int_digits in Hi.
  assert (Hf' : forallb is_digit (fraction x) = true) by (unfold fraction; destruct (nl_frac x) as [f|]; [apply digits_forallb in Hf; tauto|reflexivity]).
  destruct (absorb 0 (nl_int x)) as [sig more] eqn:Ea. destruct (absorb sig (fraction x)) as [sig' more'] eqn:Eb.
  destruct (digits_near _ _ _ _ _ _ Hi Hf' Ea Eb) as (Hs & HD & Lm & Lm' & A).
  set (start := Z.of_nat (length more) - Z.of_nat (length (fraction x) - length more')).
  assert (Hst : Z.abs start <= 2 ^ 30) by (unfold start; change (2 ^ 30) with 1073741824 in *; lia).
  assert (Hok : exp_ok sig' start (nl_exp x) = f64_in_range sig' (start + exponent x)) by (apply exp_in_range; assumption).
  assert (N : num_of x = None <-> (nl_frac x <> None \/ nl_exp x <> None \/ more <> []) /\ exp_ok sig' start (nl_exp x) = false).
  { unfold num_of. rewrite Ea. unfold fraction in *. destruct (nl_frac x) as [f|].
    - rewrite Eb. fold start. destruct (exp_ok sig' start (nl_exp x)); [split; [discriminate|intros [_ X]; discriminate]|]. split; [|reflexivity]. intros _. split; [left; discriminate|reflexivity].
    - cbn [absorb] in Eb. injection Eb as <- <-. unfold start in *. cbn [length Nat.sub] in *. rewrite Z.sub_0_r in *.
      destruct (nl_exp x) as [e|]; [|destruct more as [|d more]].
      + destruct (exp_ok _ _ _); [split; [discriminate|intros [_ X]; discriminate]|]. split; [|reflexivity]. intros _. split; [right; left; discriminate|reflexivity].
      + split; [|intros [[X|[X|X]] _]; contradiction]. destruct (nl_neg x); [destruct (_ && _)%bool|]; discriminate.
      + destruct (exp_ok _ _ _); [split; [discriminate|intros [_ X]; discriminate]|]. split; [|reflexivity]. intros _. split; [right; right; discriminate|reflexivity]. }
  assert (P10 : forall k, 0 <= k -> 0 < 10 ^ k) by (intros; apply Z.pow_pos_nonneg; lia).
  assert (R : (scaled_num x <= low_limit * scaled_den x -> f64_in_range sig' (start + exponent x) = true) /\
              (high_limit * scaled_den x <= scaled_num x -> f64_in_range sig' (start + exponent x) = false)).
  { apply (range_decision sig' _ (Z.of_nat (length more) + Z.of_nat (length more') + Z.max 0 (exponent x)) (Z.of_nat (length (fraction x)) + Z.max 0 (- exponent x))).
    - apply P10. lia.
    - unfold scaled_num. apply Z.mul_nonneg_nonneg; [exact HD|]. pose proof (P10 (Z.max 0 (exponent x)) ltac:(lia)). lia.
    - exact Hs.
    - unfold scaled_num. rewrite Z.pow_add_r by lia. pose proof (P10 (Z.max 0 (exponent x)) ltac:(lia)) as T. set (t := 10 ^ Z.max 0 (exponent x)) in *. clearbody t.
      set (D := magnitude (nl_int x ++ fraction x)) in *. set (w := 10 ^ (Z.of_nat (length more) + Z.of_nat (length more'))) in *.
      rewrite (Z.mul_assoc (Z.of_N sig')), !Z.mul_assoc. rewrite Z.mul_assoc in A. split; apply Z.mul_le_mono_nonneg_r; try lia; apply A.
    - lia.
    - lia.
    - reflexivity.
    - unfold start. lia. }
  destruct R as [R1 R2]. split; intros H.
  - intros X. apply N in X as [_ X]. rewrite Hok, (R1 H) in X. discriminate.
  - apply N. split; [|rewrite Hok; exact (R2 H)].
    destruct (nl_frac x) as [f|] eqn:Ef; [left; discriminate|]. destruct (nl_exp x) as [e|] eqn:Ee; [right; left; discriminate|]. right; right.
    intros ->. specialize (R2 H). unfold fraction in *. rewrite Ef in *. cbn [absorb] in Eb. injection Eb as <- <-. unfold start, exponent in R2. rewrite Ee in R2. rewrite ?Ef in R2.
    cbn [length] in R2. change (Z.of_nat 0 - Z.of_nat (0 - 0) + 0) with 0 in R2. unfold f64_in_range in R2. change (0 <? 0) with false in R2. change (308 <? 0) with false in R2. cbv iota in R2.
    destruct (N.eqb_spec sig 0); [discriminate R2|]. apply Z.ltb_ge in R2. pose proof (thrice (Z.of_N sig) (10 ^ 0) ltac:(lia) ltac:(reflexivity)) as [_ T].
    change (10 ^ 0) with 1 in *. rewrite (Z.mul_1_r (Z.of_N sig)) in T.
    assert (X : (2 ^ 53) ^ 3 * 2 ^ 1024 <= (2 ^ 53 + 1) ^ 3 * 2 ^ 64).
    { eapply Z.le_trans; [apply (Z.mul_le_mono_nonneg_l (2 ^ 1024) (round53 (round53 (Z.of_N sig) * round53 1)) ((2 ^ 53) ^ 3)); [vm_compute; discriminate|exact R2]|]. eapply Z.le_trans; [exact T|].
      apply Z.mul_le_mono_nonneg_l; [vm_compute; discriminate|]. apply Z.lt_le_incl. exact Hs. }
    apply X. vm_compute. reflexivity.
Qed.
