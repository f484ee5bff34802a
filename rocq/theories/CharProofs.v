(** Valid UTF-8 is a sequence of characters; single characters. *)
From Verif Require Export SpecUtf8 WriterProofs DeModel.
From Coq Require Import Lia.

Lemma utf8_char_valid n u : utf8_char n u -> utf8_valid u = true.
Proof.
  intros H. inversion H as [a Ha|? a b x y E R Hy Ea Eb|? a b c x y z E R Hs Hy Hz Ea Eb Ec|? a b c d x y z t E R Hy Hz Ht Ea Eb Ec Ed]; subst; clear H; cbn [utf8_valid].
  - replace (in_rng 0 127 a) with true; [reflexivity|]. symmetry. apply andb_true_iff; split; apply N.leb_le; lia.
  - replace (in_rng 0 127 a) with false by (symmetry; apply andb_false_iff; right; apply N.leb_gt; lia).
    replace (in_rng 194 223 a) with true by (symmetry; apply andb_true_iff; split; apply N.leb_le; lia).
    replace (in_rng 128 191 b) with true by (symmetry; apply andb_true_iff; split; apply N.leb_le; lia). reflexivity.
  - replace (in_rng 0 127 a) with false by (symmetry; apply andb_false_iff; right; apply N.leb_gt; lia).
    replace (in_rng 194 223 a) with false by (symmetry; apply andb_false_iff; right; apply N.leb_gt; lia).
    replace (in_rng 224 239 a) with true by (symmetry; apply andb_true_iff; split; apply N.leb_le; lia).
    replace (in_rng 128 191 c) with true by (symmetry; apply andb_true_iff; split; apply N.leb_le; lia).
    destruct (a =b xe0) eqn:E0; [|destruct (a =b xed) eqn:E1].
    + apply byte_eqb_eq in E0. subst a. change (bN xe0) with 224%N in Ea.
      replace (in_rng 160 191 b) with true by (symmetry; apply andb_true_iff; split; apply N.leb_le; lia). reflexivity.
    + apply byte_eqb_eq in E1. subst a. change (bN xed) with 237%N in Ea.
      replace (in_rng 128 159 b) with true by (symmetry; apply andb_true_iff; split; apply N.leb_le; lia). reflexivity.
    + replace (in_rng 128 191 b) with true by (symmetry; apply andb_true_iff; split; apply N.leb_le; lia). reflexivity.
  - replace (in_rng 0 127 a) with false by (symmetry; apply andb_false_iff; right; apply N.leb_gt; lia).
    replace (in_rng 194 223 a) with false by (symmetry; apply andb_false_iff; right; apply N.leb_gt; lia).
    replace (in_rng 224 239 a) with false by (symmetry; apply andb_false_iff; right; apply N.leb_gt; lia).
    replace (in_rng 240 244 a) with true by (symmetry; apply andb_true_iff; split; apply N.leb_le; lia).
    replace (in_rng 128 191 c) with true by (symmetry; apply andb_true_iff; split; apply N.leb_le; lia).
    replace (in_rng 128 191 d) with true by (symmetry; apply andb_true_iff; split; apply N.leb_le; lia).
    destruct (a =b xf0) eqn:E0; [|destruct (a =b xf4) eqn:E1].
    + apply byte_eqb_eq in E0. subst a. change (bN xf0) with 240%N in Ea.
      replace (in_rng 144 191 b) with true by (symmetry; apply andb_true_iff; split; apply N.leb_le; lia). reflexivity.
    + apply byte_eqb_eq in E1. subst a. change (bN xf4) with 244%N in Ea.
      replace (in_rng 128 143 b) with true by (symmetry; apply andb_true_iff; split; apply N.leb_le; lia). reflexivity.
    + replace (in_rng 128 191 b) with true by (symmetry; apply andb_true_iff; split; apply N.leb_le; lia). reflexivity.
Qed.
(** [utf8_valid] accepts exactly the sequences of characters. *)
Lemma rng lo hi c : in_rng lo hi c = true -> (lo <= bN c <= hi)%N.
Proof. unfold in_rng. intros H. apply andb_true_iff in H as [H1 H2]. apply N.leb_le in H1, H2. lia. Qed.
Lemma characters_cons u n s : utf8_char n u -> characters s -> characters (u ++ s).
Proof. intros H (l & Hl & ->). exists (u :: l). split; [constructor; eauto|reflexivity]. Qed.
Lemma valid_characters s : utf8_valid s = true -> characters s.
Proof.
  remember (length s) as n eqn:En. assert (Hn : length s <= n) by lia. clear En. revert s Hn. induction n as [|n IH]; intros s Hn H.
  { destruct s; [exists []; split; [constructor|reflexivity]|cbn in Hn; lia]. }
  destruct s as [|a r]; [exists []; split; [constructor|reflexivity]|]. cbn [utf8_valid] in H. cbn [length] in Hn.
  destruct (in_rng 0 127 a) eqn:E1.
  { apply rng in E1. apply (characters_cons [a] (bN a)); [constructor; lia|]. apply IH; [lia|exact H]. }
  destruct (in_rng 194 223 a) eqn:E2.
  { destruct r as [|b r1]; [discriminate|]. apply andb_true_iff in H as [Hb H]. cbn [length] in Hn. apply rng in E2, Hb.
    apply (characters_cons [a; b] ((bN a - 192) * 64 + (bN b - 128))%N); [|apply IH; [lia|exact H]]. eapply u8_2; [reflexivity|lia..]. }
  destruct (in_rng 224 239 a) eqn:E3.
  { destruct r as [|b [|c r2]]; try discriminate. apply andb_true_iff in H as [Hb H]. apply andb_true_iff in Hb as [Hb Hc]. cbn [length] in Hn. apply rng in E3, Hc.
    assert (B : (128 <= bN b <= 191 /\ (bN a = 224 -> 160 <= bN b) /\ (bN a = 237 -> bN b <= 159))%N).
    { destruct (a =b xe0) eqn:Ea; [|destruct (a =b xed) eqn:Eb].
      - apply byte_eqb_eq in Ea. subst a. change (bN xe0) with 224%N. apply rng in Hb. lia.
      - apply byte_eqb_eq in Eb. subst a. change (bN xed) with 237%N. apply rng in Hb. lia.
      - apply rng in Hb. split; [exact Hb|]. split; intros X; exfalso.
        + assert (a = xe0) by (apply bN_inj; exact X). subst a. discriminate.
        + assert (a = xed) by (apply bN_inj; exact X). subst a. discriminate. }
    apply (characters_cons [a; b; c] (((bN a - 224) * 64 + (bN b - 128)) * 64 + (bN c - 128))%N); [|apply IH; [lia|exact H]]. eapply u8_3; [reflexivity|lia..]. }
  destruct (in_rng 240 244 a) eqn:E4; [|discriminate].
  destruct r as [|b [|c [|d r3]]]; try discriminate. apply andb_true_iff in H as [Hb H]. apply andb_true_iff in Hb as [Hb Hd]. apply andb_true_iff in Hb as [Hb Hc]. cbn [length] in Hn. apply rng in E4, Hc, Hd.
  assert (B : (128 <= bN b <= 191 /\ (bN a = 240 -> 144 <= bN b) /\ (bN a = 244 -> bN b <= 143))%N).
  { destruct (a =b xf0) eqn:Ea; [|destruct (a =b xf4) eqn:Eb].
    - apply byte_eqb_eq in Ea. subst a. change (bN xf0) with 240%N. apply rng in Hb. lia.
    - apply byte_eqb_eq in Eb. subst a. change (bN xf4) with 244%N. apply rng in Hb. lia.
    - apply rng in Hb. split; [exact Hb|]. split; intros X; exfalso.
      + assert (a = xf0) by (apply bN_inj; exact X). subst a. discriminate.
      + assert (a = xf4) by (apply bN_inj; exact X). subst a. discriminate. }
  apply (characters_cons [a; b; c; d] ((((bN a - 240) * 64 + (bN b - 128)) * 64 + (bN c - 128)) * 64 + (bN d - 128))%N); [|apply IH; [lia|exact H]]. eapply u8_4; [reflexivity|lia..].
Qed.
Lemma utf8_characters s : utf8_valid s = true <-> characters s.
Proof.
  split; [apply valid_characters|]. intros (l & Hl & ->). induction Hl as [|u l [n Hu] _ IH]; [reflexivity|]. cbn [concat]. apply utf8_app_true; [eapply utf8_char_valid; exact Hu|exact IH].
Qed.

(** ** Single characters *)
Lemma char_starts n u : utf8_char n u -> length (filter (fun c => negb (in_rng 128 191 c)) u) = 1.
Proof.
  assert (C : forall c, (128 <= bN c <= 191)%N -> in_rng 128 191 c = true).
  { intros c H. apply andb_true_iff; split; apply N.leb_le; lia. }
  assert (S : forall c, ~ (128 <= bN c <= 191)%N -> in_rng 128 191 c = false).
  { intros c H. destruct (in_rng 128 191 c) eqn:E; [apply rng in E; contradiction|reflexivity]. }
  intros H. inversion H as [a Ha|? a b x y E R Hy Ea Eb|? a b c x y z E R Hs Hy Hz Ea Eb Ec|? a b c d x y z t E R Hy Hz Ht Ea Eb Ec Ed]; subst; clear H; cbn [filter].
  - rewrite (S a) by lia. reflexivity.
  - rewrite (S a), (C b) by lia. reflexivity.
  - rewrite (S a), (C b), (C c) by lia. reflexivity.
  - rewrite (S a), (C b), (C c), (C d) by lia. reflexivity.
Qed.
Lemma one_char_exact s : one_char s = true <-> exists n, utf8_char n s.
Proof.
  unfold one_char. rewrite andb_true_iff, utf8_characters, Nat.eqb_eq. split.
  - intros [(l & Hl & ->) H].
    assert (L : length (filter (fun c => negb (in_rng 128 191 c)) (concat l)) = length l).
    { clear H. induction Hl as [|u l (n & Hu) _ IH]; [reflexivity|]. cbn [concat length]. rewrite filter_app, app_length, IH, (char_starts n u Hu). reflexivity. }
    rewrite L in H. destruct l as [|u [|u' l]]; try discriminate. cbn [concat]. rewrite app_nil_r. inversion Hl; assumption.
  - intros (n & H). split; [|apply (char_starts n); exact H]. exists [s]. split; [repeat constructor; eauto|]. cbn. symmetry. apply app_nil_r.
Qed.
