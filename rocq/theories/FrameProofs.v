(** Websocket frames: their sizes, and that a stream of them can be taken apart in one way only. *)
From Verif Require Export BytesProofs SpecFrame.
From Coq Require Import Lia Arith.

Lemma big_endian_length k : forall n, length (big_endian k n) = k.
Proof. induction k as [|k IH]; intros n; cbn [big_endian]; [reflexivity|]. rewrite app_length, IH. cbn. lia. Qed.
Lemma length_field_length mb n l : length_field mb n l ->
  N.of_nat (length l) = (1 + (if n <? 126 then 0 else if n <? 65536 then 2 else 8))%N.
Proof.
  intros H. destruct H as [H|H|H]; cbn [length]; rewrite ?big_endian_length.
  - destruct (N.ltb_spec n 126); [reflexivity|lia].
  - destruct (N.ltb_spec n 126); [lia|]. destruct (N.ltb_spec n 65536); [reflexivity|lia].
  - destruct (N.ltb_spec n 126); [lia|]. destruct (N.ltb_spec n 65536); [lia|reflexivity].
Qed.
Lemma mask_length key : forall d i, length (mask_from i key d) = length d.
Proof. induction d as [|c d IH]; intros i; cbn; [reflexivity|]. now rewrite IH. Qed.
Lemma frame_size m masked t : ws_frame m masked t -> N.of_nat (length t) = frame_bytes masked m.
Proof.
  intros H. unfold frame_bytes. destruct H as [len key K L|len L]; apply length_field_length in L; cbn [length]; rewrite !app_length, ?mask_length, ?K; lia.
Qed.
Lemma frame_exists m masked : (N.of_nat (length (payload m)) < 2 ^ 63)%N -> exists t, ws_frame m masked t.
Proof.
  intros H. assert (L : forall mb, exists l, length_field mb (N.of_nat (length (payload m))) l).
  { intros mb. destruct (N.ltb_spec (N.of_nat (length (payload m))) 126); [eexists; apply len_7; lia|].
    destruct (N.ltb_spec (N.of_nat (length (payload m))) 65536); [eexists; apply len_16; lia|eexists; apply len_64; lia]. }
  destruct masked.
  - destruct (L 128%N) as [l Hl]. eexists. apply (ws_frame_masked m l [x00; x00; x00; x00] eq_refl Hl).
  - destruct (L 0%N) as [l Hl]. eexists. apply (ws_frame_plain m l Hl).
Qed.

(** ** Taking apart *)
Definition be_val (l : bytes) : N := fold_left (fun a c => (a * 256 + bN c)%N) l 0%N.
Lemma be_val_snoc l c : be_val (l ++ [c]) = (be_val l * 256 + bN c)%N.
Proof. unfold be_val. now rewrite fold_left_app. Qed.
Lemma be_val_big_endian k : forall n, (n < 256 ^ N.of_nat k)%N -> be_val (big_endian k n) = n.
Proof.
  induction k as [|k IH]; intros n H; cbn [big_endian].
  - cbn in H. cbn. lia.
  - rewrite be_val_snoc, IH, bN_byte_of.
    + symmetry. rewrite N.mul_comm. apply N.div_mod. discriminate.
    + apply N.mod_lt. discriminate.
    + apply N.div_lt_upper_bound; [discriminate|]. replace (N.of_nat (S k)) with (N.succ (N.of_nat k)) in H by lia. rewrite N.pow_succ_r' in H. exact H.
Qed.
Lemma app_same_length {A} : forall (a b x y : list A), length a = length b -> a ++ x = b ++ y -> a = b /\ x = y.
Proof.
  induction a as [|c a IH]; intros [|d b] x y L E; try discriminate; [auto|]. injection E as -> E. injection L as L.
  destruct (IH b x y L E) as [-> ->]. auto.
Qed.
Lemma length_field_apart mb n l r n' l' r' : (mb = 0 \/ mb = 128)%N -> length_field mb n l -> length_field mb n' l' -> l ++ r = l' ++ r' ->
  n = n' /\ l = l' /\ r = r'.
Proof.
  intros Hm H H' E.
  assert (V : forall x, (x < 128)%N -> bN (byte_of (mb + x)) = (mb + x)%N) by (intros x Hx; apply bN_byte_of; lia).
  destruct H as [H|H|H], H' as [H'|H'|H']; cbn [app] in E;
    pose proof (f_equal (fun l => bN (hd x00 l)) E) as E0; apply (f_equal (@tl byte)) in E; cbn [hd tl] in E0, E; rewrite !V in E0 by lia; try lia.
  - assert (n = n') by lia. subst. auto.
  - apply app_same_length in E; [|now rewrite !big_endian_length]. destruct E as [E ->].
    assert (n = n') as -> by (apply (f_equal be_val) in E; rewrite !be_val_big_endian in E by (cbn; lia); exact E). auto.
  - apply app_same_length in E; [|now rewrite !big_endian_length]. destruct E as [E ->].
    assert (n = n') as -> by (apply (f_equal be_val) in E; rewrite !be_val_big_endian in E by (change (256 ^ N.of_nat 8)%N with (2 ^ 64)%N; assert (2 ^ 63 < 2 ^ 64)%N by reflexivity; lia); exact E). auto.
Qed.
Lemma xor_byte_twice a b : xor_byte (xor_byte a b) b = a.
Proof.
  unfold xor_byte. destruct (Byte.to_bits a) as (a0 & a1 & a2 & a3 & a4 & a5 & a6 & a7) eqn:Ea, (Byte.to_bits b) as (b0 & b1 & b2 & b3 & b4 & b5 & b6 & b7).
  rewrite Byte.to_bits_of_bits, !Bool.xorb_assoc, !Bool.xorb_nilpotent, !Bool.xorb_false_r, <- Ea. apply Byte.of_bits_to_bits.
Qed.
Lemma mask_twice key : forall d i, mask_from i key (mask_from i key d) = d.
Proof. induction d as [|c d IH]; intros i; cbn [mask_from]; [reflexivity|]. now rewrite xor_byte_twice, IH. Qed.
Lemma same_message m m' : proper m -> proper m' -> byte_of (128 + opcode m) = byte_of (128 + opcode m') -> payload m = payload m' -> m = m'.
Proof.
  unfold proper. intros P P' E D. destruct m as [d|d|d|d|[d|]], m' as [d'|d'|d'|d'|[d'|]]; vm_compute in E; cbn in D; try discriminate E; subst; try reflexivity; try congruence; exfalso; [exact (P eq_refl)|exact (P' eq_refl)].
Qed.
Lemma frames_apart masked m t r m' t' r' : proper m -> proper m' -> ws_frame m masked t -> ws_frame m' masked t' -> t ++ r = t' ++ r' ->
  m = m' /\ t = t' /\ r = r'.
Proof.
  intros P P' W W' E. destruct W as [len key K L|len L]; inversion W' as [len' key' K' L' X Y|len' L' X Y]; subst; cbn [app] in E;
    pose proof (f_equal (hd x00) E) as E0; apply (f_equal (@tl byte)) in E; cbn [hd tl] in E0, E; rewrite <- !app_assoc in E.
  - destruct (length_field_apart _ _ _ _ _ _ _ (or_intror eq_refl) L L' E) as (En & -> & E1).
    apply app_same_length in E1; [|congruence]. destruct E1 as [-> E1].
    apply app_same_length in E1; [|rewrite !mask_length; lia]. destruct E1 as [E1 ->].
    assert (D : payload m = payload m') by (rewrite <- (mask_twice key' (payload m) 0), E1; apply mask_twice).
    rewrite E0, D. split; [apply same_message; assumption|auto].
  - destruct (length_field_apart _ _ _ _ _ _ _ (or_introl eq_refl) L L' E) as (En & -> & E1).
    apply app_same_length in E1; [|lia]. destruct E1 as [D ->]. rewrite E0, D. split; [apply same_message; assumption|auto].
Qed.
Lemma stream_apart masked : forall ms ts ms' ts', Forall proper ms -> Forall proper ms' ->
  Forall2 (fun m t => ws_frame m masked t) ms ts -> Forall2 (fun m t => ws_frame m masked t) ms' ts' -> concat ts = concat ts' -> ms = ms'.
Proof.
  induction ms as [|m ms IH]; intros ts ms' ts' P P' F F' E; inversion F; subst; inversion F'; subst; cbn [concat] in E.
  - reflexivity.
  - exfalso. destruct H; discriminate E.
  - exfalso. destruct H1; discriminate E.
  - inversion P; subst. inversion P'; subst. destruct (frames_apart masked m y (concat l') x y0 (concat l'0)) as (-> & _ & E'); try assumption.
    f_equal. eapply IH; eassumption.
Qed.
Lemma stream_size masked ms ts : Forall2 (fun m t => ws_frame m masked t) ms ts ->
  N.of_nat (length (concat ts)) = fold_right (fun m n => (frame_bytes masked m + n)%N) 0%N ms.
Proof.
  intros F. induction F as [|m t ms ts W F IH]; cbn [concat fold_right length]; [reflexivity|].
  rewrite app_length, Nat2N.inj_add, IH, (frame_size _ _ _ W). reflexivity.
Qed.
(** The example of RFC 6455, 5.7: "Hello", masked and not; and 256 bytes of binary data. *)
Lemma rfc_hello : ws_frame (WText (bs "Hello")) true [x81; x85; x37; xfa; x21; x3d; x7f; x9f; x4d; x51; x58] /\
  ws_frame (WText (bs "Hello")) false [x81; x05; x48; x65; x6c; x6c; x6f] /\
  ws_frame (WPing (bs "Hello")) false [x89; x05; x48; x65; x6c; x6c; x6f] /\
  ws_frame (WBinary (repeat x00 256)) false ([x82; x7e; x01; x00] ++ repeat x00 256).
Proof.
  assert (L : forall mb, length_field mb 5 [byte_of (mb + 5)]) by (intros mb; apply len_7; reflexivity).
  split; [exact (ws_frame_masked (WText (bs "Hello")) [x85] [x37; xfa; x21; x3d] eq_refl (L 128%N))|].
  split; [exact (ws_frame_plain (WText (bs "Hello")) [x05] (L 0%N))|]. split; [exact (ws_frame_plain (WPing (bs "Hello")) [x05] (L 0%N))|].
  assert (L2 : length_field 0 256 [x7e; x01; x00]) by (apply (len_16 0 256); split; [discriminate|reflexivity]).
  exact (ws_frame_plain (WBinary (repeat x00 256)) [x7e; x01; x00] L2).
Qed.
