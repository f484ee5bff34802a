(** Valid UTF-8 is kept: from a message to the texts of its arguments, and from a text to the strings
    of its value. *)
From Verif Require Import ValueProofs CharRegexProofs CharProofs.
From Coq Require Import Lia.

Lemma utf8_split a c r : (bN c < 128)%N -> utf8_valid (a ++ c :: r) = true -> utf8_valid a = true /\ utf8_valid r = true.
Proof.
  intros Hc H. split.
  - remember (a ++ c :: r) as s eqn:E. revert a E. pattern s. apply utf8_valid_ind; [|clear s H|exact H].
    { intros [|? ?] E; discriminate. }
    intros p s Hp Hv _ H1 H2 _ IH a E. destruct (app_eq_app _ _ _ _ E) as (l & [[-> E']|[-> E']]).
    + destruct l as [|d l]; [rewrite app_nil_r in Hv; exact Hv|]. injection E' as <- E'.
      destruct a as [|b a]; [reflexivity|]. exfalso. assert (F : length ((b :: a) ++ c :: l) <> 1) by (cbn; rewrite app_length; cbn; lia).
      specialize (H2 F). rewrite Forall_forall in H2. specialize (H2 c). rewrite in_app_iff in H2. specialize (H2 ltac:(right; left; reflexivity)). lia.
    + apply utf8_app_true; [exact Hv|]. apply IH. exact E'.
  - apply (valid_after a c r H). unfold in_rng. apply andb_true_iff. split; apply N.leb_le; lia.
Qed.
Lemma ws_ascii w : ws w -> forallb (fun c => (bN c <? 128)%N) w = true.
Proof. induction 1 as [|c w H _ IH]; [reflexivity|]. cbn [forallb]. rewrite IH, andb_true_r. cbn in H. repeat destruct H as [<-|H]; try reflexivity. destruct H. Qed.
Lemma ws_valid w : ws w -> utf8_valid w = true.
Proof. intros H. apply utf8_ascii, ws_ascii, H. Qed.
Lemma split_ws_end a w : ws w -> utf8_valid (a ++ w) = true -> utf8_valid a = true.
Proof.
  intros H V. apply ws_ascii in H. destruct w as [|c w]; [rewrite app_nil_r in V; exact V|].
  cbn [forallb] in H. apply andb_true_iff in H as [H _]. apply N.ltb_lt in H. apply (utf8_split a c w H V).
Qed.
Lemma split_ws_front w a : ws w -> utf8_valid (w ++ a) = true -> utf8_valid a = true.
Proof. intros H V. rewrite utf8_app in V by (apply ws_valid; exact H). exact V. Qed.
(** value, whitespace, separator *)
Lemma split_sep a w c r : ws w -> (bN c < 128)%N -> utf8_valid (a ++ w ++ c :: r) = true -> utf8_valid a = true /\ utf8_valid r = true.
Proof.
  intros H Hc V. rewrite app_assoc in V. apply utf8_split in V as [V1 V2]; [|exact Hc]. split; [|exact V2]. eapply split_ws_end; eassumption.
Qed.

(** All strings and keys of a tree, as written, are valid. *)
Fixpoint bodies_valid (r : raw) : Prop :=
  match r with
  | RStr b => utf8_valid b = true
  | RArr l => allP bodies_valid l
  | RObj l => allP (fun '(k, x) => utf8_valid k = true /\ bodies_valid x) l
  | _ => True
  end.
Ltac ascii := (vm_compute; reflexivity).
Lemma jvalue_bodies :
  (forall r t, jvalue r t -> utf8_valid t = true -> bodies_valid r) /\
  (forall l t, jelems l t -> utf8_valid t = true -> allP bodies_valid l) /\
  (forall l t, jmembers l t -> utf8_valid t = true -> allP (fun '(k, x) => utf8_valid k = true /\ bodies_valid x) l).
Proof.
  apply json_mutind; cbn [bodies_valid allP]; auto.
  - intros b _ V. apply (utf8_split [] x22) in V as [_ V]; [|ascii]. apply utf8_split in V; [tauto|ascii].
  - intros l t _ IH V. apply (utf8_split [] "["%byte) in V as [_ V]; [|ascii]. apply IH. apply utf8_split in V; [tauto|ascii].
  - intros l t _ IH V. apply (utf8_split [] "{"%byte) in V as [_ V]; [|ascii]. apply IH. apply utf8_split in V; [tauto|ascii].
  - intros v t w1 w2 H1 H2 _ IH V. split; [|exact I]. apply IH. apply split_ws_front in V; [|exact H1]. eapply split_ws_end; eassumption.
  - intros v t w1 w2 l t' H1 H2 _ IH _ IH' V. apply split_ws_front in V; [|exact H1]. apply split_sep in V as [V1 V2]; [auto|exact H2|ascii].
  - intros k v t w1 w2 w3 w4 H1 H2 H3 H4 _ _ IH V. split; [|exact I]. apply split_ws_front in V; [|exact H1].
    apply (utf8_split [] x22) in V as [_ V]; [|ascii]. apply utf8_split in V as [Vk V]; [|ascii]. split; [exact Vk|]. apply (split_sep [] w2) in V as [_ V]; [|exact H2|ascii].
    apply split_ws_front in V; [|exact H3]. apply IH. eapply split_ws_end; eassumption.
  - intros k v t w1 w2 w3 w4 l t' H1 H2 H3 H4 _ _ IH _ IH' V. apply split_ws_front in V; [|exact H1].
    apply (utf8_split [] x22) in V as [_ V]; [|ascii]. apply utf8_split in V as [Vk V]; [|ascii]. apply (split_sep [] w2) in V as [_ V]; [|exact H2|ascii].
    apply split_ws_front in V; [|exact H3]. apply split_sep in V as [V1 V2]; [auto|exact H4|ascii].
Qed.
Lemma jdoc_bodies r t : jdoc r t -> utf8_valid t = true -> bodies_valid r.
Proof.
  intros (w1 & t' & w2 & H1 & H2 & H & ->) V. apply split_ws_front in V; [|exact H1]. apply split_ws_end in V; [|exact H2]. eapply jvalue_bodies; eassumption.
Qed.

Lemma escape_ascii e c : In (e, c) escape_table -> utf8_valid [c] = true.
Proof. cbn. intros H. repeat (destruct H as [H|H]; [injection H as <- <-; reflexivity|]). destruct H. Qed.
Lemma hex_ascii h v : hex_digit h v -> (bN h < 128)%N.
Proof.
  intros [H|H]; apply nth_error_In in H; cbn in H; repeat (destruct H as [<-|H]; [reflexivity|]); destruct H.
Qed.
(** Six ASCII bytes of an escape. *)
Lemma quad_split p h1 h2 h3 h4 n b : hex_quad h1 h2 h3 h4 n -> utf8_valid (p ++ x5c :: "u"%byte :: h1 :: h2 :: h3 :: h4 :: b) = true ->
  utf8_valid p = true /\ utf8_valid b = true.
Proof.
  intros (v1 & v2 & v3 & v4 & H1 & H2 & H3 & H4 & _) V. apply hex_ascii in H1, H2, H3, H4.
  apply utf8_split in V as [Vp V]; [|ascii]. split; [exact Vp|]. apply (utf8_split [] "u"%byte) in V as [_ V]; [|ascii].
  apply (utf8_split [] h1) in V as [_ V]; [|exact H1]. apply (utf8_split [] h2) in V as [_ V]; [|exact H2].
  apply (utf8_split [] h3) in V as [_ V]; [|exact H3]. apply (utf8_split [] h4) in V as [_ V]; [exact V|exact H4].
Qed.
Lemma table_ascii e c : In (e, c) escape_table -> (bN e < 128)%N.
Proof. cbn. intros H. repeat (destruct H as [H|H]; [injection H as <- <-; reflexivity|]). destruct H. Qed.
Lemma string_means_valid b s : string_means b s -> forall p, utf8_valid (p ++ b) = true -> utf8_valid (p ++ s) = true.
Proof.
  induction 1 as [|c b s Hc _ IH|e c b s He _ IH|h1 h2 h3 h4 n u b s Hq _ Hu _ IH|h1 h2 h3 h4 g1 g2 g3 g4 hi lo u b s Hq Hg _ _ Hu _ IH]; intros p V.
  - exact V.
  - specialize (IH (p ++ [c])). rewrite <- !app_assoc in IH. apply IH. exact V.
  - apply utf8_split in V as [Vp V]; [|ascii]. apply (utf8_split [] e) in V as [_ V]; [|eapply table_ascii; exact He].
    apply utf8_app_true; [exact Vp|]. apply (utf8_app_true [c] s); [eapply escape_ascii; exact He|]. exact (IH [] V).
  - apply (quad_split _ _ _ _ _ _ _ Hq) in V as [Vp V]. apply utf8_app_true; [exact Vp|]. apply utf8_app_true; [eapply utf8_char_valid; exact Hu|]. exact (IH [] V).
  - apply (quad_split _ _ _ _ _ _ _ Hq) in V as [Vp V]. apply (quad_split [] _ _ _ _ _ _ Hg) in V as [_ V].
    apply utf8_app_true; [exact Vp|]. apply utf8_app_true; [eapply utf8_char_valid; exact Hu|]. exact (IH [] V).
Qed.
Definition valid_str (s : bytes) : Prop := utf8_valid s = true.
Lemma means_strings : forall n r v, means n r v -> bodies_valid r -> all_strings valid_str v.
Proof.
  fix IH 4. intros n r v H. destruct H as [n|n b|n x y Hy|n b s Hs|n l vs Hl|n l ms m Hf Hl Hm|n k b t r v Hk Hb Hd Hv]; cbn [bodies_valid all_strings]; intros B; try exact I.
  - exact (string_means_valid b s Hs [] B).
  - revert B. induction Hl as [|x y l vs Hx Hl IHl]; cbn [allP]; [trivial|]. intros [B1 B2]. split; [exact (IH _ _ _ Hx B1)|exact (IHl B2)].
  - assert (P : allP (fun '(k, x) => valid_str k /\ all_strings valid_str x) ms).
    { clear Hf Hm m. revert B. induction Hl as [|[k x] [k' y] l ms Hx Hl IHl]; cbn [allP]; [trivial|]. intros [[Bk B1] B2]. cbn [fst snd] in Hx. destruct Hx as [Hk Hx].
      split; [split; [exact (string_means_valid k k' Hk [] Bk)|exact (IH _ _ _ Hx B1)]|exact (IHl B2)]. }
    rewrite allP_Forall, Forall_forall in P. rewrite allP_Forall, Forall_forall. intros [k x] Hin. destruct Hm as [_ Hm]. apply Hm in Hin as (pre & post & -> & _).
    apply (P (k, x)). apply in_elt.
  - destruct B as [[_ B] _]. apply (IH _ _ _ Hv). apply (jdoc_bodies r t Hd). exact (string_means_valid b t Hb [] B).
Qed.
Lemma filled_strings bl P : forall v v', filled bl v v' -> all_strings P v -> all_strings P v'.
Proof.
  fix IH 3. intros v v' H. destruct H as [|b|n|s|l l' Hl|m m' Hn Hl|m k b Hk Hg Hb]; cbn [all_strings]; auto.
  - induction Hl as [|x y l l' Hx Hl IHl]; cbn [allP]; [trivial|]. intros [B1 B2]. split; [exact (IH _ _ Hx B1)|exact (IHl B2)].
  - clear Hn. induction Hl as [|[k x] [k' y] l l' Hx Hl IHl]; cbn [allP]; [trivial|]. intros [[Bk B1] B2]. cbn [fst snd] in Hx. destruct Hx as [-> Hx].
    split; [split; [exact Bk|exact (IH _ _ Hx B1)]|exact (IHl B2)].
  - intros _. unfold byte_array. cbn [all_strings]. rewrite allP_Forall. apply Forall_map. apply Forall_forall. intros; exact I.
Qed.

(** The texts of the arguments. *)
Lemma items_valid ts s : jitems ts s -> utf8_valid s = true -> Forall valid_str ts.
Proof.
  induction 1 as [v t w1 w2 H1 H2 _|v t w1 w2 l t' H1 H2 _ _ IH]; intros V; (apply split_ws_front in V; [|exact H1]).
  - constructor; [eapply split_ws_end; eassumption|constructor].
  - apply split_sep in V as [V1 V2]; [|exact H2|ascii]. constructor; [exact V1|exact (IH V2)].
Qed.
Lemma array_valid ts s : jarray ts s -> utf8_valid s = true -> Forall valid_str ts.
Proof.
  intros (wa & body & wb & Ha & Hb & -> & D) V. destruct D as [[-> _]|D]; [constructor|].
  apply split_ws_front in V; [|exact Ha]. apply (utf8_split [] "["%byte) in V as [_ V]; [|ascii]. apply utf8_split in V as [V _]; [|ascii]. eapply items_valid; eassumption.
Qed.
Lemma dec_valid n : utf8_valid (dec n) = true.
Proof. apply dec_utf8. Qed.
Lemma wire_args_valid w a : wire_ok w -> w_args w = Some a -> utf8_valid (wire_text w) = true -> utf8_valid a = true.
Proof.
  intros (Hns & _) Ha V. unfold wire_text in V. rewrite Ha in V. cbn [opt_text] in V.
  assert (D : (bN (type_digit (w_kind w)) < 128)%N) by (destruct (w_kind w); reflexivity).
  apply (utf8_split [] _) in V as [_ V]; [|exact D].
  destruct (w_count w) as [n|]; cbn [opt_text] in V; [rewrite <- app_assoc in V; rewrite utf8_app in V by apply dec_valid; change (bs "-" ++ ?x) with ("-"%byte :: x) in V; apply (utf8_split [] "-"%byte) in V as [_ V]; [|ascii]|cbn [app] in V].
  - destruct (w_ns w) as [x|]; cbn [opt_text] in V; [rewrite <- app_assoc in V; change (bs "," ++ ?y) with (","%byte :: y) in V; apply utf8_split in V as [_ V]; [|ascii]|cbn [app] in V];
    (destruct (w_id w) as [i|]; cbn [opt_text app] in V; [rewrite utf8_app in V by apply dec_valid|]; exact V).
  - destruct (w_ns w) as [x|]; cbn [opt_text] in V; [rewrite <- app_assoc in V; change (bs "," ++ ?y) with (","%byte :: y) in V; apply utf8_split in V as [_ V]; [|ascii]|cbn [app] in V];
    (destruct (w_id w) as [i|]; cbn [opt_text app] in V; [rewrite utf8_app in V by apply dec_valid|]; exact V).
Qed.
Lemma argument_text_valid m t l g : sub_deref_str m = Some t -> Forall emsg_ok l -> argument_of m l g ->
  utf8_valid t = true -> utf8_valid (g_text g) = true.
Proof.
  intros Hm Hl (p & d & a & i & Hr & Hd & Ha & Hg) V.
  destruct (arguments_are_elements m t l p d a Hm Hl Hr Hd Ha) as (w & ts & (Et & Hw & _) & Hel & _ & Hget & _ & _ & _).
  rewrite Hget in Hg. destruct (nth_error ts i) as [x|] eqn:E; [|discriminate]. injection Hg as <-. cbn [g_text].
  apply nth_error_In in E. destruct (w_args w) as [u|] eqn:Eu; cbn [elements] in Hel; [|subst; destruct E].
  rewrite Et in V. pose proof (array_valid _ _ Hel (wire_args_valid _ _ Hw Eu V)) as F. rewrite Forall_forall in F. exact (F x E).
Qed.
Lemma all_strings_weaken (P Q : bytes -> Prop) v : (forall s, P s -> Q s) -> all_strings P v -> all_strings Q v.
Proof.
  intros HPQ. induction v as [|b|n|s|l IH|m IH] using value_ind'; cbn [all_strings]; auto.
  - rewrite !allP_Forall. intros H. induction IH as [|x l Hx IH I]; [constructor|]. inversion H; subst. constructor; auto.
  - rewrite !allP_Forall. intros H. induction IH as [|[k x] l Hx IH I]; [constructor|]. inversion H as [|? ? H1 H3]; subst. destruct H1 as [H1 H2]. constructor; [split; auto|auto].
Qed.
Lemma argument_strings_valid m t l g v : sub_deref_str m = Some t -> Forall emsg_ok l -> argument_of m l g ->
  characters t -> to_json_value g = Ok v -> characters (g_text g) /\ all_strings characters v.
Proof.
  intros Hm Hl Hg V H. apply utf8_characters in V. destruct (argument_value_exact m t l g Hm Hl Hg) as (r & bl & Hr & _ & _ & E). destruct (proj1 (E v) H) as (v0 & Hv & D).
  pose proof (argument_text_valid m t l g Hm Hl Hg V) as Vg. split; [apply utf8_characters; exact Vg|].
  destruct jvalue_bodies as [JB _]. pose proof (means_strings _ _ _ Hv (JB _ _ Hr Vg)) as S.
  apply (all_strings_weaken valid_str); [intros s; apply utf8_characters|].
  destruct D as [[_ ->]|[_ F]]; [exact S|]. exact (filled_strings _ _ _ _ F S).
Qed.
