From Verif Require Export BytesProofs SpecEngine.

(** State after a history. *)
Fixpoint state_after (st : dstate) (ms : list wsmsg) : dstate :=
  match ms with [] => st | m :: ms' => state_after (fst (decode st m)) ms' end.

Lemma answers_app a : forall st b, answers st (a ++ b) = answers st a ++ answers (state_after st a) b.
Proof.
  induction a as [|m a IH]; intros st b; cbn [app answers state_after]; [reflexivity|].
  destruct (decode st m) as [st' r]. cbn. f_equal. apply IH.
Qed.
Lemma answers_length ms : forall st, length (answers st ms) = length ms.
Proof.
  induction ms as [|m ms IH]; intros st; cbn [answers]; [reflexivity|].
  destruct (decode st m) as [st' r]. cbn. f_equal. apply IH.
Qed.
Lemma state_after_app a : forall st b, state_after st (a ++ b) = state_after (state_after st a) b.
Proof. induction a as [|m a IH]; intros st b; cbn [app state_after]; [reflexivity|apply IH]. Qed.

(** One step: every way a decode call can change the state. *)
Inductive dstep : dstate -> wsmsg -> dstate -> res eerror epacket -> Prop :=
| ds_open m o : dstep DInitial m DActive (Ok (PktOpen o))
| ds_close m : dstep DActive m DClosed (Ok PktClose)
| ds_ping m : dstep DActive m DActive (Ok PktPing)
| ds_pong m : dstep DActive m DActive (Ok PktPong)
| ds_binary d s : dstep DActive (WBinary d) DActive (Ok (PktMessage (MBinary s)))
| ds_text st t s : st <> DClosed -> dstep st (WText t) st (Ok (PktMessage (MText s)))
| ds_err st m e : dstep st m st (Err e).

Lemma decode_step st m st' r : decode st m = (st', r) -> dstep st m st' r.
Proof.
  destruct st; cbn [decode]; [destruct m | destruct m |]; unfold decode_text, decode_binary;
    try (intros [= <- <-]; constructor; fail).
  - destruct s as [|c s]; [intros [= <- <-]; constructor|].
    repeat match goal with |- context [if ?b then _ else _] => destruct b end;
      try destruct (parse_open s); intros [= <- <-]; constructor; discriminate.
  - destruct s as [|c s]; [intros [= <- <-]; constructor|].
    repeat match goal with |- context [if ?b then _ else _] => destruct b end;
      intros [= <- <-]; constructor; discriminate.
  - destruct d as [|c d]; [intros [= <- <-]; constructor|].
    destruct (negb _); intros [= <- <-]; constructor.
Qed.

Definition has_open (l : list (res eerror epacket)) : Prop := exists i o, nth_error l i = Some (Ok (PktOpen o)).
Definition has_close (l : list (res eerror epacket)) : Prop := exists i, nth_error l i = Some (Ok PktClose).

Lemma has_open_cons r l : has_open (r :: l) <-> (exists o, r = Ok (PktOpen o)) \/ has_open l.
Proof.
  split.
  - intros ([|i] & o & H); cbn in H; [left; exists o; congruence | right; exists i, o; exact H].
  - intros [[o ->]|(i & o & H)]; [exists 0, o; reflexivity | exists (S i), o; exact H].
Qed.
Lemma has_close_cons r l : has_close (r :: l) <-> r = Ok PktClose \/ has_close l.
Proof.
  split.
  - intros ([|i] & H); cbn in H; [left; congruence | right; exists i; exact H].
  - intros [->|(i & H)]; [exists 0; reflexivity | exists (S i); exact H].
Qed.

Lemma closed_forever ms : state_after DClosed ms = DClosed.
Proof. induction ms; cbn; auto. Qed.
Lemma answers_closed ms : answers DClosed ms = map (fun _ => Err EMessageAfterClose) ms.
Proof. induction ms as [|m ms IH]; cbn; [reflexivity|]. f_equal. exact IH. Qed.

Lemma state_spec_gen ms : forall st,
  (state_after st ms = DInitial <-> st = DInitial /\ ~ has_open (answers st ms)) /\
  (state_after st ms = DClosed <-> st = DClosed \/ has_close (answers st ms)).
Proof.
  induction ms as [|m ms IH]; intros st; cbn [state_after answers].
  - split; split.
    + intros ->. split; [reflexivity|]. intros ([|i] & o & H); discriminate.
    + tauto.
    + tauto.
    + intros [H|([|i] & H)]; [exact H|discriminate..].
  - destruct (decode st m) as [st' r] eqn:E. cbn [fst].
    specialize (IH st'). destruct IH as [IH1 IH2].
    apply decode_step in E.
    rewrite has_open_cons, has_close_cons, IH1, IH2.
    destruct E; split; split; intros H';
      repeat match goal with
      | H : _ /\ _ |- _ => destruct H
      | H : _ \/ _ |- _ => destruct H
      | H : exists _, _ |- _ => destruct H
      end; try congruence; try tauto;
      try (split; [congruence|]; intros [[? ?]|?]; [congruence|tauto]);
      try (split; [congruence|]; intros ?; match goal with H : ~ _ |- _ => apply H; tauto end).
    all: exfalso; match goal with H : ~ _ |- _ => apply H; left; eexists; reflexivity end.
Qed.

Lemma state_initial ms : state_after DInitial ms = DInitial <-> ~ opened ms.
Proof.
  destruct (state_spec_gen ms DInitial) as [H _]. rewrite H. unfold opened, open_at, answer_at, has_open.
  split; [intros [_ X]; exact X | intros X; split; [reflexivity | exact X]].
Qed.
Lemma state_closed ms : state_after DInitial ms = DClosed <-> closed ms.
Proof.
  destruct (state_spec_gen ms DInitial) as [_ H]. rewrite H. unfold closed, close_at, answer_at, has_close.
  split; [intros [?|?]; [discriminate|assumption] | tauto].
Qed.
Lemma state_active ms : state_after DInitial ms = DActive <-> opened ms /\ ~ closed ms.
Proof.
  destruct (state_after DInitial ms) eqn:E; split; try discriminate; try reflexivity.
  - intros [H _]. apply state_initial in E. contradiction.
  - intros _. split.
    + destruct (state_spec_gen ms DInitial) as [H1 H2]. rewrite E in *.
      destruct (existsb (fun r => match r with Ok (PktOpen _) => true | _ => false end) (history_answers ms)) eqn:X.
      * apply existsb_exists in X as (r & Hin & Hr). apply In_nth_error in Hin as [i Hi].
        destruct r as [[o| | | |]| |]; try discriminate. exists i, o. exact Hi.
      * exfalso. assert (DActive = DInitial); [|discriminate]. apply H1. split; [reflexivity|].
        intros (i & o & Hi). unfold history_answers in X.
        assert (Y : existsb (fun r => match r with Ok (PktOpen _) => true | _ => false end) (answers DInitial ms) = true).
        { apply existsb_exists. exists (Ok (PktOpen o)). split; [eapply nth_error_In; exact Hi | reflexivity]. }
        unfold decoder_new in X. congruence.
    + intros H. apply state_closed in H. congruence.
  - intros [_ H]. exfalso. apply H. apply state_closed. exact E.
Qed.

(** The answer to the [i]-th message is the decode of that message in the state after the first [i]. *)
Lemma answers_nth r ms : forall st i, nth_error (answers st ms) i = Some r <->
  exists m, nth_error ms i = Some m /\ snd (decode (state_after st (firstn i ms)) m) = r.
Proof.
  induction ms as [|m ms IH]; intros st i; cbn [answers].
  - destruct i; cbn; (split; [discriminate | intros (m & H & _); discriminate]).
  - destruct (decode st m) as [st' r'] eqn:E. destruct i as [|i]; cbn [nth_error firstn state_after].
    + split; [intros [= <-]; exists m; rewrite E; auto | intros (m' & [= <-] & H)].
      rewrite E in H. cbn in H. congruence.
    + rewrite E. cbn [fst]. apply IH.
Qed.
Lemma answer_at_split ms i r : answer_at ms i r <->
  exists m, nth_error ms i = Some m /\ snd (decode (state_after DInitial (firstn i ms)) m) = r.
Proof. apply answers_nth. Qed.
Lemma answer_at_firstn ms i j r : j < i -> answer_at (firstn i ms) j r <-> answer_at ms j r.
Proof.
  intros H. rewrite !answer_at_split. rewrite firstn_firstn, Nat.min_l by lia.
  assert (X : nth_error (firstn i ms) j = nth_error ms j).
  { revert i j H. induction ms as [|m ms IH]; intros i j H; [rewrite firstn_nil; reflexivity|].
    destruct i as [|i]; [lia|]. destruct j as [|j]; [reflexivity|]. cbn. apply IH. lia. }
  rewrite X. reflexivity.
Qed.
Lemma answer_at_bound ms i r : answer_at ms i r -> i < length ms.
Proof. intros H. apply answer_at_split in H as (m & H & _). apply nth_error_Some. congruence. Qed.
Lemma opened_firstn ms i : opened (firstn i ms) <-> exists j, j < i /\ open_at ms j.
Proof.
  split.
  - intros (j & o & H). assert (Hj : j < i).
    { apply answer_at_bound in H. rewrite firstn_length in H. lia. }
    exists j. split; [exact Hj|]. exists o. apply (answer_at_firstn ms i j); assumption.
  - intros (j & Hj & o & H). exists j, o. apply answer_at_firstn; assumption.
Qed.
Lemma closed_firstn ms i : closed (firstn i ms) <-> exists j, j < i /\ close_at ms j.
Proof.
  split.
  - intros (j & H). assert (Hj : j < i).
    { apply answer_at_bound in H. rewrite firstn_length in H. lia. }
    exists j. split; [exact Hj|]. apply (answer_at_firstn ms i j); assumption.
  - intros (j & Hj & H). exists j. apply answer_at_firstn; assumption.
Qed.

Lemma step_of_answer ms i r : answer_at ms i r ->
  exists m, nth_error ms i = Some m /\ exists st', dstep (state_after DInitial (firstn i ms)) m st' r.
Proof.
  intros H. apply answer_at_split in H as (m & Hm & H). exists m. split; [exact Hm|].
  destruct (decode _ m) as [st' r'] eqn:E. cbn in H. subst r'. exists st'. apply decode_step. exact E.
Qed.

Lemma before_open_gen ms i p : answer_at ms i (Ok p) -> is_open_packet p = false ->
  is_text_message p = false -> exists j, j < i /\ open_at ms j.
Proof.
  intros H Hp Ht. apply opened_firstn. apply step_of_answer in H as (m & _ & st' & H).
  destruct (state_after DInitial (firstn i ms)) eqn:E.
  - exfalso. inversion H; subst; discriminate.
  - apply state_active in E. tauto.
  - exfalso. inversion H; subst; congruence.
Qed.

Lemma after_close ms i j r : close_at ms i -> i < j -> answer_at ms j r -> r = Err EMessageAfterClose.
Proof.
  intros Hc Hij H.
  assert (E : state_after DInitial (firstn j ms) = DClosed).
  { apply state_closed, closed_firstn. exists i. auto. }
  apply answer_at_split in H as (m & _ & H). rewrite E in H. symmetry. exact H.
Qed.

Lemma one_open ms i j : open_at ms i -> open_at ms j -> i = j.
Proof.
  assert (G : forall i j, open_at ms i -> open_at ms j -> i < j -> False).
  { clear i j. intros i j Hi [o Hj] H. apply step_of_answer in Hj as (m & _ & st' & Hj).
    assert (Hs : state_after DInitial (firstn j ms) <> DInitial).
    { intros E. apply state_initial in E. apply E. apply opened_firstn. eauto. }
    inversion Hj; congruence. }
  intros Hi Hj. destruct (lt_eq_lt_dec i j) as [[H|H]|H]; [exfalso; eauto | exact H | exfalso; eauto].
Qed.
Lemma second_open ms i j rest r : open_at ms i -> i < j -> nth_error ms j = Some (WText ("0"%byte :: rest)) ->
  answer_at ms j r ->
  r = Err ESecondOpen \/ (r = Err EMessageAfterClose /\ exists k, k < j /\ close_at ms k).
Proof.
  intros Hi Hij Hm Hr. apply answer_at_split in Hr as (m & Hm' & Hr). rewrite Hm in Hm'. injection Hm' as <-.
  destruct (state_after DInitial (firstn j ms)) eqn:E.
  - apply state_initial in E. exfalso. apply E, opened_firstn. eauto.
  - left. symmetry. exact Hr.
  - right. split; [symmetry; exact Hr|]. apply state_closed in E. apply closed_firstn in E. exact E.
Qed.

Lemma error_neutral h m k e : answer_at (h ++ [m]) (length h) (Err e) ->
  history_answers (h ++ m :: k) =
  history_answers h ++ Err e :: skipn (length h) (history_answers (h ++ k)).
Proof.
  intros H. apply answer_at_split in H as (m' & Hm & H).
  rewrite nth_error_app2, Nat.sub_diag in Hm by lia. injection Hm as <-.
  rewrite firstn_app, Nat.sub_diag, firstn_all in H. cbn [firstn] in H. rewrite app_nil_r in H.
  unfold history_answers, decoder_new. rewrite !answers_app.
  rewrite skipn_app, skipn_all2, answers_length, Nat.sub_diag by (rewrite answers_length; lia).
  cbn [skipn app answers]. f_equal.
  destruct (decode (state_after DInitial h) m) as [st' r] eqn:E. cbn in H. subst r.
  apply decode_step in E. inversion E; subst. reflexivity.
Qed.
Lemma decode_no_panic ms : Forall (fun r => r <> Panic) (history_answers ms).
Proof.
  apply Forall_forall. intros r Hin ->. apply In_nth_error in Hin as [i H].
  apply step_of_answer in H as (m & _ & st' & H). inversion H.
Qed.

(** ** Round trips *)
Lemma utf8_head_boundary t : utf8_valid t = true -> match t with [] => True | c :: _ => is_cont c = false end.
Proof.
  destruct t as [|c t]; [trivial|]. cbn [utf8_valid]. unfold in_rng, is_cont.
  destruct ((0 <=? bN c)%N && (bN c <=? 127)%N) eqn:E1; [lia|].
  destruct ((194 <=? bN c)%N && (bN c <=? 223)%N) eqn:E2; [lia|].
  destruct ((224 <=? bN c)%N && (bN c <=? 239)%N) eqn:E3; [lia|].
  destruct ((240 <=? bN c)%N && (bN c <=? 244)%N) eqn:E4; [lia|discriminate].
Qed.
Lemma sub_tail_str c t : utf8_valid t = true -> sub_deref_str (sub_new (c :: t) (1, length (c :: t))) = Some t.
Proof.
  intros H. unfold sub_deref_str, sub_new, str_slice. cbn [sub_data sub_range fst snd].
  assert (H1 : is_boundary (c :: t) 1 = true).
  { unfold is_boundary. cbn [nth_error]. apply utf8_head_boundary in H.
    destruct t as [|d t]; cbn; [reflexivity|]. rewrite H. reflexivity. }
  assert (H2 : is_boundary (c :: t) (length (c :: t)) = true).
  { unfold is_boundary. rewrite (proj2 (nth_error_None _ _)) by lia. apply Nat.eqb_refl. }
  rewrite H1, H2. cbn [length]. replace (1 <=? S (length t)) with true by lia.
  rewrite Nat.leb_refl. cbn [andb]. unfold slice. cbn [skipn].
  replace (S (length t) - 1) with (length t) by lia. rewrite firstn_all. reflexivity.
Qed.
Lemma sub_tail_vec c t : sub_deref_vec (sub_new (c :: t) (1, length (c :: t))) = Some t.
Proof.
  unfold sub_deref_vec, sub_new. cbn [sub_data sub_range length].
  rewrite vec_slice_some by (cbn; lia). unfold slice. cbn [skipn].
  replace (S (length t) - 1) with (length t) by lia. rewrite firstn_all. reflexivity.
Qed.

Lemma history_snoc h m : history_answers (h ++ [m]) =
  history_answers h ++ [snd (decode (state_after DInitial h) m)].
Proof.
  unfold history_answers, decoder_new. rewrite answers_app. cbn [answers].
  destruct (decode _ m) as [st r]. reflexivity.
Qed.
Lemma text_roundtrip h t : ~ closed h -> utf8_valid t = true ->
  exists w s, encode_message t = Some w /\
    history_answers (h ++ [w]) = history_answers h ++ [Ok (PktMessage (MText s))] /\
    sub_deref_str s = Some t.
Proof.
  intros Hc Ht. unfold encode_message, package_message, MESSAGE_HEADER.
  eexists _, _. split; [reflexivity|]. split; [|apply sub_tail_str; exact Ht].
  rewrite history_snoc. do 2 f_equal.
  destruct (state_after DInitial h) eqn:E; [reflexivity|reflexivity|].
  apply state_closed in E. contradiction.
Qed.
Lemma binary_roundtrip h d : opened h -> ~ closed h ->
  exists w s, encode_binary d = Some w /\
    history_answers (h ++ [w]) = history_answers h ++ [Ok (PktMessage (MBinary s))] /\
    sub_deref_vec s = Some d.
Proof.
  intros Ho Hc. unfold encode_binary, package_binary, BINARY_HEADER.
  eexists _, _. split; [reflexivity|]. split; [|apply (sub_tail_vec x04 d)].
  rewrite history_snoc. do 2 f_equal.
  assert (E : state_after DInitial h = DActive) by (apply state_active; auto).
  rewrite E. reflexivity.
Qed.
Lemma package_message_exact t : package_message t = None <-> ~ exists r, t = "4"%byte :: r.
Proof.
  unfold package_message, MESSAGE_HEADER. destruct t as [|c r].
  - split; [intros _ [r H]; discriminate | reflexivity].
  - destruct (c =b "4") eqn:E.
    + apply byte_eqb_eq in E. subst. split; [discriminate|]. intros H. exfalso. apply H. eauto.
    + apply byte_eqb_neq in E. split; [|reflexivity]. intros _ [r' [= -> _]]. congruence.
Qed.
Lemma package_binary_exact t : package_binary t = None <-> ~ exists r, t = x04 :: r.
Proof.
  unfold package_binary, BINARY_HEADER. destruct t as [|c r].
  - split; [intros _ [r H]; discriminate | reflexivity].
  - destruct (c =b x04) eqn:E.
    + apply byte_eqb_eq in E. subst. split; [discriminate|]. intros H. exfalso. apply H. eauto.
    + apply byte_eqb_neq in E. split; [|reflexivity]. intros _ [r' [= -> _]]. congruence.
Qed.
Lemma package_message_content t w : package_message t = Some w -> w = WText t.
Proof. unfold package_message. destruct t as [|c r]; [discriminate|]. destruct (c =b _); congruence. Qed.
Lemma package_binary_content t w : package_binary t = Some w -> w = WBinary t.
Proof. unfold package_binary. destruct t as [|c r]; [discriminate|]. destruct (c =b _); congruence. Qed.
Lemma ping_pong_roundtrip h : opened h -> ~ closed h ->
  history_answers (h ++ [encode_ping]) = history_answers h ++ [Ok PktPing] /\
  history_answers (h ++ [encode_pong]) = history_answers h ++ [Ok PktPong].
Proof.
  intros Ho Hc. rewrite !history_snoc.
  assert (E : state_after DInitial h = DActive) by (apply state_active; auto).
  rewrite E. split; reflexivity.
Qed.

(** ** Subslices *)
Lemma deref_whole b : sub_deref_vec (sub_from b) = Some b /\ sub_deref_str (sub_from b) = Some b.
Proof.
  unfold sub_deref_vec, sub_deref_str, sub_from. cbn [sub_data sub_range]. split.
  - rewrite vec_slice_some by lia. rewrite slice_all. reflexivity.
  - unfold str_slice. cbn [fst snd]. rewrite Nat.leb_refl. cbn [Nat.leb andb].
    assert (H2 : is_boundary b (length b) = true).
    { unfold is_boundary. rewrite (proj2 (nth_error_None _ _)) by lia. apply Nat.eqb_refl. }
    assert (H1 : is_boundary b 0 = true) by (destruct b; reflexivity).
    rewrite H1, H2, slice_all. reflexivity.
Qed.
Lemma vec_slice_inv s r v : vec_slice s r = Some v ->
  fst r <= snd r /\ snd r <= length s /\ v = slice (fst r) (snd r) s.
Proof.
  unfold vec_slice. destruct (Nat.leb_spec (fst r) (snd r)); [|discriminate].
  destruct (Nat.leb_spec (snd r) (length s)); [|discriminate]. intros [= <-]. auto.
Qed.
Lemma str_slice_inv s r v : str_slice s r = Some v ->
  fst r <= snd r /\ snd r <= length s /\ is_boundary s (fst r) = true /\ is_boundary s (snd r) = true
  /\ v = slice (fst r) (snd r) s.
Proof.
  unfold str_slice. destruct (Nat.leb_spec (fst r) (snd r)); [|discriminate].
  destruct (Nat.leb_spec (snd r) (length s)); [|discriminate].
  destruct (is_boundary s (fst r)); [|discriminate].
  destruct (is_boundary s (snd r)); [|discriminate]. intros [= <-]. auto.
Qed.

Lemma subslice_vec s v r : sub_deref_vec s = Some v -> sub_deref_vec (sub_subslice s r) = clamped_slice v r.
Proof.
  unfold sub_deref_vec, sub_subslice, clamped_slice. destruct s as [data [x y]], r as [a b].
  cbn [sub_data sub_range fst snd]. intros H. apply vec_slice_inv in H as (H1 & H2 & ->). cbn [fst snd] in *.
  rewrite slice_length by lia.
  destruct (Nat.leb_spec a (Nat.min b (y - x))).
  - rewrite vec_slice_some by lia. f_equal. rewrite slice_slice by lia. f_equal. lia.
  - unfold vec_slice. cbn [fst snd]. destruct (Nat.leb_spec (x + a) (Nat.min (x + b) y)); [lia|reflexivity].
Qed.
Lemma subslice_none s r : fst (sub_range s) > snd (sub_range s) ->
  fst (sub_range (sub_subslice s r)) > snd (sub_range (sub_subslice s r)).
Proof. destruct s as [data [x y]], r as [a b]. cbn. lia. Qed.
Lemma subslices_none rs : forall s, fst (sub_range s) > snd (sub_range s) ->
  sub_deref_vec (fold_left sub_subslice rs s) = None.
Proof.
  induction rs as [|r rs IH]; intros s H; cbn [fold_left].
  - unfold sub_deref_vec, vec_slice. destruct (Nat.leb_spec (fst (sub_range s)) (snd (sub_range s))); [lia|reflexivity].
  - apply IH, subslice_none, H.
Qed.
Lemma subslices_vec rs : forall s v, sub_deref_vec s = Some v ->
  sub_deref_vec (fold_left sub_subslice rs s) = clamped_slices v rs.
Proof.
  induction rs as [|r rs IH]; intros s v H; cbn [fold_left clamped_slices]; [exact H|].
  pose proof (subslice_vec s v r H) as Hs.
  destruct (clamped_slice v r) as [w|] eqn:E; [apply IH; exact Hs|].
  apply subslices_none.
  unfold clamped_slice in E. destruct (Nat.leb_spec (fst r) (Nat.min (snd r) (length v))); [discriminate|].
  unfold sub_deref_vec in H. apply vec_slice_inv in H as (H1 & H2 & Hv).
  destruct s as [data [x y]], r as [a b]. cbn [fst snd sub_subslice sub_range sub_data] in *.
  assert (length v = y - x) by (subst v; apply slice_length; lia). lia.
Qed.

Lemma nth_error_slice a b s i : b <= length s -> i < b - a -> nth_error (slice a b s) i = nth_error s (a + i).
Proof.
  intros H1 H2. unfold slice.
  assert (G : forall l n, i < n -> nth_error (firstn n l) i = nth_error (A:=byte) l i).
  { clear. revert i. induction i as [|i IH]; intros l n H; destruct n; try lia; destruct l; cbn; try reflexivity.
    apply IH. lia. }
  rewrite G by exact H2. clear.
  revert a. induction s as [|c s IH]; intros a; [rewrite skipn_nil; destruct i, a; reflexivity|].
  destruct a; [reflexivity|]. cbn [skipn Nat.add nth_error]. apply IH.
Qed.
Lemma boundary_slice x y s i : x <= y -> y <= length s -> is_boundary s x = true -> is_boundary s y = true ->
  i <= y - x -> is_boundary (slice x y s) i = is_boundary s (x + i).
Proof.
  intros H1 H2 Hx Hy Hi. unfold is_boundary at 1.
  destruct (Nat.eq_dec i (y - x)) as [->|Hne].
  - replace (x + (y - x)) with y by lia. rewrite Hy.
    rewrite (proj2 (nth_error_None _ _)) by (rewrite slice_length; lia).
    rewrite slice_length by lia. apply Nat.eqb_refl.
  - rewrite nth_error_slice by lia.
    destruct i as [|i].
    + rewrite Nat.add_0_r, Hx. destruct (nth_error s x) eqn:E; [reflexivity|].
      apply nth_error_None in E. lia.
    + unfold is_boundary. destruct (nth_error s (x + S i)) eqn:E.
      * replace (x + S i =? 0) with false by lia. reflexivity.
      * apply nth_error_None in E. lia.
Qed.
Lemma subslice_str s v r : sub_deref_str s = Some v ->
  sub_deref_str (sub_subslice s r) = str_slice v (fst r, Nat.min (snd r) (length v)).
Proof.
  unfold sub_deref_str, sub_subslice. destruct s as [data [x y]], r as [a b].
  cbn [sub_data sub_range fst snd]. intros H.
  apply str_slice_inv in H as (H1 & H2 & H3 & H4 & ->). cbn [fst snd] in *.
  rewrite slice_length by lia. unfold str_slice. cbn [fst snd].
  destruct (Nat.leb_spec a (Nat.min b (y - x))).
  - replace (x + a <=? Nat.min (x + b) y) with true by lia.
    replace (Nat.min (x + b) y <=? length data) with true by lia.
    rewrite slice_length by lia. replace (Nat.min b (y - x) <=? y - x) with true by lia. cbn [andb].
    rewrite !boundary_slice by (assumption || lia).
    replace (x + Nat.min b (y - x)) with (Nat.min (x + b) y) by lia.
    rewrite slice_slice by lia. replace (x + Nat.min b (y - x)) with (Nat.min (x + b) y) by lia. reflexivity.
  - replace (x + a <=? Nat.min (x + b) y) with false by lia. reflexivity.
Qed.

Lemma update_vec s v f s' : sub_deref_vec s = Some v -> length (f v) = length v ->
  sub_update_vec s f = Some s' ->
  sub_deref_vec s' = Some (f v) /\ length (sub_data s') = length (sub_data s) /\
  (forall i, i < fst (sub_range s) \/ snd (sub_range s) <= i -> nth_error (sub_data s') i = nth_error (sub_data s) i).
Proof.
  intros H Hf. unfold sub_update_vec. rewrite H. destruct s as [data [x y]]. cbn [sub_range sub_data].
  intros [= <-]. unfold sub_deref_vec in *. cbn [sub_data sub_range] in *.
  apply vec_slice_inv in H as (H1 & H2 & Hv). cbn [fst snd] in *.
  assert (Lv : length v = y - x) by (subst v; apply slice_length; lia).
  assert (L : length (firstn x data ++ f v ++ skipn y data) = length data).
  { rewrite !app_length, firstn_length, skipn_length. lia. }
  split; [|split; [exact L|]].
  - rewrite vec_slice_some by lia. f_equal.
    pose proof (slice_app_mid (firstn x data) (f v) (skipn y data)) as G.
    rewrite firstn_length, Nat.min_l in G by lia. replace (x + length (f v)) with y in G by lia. exact G.
  - assert (Lx : length (firstn x data) = x) by (rewrite firstn_length; lia).
    intros i Hi. transitivity (nth_error (firstn x data ++ v ++ skipn y data) i).
    2: { rewrite Hv, <- slice_split by lia. reflexivity. }
    destruct Hi as [Hi|Hi].
    + rewrite !nth_error_app1 by lia. reflexivity.
    + rewrite !(nth_error_app2 (firstn x data)) by lia. rewrite !nth_error_app2 by lia. f_equal. lia.
Qed.
Lemma sub_eq_vec_spec s t a b : sub_deref_vec s = Some a -> sub_deref_vec t = Some b ->
  (sub_eq_vec s t = Some true <-> a = b) /\ (sub_eq_vec s t = Some false <-> a <> b).
Proof.
  intros Hs Ht. unfold sub_eq_vec. rewrite Hs, Ht.
  rewrite <- bytes_eqb_neq, <- bytes_eqb_eq. destruct (bytes_eqb a b); split; split; congruence.
Qed.

Lemma C01_refuted_lemma : ~ C01_full.
Proof.
  intros H. destruct (H [WText (bs "4hi")] 0 (PktMessage (MText (sub_new (bs "4hi") (1, 3)))) eq_refl eq_refl)
    as (j & Hj & _). lia.
Qed.
(** The only answers that may precede Open are text messages, and those are given in every
    state except after Close. *)
Lemma text_always ms i t r : nth_error ms i = Some (WText ("4"%byte :: t)) -> answer_at ms i r ->
  (exists s, r = Ok (PktMessage (MText s)) /\ (utf8_valid t = true -> sub_deref_str s = Some t)) <->
  ~ exists j, j < i /\ close_at ms j.
Proof.
  intros Hm Hr. apply answer_at_split in Hr as (m & Hm' & Hr). rewrite Hm in Hm'. injection Hm' as <-.
  rewrite <- closed_firstn, <- state_closed.
  destruct (state_after DInitial (firstn i ms)) eqn:E; cbn in Hr; subst r; split.
  - intros _. discriminate.
  - intros _. eexists. split; [reflexivity|]. apply (sub_tail_str "4"%byte t).
  - intros _. discriminate.
  - intros _. eexists. split; [reflexivity|]. apply (sub_tail_str "4"%byte t).
  - intros (s & Hs & _). discriminate.
  - intros H. congruence.
Qed.
