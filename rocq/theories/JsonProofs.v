(** The scanner of Json.v accepts exactly the JSON grammar of SpecJson.v. *)
From Verif Require Export BytesProofs SpecJson.

(** ** Character classes *)
Lemma is_ws_in c : is_ws c = true <-> In c [x20; x0a; x09; x0d].
Proof.
  unfold is_ws. rewrite !orb_true_iff, !byte_eqb_eq. cbn [In]. firstorder.
Qed.
Lemma ws_forallb w : ws w <-> forallb is_ws w = true.
Proof.
  unfold ws. rewrite forallb_forall, Forall_forall.
  split; intros H c Hc; [apply is_ws_in | apply is_ws_in]; auto.
Qed.
Lemma ws_nil : ws [].
Proof. constructor. Qed.
Lemma ws_app a b : ws a -> ws b -> ws (a ++ b).
Proof. intros; apply Forall_app; auto. Qed.

Lemma skip_ws_app w r : ws w -> skip_ws (w ++ r) = skip_ws r.
Proof.
  intros H. apply ws_forallb in H. induction w as [|c w IH]; [reflexivity|].
  cbn in H. apply andb_true_iff in H as [Hc H]. cbn [app skip_ws]. rewrite Hc. auto.
Qed.
Lemma skip_ws_split s : exists w, ws w /\ s = w ++ skip_ws s.
Proof.
  induction s as [|c s (w & Hw & IH)]; [exists []; split; [apply ws_nil|reflexivity]|].
  cbn [skip_ws]. destruct (is_ws c) eqn:E.
  - exists (c :: w). split; [constructor; [apply is_ws_in; exact E | exact Hw]|]. cbn. f_equal. exact IH.
  - exists []. split; [apply ws_nil|reflexivity].
Qed.
Lemma skip_ws_stop c r : is_ws c = false -> skip_ws (c :: r) = c :: r.
Proof. intros H. cbn. rewrite H. reflexivity. Qed.
Lemma skip_ws_head s c r : skip_ws s = c :: r -> is_ws c = false.
Proof.
  induction s as [|d s IH]; cbn [skip_ws]; [discriminate|].
  destruct (is_ws d) eqn:E; [exact IH|]. intros [= -> _]. exact E.
Qed.
Lemma skip_ws_length s : length (skip_ws s) <= length s.
Proof. induction s as [|c s IH]; cbn [skip_ws]; [lia|]. destruct (is_ws c); cbn [length] in *; lia. Qed.
Lemma skip_ws_idem s : skip_ws (skip_ws s) = skip_ws s.
Proof.
  destruct (skip_ws s) as [|c r] eqn:E; [reflexivity|]. apply skip_ws_stop. eapply skip_ws_head; eauto.
Qed.
Lemma skip_ws_nil s : skip_ws s = [] -> ws s.
Proof. destruct (skip_ws_split s) as (w & Hw & E). intros H. rewrite H, app_nil_r in E. subst. exact Hw. Qed.
Lemma skip_ws_of_ws w : ws w -> skip_ws w = [].
Proof. intros H. rewrite <- (app_nil_r w), skip_ws_app by exact H. reflexivity. Qed.

Lemma strip_prefix_sound p : forall s r, strip_prefix p s = Some r -> s = p ++ r.
Proof.
  induction p as [|x p IH]; intros s r; cbn [strip_prefix]; [intros [= ->]; reflexivity|].
  destruct s as [|y s]; [discriminate|]. destruct (x =b y) eqn:E; [|discriminate].
  apply byte_eqb_eq in E. subst. intros H. cbn. f_equal. auto.
Qed.
Lemma strip_prefix_app p r : strip_prefix p (p ++ r) = Some r.
Proof. induction p as [|x p IH]; cbn; [reflexivity|]. rewrite byte_eqb_refl. exact IH. Qed.

(** ** Strings *)
Lemma simple_esc_in e : simple_esc e <> None <-> In e [x22; x5c; "/"; "b"; "f"; "n"; "r"; "t"]%byte.
Proof.
  split.
  - unfold simple_esc.
    repeat match goal with |- context [?a =b ?b] => let E := fresh in destruct (a =b b) eqn:E;
      [apply byte_eqb_eq in E; subst; cbn; tauto|] end. intros Hn; exfalso; apply Hn; reflexivity.
  - cbn [In]. intuition; subst; discriminate.
Qed.
Lemma scan_str_app b : jbody b -> forall r, scan_str (b ++ x22 :: r) = Some (b, r).
Proof.
  induction 1 as [|c b Hq Hb Hc _ IH|e b He _ IH|h1 h2 h3 h4 b Hh _ IH]; intros r; cbn [app scan_str].
  - reflexivity.
  - unfold quote, backslash, is_ctrl.
    apply byte_eqb_neq in Hq, Hb. rewrite Hq, Hb, IH.
    replace (bN c <? 32)%N with false by lia. reflexivity.
  - change (x5c =b quote) with false. change (x5c =b backslash) with true. cbn iota.
    apply simple_esc_in in He. destruct (simple_esc e); [|congruence]. rewrite IH. reflexivity.
  - change (x5c =b quote) with false. change (x5c =b backslash) with true. cbn iota.
    change (simple_esc "u") with (@None byte). cbn iota. change ("u" =b "u") with true. cbn iota.
    inversion Hh as [|? ? E1 Hh1]; subst. inversion Hh1 as [|? ? E2 Hh2]; subst.
    inversion Hh2 as [|? ? E3 Hh3]; subst. inversion Hh3 as [|? ? E4 _]; subst.
    rewrite E1, E2, E3, E4, IH. reflexivity.
Qed.
Lemma scan_str_sound_n n : forall s b r, length s <= n -> scan_str s = Some (b, r) ->
  jbody b /\ s = b ++ x22 :: r.
Proof.
  induction n as [|n IH]; intros s b r Hn; (destruct s as [|c s]; [discriminate|]); cbn [length] in Hn; [lia|].
  cbn [scan_str]. destruct (c =b quote) eqn:Eq.
  - apply byte_eqb_eq in Eq. subst. intros [= <- <-]. split; [constructor|reflexivity].
  - destruct (c =b backslash) eqn:Eb.
    + apply byte_eqb_eq in Eb. subst c. destruct s as [|e s1]; [discriminate|]. cbn [length] in Hn.
      destruct (simple_esc e) eqn:Ee.
      * destruct (scan_str s1) as [[b' r']|] eqn:E; [|discriminate]. intros [= <- <-].
        apply IH in E as [Hb ->]; [|lia]. split; [|reflexivity].
        constructor; [apply simple_esc_in; congruence | exact Hb].
      * destruct (e =b "u") eqn:Eu; [|discriminate]. apply byte_eqb_eq in Eu. subst e.
        destruct s1 as [|h1 [|h2 [|h3 [|h4 s2]]]]; try discriminate. cbn [length] in Hn.
        destruct (is_hex h1 && is_hex h2 && is_hex h3 && is_hex h4) eqn:Eh; [|discriminate].
        destruct (scan_str s2) as [[b' r']|] eqn:E; [|discriminate]. intros [= <- <-].
        apply IH in E as [Hb ->]; [|lia]. split; [|reflexivity].
        rewrite !andb_true_iff in Eh. destruct Eh as [[[? ?] ?] ?].
        constructor; [repeat constructor; assumption | exact Hb].
    + destruct (is_ctrl c) eqn:Ec; [discriminate|].
      destruct (scan_str s) as [[b' r']|] eqn:E; [|discriminate]. intros [= <- <-].
      apply IH in E as [Hb ->]; [|lia]. split; [|reflexivity].
      apply byte_eqb_neq in Eq, Eb. unfold is_ctrl in Ec.
      constructor; [exact Eq | exact Eb | lia | exact Hb].
Qed.
Lemma scan_str_sound s b r : scan_str s = Some (b, r) -> jbody b /\ s = b ++ x22 :: r.
Proof. apply (scan_str_sound_n (length s)). lia. Qed.

(** ** Numbers *)
(** A number literal extends as far as possible: what may follow it. *)
Definition num_follow (r : bytes) : bool :=
  match r with [] => true | c :: _ => negb (is_digit c || (c =b ".") || is_e c) end.
Lemma num_follow_spec c r : num_follow (c :: r) = true ->
  is_digit c = false /\ (c =b ".") = false /\ is_e c = false.
Proof. cbn. destruct (is_digit c), (c =b "."), (is_e c); auto; discriminate. Qed.

Lemma digits_forallb d : digits d <-> d <> [] /\ forallb is_digit d = true.
Proof. unfold digits. rewrite forallb_forall, Forall_forall. reflexivity. Qed.

Lemma scan_int_app i r : int_part i -> match r with c :: _ => is_digit c = false | [] => True end ->
  scan_int (i ++ r) = Some (i, r).
Proof.
  intros [->|[Hd Hz]] Hr.
  - cbn. destruct r as [|c r]; [reflexivity|]. rewrite Hr. reflexivity.
  - apply digits_forallb in Hd as [Hn Hd]. destruct i as [|c i]; [congruence|].
    cbn [hd] in Hz. apply byte_eqb_neq in Hz. cbn [forallb] in Hd. apply andb_true_iff in Hd as [Hc Hd].
    cbn [app scan_int]. rewrite Hz, Hc, span_make by assumption. reflexivity.
Qed.
Lemma scan_int_sound s i r : scan_int s = Some (i, r) ->
  int_part i /\ s = i ++ r /\ match r with c :: _ => is_digit c = false | [] => True end.
Proof.
  unfold scan_int. destruct s as [|c s]; [discriminate|].
  destruct (c =b "0") eqn:E0.
  - apply byte_eqb_eq in E0. subst. destruct s as [|d s].
    + intros [= <- <-]. repeat split. left. reflexivity.
    + destruct (is_digit d) eqn:Ed; [discriminate|]. intros [= <- <-]. repeat split; [left; reflexivity | exact Ed].
  - destruct (is_digit c) eqn:Ec; [|discriminate]. destruct (span is_digit s) as [ds r'] eqn:Es.
    intros [= <- <-]. repeat split.
    + right. split; [apply digits_forallb; split; [discriminate|]|].
      * cbn. rewrite Ec. eapply span_all; eauto.
      * cbn. apply byte_eqb_neq. exact E0.
    + cbn. f_equal. eapply span_app; eauto.
    + eapply span_stop in Es. destruct r'; auto.
Qed.
Lemma scan_frac_app f r : match f with Some d => digits d | None => True end ->
  match r with c :: _ => is_digit c = false /\ (c =b ".") = false | [] => True end ->
  scan_frac (match f with Some d => "."%byte :: d | None => [] end ++ r) = Some (f, r).
Proof.
  intros Hf Hr. destruct f as [d|]; cbn [app].
  - apply digits_forallb in Hf as [Hn Hd]. unfold scan_frac. rewrite byte_eqb_refl.
    rewrite span_make by (destruct r; tauto || assumption). destruct d; [congruence|reflexivity].
  - unfold scan_frac. destruct r as [|c r]; [reflexivity|]. destruct Hr as [_ ->]. reflexivity.
Qed.
Lemma scan_frac_sound s f r : scan_frac s = Some (f, r) ->
  match f with Some d => digits d | None => True end /\
  s = match f with Some d => "."%byte :: d | None => [] end ++ r /\
  match f, r with Some _, c :: _ => is_digit c = false | None, c :: _ => (c =b ".") = false | _, [] => True end.
Proof.
  unfold scan_frac. destruct s as [|c s]; [intros [= <- <-]; auto|].
  destruct (c =b ".") eqn:E.
  - apply byte_eqb_eq in E. subst. destruct (span is_digit s) as [[|d ds] r'] eqn:Es; [discriminate|].
    intros [= <- <-]. repeat split.
    + discriminate.
    + apply Forall_forall. apply forallb_forall. eapply span_all; eauto.
    + cbn. f_equal. eapply span_app in Es. exact Es.
    + eapply span_stop in Es. destruct r'; auto.
  - intros [= <- <-]. auto.
Qed.
Definition exp_text (e : option (byte * bytes * bytes)) : bytes :=
  match e with Some (e, sg, d) => e :: sg ++ d | None => [] end.
Definition exp_wf (e : option (byte * bytes * bytes)) : Prop :=
  match e with
  | Some (e, sg, d) => In e ["e"; "E"]%byte /\ In sg [[]; ["+"%byte]; ["-"%byte]] /\ digits d
  | None => True
  end.
Lemma is_e_in c : is_e c = true <-> In c ["e"; "E"]%byte.
Proof. unfold is_e. rewrite orb_true_iff, !byte_eqb_eq. cbn. firstorder. Qed.
Lemma digit_not_sign c : is_digit c = true -> is_sign c = false.
Proof.
  assert (H : forall c, implb (is_digit c) (negb (is_sign c)) = true)
    by (apply byte_forall; vm_compute; reflexivity).
  specialize (H c). destruct (is_digit c); [|discriminate]. destruct (is_sign c); [discriminate|reflexivity].
Qed.
Lemma scan_exp_app e r : exp_wf e ->
  match r with c :: _ => is_digit c = false /\ is_e c = false | [] => True end ->
  scan_exp (exp_text e ++ r) = Some (e, r).
Proof.
  intros He Hr. destruct e as [[[e sg] d]|]; cbn [exp_text app].
  - destruct He as (He & Hs & Hd). apply is_e_in in He. apply digits_forallb in Hd as [Hn Hd].
    unfold scan_exp. rewrite He. rewrite <- app_assoc.
    assert (S : span is_digit (d ++ r) = (d, r)) by (apply span_make; [exact Hd | destruct r; tauto]).
    cbn [In] in Hs. destruct Hs as [<-|[<-|[<-|[]]]]; cbn [app].
    + destruct d as [|x d]; [congruence|]. cbn [app]. cbn [forallb] in Hd. apply andb_true_iff in Hd as [Hx Hd].
      rewrite (digit_not_sign x Hx). cbn [app] in S. rewrite S. reflexivity.
    + change (is_sign "+") with true. cbn iota. rewrite S. destruct d; [congruence|reflexivity].
    + change (is_sign "-") with true. cbn iota. rewrite S. destruct d; [congruence|reflexivity].
  - unfold scan_exp. destruct r as [|c r]; [reflexivity|]. destruct Hr as [_ ->]. reflexivity.
Qed.
Lemma scan_exp_sound s e r : scan_exp s = Some (e, r) -> exp_wf e /\ s = exp_text e ++ r /\
  match e, r with Some _, c :: _ => is_digit c = false | None, c :: _ => is_e c = false | _, [] => True end.
Proof.
  unfold scan_exp. destruct s as [|c s]; [intros [= <- <-]; repeat split|].
  destruct (is_e c) eqn:E; [|intros [= <- <-]; repeat split; exact E].
  set (p := match s with [] => _ | d :: r' => _ end).
  assert (Hp : In (fst p) [[]; ["+"%byte]; ["-"%byte]] /\ s = fst p ++ snd p).
  { subst p. destruct s as [|d s]; [cbn; auto|]. destruct (is_sign d) eqn:Es; [|cbn; auto].
    unfold is_sign in Es. apply orb_true_iff in Es. rewrite !byte_eqb_eq in Es.
    destruct Es as [->| ->]; cbn; auto. }
  destruct p as [sg r1]. cbn [fst snd] in Hp. destruct Hp as [Hs ->].
  destruct (span is_digit r1) as [[|d ds] r'] eqn:Es; [discriminate|]. intros [= <- <-].
  repeat split.
  - apply is_e_in. exact E.
  - exact Hs.
  - discriminate.
  - apply Forall_forall, forallb_forall. eapply span_all; eauto.
  - cbn [exp_text]. cbn [app]. rewrite <- app_assoc. do 2 f_equal. eapply span_app in Es. exact Es.
  - eapply span_stop in Es. destruct r'; auto.
Qed.

Lemma numlit_text_eq n : numlit_text n = (if nl_neg n then ["-"%byte] else []) ++ nl_int n
  ++ match nl_frac n with Some f => "."%byte :: f | None => [] end ++ exp_text (nl_exp n).
Proof. reflexivity. Qed.
Lemma int_part_head i : int_part i -> exists c r, i = c :: r /\ is_digit c = true.
Proof.
  intros [->|[Hd _]]; [exists "0"%byte, []; auto|].
  apply digits_forallb in Hd as [Hn Hd]. destruct i as [|c r]; [congruence|].
  cbn in Hd. apply andb_true_iff in Hd as [Hc _]. eauto.
Qed.
Lemma digit_not_minus c : is_digit c = true -> (c =b "-") = false.
Proof.
  intros H. apply byte_eqb_neq. intros ->. discriminate.
Qed.
Lemma is_e_not_digit c : is_e c = true -> is_digit c = false.
Proof. intros H. apply is_e_in in H. cbn in H. destruct H as [<-|[<-|[]]]; reflexivity. Qed.
Lemma is_e_not_dot c : is_e c = true -> (c =b ".") = false.
Proof. intros H. apply is_e_in in H. cbn in H. destruct H as [<-|[<-|[]]]; reflexivity. Qed.

Lemma scan_num_app n r : numlit_ok n -> num_follow r = true -> scan_num (numlit_text n ++ r) = Some (n, r).
Proof.
  intros (Hi & Hf & He) Hr. rewrite numlit_text_eq, <- !app_assoc. destruct n as [neg i f e].
  cbn [nl_neg nl_int nl_frac nl_exp] in *. fold (exp_wf e) in He.
  assert (X3 : scan_exp (exp_text e ++ r) = Some (e, r)).
  { apply scan_exp_app; [exact He|]. destruct r as [|c r]; [exact I|]. apply num_follow_spec in Hr. tauto. }
  assert (X2 : scan_frac (match f with Some d => "."%byte :: d | None => [] end ++ exp_text e ++ r)
             = Some (f, exp_text e ++ r)).
  { apply scan_frac_app; [exact Hf|]. destruct e as [[[e sg] d]|]; cbn [exp_text app].
    - destruct He as (He & _). apply is_e_in in He.
      split; [apply is_e_not_digit | apply is_e_not_dot]; exact He.
    - destruct r as [|c r]; [exact I|]. apply num_follow_spec in Hr. tauto. }
  assert (X1 : scan_int (i ++ match f with Some d => "."%byte :: d | None => [] end ++ exp_text e ++ r)
             = Some (i, match f with Some d => "."%byte :: d | None => [] end ++ exp_text e ++ r)).
  { apply scan_int_app; [exact Hi|]. destruct f as [d|]; [reflexivity|]. cbn [app].
    destruct e as [[[e sg] d]|]; cbn [exp_text app].
    - destruct He as (He & _). apply is_e_in in He. apply is_e_not_digit; exact He.
    - destruct r as [|c r]; [exact I|]. apply num_follow_spec in Hr. tauto. }
  unfold scan_num. destruct neg; cbn [app].
  - rewrite byte_eqb_refl, X1, X2, X3. reflexivity.
  - destruct (int_part_head i Hi) as (c & i' & Ei & Hc).
    set (X := match f with Some d => _ | None => _ end ++ exp_text e ++ r) in *.
    assert (P : exists d Y, i ++ X = d :: Y /\ (d =b "-") = false).
    { exists c, (i' ++ X). rewrite Ei. split; [reflexivity|]. apply digit_not_minus. exact Hc. }
    destruct P as (d & Y & EY & Hd). rewrite EY, Hd. rewrite <- EY, X1, X2, X3. reflexivity.
Qed.
Lemma scan_num_sound s n r : scan_num s = Some (n, r) -> numlit_ok n /\ s = numlit_text n ++ r.
Proof.
  unfold scan_num.
  set (p := match s with c :: r => if c =b "-" then (true, r) else (false, s) | [] => (false, []) end).
  assert (Hp : s = (if fst p then ["-"%byte] else []) ++ snd p).
  { subst p. destruct s as [|c s]; [reflexivity|]. destruct (c =b "-") eqn:E; [|reflexivity].
    apply byte_eqb_eq in E. subst. reflexivity. }
  destruct p as [neg s1]. cbn [fst snd] in Hp. subst s.
  destruct (scan_int s1) as [[i s2]|] eqn:E1; [|discriminate].
  destruct (scan_frac s2) as [[f s3]|] eqn:E2; [|discriminate].
  destruct (scan_exp s3) as [[e s4]|] eqn:E3; [|discriminate].
  intros [= <- <-].
  apply scan_int_sound in E1 as (Hi & -> & F1).
  apply scan_frac_sound in E2 as (Hf & -> & F2).
  apply scan_exp_sound in E3 as (He & -> & F3).
  split.
  - split; [exact Hi|]. split; [exact Hf | exact He].
  - rewrite numlit_text_eq. cbn [nl_neg nl_int nl_frac nl_exp]. rewrite <- !app_assoc. reflexivity.
Qed.

(** ** Values: soundness of the scanner *)
Lemma scan_sound n :
  (forall s v r, scan_value n s = Some (v, r) -> exists w t, ws w /\ jvalue v t /\ s = w ++ t ++ r) /\
  (forall s l r, scan_elems n s = Some (l, r) -> exists t, jelems l t /\ s = t ++ "]"%byte :: r) /\
  (forall s l r, scan_members n s = Some (l, r) -> exists t, jmembers l t /\ s = t ++ "}"%byte :: r).
Proof.
  induction n as [|n (IHv & IHe & IHm)]; [repeat split; intros; discriminate|].
  split; [|split].
  - intros s v r. cbn [scan_value]. destruct (skip_ws_split s) as (w & Hw & Es).
    destruct (skip_ws s) as [|c s1] eqn:Ek; [discriminate|]. rewrite Es. clear Es Ek s.
    destruct (c =b "n") eqn:E1.
    { apply byte_eqb_eq in E1. subst c. destruct (strip_prefix _ s1) as [r'|] eqn:E; [|discriminate].
      intros [= <- <-]. apply strip_prefix_sound in E. subst. exists w, (bs "null"). repeat split; [exact Hw|constructor]. }
    destruct (c =b "t") eqn:E2.
    { apply byte_eqb_eq in E2. subst c. destruct (strip_prefix _ s1) as [r'|] eqn:E; [|discriminate].
      intros [= <- <-]. apply strip_prefix_sound in E. subst. exists w, (bs "true"). repeat split; [exact Hw|constructor]. }
    destruct (c =b "f") eqn:E3.
    { apply byte_eqb_eq in E3. subst c. destruct (strip_prefix _ s1) as [r'|] eqn:E; [|discriminate].
      intros [= <- <-]. apply strip_prefix_sound in E. subst. exists w, (bs "false"). repeat split; [exact Hw|constructor]. }
    destruct (c =b quote) eqn:E4.
    { apply byte_eqb_eq in E4. subst c. destruct (scan_str s1) as [[b r']|] eqn:E; [|discriminate].
      intros [= <- <-]. apply scan_str_sound in E as [Hb ->].
      exists w, (x22 :: b ++ [x22]). split; [exact Hw|]. split; [constructor; exact Hb|].
      cbn [app]. rewrite <- app_assoc. reflexivity. }
    destruct (c =b "[") eqn:E5.
    { apply byte_eqb_eq in E5. subst c. destruct (skip_ws_split s1) as (w1 & Hw1 & Es).
      destruct (skip_ws s1) as [|d s2] eqn:Ek; [discriminate|].
      destruct (d =b "]") eqn:Ed.
      - apply byte_eqb_eq in Ed. subst d. intros [= <- <-]. exists w, ("["%byte :: w1 ++ ["]"%byte]).
        split; [exact Hw|]. split; [constructor; exact Hw1|]. rewrite Es. cbn. rewrite <- app_assoc. reflexivity.
      - destruct (scan_elems n s1) as [[l r']|] eqn:E; [|discriminate]. intros [= <- <-].
        apply IHe in E as (t & Ht & ->). exists w, ("["%byte :: t ++ ["]"%byte]).
        split; [exact Hw|]. split; [apply jv_arr; exact Ht|]. cbn. rewrite <- app_assoc. reflexivity. }
    destruct (c =b "{") eqn:E6.
    { apply byte_eqb_eq in E6. subst c. destruct (skip_ws_split s1) as (w1 & Hw1 & Es).
      destruct (skip_ws s1) as [|d s2] eqn:Ek; [discriminate|].
      destruct (d =b "}") eqn:Ed.
      - apply byte_eqb_eq in Ed. subst d. intros [= <- <-]. exists w, ("{"%byte :: w1 ++ ["}"%byte]).
        split; [exact Hw|]. split; [constructor; exact Hw1|]. rewrite Es. cbn. rewrite <- app_assoc. reflexivity.
      - destruct (scan_members n s1) as [[l r']|] eqn:E; [|discriminate]. intros [= <- <-].
        apply IHm in E as (t & Ht & ->). exists w, ("{"%byte :: t ++ ["}"%byte]).
        split; [exact Hw|]. split; [apply jv_obj; exact Ht|]. cbn. rewrite <- app_assoc. reflexivity. }
    destruct ((c =b "-") || is_digit c); [|discriminate].
    destruct (scan_num (c :: s1)) as [[x r']|] eqn:E; [|discriminate]. intros [= <- <-].
    apply scan_num_sound in E as [Hx ->]. exists w, (numlit_text x). split; [exact Hw|]. split; [constructor; exact Hx|reflexivity].
  - intros s l r. cbn [scan_elems]. destruct (scan_value n s) as [[v s1]|] eqn:Ev; [|discriminate].
    apply IHv in Ev as (w & t & Hw & Ht & ->). destruct (skip_ws_split s1) as (w1 & Hw1 & Es).
    destruct (skip_ws s1) as [|d s2] eqn:Ek; [discriminate|]. subst s1.
    destruct (d =b "]") eqn:Ed.
    { apply byte_eqb_eq in Ed. subst d. intros [= <- <-]. exists (w ++ t ++ w1). split; [constructor; assumption|].
      rewrite <- !app_assoc. reflexivity. }
    destruct (d =b ",") eqn:Ed'; [|discriminate]. apply byte_eqb_eq in Ed'. subst d.
    destruct (scan_elems n s2) as [[l' r']|] eqn:E; [|discriminate]. intros [= <- <-].
    apply IHe in E as (t' & Ht' & ->). exists (w ++ t ++ w1 ++ ","%byte :: t').
    split; [apply je_cons; assumption|]. rewrite <- !app_assoc. reflexivity.
  - intros s l r. cbn [scan_members]. destruct (skip_ws_split s) as (w & Hw & Es).
    destruct (skip_ws s) as [|c s1] eqn:Ek; [discriminate|]. rewrite Es. clear Es Ek s.
    destruct (c =b quote) eqn:Eq; [|discriminate]. apply byte_eqb_eq in Eq. subst c.
    destruct (scan_str s1) as [[k r1]|] eqn:E; [|discriminate]. apply scan_str_sound in E as [Hk ->].
    destruct (skip_ws_split r1) as (w2 & Hw2 & Es). destruct (skip_ws r1) as [|d r2] eqn:Ek; [discriminate|].
    subst r1. destruct (d =b ":") eqn:Ed; [|discriminate]. apply byte_eqb_eq in Ed. subst d.
    destruct (scan_value n r2) as [[v r3]|] eqn:Ev; [|discriminate].
    apply IHv in Ev as (w3 & t & Hw3 & Ht & ->).
    destruct (skip_ws_split r3) as (w4 & Hw4 & Es). destruct (skip_ws r3) as [|d r4] eqn:Ek'; [discriminate|].
    subst r3. destruct (d =b "}") eqn:Ed.
    { apply byte_eqb_eq in Ed. subst d. intros [= <- <-].
      eexists. split; [apply (jm_one k v t w w2 w3 w4); assumption|].
      repeat (cbn [app]; rewrite <- ?app_assoc). reflexivity. }
    destruct (d =b ",") eqn:Ed'; [|discriminate]. apply byte_eqb_eq in Ed'. subst d.
    destruct (scan_members n r4) as [[l' r5]|] eqn:Em; [|discriminate]. intros [= <- <-].
    apply IHm in Em as (t' & Ht' & ->).
    eexists. split; [apply (jm_cons k v t w w2 w3 w4 l' t'); assumption|].
    repeat (cbn [app]; rewrite <- ?app_assoc). reflexivity.
Qed.

(** ** Completeness *)
Lemma jvalue_head v t : jvalue v t -> exists c r, t = c :: r /\ is_ws c = false /\
  (c =b "]") = false /\ (c =b "}") = false /\ (c =b ",") = false.
Proof.
  destruct 1; try (do 2 eexists; split; [reflexivity|]; repeat split; reflexivity).
  destruct H as (Hi & _). rewrite numlit_text_eq.
  destruct (nl_neg n); cbn [app]; [do 2 eexists; split; [reflexivity|]; repeat split; reflexivity|].
  destruct (int_part_head _ Hi) as (c & r & -> & Hc). cbn [app]. do 2 eexists. split; [reflexivity|].
  assert (H : forall c, implb (is_digit c) (negb (is_ws c) && negb (c =b "]") && negb (c =b "}") && negb (c =b ",")) = true)
    by (apply byte_forall; vm_compute; reflexivity).
  specialize (H c). rewrite Hc in H. cbn in H. rewrite !andb_true_iff, !negb_true_iff in H. tauto.
Qed.
Lemma jvalue_skip v t r : jvalue v t -> skip_ws (t ++ r) = t ++ r.
Proof. intros H. destruct (jvalue_head v t H) as (c & t' & -> & Hc & _). cbn. rewrite Hc. reflexivity. Qed.
Lemma jvalue_length v t : jvalue v t -> 1 <= length t.
Proof. intros H. destruct (jvalue_head v t H) as (c & t' & -> & _). cbn. lia. Qed.

Lemma num_follow_ws w c r : ws w -> num_follow (c :: r) = true -> num_follow (w ++ c :: r) = true.
Proof.
  intros Hw H. destruct w as [|d w]; [exact H|]. cbn. inversion Hw as [|? ? Hd _]; subst.
  cbn in Hd. destruct Hd as [<-|[<-|[<-|[<-|[]]]]]; reflexivity.
Qed.
Lemma num_follow_of_ws w : ws w -> num_follow w = true.
Proof.
  intros Hw. destruct w as [|d w]; [reflexivity|]. cbn. inversion Hw as [|? ? Hd _]; subst.
  cbn in Hd. destruct Hd as [<-|[<-|[<-|[<-|[]]]]]; reflexivity.
Qed.
Lemma num_head n : numlit_ok n -> exists c r, numlit_text n = c :: r /\
  (c =b "n") = false /\ (c =b "t") = false /\ (c =b "f") = false /\ (c =b quote) = false /\
  (c =b "[") = false /\ (c =b "{") = false /\ (c =b "-") || is_digit c = true.
Proof.
  intros (Hi & _). rewrite numlit_text_eq.
  destruct (nl_neg n); cbn [app]; [do 2 eexists; split; [reflexivity|]; repeat split; reflexivity|].
  destruct (int_part_head _ Hi) as (c & r & -> & Hc). cbn [app]. do 2 eexists. split; [reflexivity|].
  assert (H : forall c, implb (is_digit c) (negb (c =b "n") && negb (c =b "t") && negb (c =b "f") && negb (c =b quote)
       && negb (c =b "[") && negb (c =b "{")) = true)
    by (apply byte_forall; vm_compute; reflexivity).
  specialize (H c). rewrite Hc in H. cbn [implb] in H. rewrite !andb_true_iff, !negb_true_iff in H.
  rewrite Hc, orb_true_r. tauto.
Qed.

Lemma scan_complete :
  (forall v t, jvalue v t -> forall n w r, 2 * length t <= n -> ws w -> num_follow r = true ->
     scan_value n (w ++ t ++ r) = Some (v, r)) /\
  (forall l t, jelems l t -> forall n r, 2 * length t + 1 <= n ->
     scan_elems n (t ++ "]"%byte :: r) = Some (l, r) /\
     exists c s, skip_ws (t ++ "]"%byte :: r) = c :: s /\ (c =b "]") = false) /\
  (forall l t, jmembers l t -> forall n r, 2 * length t + 1 <= n ->
     scan_members n (t ++ "}"%byte :: r) = Some (l, r) /\
     exists c s, skip_ws (t ++ "}"%byte :: r) = c :: s /\ (c =b "}") = false).
Proof.
  apply json_mutind.
  - intros n w r Hn Hw Hr. destruct n as [|n]; [cbn in Hn; lia|]. cbn [scan_value]. rewrite skip_ws_app by exact Hw. reflexivity.
  - intros n w r Hn Hw Hr. destruct n as [|n]; [cbn in Hn; lia|]. cbn [scan_value]. rewrite skip_ws_app by exact Hw. reflexivity.
  - intros n w r Hn Hw Hr. destruct n as [|n]; [cbn in Hn; lia|]. cbn [scan_value]. rewrite skip_ws_app by exact Hw. reflexivity.
  - intros x Hx n w r Hn Hw Hr. pose proof (jvalue_length _ _ (jv_num x Hx)) as L.
    destruct n as [|n]; [lia|]. cbn [scan_value]. rewrite skip_ws_app by exact Hw.
    rewrite (jvalue_skip _ _ r (jv_num x Hx)).
    destruct (num_head x Hx) as (c & t & Et & H1 & H2 & H3 & H4 & H5 & H6 & H7).
    rewrite Et. cbn [app]. rewrite H1, H2, H3, H4, H5, H6, H7.
    change (c :: t ++ r) with ((c :: t) ++ r). rewrite <- Et.
    rewrite scan_num_app by assumption. reflexivity.
  - intros b Hb n w r Hn Hw Hr. destruct n as [|n]; [cbn in Hn; lia|]. cbn [scan_value].
    rewrite skip_ws_app by exact Hw. cbn [app]. rewrite skip_ws_stop by reflexivity.
    change (x22 =b "n") with false. change (x22 =b "t") with false. change (x22 =b "f") with false.
    change (x22 =b quote) with true. cbn iota. rewrite <- app_assoc. cbn [app].
    rewrite scan_str_app by exact Hb. reflexivity.
  - intros w0 Hw0 n w r Hn Hw Hr. destruct n as [|n]; [cbn in Hn; lia|]. cbn [scan_value].
    rewrite skip_ws_app by exact Hw. cbn [app]. rewrite skip_ws_stop by reflexivity.
    change ("[" =b "n") with false. change ("[" =b "t") with false. change ("[" =b "f") with false.
    change ("[" =b quote) with false. change ("[" =b "[") with true. cbn iota.
    rewrite <- app_assoc, skip_ws_app by exact Hw0. reflexivity.
  - intros l t _ IH n w r Hn Hw Hr. destruct n as [|n]; [cbn in Hn; lia|]. cbn [scan_value].
    rewrite skip_ws_app by exact Hw. cbn [app]. rewrite skip_ws_stop by reflexivity.
    change ("[" =b "n") with false. change ("[" =b "t") with false. change ("[" =b "f") with false.
    change ("[" =b quote) with false. change ("[" =b "[") with true. cbn iota.
    rewrite <- app_assoc. cbn [app]. cbn [length] in Hn. rewrite app_length in Hn. cbn [length] in Hn.
    destruct (IH n r) as (E & c & s & Es & Hc); [lia|]. rewrite Es, Hc, E. reflexivity.
  - intros w0 Hw0 n w r Hn Hw Hr. destruct n as [|n]; [cbn in Hn; lia|]. cbn [scan_value].
    rewrite skip_ws_app by exact Hw. cbn [app]. rewrite skip_ws_stop by reflexivity.
    change ("{" =b "n") with false. change ("{" =b "t") with false. change ("{" =b "f") with false.
    change ("{" =b quote) with false. change ("{" =b "[") with false. change ("{" =b "{") with true. cbn iota.
    rewrite <- app_assoc, skip_ws_app by exact Hw0. reflexivity.
  - intros l t _ IH n w r Hn Hw Hr. destruct n as [|n]; [cbn in Hn; lia|]. cbn [scan_value].
    rewrite skip_ws_app by exact Hw. cbn [app]. rewrite skip_ws_stop by reflexivity.
    change ("{" =b "n") with false. change ("{" =b "t") with false. change ("{" =b "f") with false.
    change ("{" =b quote) with false. change ("{" =b "[") with false. change ("{" =b "{") with true. cbn iota.
    rewrite <- app_assoc. cbn [app]. cbn [length] in Hn. rewrite app_length in Hn. cbn [length] in Hn.
    destruct (IH n r) as (E & c & s & Es & Hc); [lia|]. rewrite Es, Hc, E. reflexivity.
  - intros v t w1 w2 Hw1 Hw2 Hv IH n r Hn. rewrite !app_length in Hn. rewrite <- !app_assoc. split.
    + destruct n as [|n]; [lia|]. cbn [scan_elems].
      rewrite IH by (lia || assumption || (apply num_follow_ws; [assumption|reflexivity])).
      rewrite skip_ws_app by exact Hw2. reflexivity.
    + rewrite skip_ws_app by exact Hw1. rewrite (jvalue_skip v) by exact Hv.
      destruct (jvalue_head v t Hv) as (c & t' & -> & _ & Hc & _). cbn [app]. eauto.
  - intros v t w1 w2 l t' Hw1 Hw2 Hv IH _ IH' n r Hn. rewrite !app_length in Hn. cbn [length] in Hn.
    repeat (rewrite <- ?app_assoc; cbn [app]). split.
    + destruct n as [|n]; [lia|]. cbn [scan_elems].
      rewrite IH by (lia || assumption || (apply num_follow_ws; [assumption|reflexivity])).
      rewrite skip_ws_app by exact Hw2. rewrite skip_ws_stop by reflexivity.
      change ("," =b "]") with false. change ("," =b ",") with true. cbn iota.
      destruct (IH' n r) as [E _]; [lia|]. rewrite E. reflexivity.
    + rewrite skip_ws_app by exact Hw1. rewrite (jvalue_skip v) by exact Hv.
      destruct (jvalue_head v t Hv) as (c & t1 & -> & _ & Hc & _). cbn [app]. eauto.
  - intros k v t w1 w2 w3 w4 Hw1 Hw2 Hw3 Hw4 Hk Hv IH n r Hn.
    repeat (rewrite app_length in Hn; cbn [length] in Hn).
    repeat (rewrite <- ?app_assoc; cbn [app]). split.
    + destruct n as [|n]; [lia|]. cbn [scan_members].
      rewrite skip_ws_app by exact Hw1. rewrite skip_ws_stop by reflexivity.
      change (x22 =b quote) with true. cbn iota.
      rewrite scan_str_app by exact Hk. rewrite skip_ws_app by exact Hw2. rewrite skip_ws_stop by reflexivity.
      change (":" =b ":") with true. cbn iota.
      rewrite IH by (lia || assumption || (apply num_follow_ws; [assumption|reflexivity])).
      rewrite skip_ws_app by exact Hw4. reflexivity.
    + rewrite skip_ws_app by exact Hw1. rewrite skip_ws_stop by reflexivity. eauto.
  - intros k v t w1 w2 w3 w4 l t' Hw1 Hw2 Hw3 Hw4 Hk Hv IH _ IH' n r Hn.
    repeat (rewrite app_length in Hn; cbn [length] in Hn).
    repeat (rewrite <- ?app_assoc; cbn [app]). split.
    + destruct n as [|n]; [lia|]. cbn [scan_members].
      rewrite skip_ws_app by exact Hw1. rewrite skip_ws_stop by reflexivity.
      change (x22 =b quote) with true. cbn iota.
      rewrite scan_str_app by exact Hk. rewrite skip_ws_app by exact Hw2. rewrite skip_ws_stop by reflexivity.
      change (":" =b ":") with true. cbn iota.
      rewrite IH by (lia || assumption || (apply num_follow_ws; [assumption|reflexivity])).
      rewrite skip_ws_app by exact Hw4. rewrite skip_ws_stop by reflexivity.
      change ("," =b "}") with false. change ("," =b ",") with true. cbn iota.
      destruct (IH' n r) as [E _]; [lia|]. rewrite E. reflexivity.
    + rewrite skip_ws_app by exact Hw1. rewrite skip_ws_stop by reflexivity. eauto.
Qed.

Lemma scan_value_app v t w r : jvalue v t -> ws w -> num_follow r = true ->
  scan_value (value_fuel (w ++ t ++ r)) (w ++ t ++ r) = Some (v, r).
Proof.
  intros Hv Hw Hr. apply (proj1 scan_complete); [exact Hv | | exact Hw | exact Hr].
  unfold value_fuel. rewrite !app_length. lia.
Qed.
Lemma scan_doc_exact s v : scan_doc s = Some v <-> jdoc v s.
Proof.
  unfold scan_doc, jdoc. split.
  - destruct (scan_value _ s) as [[v' r]|] eqn:E; [|discriminate].
    destruct (skip_ws r) eqn:Er; [|discriminate]. intros [= <-].
    apply (proj1 (scan_sound _)) in E as (w & t & Hw & Hv & ->). apply skip_ws_nil in Er.
    exists w, t, r. auto.
  - intros (w1 & t & w2 & Hw1 & Hw2 & Hv & ->).
    rewrite (scan_value_app v) by (assumption || (apply num_follow_of_ws; assumption)).
    rewrite skip_ws_of_ws by exact Hw2. reflexivity.
Qed.
Lemma jdoc_unique s v v' : jdoc v s -> jdoc v' s -> v = v'.
Proof. intros H H'. apply scan_doc_exact in H, H'. congruence. Qed.
Lemma jvalue_unique t v v' : jvalue v t -> jvalue v' t -> v = v'.
Proof.
  intros H H'. apply (jdoc_unique t); exists [], t, []; repeat split; try apply ws_nil; try assumption;
    rewrite app_nil_r; reflexivity.
Qed.

(** ** Element ranges of an array document *)
Definition cut (D : bytes) (r : range) : bytes := slice (fst r) (snd r) D.

Lemma cut_at (D p t s2 : bytes) : D = p ++ t ++ s2 ->
  cut D (length D - length (t ++ s2), length D - length s2) = t /\
  length D - length (t ++ s2) <= length D - length s2 <= length D.
Proof.
  intros ->. unfold cut. cbn [fst snd]. rewrite !app_length. split; [|lia].
  replace (length p + (length t + length s2) - (length t + length s2)) with (length p) by lia.
  replace (length p + (length t + length s2) - length s2) with (length p + length t) by lia.
  apply slice_app_mid.
Qed.

Lemma scan_value_nows n s v r : match s with c :: _ => is_ws c = false | [] => True end ->
  scan_value n s = Some (v, r) -> exists t, jvalue v t /\ s = t ++ r.
Proof.
  intros Hs H. apply (proj1 (scan_sound _)) in H as (w & t & Hw & Ht & ->).
  destruct w as [|c w]; [eauto|]. exfalso. inversion Hw as [|? ? Hc _]; subst.
  apply is_ws_in in Hc. cbn in Hs. congruence.
Qed.

(** Both ends lie on a byte that starts a character. *)
Definition on_char (D : bytes) (i : nat) : Prop := exists c, nth_error D i = Some c /\ is_cont c = false.
Definition good_range (D : bytes) (x : range) : Prop :=
  fst x <= snd x <= length D /\ on_char D (fst x) /\ on_char D (snd x).
Lemma on_char_app (p : bytes) c r : is_cont c = false -> on_char (p ++ c :: r) (length p).
Proof.
  intros H. exists c. split; [|exact H]. rewrite nth_error_app2, Nat.sub_diag by lia. reflexivity.
Qed.
Lemma num_not_cont c : (c =b "-") || is_digit c = true -> is_cont c = false.
Proof.
  intros H. pose proof (byte_forall (fun c => implb ((c =b "-") || is_digit c) (negb (is_cont c)))
    ltac:(vm_compute; reflexivity) c) as X. cbn beta in X. rewrite H in X. cbn in X.
  destruct (is_cont c); [discriminate|reflexivity].
Qed.
Lemma jvalue_head_char v t : jvalue v t -> exists c r, t = c :: r /\ is_cont c = false.
Proof.
  destruct 1 as [| | |n Hn| | | | |]; try (do 2 eexists; split; reflexivity).
  destruct (num_head n Hn) as (c & r & E & H). exists c, r. split; [exact E|].
  apply num_not_cont. tauto.
Qed.
Lemma ws_head_char w c r : ws w -> is_cont c = false -> exists d r', w ++ c :: r = d :: r' /\ is_cont d = false.
Proof.
  intros Hw Hc. destruct w as [|d w]; cbn [app]; [eauto|]. exists d, (w ++ c :: r). split; [reflexivity|].
  inversion Hw as [|? ? Hd]; subst. cbn in Hd. destruct Hd as [<-|[<-|[<-|[<-|[]]]]]; reflexivity.
Qed.

Lemma raw_elems_sound n : forall total first s l r D p,
  D = p ++ s -> total = length D -> raw_elems n total first s = Some (l, r) ->
  Forall (good_range D) l /\
  ((exists w, ws w /\ l = [] /\ s = w ++ "]"%byte :: r) \/
   (exists w body, ws w /\ jitems (map (cut D) l) body /\
     s = w ++ (if first then [] else [","%byte]) ++ body ++ "]"%byte :: r)).
Proof.
  induction n as [|n IH]; intros total first s l r D p HD Ht; cbn [raw_elems]; [discriminate|].
  destruct (skip_ws_split s) as (w & Hw & Es). destruct (skip_ws s) as [|d s'] eqn:Ek; [discriminate|].
  destruct (d =b "]") eqn:Ed.
  { apply byte_eqb_eq in Ed. subst d. intros [= <- <-]. split; [constructor|]. left. eauto. }
  match goal with |- context [if first then ?a else ?b] => set (st := if first then a else b) end.
  destruct st as [s1|] eqn:Est; [|discriminate].
  assert (H1 : exists w1, ws w1 /\ s = w ++ (if first then [] else [","%byte]) ++ w1 ++ s1 /\
            match s1 with c :: _ => is_ws c = false | [] => True end).
  { subst st. destruct first.
    - injection Est as <-. exists []. split; [apply ws_nil|]. split; [exact Es|].
      eapply skip_ws_head; exact Ek.
    - destruct (d =b ",") eqn:Ec; [|discriminate]. apply byte_eqb_eq in Ec. subst d.
      destruct (skip_ws_split s') as (w1 & Hw1 & Es'). destruct (skip_ws s') as [|d' s''] eqn:Ek'; [discriminate|].
      destruct (d' =b "]"); [discriminate|]. injection Est as <-. exists w1. split; [exact Hw1|].
      split; [rewrite Es, Es'; reflexivity|]. eapply skip_ws_head; exact Ek'. }
  clear Est st. destruct H1 as (w1 & Hw1 & Es1 & Hh).
  destruct (scan_value _ s1) as [[v s2]|] eqn:Ev; [|discriminate].
  apply scan_value_nows in Ev as (t & Hv & Et); [|exact Hh].
  destruct (raw_elems n total false s2) as [[l' s3]|] eqn:Er; [|discriminate].
  intros [= <- <-].
  assert (HD1 : D = (p ++ w ++ (if first then [] else [","%byte]) ++ w1) ++ t ++ s2).
  { rewrite HD, Es1, Et, <- !app_assoc. reflexivity. }
  destruct (cut_at D _ t s2 HD1) as [Hcut Hlen].
  assert (Hs1 : s1 = t ++ s2) by exact Et.
  apply (IH total false s2 l' s3 D ((p ++ w ++ (if first then [] else [","%byte]) ++ w1) ++ t)) in Er;
    [|rewrite <- app_assoc; exact HD1 | exact Ht].
  destruct Er as [HF Hrest]. rewrite Hs1, Ht. split.
  - constructor; [|exact HF]. split; [exact Hlen|]. cbn [fst snd].
    destruct (jvalue_head_char v t Hv) as (c0 & t0 & Et0 & Hc0).
    assert (HC : exists d r', s2 = d :: r' /\ is_cont d = false).
    { destruct Hrest as [(w2 & Hw2 & _ & ->)|(w2 & body & Hw2 & _ & ->)]; apply ws_head_char; auto. }
    destruct HC as (d2 & r2 & Ed2 & Hd2).
    rewrite HD1. split.
    + replace (_ - _) with (length (p ++ w ++ (if first then [] else [","%byte]) ++ w1)) by (rewrite !app_length; lia).
      rewrite Et0. cbn [app]. apply on_char_app. exact Hc0.
    + replace (_ - _) with (length ((p ++ w ++ (if first then [] else [","%byte]) ++ w1) ++ t)) by (rewrite !app_length; lia).
      rewrite app_assoc, Ed2. apply on_char_app. exact Hd2.
  - right. cbn [map]. rewrite Hcut. destruct Hrest as [(w2 & Hw2 & -> & ->)|(w2 & body & Hw2 & Hb & ->)].
    + exists w, (w1 ++ t ++ w2). split; [exact Hw|]. split; [eapply ji_one; eassumption|].
      rewrite Es1, Et, <- !app_assoc. reflexivity.
    + exists w, (w1 ++ t ++ w2 ++ ","%byte :: body). split; [exact Hw|]. split; [eapply ji_cons; eassumption|].
      rewrite Es1, Et. repeat (rewrite <- ?app_assoc; cbn [app]). reflexivity.
Qed.

Lemma raw_elems_complete ts body : jitems ts body -> forall n (r : bytes) (first : bool) (w D p : bytes) total,
  length body + 1 <= n -> ws w ->
  D = p ++ w ++ (if first then [] else [","%byte]) ++ body ++ "]"%byte :: r -> total = length D ->
  exists l, raw_elems n total first (w ++ (if first then [] else [","%byte]) ++ body ++ "]"%byte :: r) = Some (l, r)
    /\ map (cut D) l = ts.
Proof.
  induction 1 as [v t w1 w2 Hw1 Hw2 Hv | v t w1 w2 l t' Hw1 Hw2 Hv Hl IH]; intros n r first w D p total Hn Hw HD Htot.
  - destruct n as [|n]; [lia|]. cbn [raw_elems]. rewrite skip_ws_app by exact Hw.
    destruct (jvalue_head v t Hv) as (c & t0 & Et & Hcw & Hcb & _ & Hcc).
    set (s1 := t ++ w2 ++ "]"%byte :: r).
    assert (Es1 : skip_ws (w1 ++ s1) = s1).
    { unfold s1. rewrite skip_ws_app by exact Hw1. apply (jvalue_skip v). exact Hv. }
    assert (EB : ((w1 ++ t ++ w2) ++ "]"%byte :: r) = w1 ++ s1) by (unfold s1; rewrite <- !app_assoc; reflexivity).
    rewrite EB in *.
    assert (HS : scan_value (value_fuel s1) s1 = Some (v, w2 ++ "]"%byte :: r)).
    { apply (scan_value_app v t [] (w2 ++ "]"%byte :: r) Hv ws_nil). apply num_follow_ws; [exact Hw2|reflexivity]. }
    assert (HR : exists c s', s1 = c :: s' /\ (c =b "]") = false /\ is_ws c = false).
    { unfold s1. rewrite Et. cbn [app]. eauto. }
    destruct HR as (c1 & s' & Ec1 & Hc1 & Hc1').
    assert (HN : raw_elems n total false (w2 ++ "]"%byte :: r) = Some ([], r)).
    { assert (1 <= length t) by (eapply jvalue_length; eauto). rewrite !app_length in Hn.
      destruct n as [|n]; [lia|]. cbn [raw_elems]. rewrite skip_ws_app by exact Hw2. reflexivity. }
    assert (HD1 : D = (p ++ w ++ (if first then [] else [","%byte]) ++ w1) ++ t ++ w2 ++ "]"%byte :: r).
    { rewrite HD. unfold s1. rewrite <- !app_assoc. reflexivity. }
    destruct (cut_at D _ t _ HD1) as [Hcut _].
    destruct first; cbn [app].
    + rewrite Es1, Ec1, Hc1. rewrite <- Ec1, HS, HN. eexists. split; [reflexivity|].
      cbn [map]. f_equal. rewrite Htot. exact Hcut.
    + rewrite skip_ws_stop by reflexivity. change ("," =b "]") with false. change ("," =b ",") with true. cbn iota.
      rewrite Es1, Ec1, Hc1. rewrite <- Ec1, HS, HN. eexists. split; [reflexivity|].
      cbn [map]. f_equal. rewrite Htot. exact Hcut.
  - destruct n as [|n]; [lia|]. cbn [raw_elems]. rewrite skip_ws_app by exact Hw.
    destruct (jvalue_head v t Hv) as (c & t0 & Et & Hcw & Hcb & _ & Hcc).
    set (s2 := w2 ++ ","%byte :: t' ++ "]"%byte :: r).
    set (s1 := t ++ s2).
    assert (Es1 : skip_ws (w1 ++ s1) = s1).
    { unfold s1. rewrite skip_ws_app by exact Hw1. apply (jvalue_skip v). exact Hv. }
    assert (EB : ((w1 ++ t ++ w2 ++ ","%byte :: t') ++ "]"%byte :: r) = w1 ++ s1).
    { unfold s1, s2. repeat (rewrite <- ?app_assoc; cbn [app]). reflexivity. }
    rewrite EB in *.
    assert (HS : scan_value (value_fuel s1) s1 = Some (v, s2)).
    { apply (scan_value_app v t [] s2 Hv ws_nil). apply num_follow_ws; [exact Hw2|reflexivity]. }
    assert (HR : exists c s', s1 = c :: s' /\ (c =b "]") = false /\ is_ws c = false).
    { unfold s1. rewrite Et. cbn [app]. eauto. }
    destruct HR as (c1 & s' & Ec1 & Hc1 & Hc1').
    assert (HD1 : D = (p ++ w ++ (if first then [] else [","%byte]) ++ w1) ++ t ++ s2).
    { rewrite HD. unfold s1. rewrite <- !app_assoc. reflexivity. }
    destruct (cut_at D _ t _ HD1) as [Hcut _].
    repeat (rewrite app_length in Hn; cbn [length] in Hn).
    destruct (IH n r false w2 D ((p ++ w ++ (if first then [] else [","%byte]) ++ w1) ++ t) total) as (l' & HN & Hm);
      [lia | exact Hw2 | rewrite HD1, <- !app_assoc; reflexivity | exact Htot |].
    cbn [app] in HN. fold s2 in HN.
    destruct first; cbn [app].
    + rewrite Es1, Ec1, Hc1. rewrite <- Ec1, HS, HN. eexists. split; [reflexivity|].
      cbn [map]. rewrite Hm. f_equal. rewrite Htot. exact Hcut.
    + rewrite skip_ws_stop by reflexivity. change ("," =b "]") with false. change ("," =b ",") with true. cbn iota.
      rewrite Es1, Ec1, Hc1. rewrite <- Ec1, HS, HN. eexists. split; [reflexivity|].
      cbn [map]. rewrite Hm. f_equal. rewrite Htot. exact Hcut.
Qed.

Lemma raw_array_ranges_sound s l : raw_array_ranges s = Some l ->
  jarray (map (cut s) l) s /\ Forall (good_range s) l.
Proof.
  unfold raw_array_ranges. destruct (skip_ws_split s) as (wa & Hwa & Es).
  destruct (skip_ws s) as [|c r] eqn:Ek; [discriminate|].
  destruct (c =b "[") eqn:Ec; [|discriminate]. apply byte_eqb_eq in Ec. subst c.
  destruct (raw_elems _ _ true r) as [[l' r']|] eqn:Er; [|discriminate].
  destruct (skip_ws r') eqn:Ew; [|discriminate]. intros [= ->]. apply skip_ws_nil in Ew.
  apply (raw_elems_sound _ _ _ _ _ _ s (wa ++ ["["%byte])) in Er;
    [|rewrite <- app_assoc; exact Es | reflexivity].
  destruct Er as [HF Hr]. split; [|exact HF].
  destruct Hr as [(w & Hw & -> & ->)|(w & body & Hw & Hb & ->)].
  - exists wa, w, r'. repeat split; try assumption. left. auto.
  - exists wa, (w ++ body), r'. repeat split; try assumption.
    + rewrite Es at 1. rewrite <- !app_assoc. reflexivity.
    + right. destruct Hb as [v t w1 w2 H1 H2 H3|v t w1 w2 l0 t' H1 H2 H3 H4]; rewrite app_assoc;
        [eapply ji_one|eapply ji_cons]; try eassumption; apply ws_app; assumption.
Qed.
Lemma jitems_length ts body : jitems ts body -> 1 <= length body.
Proof.
  destruct 1 as [v t w1 w2 H1 H2 H3|v t w1 w2 l t' H1 H2 H3 H4]; rewrite !app_length;
    apply jvalue_length in H3; lia.
Qed.
Lemma raw_array_ranges_complete s ts : jarray ts s -> exists l, raw_array_ranges s = Some l /\ map (cut s) l = ts.
Proof.
  intros (wa & body & wb & Hwa & Hwb & Es & H). unfold raw_array_ranges.
  assert (Ek : skip_ws s = "["%byte :: body ++ "]"%byte :: wb).
  { rewrite Es, skip_ws_app by exact Hwa. reflexivity. }
  rewrite Ek. change ("[" =b "[") with true. cbn iota.
  destruct H as [[-> Hb]|Hb].
  - cbn [raw_elems]. rewrite skip_ws_app by exact Hb. rewrite skip_ws_stop by reflexivity.
    change ("]" =b "]") with true. cbn iota. rewrite skip_ws_of_ws by exact Hwb. exists []. auto.
  - destruct (raw_elems_complete ts body Hb (S (length s)) wb true [] s (wa ++ ["["%byte]) (length s)) as (l & Hl & Hm).
    + rewrite Es. rewrite app_length. cbn [length]. rewrite app_length. cbn [length]. lia.
    + apply ws_nil.
    + rewrite Es at 1. rewrite <- app_assoc. reflexivity.
    + reflexivity.
    + cbn [app] in Hl. rewrite Hl. rewrite skip_ws_of_ws by exact Hwb. eauto.
Qed.
Lemma jitems_tree ts body : jitems ts body -> exists vs, jelems vs body /\ Forall2 jvalue vs ts.
Proof.
  induction 1 as [v t w1 w2 H1 H2 H3|v t w1 w2 l t' H1 H2 H3 H4 (vs & IH1 & IH2)].
  - exists [v]. split; [constructor; assumption | repeat constructor; assumption].
  - exists (v :: vs). split; [apply je_cons; assumption | constructor; assumption].
Qed.
Lemma jelems_items vs body : jelems vs body -> exists ts, jitems ts body /\ Forall2 jvalue vs ts.
Proof.
  induction 1 as [v t w1 w2 H1 H2 H3|v t w1 w2 l t' H1 H2 H3 H4 (ts & IH1 & IH2)].
  - exists [t]. split; [econstructor; eassumption | repeat constructor; assumption].
  - exists (t :: ts). split; [eapply ji_cons; eassumption | constructor; assumption].
Qed.
Lemma jarray_items ts s : jarray ts s -> Forall (fun t => exists v, jvalue v t) ts.
Proof.
  intros (wa & body & wb & _ & _ & _ & [[-> _]|H]); [constructor|].
  induction H; constructor; eauto.
Qed.
Lemma jarray_unique ts ts' s : jarray ts s -> jarray ts' s -> ts = ts'.
Proof.
  intros H H'. apply raw_array_ranges_complete in H as (l & E & <-), H' as (l' & E' & <-). congruence.
Qed.
