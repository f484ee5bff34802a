(** C41: preparation of the URL. *)
From Verif Require Export SpecUrl BytesProofs.

Lemma web_cases s b : web_scheme s b -> s = bs "http" /\ b = false \/ s = bs "ws" /\ b = false \/ s = bs "https" /\ b = true \/ s = bs "wss" /\ b = true.
Proof. intros []; auto 8. Qed.
Lemma web_dec s : (exists b, web_scheme s b) \/ (forall b, ~ web_scheme s b).
Proof.
  destruct (bytes_eqb s (bs "http")) eqn:E1; [apply bytes_eqb_eq in E1 as ->; left; eexists; constructor|].
  destruct (bytes_eqb s (bs "ws")) eqn:E2; [apply bytes_eqb_eq in E2 as ->; left; eexists; constructor|].
  destruct (bytes_eqb s (bs "https")) eqn:E3; [apply bytes_eqb_eq in E3 as ->; left; eexists; constructor|].
  destruct (bytes_eqb s (bs "wss")) eqn:E4; [apply bytes_eqb_eq in E4 as ->; left; eexists; constructor|].
  right. intros b H. apply web_cases in H as [[-> _]|[[-> _]|[[-> _]|[-> _]]]]; rewrite bytes_eqb_refl in *; discriminate.
Qed.
Lemma web_host u b : parsed_ok u -> web_scheme (u_scheme u) b -> exists c h, u_host u = Some (c :: h).
Proof. intros [H _] Hw. apply H. apply web_cases in Hw as [[-> _]|[[-> _]|[[-> _]|[-> _]]]]; cbn; auto. Qed.
Lemma web_default s b : web_scheme s b -> default_port s = Some (secure_port b).
Proof. intros []; reflexivity. Qed.
Definition new_scheme (b : bool) : bytes := if b then bs "wss" else bs "ws".
Lemma option_N_eqb_ok a b : option_N_eqb a b = true <-> a = b.
Proof.
  destruct a, b; cbn; rewrite ?N.eqb_eq; split; intros; try discriminate; try congruence.
Qed.

(** Accepted: exactly the scheme changes. *)
Lemma parse_url_web u b : parsed_ok u -> web_scheme (u_scheme u) b ->
  parse_url (Some u) = Ok (Url (new_scheme b) (u_user u) (u_host u) (u_port u) (u_path u) (u_query u) (u_fragment u)).
Proof.
  intros Hp Hw. destruct (web_host u b Hp Hw) as (c & h & Eh). destruct Hp as [_ Hp].
  assert (Hd : default_port (new_scheme b) = default_port (u_scheme u)) by (rewrite (web_default _ _ Hw); destruct b; reflexivity).
  assert (Hs : set_scheme (new_scheme b) u = Some (Url (new_scheme b) (u_user u) (u_host u) (u_port u) (u_path u) (u_query u) (u_fragment u))).
  { unfold set_scheme. replace (special (new_scheme b)) with true by (destruct b; reflexivity).
    replace (special (u_scheme u)) with true by (inversion Hw; reflexivity). rewrite Eh. cbn [xorb andb].
    unfold set_port. cbn [u_host u_scheme u_user u_path u_query u_fragment].
    replace (bytes_eqb (new_scheme b) (bs "file")) with false by (destruct b; reflexivity).
    do 2 f_equal. rewrite Hd. destruct (option_N_eqb _ _) eqn:E; [|reflexivity]. apply option_N_eqb_ok in E.
    destruct (u_port u); [|reflexivity]. destruct (Hp ltac:(discriminate) E). }
  unfold parse_url.
  replace (if bytes_eqb (u_scheme u) (bs "http") || bytes_eqb (u_scheme u) (bs "ws") then Some (bs "ws")
     else if bytes_eqb (u_scheme u) (bs "https") || bytes_eqb (u_scheme u) (bs "wss") then Some (bs "wss") else None)
    with (Some (new_scheme b)) by (inversion Hw; reflexivity).
  rewrite Hs. cbn [u_host]. rewrite Eh. reflexivity.
Qed.
Lemma parse_url_other u : (forall b, ~ web_scheme (u_scheme u) b) -> parse_url (Some u) = Err (UrlInvalidScheme (u_scheme u)).
Proof.
  intros H. unfold parse_url.
  destruct (bytes_eqb (u_scheme u) (bs "http")) eqn:E1; [apply bytes_eqb_eq in E1; rewrite E1 in H; destruct (H false); constructor|].
  destruct (bytes_eqb (u_scheme u) (bs "ws")) eqn:E2; [apply bytes_eqb_eq in E2; rewrite E2 in H; destruct (H false); constructor|].
  destruct (bytes_eqb (u_scheme u) (bs "https")) eqn:E3; [apply bytes_eqb_eq in E3; rewrite E3 in H; destruct (H true); constructor|].
  destruct (bytes_eqb (u_scheme u) (bs "wss")) eqn:E4; [apply bytes_eqb_eq in E4; rewrite E4 in H; destruct (H true); constructor|].
  reflexivity.
Qed.
Lemma accepted_exactly u : parsed_ok u ->
  ((exists u', parse_url (Some u) = Ok u') <-> exists b, web_scheme (u_scheme u) b) /\
  ((forall b, ~ web_scheme (u_scheme u) b) -> parse_url (Some u) = Err (UrlInvalidScheme (u_scheme u))).
Proof.
  intros Hp. split; [|apply parse_url_other]. split.
  - intros [u' E]. destruct (web_dec (u_scheme u)) as [H|H]; [exact H|]. rewrite (parse_url_other u H) in E. discriminate.
  - intros [b H]. eexists. exact (parse_url_web u b Hp H).
Qed.
Lemma accepted_is u u' : parsed_ok u -> parse_url (Some u) = Ok u' ->
  exists b, web_scheme (u_scheme u) b /\ u_scheme u' = (if b then bs "wss" else bs "ws") /\
    u_user u' = u_user u /\ u_host u' = u_host u /\ u_path u' = u_path u /\ u_query u' = u_query u /\ u_fragment u' = u_fragment u /\
    parsed_ok u' /\ (forall p, effective_port u' p <-> effective_port u p).
Proof.
  intros Hp E. destruct (web_dec (u_scheme u)) as [[b H]|H]; [|rewrite (parse_url_other u H) in E; discriminate].
  rewrite (parse_url_web u b Hp H) in E. injection E as <-. exists b. cbn [u_scheme u_user u_host u_path u_query u_fragment].
  split; [exact H|]. do 6 (split; [reflexivity|]). split.
  - split; cbn [u_scheme u_host u_port].
    + intros _. exact (web_host u b Hp H).
    + intros Hn. apply Hp in Hn. rewrite (web_default _ _ H) in Hn. unfold new_scheme. destruct b; exact Hn.
  - intros p. unfold effective_port. cbn [u_port u_scheme].
    assert (W : forall b', web_scheme (new_scheme b) b' <-> b' = b).
    { intros b'. split; [intros W; apply web_cases in W as [[W ->]|[[W ->]|[[W ->]|[W ->]]]]; destruct b; (reflexivity || discriminate W)|intros ->; destruct b; constructor]. }
    assert (W' : forall b', web_scheme (u_scheme u) b' <-> b' = b).
    { intros b'. split; [intros W'; destruct H; apply web_cases in W' as [[Q ->]|[[Q ->]|[[Q ->]|[Q ->]]]]; (reflexivity || discriminate Q)|intros ->; exact H]. }
    split; (intros [Q|(Q & s & Hs & ->)]; [left; exact Q|right; split; [exact Q|]; exists s; split; [|reflexivity]]).
    + apply W'. apply W. exact Hs.
    + apply W. apply W'. exact Hs.
Qed.

(** ** The query *)
Lemma encode_unreserved_check : forallb (fun n => match Byte.of_N n with
  | Some c => forallb (fun x => negb (x =b "&") && negb (x =b "=")) (encode_byte c) &&
      match encode_byte c with
      | [x] => (if x =b "+" then c =b " " else (x =b c) && negb (x =b "%"))
      | [p; a; b] => (p =b "%") && is_hex a && is_hex b && (hex_val a * 16 + hex_val b =? n)%N
      | _ => false
      end
  | None => true end) (map N.of_nat (seq 0 256)) = true.
Proof. vm_compute. reflexivity. Qed.
Lemma encode_byte_facts c : Forall (fun x => x <> "&"%byte /\ x <> "="%byte) (encode_byte c) /\
  forall r, form_decode (encode_byte c ++ r) = c :: form_decode r.
Proof.
  pose proof encode_unreserved_check as H. rewrite forallb_forall in H. specialize (H (bN c)).
  assert (Hb : Byte.of_N (bN c) = Some c) by apply Byte.of_to_N.
  assert (Hi : In (bN c) (map N.of_nat (seq 0 256))).
  { apply in_map_iff. exists (N.to_nat (bN c)). split; [apply N2Nat.id|]. apply in_seq. pose proof (Byte.to_N_bounded c). unfold bN. lia. }
  specialize (H Hi). rewrite Hb in H. apply andb_true_iff in H as [H1 H2]. split.
  - rewrite forallb_forall in H1. apply Forall_forall. intros x Hx. specialize (H1 x Hx). apply andb_true_iff in H1 as [A B].
    apply negb_true_iff in A, B. apply byte_eqb_neq in A, B. auto.
  - intros r. destruct (encode_byte c) as [|x [|a [|b [|y l]]]]; try discriminate.
    + cbn [app form_decode]. destruct (x =b "+") eqn:E; [apply byte_eqb_eq in H2 as ->; reflexivity|].
      apply andb_true_iff in H2 as [A B]. apply byte_eqb_eq in A as ->. apply negb_true_iff in B. rewrite B. reflexivity.
    + rewrite !andb_true_iff in H2. destruct H2 as [[[A B] C] D]. apply byte_eqb_eq in A as ->. cbn [app form_decode].
      change ("%"%byte =b "+") with false. change ("%"%byte =b "%") with true. cbn iota. rewrite B, C. cbn [andb].
      apply N.eqb_eq in D. rewrite D. unfold byte_of. rewrite Hb. reflexivity.
Qed.
Lemma form_encode_plain s : Forall (fun x => x <> "&"%byte /\ x <> "="%byte) (form_encode s).
Proof. unfold form_encode. apply Forall_flat_map. apply Forall_forall. intros c _. apply encode_byte_facts. Qed.
Lemma form_round s : form_decode (form_encode s) = s.
Proof.
  unfold form_encode. induction s as [|c s IH]; [reflexivity|]. cbn [flat_map]. rewrite (proj2 (encode_byte_facts c)), IH. reflexivity.
Qed.
Lemma pieces_nonempty s : pieces s <> [].
Proof. destruct s as [|c s]; [discriminate|]. cbn. destruct (c =b "&"); [discriminate|]. destruct (pieces s); discriminate. Qed.
Lemma pieces_plain s : Forall (fun x => x <> "&"%byte) s -> pieces s = [s].
Proof.
  induction 1 as [|c s H _ IH]; [reflexivity|]. cbn [pieces]. apply byte_eqb_neq in H. rewrite H, IH. reflexivity.
Qed.
Lemma pieces_app a b : pieces (a ++ "&"%byte :: b) = pieces a ++ pieces b.
Proof.
  induction a as [|c a IH]; [reflexivity|]. cbn [app pieces]. rewrite IH. destruct (c =b "&"); [reflexivity|].
  pose proof (pieces_nonempty a). destruct (pieces a); [congruence|reflexivity].
Qed.
Lemma cut_plain a b : Forall (fun x => x <> "="%byte) a -> cut_at_eq (a ++ "="%byte :: b) = (a, b).
Proof.
  induction 1 as [|c a H _ IH]; [reflexivity|]. cbn [app cut_at_eq]. apply byte_eqb_neq in H. rewrite H, IH. reflexivity.
Qed.
Lemma pair_round n v : pair_of (form_encode n ++ "="%byte :: form_encode v) = (n, v).
Proof.
  unfold pair_of. rewrite cut_plain; [rewrite !form_round; reflexivity|].
  eapply Forall_impl; [|apply form_encode_plain]. intros x [_ H]. exact H.
Qed.
Lemma append_pair_pairs n v u : pairs (u_query (append_pair n v u)) = pairs (u_query u) ++ [(n, v)].
Proof.
  assert (P : pieces (form_encode n ++ "="%byte :: form_encode v) = [form_encode n ++ "="%byte :: form_encode v]).
  { apply pieces_plain. apply Forall_app. split; [|constructor; [discriminate|]];
      (eapply Forall_impl; [|apply form_encode_plain]; intros x [H _]; exact H). }
  assert (Q : forall q, filter (fun p => match p with [] => false | _ => true end)
      (q ++ [form_encode n ++ "="%byte :: form_encode v]) =
      filter (fun p => match p with [] => false | _ => true end) q ++ [form_encode n ++ "="%byte :: form_encode v]).
  { intros q. rewrite filter_app. f_equal. cbn [filter]. destruct (form_encode n); reflexivity. }
  unfold append_pair, pairs. cbn [u_query].
  destruct (u_query u) as [[|c q]|].
  - cbn [app]. rewrite P. specialize (Q []). cbn [app] in Q. rewrite Q. cbn [filter app map]. rewrite pair_round. reflexivity.
  - rewrite <- (app_nil_r (c :: q)) at 1. rewrite <- app_assoc. cbn [app]. change (c :: q ++ "&"%byte :: form_encode n ++ "="%byte :: form_encode v) with ((c :: q) ++ "&"%byte :: form_encode n ++ "="%byte :: form_encode v).
    rewrite pieces_app, P, Q, map_app. cbn [map]. rewrite pair_round. reflexivity.
  - cbn [app]. rewrite P. specialize (Q []). cbn [app] in Q. rewrite Q. cbn [filter app map]. rewrite pair_round. reflexivity.
Qed.
Lemma append_pair_keeps n v u : let u' := append_pair n v u in
  u_scheme u' = u_scheme u /\ u_user u' = u_user u /\ u_host u' = u_host u /\ u_port u' = u_port u /\ u_path u' = u_path u /\ u_fragment u' = u_fragment u.
Proof. cbn. auto 8. Qed.

(** ** Connecting *)
Lemma connecting_exact u b h : parsed_ok u -> web_scheme (u_scheme u) b -> u_host u = Some h ->
  exists p u', effective_port u p /\
    u_scheme u' = (if b then bs "wss" else bs "ws") /\ u_user u' = u_user u /\ u_host u' = u_host u /\ u_port u' = u_port u /\ u_path u' = u_path u /\
    u_fragment u' = u_fragment u /\
    pairs (u_query u') = pairs (u_query u) ++ [(bs "EIO", bs "4"); (bs "transport", bs "websocket")] /\
    connect_to (Some u) = Ok (h, p, url_text u') /\ from_stream_url (Some u) = Ok (url_text u').
Proof.
  intros Hp Hw Hh. unfold connect_to, from_stream_url. rewrite (parse_url_web u b Hp Hw). cbn [u_host port_or_known_default u_port u_scheme rmap].
  set (u1 := Url _ _ _ _ _ _ _). rewrite Hh.
  exists (match u_port u with Some p => p | None => secure_port b end), (add_socketio_query_params u1).
  split. { unfold effective_port. destruct (u_port u); [auto|right; eauto]. }
  do 6 (split; [first [reflexivity|exact Hh]|]). split.
  { unfold add_socketio_query_params. rewrite !append_pair_pairs, <- app_assoc. reflexivity. }
  split; [|reflexivity].
  replace (port_or_known_default u1) with (Some (match u_port u with Some p => p | None => secure_port b end)).
  - reflexivity.
  - unfold port_or_known_default, u1. cbn [u_port u_scheme]. destruct (u_port u); [reflexivity|]. destruct b; reflexivity.
Qed.
Lemma connecting_never_panics parsed : (forall u, parsed = Some u -> parsed_ok u) ->
  connect_to parsed <> Panic /\ from_stream_url parsed <> Panic /\
  (forall r, connect_to parsed = Ok r -> exists u b, parsed = Some u /\ web_scheme (u_scheme u) b).
Proof.
  intros H. destruct parsed as [u|]; [|repeat split; try discriminate]. specialize (H u eq_refl).
  destruct (web_dec (u_scheme u)) as [[b W]|W].
  - destruct (web_host u b H W) as (c & h & Eh).
    destruct (connecting_exact u b _ H W Eh) as (p & u' & _ & _ & _ & _ & _ & _ & _ & _ & E1 & E2). rewrite E1, E2.
    repeat split; try discriminate. eauto.
  - unfold connect_to, from_stream_url. rewrite (parse_url_other u W). repeat split; discriminate.
Qed.

(** ** The text of a URL *)
Lemma split_at c a : forall b a' b' : bytes, ~ In c a -> ~ In c a' -> a ++ c :: b = a' ++ c :: b' -> a = a' /\ b = b'.
Proof.
  induction a as [|x a IH]; intros b [|y a'] b' H H' E; cbn in *.
  - injection E as ->. auto.
  - injection E as -> _. tauto.
  - injection E as -> _. tauto.
  - injection E as -> E. destruct (IH b a' b') as [-> ->]; auto.
Qed.
Lemma cut_unique c (a f a' f' : bytes) : ~ In c a -> ~ In c a' -> (f = [] \/ exists s, f = c :: s) -> (f' = [] \/ exists s, f' = c :: s) ->
  a ++ f = a' ++ f' -> a = a' /\ f = f'.
Proof.
  intros H H' [->|[s ->]] [->|[s' ->]] E.
  - rewrite !app_nil_r in E. auto.
  - exfalso. rewrite app_nil_r in E. subst a. apply H. apply in_elt.
  - exfalso. rewrite app_nil_r in E. subst a'. apply H'. apply in_elt.
  - destruct (split_at _ _ _ _ _ H H' E) as [-> ->]. auto.
Qed.
Lemma free_in chars s c : free_of chars s -> In c chars -> ~ In c s.
Proof. intros H Hc Hs. exact (H c Hs Hc). Qed.
Lemma dec_free chars n : forallb (fun c => negb (is_digit c)) chars = true -> free_of chars (dec n).
Proof.
  intros H c Hc Hi. pose proof (dec_digits n) as D. rewrite forallb_forall in D, H. specialize (D c Hc). specialize (H c Hi). rewrite D in H. discriminate.
Qed.
Lemma host_free h c : host_form h -> In c (bs "@/?#") -> ~ In c h.
Proof.
  intros [[H _]|(x & -> & H)] Hc.
  - apply (free_in _ _ _ H). cbn in *. tauto.
  - intros [E|Hi]; [subst c; cbn in Hc; intuition discriminate|]. apply in_app_iff in Hi as [Hi|[E|[]]].
    + apply (H c Hi). cbn in *. tauto.
    + subst c. cbn in Hc. intuition discriminate.
Qed.
Lemma spelled_unique t u u' : spelled t u -> spelled t u' -> u = u'.
Proof.
  intros [(S1 & S2 & S3 & (P1 & P2) & Q1) (us & h & n & q & f & E & Hus & Hh & Hn & Hq & Hf)]
         [(S1' & S2' & S3' & (P1' & P2') & Q1') (us' & h' & n' & q' & f' & E' & Hus' & Hh' & Hn' & Hq' & Hf')].
  rewrite E in E'. clear E t.
  destruct u as [sc us0 h0 n0 pa q0 f0], u' as [sc' us0' h0' n0' pa' q0' f0']. cbn [u_scheme u_user u_host u_port u_path u_query u_fragment] in *.
  subst h0 h0'. cbn in S3, S3'.
  assert (NA : forall c user host port us1 n1, In c (bs "/?#") ->
     match us1 with Some s => free_of (bs "@/?#") s | None => True end -> match us1 with Some s => user = s ++ bs "@" | None => user = [] end ->
     host_form host -> match n1 with Some p => port = ":"%byte :: dec p | None => port = [] end -> ~ In c (user ++ host ++ port)).
  { intros c user host port us1 n1 Hc A B C D. rewrite !in_app_iff. intros [X|[X|X]].
    - destruct us1 as [s|]; subst user; [|destruct X]. apply in_app_iff in X as [X|[X|[]]]; [apply (A c X); cbn in *; tauto|subst c; cbn in Hc; intuition discriminate].
    - apply (host_free _ c C); [cbn in *; tauto|exact X].
    - destruct n1 as [p|]; subst port; [|destruct X]. destruct X as [X|X]; [subst c; cbn in Hc; intuition discriminate|].
      apply (dec_free (bs "/?#") p eq_refl c X Hc). }
  assert (NS : forall c, In c (bs "?#") -> ~ In c (bs "://")) by (intros c Hc Hx; cbn in *; intuition congruence).
  assert (Ff : f = [] \/ exists s, f = "#"%byte :: s) by (destruct f0; eauto).
  assert (Ff' : f' = [] \/ exists s, f' = "#"%byte :: s) by (destruct f0'; eauto).
  assert (Fq : q = [] \/ exists s, q = "?"%byte :: s) by (destruct q0; eauto).
  assert (Fq' : q' = [] \/ exists s, q' = "?"%byte :: s) by (destruct q0'; eauto).
  rewrite !app_assoc in E'.
  assert (NB : forall c, In c (bs "?#") -> ~ In c (((((sc ++ bs "://") ++ us) ++ h) ++ n) ++ pa)).
  { intros c Hc. rewrite <- !app_assoc. rewrite in_app_iff. intros [X|X]; [apply (S1 c X); cbn in *; tauto|]. apply in_app_iff in X as [X|X]; [exact (NS c Hc X)|].
    rewrite !app_assoc in X. apply in_app_iff in X as [X|X]; [|exact (P2 c X Hc)]. rewrite <- app_assoc in X. refine (NA c us h n us0 n0 _ S2 Hus S3 Hn X). cbn in *. tauto. }
  assert (NB' : forall c, In c (bs "?#") -> ~ In c (((((sc' ++ bs "://") ++ us') ++ h') ++ n') ++ pa')).
  { intros c Hc. rewrite <- !app_assoc. rewrite in_app_iff. intros [X|X]; [apply (S1' c X); cbn in *; tauto|]. apply in_app_iff in X as [X|X]; [exact (NS c Hc X)|].
    rewrite !app_assoc in X. apply in_app_iff in X as [X|X]; [|exact (P2' c X Hc)]. rewrite <- app_assoc in X. refine (NA c us' h' n' us0' n0' _ S2' Hus' S3' Hn' X). cbn in *. tauto. }
  apply (cut_unique "#"%byte) in E' as [E' ->]; auto.
  2,3: rewrite in_app_iff; intros [X|X]; [revert X; (apply NB || apply NB'); cbn; tauto|].
  2: destruct q0 as [s|]; subst q; [|destruct X]; destruct X as [X|X]; [discriminate|apply (Q1 _ X); cbn; tauto].
  2: destruct q0' as [s|]; subst q'; [|destruct X]; destruct X as [X|X]; [discriminate|apply (Q1' _ X); cbn; tauto].
  apply (cut_unique "?"%byte) in E' as [E' ->]; auto.
  2: apply NB; cbn; tauto. 2: apply NB'; cbn; tauto.
  rewrite <- !app_assoc in E'. change (bs "://") with (":"%byte :: bs "//") in E'. cbn [app] in E'.
  apply split_at in E' as [-> E']; [|apply (free_in _ _ _ S1); cbn; tauto|apply (free_in _ _ _ S1'); cbn; tauto].
  injection E' as E'. 
  assert (E2 : (us ++ h ++ n) ++ pa = (us' ++ h' ++ n') ++ pa') by (rewrite <- !app_assoc; exact E').
  apply (cut_unique "/"%byte) in E2 as [E2 ->]; auto; [|refine (NA _ us h n us0 n0 _ S2 Hus S3 Hn); cbn; tauto|refine (NA _ us' h' n' us0' n0' _ S2' Hus' S3' Hn'); cbn; tauto].
  assert (NH : ~ In "@"%byte (h ++ n)).
  { rewrite in_app_iff. intros [X|X]; [exact (host_free h _ S3 ltac:(cbn; tauto) X)|]. destruct n0; subst n; [|destruct X]. destruct X as [X|X]; [discriminate|]. exact (dec_free (bs "@") _ eq_refl _ X ltac:(cbn; tauto)). }
  assert (NH' : ~ In "@"%byte (h' ++ n')).
  { rewrite in_app_iff. intros [X|X]; [exact (host_free h' _ S3' ltac:(cbn; tauto) X)|]. destruct n0'; subst n'; [|destruct X]. destruct X as [X|X]; [discriminate|]. exact (dec_free (bs "@") _ eq_refl _ X ltac:(cbn; tauto)). }
  assert (EU : us0 = us0' /\ h ++ n = h' ++ n').
  { destruct us0 as [s|], us0' as [s'|]; subst us us'; cbn [app] in E2.
    - rewrite <- !app_assoc in E2. cbn [app] in E2. apply split_at in E2 as [-> E2]; [auto|apply (free_in _ _ _ S2); cbn; tauto|apply (free_in _ _ _ S2'); cbn; tauto].
    - exfalso. apply NH'. rewrite <- E2, <- app_assoc. apply in_elt.
    - exfalso. apply NH. rewrite E2, <- app_assoc. apply in_elt.
    - auto. }
  destruct EU as [-> EH].
  assert (Fn : n = [] \/ exists s, n = ":"%byte :: s) by (destruct n0; eauto).
  assert (Fn' : n' = [] \/ exists s, n' = ":"%byte :: s) by (destruct n0'; eauto).
  assert (EX : h = h' /\ n = n').
  { destruct S3 as [[A B]|(x & -> & A)], S3' as [[A' B']|(x' & -> & A')].
    - apply (cut_unique ":"%byte) in EH; auto; [apply (free_in _ _ _ A); cbn; tauto|apply (free_in _ _ _ A'); cbn; tauto].
    - exfalso. destruct h as [|c h]; [destruct Fn as [->|[? ->]]; discriminate|]. cbn in EH. injection EH as -> _. exact (B _ eq_refl).
    - exfalso. destruct h' as [|c h']; [destruct Fn' as [->|[? ->]]; discriminate|]. cbn in EH. injection EH as <- _. exact (B' _ eq_refl).
    - cbn [app] in EH. injection EH as EH. rewrite <- !app_assoc in EH. cbn [app] in EH.
      apply split_at in EH as [-> ->]; [auto|apply (free_in _ _ _ A); cbn; tauto|apply (free_in _ _ _ A'); cbn; tauto]. }
  destruct EX as [-> EN]. f_equal.
  - destruct n0, n0'; subst n; rewrite Hn' in EN; try discriminate; [|reflexivity]. injection EN as EN. apply dec_inj in EN. congruence.
  - destruct q0, q0'; subst q'; congruence.
  - destruct f0, f0'; subst f'; congruence.
Qed.
Lemma encode_free_check : forallb (fun n => match Byte.of_N n with
  | Some c => forallb (fun x => negb (x =b "#")) (encode_byte c) | None => true end) (map N.of_nat (seq 0 256)) = true.
Proof. vm_compute. reflexivity. Qed.
Lemma form_encode_free s : free_of (bs "#") (form_encode s).
Proof.
  intros x Hx [<-|[]]. unfold form_encode in Hx. apply in_flat_map in Hx as (c & _ & Hx).
  pose proof encode_free_check as H. rewrite forallb_forall in H. specialize (H (bN c)).
  assert (Hb : Byte.of_N (bN c) = Some c) by apply Byte.of_to_N.
  assert (Hi : In (bN c) (map N.of_nat (seq 0 256))).
  { apply in_map_iff. exists (N.to_nat (bN c)). split; [apply N2Nat.id|]. apply in_seq. pose proof (Byte.to_N_bounded c). unfold bN. lia. }
  specialize (H Hi). rewrite Hb, forallb_forall in H. specialize (H _ Hx). discriminate.
Qed.
Lemma append_pair_parts n v u : url_parts u -> url_parts (append_pair n v u).
Proof.
  intros (A & B & C & D & E). unfold url_parts, append_pair. cbn [u_scheme u_user u_host u_port u_path u_query u_fragment].
  split; [exact A|]. split; [exact B|]. split; [exact C|]. split; [exact D|].
  intros c Hc Hx. rewrite !in_app_iff in Hc. destruct Hc as [Hc|[Hc|[Hc|[Hc|Hc]]]].
  - destruct (u_query u); [exact (E c Hc Hx)|destruct Hc].
  - destruct (match u_query u with Some q => q | None => [] end); [destruct Hc|]. destruct Hc as [<-|[]]. destruct Hx as [X|[]]. discriminate.
  - exact (form_encode_free n c Hc Hx).
  - subst c. destruct Hx as [X|[]]. discriminate.
  - exact (form_encode_free v c Hc Hx).
Qed.
Lemma url_text_spelled u : url_parts u -> spelled (url_text u) u.
Proof.
  intros H. split; [exact H|]. destruct H as (_ & _ & Hh & _). unfold url_text, opt_with. destruct (u_host u) as [h|]; [|contradiction].
  exists (match u_user u with Some s => s ++ bs "@" | None => [] end), h, (match u_port u with Some p => ":"%byte :: dec p | None => [] end),
    (match u_query u with Some s => "?"%byte :: s | None => [] end), (match u_fragment u with Some s => "#"%byte :: s | None => [] end).
  repeat split.
  - destruct (u_user u); reflexivity.
  - destruct (u_port u); reflexivity.
  - destruct (u_query u); reflexivity.
  - destruct (u_fragment u); reflexivity.
Qed.
Lemma request_spelled u b h : parsed_ok u -> url_parts u -> web_scheme (u_scheme u) b -> u_host u = Some h ->
  exists p t u', effective_port u p /\ connect_to (Some u) = Ok (h, p, t) /\ from_stream_url (Some u) = Ok t /\
    (forall v, spelled t v <-> v = u') /\
    u_scheme u' = (if b then bs "wss" else bs "ws") /\ u_user u' = u_user u /\ u_host u' = u_host u /\ u_port u' = u_port u /\
    u_path u' = u_path u /\ u_fragment u' = u_fragment u /\
    pairs (u_query u') = pairs (u_query u) ++ [(bs "EIO", bs "4"); (bs "transport", bs "websocket")] /\
      u_query u' = Some (query_asked (u_query u)).
Proof.
  intros Hp Hu Hw Hh. unfold connect_to, from_stream_url. rewrite (parse_url_web u b Hp Hw). cbn [u_host port_or_known_default u_port u_scheme rmap].
  set (u1 := Url _ _ _ _ _ _ _). rewrite Hh.
  assert (Hu1 : url_parts (add_socketio_query_params u1)).
  { apply append_pair_parts, append_pair_parts. destruct Hu as (_ & H). split; [|exact H]. cbn. intros c Hc Hx. destruct b; cbn in Hc, Hx; intuition congruence. }
  exists (match u_port u with Some p => p | None => secure_port b end), (url_text (request_url None (add_socketio_query_params u1))), (add_socketio_query_params u1).
  split. { unfold effective_port. destruct (u_port u); [auto|right; eauto]. }
  split. { replace (port_or_known_default u1) with (Some (match u_port u with Some p => p | None => secure_port b end)); [reflexivity|].
           unfold port_or_known_default, u1. cbn [u_port u_scheme]. destruct (u_port u); [reflexivity|]. destruct b; reflexivity. }
  split; [reflexivity|]. split.
  { intros v. cbn [request_url]. pose proof (url_text_spelled _ Hu1) as S. split; [intros S'; exact (spelled_unique _ _ _ S' S)|intros ->; exact S]. }
  do 6 (split; [first [reflexivity|exact Hh]|]).
  split; [unfold add_socketio_query_params; rewrite !append_pair_pairs, <- app_assoc; reflexivity|].
  clear. subst u1. unfold query_asked. cbn [add_socketio_query_params append_pair u_query]. destruct (u_query u) as [[|c q]|]; try reflexivity.
  rewrite <- !app_assoc. reflexivity.
Qed.
Lemma refused_exactly parsed : (forall u, parsed = Some u -> parsed_ok u) ->
  forall e, (connect_to parsed = Err e <-> refusal parsed e) /\ (from_stream_url parsed = Err e <-> refusal parsed e).
Proof.
  intros H e. destruct parsed as [u|].
  - specialize (H u eq_refl). cbn [refusal]. destruct (web_dec (u_scheme u)) as [[b W]|W].
    + destruct (web_host u b H W) as (c & h & Eh).
      destruct (connecting_exact u b _ H W Eh) as (p & u' & _ & _ & _ & _ & _ & _ & _ & _ & E1 & E2). rewrite E1, E2.
      split; (split; [discriminate|intros [X _]; destruct (X b W)]).
    + unfold connect_to, from_stream_url. rewrite (parse_url_other u W).
      cbn [rmap]. split; (split; [intros [= <-]; split; [exact W|reflexivity]|intros [_ ->]; reflexivity]).
  - cbn. split; (split; [intros [= <-]; reflexivity|intros ->; reflexivity]).
Qed.
