(** What [DESERIALIZE_RE] captures, as a deterministic function. *)
From Verif Require Export BytesProofs Regex.

(** ** The deterministic reading *)
Definition no_nl (s : bytes) : bool := forallb any_no_nl s.
(** A canonical decimal number at the start, if the digits there are one. *)
Definition take_num (s : bytes) : option (bytes * bytes) :=
  let (d, r) := span is_digit s in if canon_dec d then Some (d, r) else None.
(** A bracketed text without newline making up the whole of [s]. *)
Definition bracketed (s : bytes) : bool :=
  match s with
  | c :: r => (c =b "[") && no_nl r && (last r "["%byte =b "]")
  | [] => false
  end.
(** Optional id, optional bracketed arguments, end. *)
Definition parse_tail (s : bytes) : option (option bytes * option bytes) :=
  let id_rest := match take_num s with Some (d, r) => (Some d, r) | None => (None, s) end in
  match snd id_rest with
  | [] => Some (fst id_rest, None)
  | r => if bracketed r then Some (fst id_rest, Some r) else None
  end.
(** Longest [x] without newline such that [s = x ++ "," ++ rest] and [rest] is a tail. *)
Fixpoint ns_find (s : bytes) : option (bytes * (option bytes * option bytes)) :=
  match s with
  | [] => None
  | c :: r =>
      match (if any_no_nl c then ns_find r else None) with
      | Some (x, t) => Some (c :: x, t)
      | None => if c =b "," then match parse_tail r with Some t => Some ([], t) | None => None end else None
      end
  end.
Record hdr := Hdr {
  hd_kind : byte; hd_att : option bytes; hd_ns : option bytes;
  hd_id : option bytes; hd_args : option bytes }.
(** Namespace and tail. *)
Definition parse_ns (s : bytes) : option (option bytes * (option bytes * option bytes)) :=
  match s with
  | c :: d :: r =>
      if (c =b "/") && any_no_nl d then
        match ns_find r with Some (x, t) => Some (Some (c :: d :: x), t) | None => None end
      else match parse_tail s with Some t => Some (None, t) | None => None end
  | _ => match parse_tail s with Some t => Some (None, t) | None => None end
  end.
Definition take_att (s : bytes) : option bytes * bytes :=
  match take_num s with
  | Some (d, c :: r) => if c =b "-" then (Some d, r) else (None, s)
  | _ => (None, s)
  end.
Definition parse_header (t : bytes) : option hdr :=
  match t with
  | c :: s =>
      if existsb (fun d => c =b d) (bs "012356") then
        let (att, r) := take_att s in
        match parse_ns r with
        | Some (ns, (id, args)) => Some (Hdr c att ns id args)
        | None => None
        end
      else None
  | [] => None
  end.

(** ** The matcher on each piece *)
Fixpoint starlist (p : byte -> bool) (pos : nat) (s : bytes) (caps : list (nat * range)) : list mst :=
  match s with
  | c :: r => if p c then starlist p (S pos) r caps ++ [MSt pos s caps] else [MSt pos s caps]
  | [] => [MSt pos s caps]
  end.
Lemma run_star p st : run (XStar (XChar p)) st = starlist p (m_pos st) (m_rest st) (m_caps st).
Proof.
  destruct st as [pos s caps]. cbn [run m_pos m_rest m_caps].
  assert (G : forall s n pos, length s <= n ->
    (fix star (n : nat) (st : mst) {struct n} : list mst :=
       match n with
       | 0 => [st]
       | S n' => flat_map (fun st' => if m_pos st <? m_pos st' then star n' st' else [])
             (match m_rest st with
              | [] => []
              | c :: s0 => if p c then [MSt (S (m_pos st)) s0 (m_caps st)] else []
              end) ++ [st]
       end) n (MSt pos s caps) = starlist p pos s caps).
  { clear s pos. induction s as [|c s IH]; intros n pos Hn.
    - destruct n; reflexivity.
    - destruct n as [|n]; [cbn in Hn; lia|]. cbn [m_pos m_rest m_caps starlist].
      destruct (p c); [|reflexivity]. cbn [flat_map m_pos].
      replace (pos <? S pos) with true by lia. rewrite app_nil_r. f_equal. apply IH. cbn in Hn; lia. }
  apply G. lia.
Qed.

Lemma run_seq a b st : run (XSeq a b) st = flat_map (run b) (run a st).
Proof. reflexivity. Qed.
Lemma run_alt a b st : run (XAlt a b) st = run a st ++ run b st.
Proof. reflexivity. Qed.
Lemma run_opt a st : run (XOpt a) st = run a st ++ [st].
Proof. reflexivity. Qed.
Lemma run_group n a st : run (XGroup n a) st =
  map (fun st' => MSt (m_pos st') (m_rest st') ((n, (m_pos st, m_pos st')) :: m_caps st')) (run a st).
Proof. reflexivity. Qed.
Lemma run_char p st : run (XChar p) st =
  match m_rest st with c :: s => if p c then [MSt (S (m_pos st)) s (m_caps st)] else [] | [] => [] end.
Proof. reflexivity. Qed.
Lemma run_end st : run XEnd st = match m_rest st with [] => [st] | _ => [] end.
Proof. reflexivity. Qed.

(** Successful continuations after a star, longest first. *)
Lemma digits_span_star pos s caps (F : mst -> list mst) :
  (forall pos' c r, is_digit c = true -> F (MSt pos' (c :: r) caps) = []) ->
  flat_map F (starlist is_digit pos s caps) =
  let (d, r) := span is_digit s in F (MSt (pos + length d) r caps).
Proof.
  intros HF. revert pos. induction s as [|c s IH]; intros pos; cbn [starlist span].
  - cbn. rewrite Nat.add_0_r, app_nil_r. reflexivity.
  - destruct (is_digit c) eqn:Ec.
    + rewrite flat_map_app, IH. cbn [flat_map]. rewrite (HF pos c s Ec). rewrite !app_nil_r.
      destruct (span is_digit s) as [d r]. cbn [length]. rewrite Nat.add_succ_r. reflexivity.
    + cbn. rewrite Nat.add_0_r, app_nil_r. reflexivity.
Qed.

Lemma flat_map_map {A B C} (f : A -> B) (g : B -> list C) l : flat_map g (map f l) = flat_map (fun x => g (f x)) l.
Proof. induction l as [|x l IH]; cbn; [reflexivity|]. rewrite IH. reflexivity. Qed.
Lemma flat_map_flat_map {A B C} (f : A -> list B) (g : B -> list C) l :
  flat_map g (flat_map f l) = flat_map (fun x => flat_map g (f x)) l.
Proof. induction l as [|x l IH]; cbn; [reflexivity|]. rewrite flat_map_app, IH. reflexivity. Qed.
Lemma flat_map_ext' {A B} (f g : A -> list B) l : (forall x, f x = g x) -> flat_map f l = flat_map g l.
Proof. intros H. induction l as [|x l IH]; cbn; [reflexivity|]. rewrite H, IH. reflexivity. Qed.

Lemma run_num_then k st (F : mst -> list mst) :
  (forall pos' c r caps', is_digit c = true -> F (MSt pos' (c :: r) caps') = []) ->
  flat_map F (run (rx_num k) st) =
  match take_num (m_rest st) with
  | Some (d, r) => F (MSt (m_pos st + length d) r ((k, (m_pos st, m_pos st + length d)) :: m_caps st))
  | None => []
  end.
Proof.
  intros HF. destruct st as [pos s caps]. unfold rx_num, chr.
  rewrite run_group, run_alt, run_seq, !run_char. cbn [m_pos m_rest m_caps].
  rewrite flat_map_map. rewrite flat_map_app. unfold take_num.
  destruct s as [|c s]; [reflexivity|]. cbn [span].
  destruct (c =b "0") eqn:E0.
  - apply byte_eqb_eq in E0. subst c. change (is_digit "0") with true. change (is_19 "0") with false.
    cbn iota. cbn [flat_map m_pos m_rest m_caps]. rewrite !app_nil_r.
    destruct s as [|c s]; [cbn; rewrite Nat.add_1_r; reflexivity|]. cbn [span].
    destruct (is_digit c) eqn:Ec.
    + destruct (span is_digit s) as [d r]. cbn [canon_dec]. rewrite byte_eqb_refl. apply HF. exact Ec.
    + cbn [canon_dec]. rewrite byte_eqb_refl. cbn [length]. rewrite Nat.add_1_r. reflexivity.
  - unfold is_19. rewrite E0. cbn [negb]. rewrite andb_true_r.
    cbn [flat_map app]. destruct (is_digit c) eqn:Ec.
    + cbn [flat_map]. rewrite app_nil_r. rewrite run_star. cbn [m_pos m_rest m_caps].
      rewrite digits_span_star by (intros; apply HF; assumption).
      destruct (span is_digit s) as [d r] eqn:Es. unfold canon_dec. rewrite E0.
      assert (Hd : forallb is_digit (c :: d) = true).
      { cbn. rewrite Ec. eapply span_all; eauto. }
      rewrite Hd. cbn [length m_pos m_rest m_caps]. rewrite Nat.add_succ_r. reflexivity.
    + cbn [flat_map]. reflexivity.
Qed.

(** Bracketed arguments. *)
Lemma last_cons_app (r : bytes) d x : last (r ++ [x]) d = x.
Proof. apply last_last. Qed.
Definition after_star_bracket (p0 : nat) (st : mst) : list mst :=
  match m_rest st with
  | [c] => if c =b "]" then [MSt (S (m_pos st)) [] ((7, (p0, S (m_pos st))) :: m_caps st)] else []
  | _ => []
  end.
Lemma star_bracket caps p0 s : forall pos,
  flat_map (after_star_bracket p0) (starlist any_no_nl pos s caps) =
  if no_nl s && (last s "["%byte =b "]")
  then [MSt (pos + length s) [] ((7, (p0, pos + length s)) :: caps)] else [].
Proof.
  induction s as [|c s IH]; intros pos.
  - cbn [starlist flat_map]. unfold after_star_bracket. cbn [m_rest]. change (last [] "["%byte) with "["%byte.
    rewrite andb_false_r. reflexivity.
  - cbn [starlist no_nl forallb]. fold (no_nl s). destruct (any_no_nl c) eqn:Ec; cbn [andb].
    + rewrite flat_map_app, IH. cbn [flat_map]. rewrite app_nil_r. destruct s as [|d s].
      * cbn [no_nl forallb last]. change ("[" =b "]") with false. cbn [andb app].
        unfold after_star_bracket. cbn [m_rest m_pos m_caps length]. rewrite Nat.add_1_r. reflexivity.
      * unfold after_star_bracket at 1. cbn [m_rest]. rewrite app_nil_r.
        change (last (c :: d :: s) "["%byte) with (last (d :: s) "["%byte).
        cbn [length]. rewrite !Nat.add_succ_r. reflexivity.
    + cbn [flat_map]. unfold after_star_bracket. cbn [m_rest m_pos]. destruct s as [|d s]; [|reflexivity].
      destruct (c =b "]") eqn:E; [|reflexivity]. apply byte_eqb_eq in E. subst c. discriminate.
Qed.

Definition rx_args : rx := XSeq (XOpt (XGroup 7 (XSeq (chr "[") (XSeq (XStar (XChar any_no_nl)) (chr "]"))))) XEnd.
Lemma run_args st : run rx_args st =
  match m_rest st with
  | [] => [st]
  | r => if bracketed r then
           [MSt (m_pos st + length r) [] ((7, (m_pos st, m_pos st + length r)) :: m_caps st)] else []
  end.
Proof.
  destruct st as [pos s caps]. unfold rx_args, chr.
  rewrite run_seq, run_opt, run_group, !run_seq, run_char. rewrite flat_map_app.
  cbn [flat_map m_pos m_rest m_caps]. rewrite app_nil_r, run_end. cbn [m_rest].
  destruct s as [|c s]; [reflexivity|]. rewrite app_nil_r. unfold bracketed.
  destruct (c =b "[") eqn:Ec; [|reflexivity]. cbn [andb].
  cbn [flat_map]. rewrite app_nil_r. rewrite run_seq, run_star. cbn [m_pos m_rest m_caps].
  rewrite flat_map_map, flat_map_flat_map.
  rewrite (flat_map_ext' _ (after_star_bracket pos)).
  - rewrite star_bracket. cbn [length]. rewrite Nat.add_succ_r. reflexivity.
  - intros [p' r' c']. unfold after_star_bracket. cbn [m_rest m_pos m_caps].
    rewrite run_char. cbn [m_rest m_pos m_caps].
    destruct r' as [|d r']; [reflexivity|]. destruct (d =b "]"); [|destruct r'; reflexivity].
    destruct r'; reflexivity.
Qed.

Definition rx_tail : rx := XSeq (XOpt (rx_num 6)) rx_args.
Lemma args_no_digit pos c r caps : is_digit c = true -> run rx_args (MSt pos (c :: r) caps) = [].
Proof.
  intros H. rewrite run_args. cbn [m_rest]. unfold bracketed.
  destruct (c =b "[") eqn:E; [|reflexivity]. apply byte_eqb_eq in E. subst. discriminate.
Qed.
Definition opt_range (p : nat) (o : option bytes) : option range :=
  option_map (fun d => (p, p + length d)) o.
Definition olen (o : option bytes) : nat := match o with Some d => length d | None => 0 end.
Definition push_cap (n : nat) (o : option range) (caps : list (nat * range)) : list (nat * range) :=
  match o with Some r => (n, r) :: caps | None => caps end.

Lemma take_num_some s d r : take_num s = Some (d, r) ->
  s = d ++ r /\ canon_dec d = true /\ match r with c :: _ => is_digit c = false | [] => True end.
Proof.
  unfold take_num. destruct (span is_digit s) as [d' r'] eqn:E. destruct (canon_dec d') eqn:C; [|discriminate].
  intros [= <- <-]. repeat split; [eapply span_app; eauto | exact C | eapply span_stop in E; destruct r'; auto].
Qed.
Lemma take_num_none s : take_num s = None ->
  match s with [] => True | c :: _ => is_digit c = true -> c = "0"%byte /\ exists d r, s = c :: d :: r /\ is_digit d = true end.
Proof.
  unfold take_num. destruct s as [|c s]; [trivial|]. cbn [span]. intros H Hc. rewrite Hc in H.
  destruct (span is_digit s) as [d' r'] eqn:E. unfold canon_dec in H.
  destruct (c =b "0") eqn:E0.
  - apply byte_eqb_eq in E0. split; [exact E0|]. destruct d' as [|x d']; [discriminate|].
    pose proof (span_app _ _ _ _ E) as Ha. pose proof (span_all _ _ _ _ E) as Hd. cbn in Hd.
    apply andb_true_iff in Hd as [Hx _]. subst s. cbn [app]. eauto.
  - assert (Hd : forallb is_digit (c :: d') = true) by (cbn; rewrite Hc; eapply span_all; eauto).
    rewrite Hd in H. discriminate.
Qed.

Lemma run_tail st : run rx_tail st =
  match parse_tail (m_rest st) with
  | Some (id, args) =>
      let p1 := m_pos st + olen id in
      [MSt (p1 + olen args) [] (push_cap 7 (opt_range p1 args) (push_cap 6 (opt_range (m_pos st) id) (m_caps st)))]
  | None => []
  end.
Proof.
  destruct st as [pos s caps]. unfold rx_tail. rewrite run_seq, run_opt, flat_map_app.
  rewrite run_num_then by (intros; apply args_no_digit; assumption). cbn [m_pos m_rest m_caps flat_map].
  rewrite app_nil_r. unfold parse_tail.
  destruct (take_num s) as [[d r]|] eqn:E; cbn [fst snd].
  - pose proof (take_num_some _ _ _ E) as (Hs & Hc & Hr).
    assert (Z : run rx_args (MSt pos s caps) = []).
    { destruct d as [|c d]; [discriminate|]. apply canon_dec_digits in Hc. cbn in Hc.
      apply andb_true_iff in Hc as [Hc _]. subst s. apply args_no_digit. exact Hc. }
    rewrite Z, app_nil_r. rewrite run_args. cbn [m_pos m_rest m_caps].
    destruct r as [|c r]; [cbn; rewrite Nat.add_0_r; reflexivity|].
    destruct (bracketed (c :: r)); reflexivity.
  - rewrite run_args. cbn [m_pos m_rest m_caps app].
    destruct s as [|c r]; [cbn; rewrite !Nat.add_0_r; reflexivity|].
    destruct (bracketed (c :: r)); [cbn; rewrite !Nat.add_0_r|]; reflexivity.
Qed.

(** ** Namespace *)
Definition rx_ns : rx :=
  XGroup 4 (XSeq (XGroup 5 (XSeq (chr "/") (XSeq (XChar any_no_nl) (XStar (XChar any_no_nl))))) (chr ",")).
Definition after_ns (p0 : nat) (st : mst) : list mst :=
  match m_rest st with
  | c :: r => if c =b "," then
                run rx_tail (MSt (S (m_pos st)) r ((4, (p0, S (m_pos st))) :: (5, (p0, m_pos st)) :: m_caps st))
              else []
  | [] => []
  end.
Lemma hd_app {A} (l m : list A) : hd_error (l ++ m) = match hd_error l with Some x => Some x | None => hd_error m end.
Proof. destruct l; reflexivity. Qed.
Lemma hd_single {A} (x : A) : hd_error [x] = Some x.
Proof. reflexivity. Qed.

Definition tail_state (pos : nat) (id args : option bytes) (caps : list (nat * range)) : mst :=
  MSt (pos + olen id + olen args) []
      (push_cap 7 (opt_range (pos + olen id) args) (push_cap 6 (opt_range pos id) caps)).

Lemma star_ns p0 caps s : forall pos,
  hd_error (flat_map (after_ns p0) (starlist any_no_nl pos s caps)) =
  match ns_find s with
  | Some (x, (id, args)) =>
      let q := pos + length x in
      Some (tail_state (S q) id args ((4, (p0, S q)) :: (5, (p0, q)) :: caps))
  | None => None
  end.
Proof.
  assert (A : forall c s pos, hd_error (flat_map (after_ns p0) [MSt pos (c :: s) caps]) =
    match (if c =b "," then match parse_tail s with Some t => Some t | None => None end else None) with
    | Some (id, args) => Some (tail_state (S pos) id args ((4, (p0, S pos)) :: (5, (p0, pos)) :: caps))
    | None => None
    end).
  { intros c s' pos. cbn [flat_map]. rewrite app_nil_r. unfold after_ns. cbn [m_rest m_pos m_caps].
    destruct (c =b ","); [|reflexivity]. rewrite run_tail. cbn [m_rest m_pos m_caps].
    destruct (parse_tail s') as [[id args]|]; reflexivity. }
  induction s as [|c s IH]; intros pos; [reflexivity|].
  cbn [starlist ns_find]. destruct (any_no_nl c).
  - rewrite flat_map_app, hd_app, IH. destruct (ns_find s) as [[x [id args]]|].
    + cbn [length]. rewrite Nat.add_succ_r. reflexivity.
    + rewrite A. destruct (c =b ","); [|reflexivity]. destruct (parse_tail s) as [[id args]|]; [|reflexivity].
      cbn [length]. rewrite Nat.add_0_r. reflexivity.
  - rewrite A. destruct (c =b ","); [|reflexivity]. destruct (parse_tail s) as [[id args]|]; [|reflexivity].
    cbn [length]. rewrite Nat.add_0_r. reflexivity.
Qed.

Definition rx_nstail : rx := XSeq (XOpt rx_ns) rx_tail.
Definition nslen (o : option bytes) : nat := match o with Some d => S (length d) | None => 0 end.
Definition ns_caps (p : nat) (o : option bytes) (caps : list (nat * range)) : list (nat * range) :=
  match o with
  | Some d => (4, (p, S (p + length d))) :: (5, (p, p + length d)) :: caps
  | None => caps
  end.
Lemma tail_slash r : parse_tail ("/"%byte :: r) = None.
Proof. reflexivity. Qed.
Lemma run_nstail st : hd_error (run rx_nstail st) =
  match parse_ns (m_rest st) with
  | Some (ns, (id, args)) =>
      Some (tail_state (m_pos st + nslen ns) id args (ns_caps (m_pos st) ns (m_caps st)))
  | None => None
  end.
Proof.
  destruct st as [pos s caps]. cbn [m_pos m_rest m_caps].
  unfold rx_nstail. rewrite run_seq, run_opt, flat_map_app, hd_app.
  cbn [flat_map]. rewrite app_nil_r, run_tail. cbn [m_pos m_rest m_caps].
  unfold rx_ns, chr. rewrite run_group, run_seq, run_group, !run_seq, run_char. cbn [m_pos m_rest m_caps].
  assert (T : hd_error (match parse_tail s with
      | Some (id, args) => [MSt (pos + olen id + olen args) []
            (push_cap 7 (opt_range (pos + olen id) args) (push_cap 6 (opt_range pos id) caps))]
      | None => [] end) =
      match match parse_tail s with Some t => Some (@None bytes, t) | None => None end with
      | Some (ns, (id, args)) => Some (tail_state (pos + nslen ns) id args (ns_caps pos ns caps))
      | None => None end).
  { destruct (parse_tail s) as [[id args]|]; [|reflexivity]. cbn. rewrite Nat.add_0_r. reflexivity. }
  unfold parse_ns. destruct s as [|c s]; [cbn [map flat_map hd_error]; exact T|].
  destruct (c =b "/") eqn:Ec.
  2: { cbn [map flat_map hd_error]. destruct s; exact T. }
  apply byte_eqb_eq in Ec. subst c. rewrite tail_slash in *. cbn [flat_map]. rewrite app_nil_r.
  rewrite run_seq, run_char. cbn [m_pos m_rest m_caps].
  destruct s as [|d s]; [reflexivity|]. cbn [andb].
  destruct (any_no_nl d) eqn:Ed; [|reflexivity].
  cbn [flat_map]. rewrite app_nil_r, run_star. cbn [m_pos m_rest m_caps].
  rewrite flat_map_map. rewrite !flat_map_map, flat_map_flat_map.
  rewrite (flat_map_ext' _ (after_ns pos)).
  2: { intros [p' r' c']. rewrite run_char. unfold after_ns. cbn [m_pos m_rest m_caps].
       destruct r' as [|e r']; [reflexivity|]. destruct (e =b ","); [|reflexivity].
       cbn [flat_map m_pos m_rest m_caps]. rewrite app_nil_r. reflexivity. }
  rewrite star_ns. destruct (ns_find s) as [[x [id args]]|]; [|reflexivity].
  cbn [nslen ns_caps length]. f_equal.
  replace (S (S (S (pos)) + length x)) with (pos + S (S (S (length x)))) by lia.
  replace (S (S pos) + length x) with (pos + S (S (length x))) by lia.
  replace (S (pos + S (S (length x)))) with (pos + S (S (S (length x)))) by lia. reflexivity.
Qed.

(** ** The whole expression *)
Definition hdr_caps (h : hdr) : list (nat * range) :=
  let p1 := 1 in
  let c1 := [(1, (0, 1))] in
  let c2 := match hd_att h with
            | Some d => (2, (p1, S (p1 + length d))) :: (3, (p1, p1 + length d)) :: c1 | None => c1 end in
  let p2 := p1 + nslen (hd_att h) in
  let c3 := ns_caps p2 (hd_ns h) c2 in
  let p3 := p2 + nslen (hd_ns h) in
  push_cap 7 (opt_range (p3 + olen (hd_id h)) (hd_args h)) (push_cap 6 (opt_range p3 (hd_id h)) c3).

Lemma nstail_head pos c r caps : c <> "/"%byte -> c <> "["%byte -> is_digit c = false ->
  run rx_nstail (MSt pos (c :: r) caps) = [].
Proof.
  intros H1 H2 H3. apply byte_eqb_neq in H1, H2.
  assert (E : hd_error (run rx_nstail (MSt pos (c :: r) caps)) = None).
  { rewrite run_nstail. cbn [m_rest]. unfold parse_ns. rewrite H1. cbn [andb].
    assert (T : parse_tail (c :: r) = None).
    { unfold parse_tail, take_num. cbn [span]. rewrite H3. cbn [canon_dec fst snd bracketed]. rewrite H2. reflexivity. }
    rewrite T. destruct r; reflexivity. }
  destruct (run rx_nstail _); [reflexivity|discriminate].
Qed.
Lemma nstail_digit_dash d r pos caps : forallb is_digit d = true -> d <> [] ->
  hd_error (run rx_nstail (MSt pos (d ++ "-"%byte :: r) caps)) = None.
Proof.
  intros Hd Hn. rewrite run_nstail. cbn [m_rest].
  assert (T : parse_tail (d ++ "-"%byte :: r) = None).
  { unfold parse_tail, take_num. rewrite span_make by (exact Hd || reflexivity).
    destruct (canon_dec d); cbn [fst snd]; [reflexivity|].
    destruct d as [|c d]; [congruence|]. cbn [app]. unfold bracketed.
    destruct (c =b "[") eqn:E; [|reflexivity]. apply byte_eqb_eq in E. subst. discriminate. }
  unfold parse_ns. destruct d as [|c d]; [congruence|]. cbn [app] in *.
  assert (Hc : (c =b "/") = false).
  { apply byte_eqb_neq. intros ->. discriminate. }
  rewrite Hc, T. cbn [andb]. destruct (d ++ _); reflexivity.
Qed.

Lemma re_captures t : captures DESERIALIZE_RE t = option_map hdr_caps (parse_header t).
Proof.
  assert (N : forall pos s, run DESERIALIZE_RE (MSt (S pos) s []) = []) by reflexivity.
  assert (NS : forall s pos, search_from DESERIALIZE_RE (S pos) s = None).
  { induction s as [|c s IH]; intros pos; cbn [search_from]; rewrite N; auto. }
  assert (S0 : captures DESERIALIZE_RE t = option_map m_caps (hd_error (run DESERIALIZE_RE (MSt 0 t [])))).
  { unfold captures. destruct t as [|c t]; cbn [search_from].
    - destruct (run DESERIALIZE_RE _); reflexivity.
    - destruct (run DESERIALIZE_RE _); [apply NS|reflexivity]. }
  rewrite S0. clear S0 NS N.
  change DESERIALIZE_RE with
    (XSeq XBegin (XSeq (XGroup 1 (one_of (bs "012356")))
       (XSeq (XOpt (XGroup 2 (XSeq (rx_num 3) (chr "-")))) rx_nstail))).
  rewrite run_seq. change (run XBegin (MSt 0 t [])) with [MSt 0 t []]. cbn [flat_map]. rewrite app_nil_r.
  rewrite run_seq, run_group. unfold one_of. rewrite run_char. cbn [m_pos m_rest m_caps].
  unfold parse_header. destruct t as [|c s]; [reflexivity|].
  destruct (existsb _ _); [|reflexivity].
  cbn [map flat_map m_pos m_rest m_caps]. rewrite app_nil_r.
  rewrite run_seq, run_opt, flat_map_app, hd_app, run_group, run_seq. cbn [m_pos m_rest m_caps].
  rewrite flat_map_map.
  cbn [flat_map]. rewrite app_nil_r.
  rewrite flat_map_flat_map.
  rewrite run_num_then.
  2: { intros pos' c' r' caps' Hc. unfold chr. rewrite run_char. cbn [m_rest m_pos m_caps].
       destruct (c' =b "-") eqn:E; [|reflexivity]. apply byte_eqb_eq in E. subst. discriminate. }
  cbn [m_pos m_rest m_caps]. unfold take_att.
  assert (NONE : hd_error (run rx_nstail (MSt 1 s [(1, (0, 1))])) =
    match parse_ns s with
    | Some (ns, (id, args)) => Some (tail_state (1 + nslen ns) id args (ns_caps 1 ns [(1, (0, 1))]))
    | None => None end) by (rewrite run_nstail; reflexivity).
  assert (NONE' : option_map m_caps (hd_error (run rx_nstail (MSt 1 s [(1, (0, 1))]))) =
    option_map hdr_caps match parse_ns s with
      | Some (ns, (id, args)) => Some (Hdr c None ns id args) | None => None end).
  { rewrite NONE. destruct (parse_ns s) as [[ns [id args]]|]; reflexivity. }
  destruct (take_num s) as [[d r]|] eqn:E; [|exact NONE'].
  unfold chr. rewrite run_char. cbn [m_rest m_pos m_caps].
  destruct r as [|x r]; [exact NONE'|]. destruct (x =b "-") eqn:Ex; [|exact NONE'].
  apply byte_eqb_eq in Ex. subst x. cbn [flat_map m_pos m_rest m_caps]. rewrite app_nil_r.
  apply take_num_some in E as (Es & Hc & _).
  assert (Hd : forallb is_digit d = true) by (apply canon_dec_digits; exact Hc).
  assert (Hn : d <> []) by (intros ->; discriminate).
  rewrite Es. rewrite (nstail_digit_dash d r 1 _ Hd Hn).
  rewrite run_nstail. cbn [m_rest m_pos m_caps].
  destruct (parse_ns r) as [[ns [id args]]|]; [|reflexivity].
  cbn [option_map]. unfold hdr_caps, tail_state. cbn [m_caps hd_att hd_ns hd_id hd_args nslen].
  replace (1 + S (length d)) with (S (1 + length d)) by lia. reflexivity.
Qed.
