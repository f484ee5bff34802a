(** [deserialize] and [deserialize_partial] against [accepts]. *)
From Verif Require Export HeaderProofs.

Definition count_text (w : wire) : bytes := opt_text (fun n => dec n ++ bs "-") (w_count w).
Definition ns_start (w : wire) : nat := 1 + length (count_text w).
Definition ns_range (w : wire) : option range :=
  option_map (fun x => (ns_start w, ns_start w + length x)) (w_ns w).
Definition id_start (w : wire) : nat := ns_start w + length (opt_text (fun x => x ++ bs ",") (w_ns w)).
Definition args_start (w : wire) : nat := id_start w + length (opt_text dec (w_id w)).
Definition opt_u64 (o : option N) : res serror (option N) :=
  match o with Some n => if (n <=? u64_max)%N then Ok (Some n) else Panic | None => Ok None end.
Definition shift (s : nat) (r : range) : range := (fst r + s, snd r + s).

Lemma slice_mid (x y z t : bytes) a b : t = x ++ y ++ z -> a = length x -> b = length x + length y -> slice a b t = y.
Proof. intros -> -> ->. apply slice_app_mid. Qed.

Lemma caps_1 h : cap_get 1 (hdr_caps h) = Some (0, 1).
Proof. destruct h as [k [a|] [ns|] [id|] [ar|]]; reflexivity. Qed.
Lemma caps_3 h : cap_get 3 (hdr_caps h) = option_map (fun d => (1, 1 + length d)) (hd_att h).
Proof. destruct h as [k [a|] [ns|] [id|] [ar|]]; reflexivity. Qed.
Lemma caps_5 h : cap_get 5 (hdr_caps h) =
  option_map (fun d => (1 + nslen (hd_att h), 1 + nslen (hd_att h) + length d)) (hd_ns h).
Proof. destruct h as [k [a|] [ns|] [id|] [ar|]]; reflexivity. Qed.
Lemma caps_6 h : cap_get 6 (hdr_caps h) =
  option_map (fun d => (1 + nslen (hd_att h) + nslen (hd_ns h),
                        1 + nslen (hd_att h) + nslen (hd_ns h) + length d)) (hd_id h).
Proof. destruct h as [k [a|] [ns|] [id|] [ar|]]; reflexivity. Qed.
Lemma caps_7 h : cap_get 7 (hdr_caps h) =
  option_map (fun d => (1 + nslen (hd_att h) + nslen (hd_ns h) + olen (hd_id h),
                        1 + nslen (hd_att h) + nslen (hd_ns h) + olen (hd_id h) + length d)) (hd_args h).
Proof. destruct h as [k [a|] [ns|] [id|] [ar|]]; reflexivity. Qed.

Lemma count_len w : nslen (option_map dec (w_count w)) = length (count_text w).
Proof.
  unfold count_text. destruct (w_count w) as [n|]; [|reflexivity]. cbn [option_map nslen opt_text].
  rewrite app_length. cbn. lia.
Qed.
Lemma ns_len w : nslen (w_ns w) = length (opt_text (fun x => x ++ bs ",") (w_ns w)).
Proof.
  destruct (w_ns w) as [n|]; [|reflexivity]. cbn [nslen opt_text]. rewrite app_length. cbn. lia.
Qed.
Lemma id_len w : olen (option_map dec (w_id w)) = length (opt_text dec (w_id w)).
Proof. destruct (w_id w); reflexivity. Qed.

Definition parsed (text : subslice_t) (w : wire) : res serror parse :=
  rbind (opt_u64 (w_count w)) (fun att =>
  rbind (opt_u64 (w_id w)) (fun id =>
  rbind (match w_args w with
         | Some a => rmap (map (shift (args_start w))) (parse_args a)
         | None => Ok []
         end) (fun args =>
  Ok (Parse text (w_kind w) att (ns_range w) id args)))).

Lemma cap_u64_dec t n a b : slice a b t = dec n -> cap_u64 t (Some (a, b)) = opt_u64 (Some n).
Proof.
  intros H. cbn [cap_u64 opt_u64]. rewrite H. unfold parse_u64. rewrite undec_dec.
  destruct (n <=? u64_max)%N; reflexivity.
Qed.

Lemma parse_text_reads text t w : sub_deref_str text = Some t -> reads_as t w -> parse_text text = parsed text w.
Proof.
  intros Hd Hr. pose proof Hr as Hr'. apply reads_as_header in Hr. destruct Hr' as (Et & _).
  unfold parse_text. rewrite Hd, re_captures, Hr. cbn [option_map].
  rewrite caps_1, caps_3, caps_5, caps_6, caps_7. cbn [hdr_of hd_att hd_ns hd_id hd_args].
  rewrite count_len, ns_len, id_len. fold (ns_start w). fold (id_start w). fold (args_start w).
  assert (E0 : slice 0 1 t = [type_digit (w_kind w)]) by (rewrite Et; reflexivity).
  rewrite E0, kind_of_type_digit. unfold parsed.
  assert (E1 : cap_u64 t (option_map (fun d => (1, 1 + length d)) (option_map dec (w_count w))) = opt_u64 (w_count w)).
  { destruct (w_count w) as [n|] eqn:Ec; [|reflexivity]. cbn [option_map]. apply cap_u64_dec.
    apply (slice_mid [type_digit (w_kind w)] (dec n) (bs "-" ++ opt_text (fun x => x ++ bs ",") (w_ns w)
      ++ opt_text dec (w_id w) ++ opt_text (fun a => a) (w_args w))); [|reflexivity|reflexivity].
    rewrite Et. unfold wire_text. rewrite Ec. cbn [opt_text]. rewrite <- !app_assoc. reflexivity. }
  rewrite E1. destruct (opt_u64 (w_count w)) as [att| |]; cbn [rbind]; try reflexivity.
  assert (E2 : cap_u64 t (option_map (fun d => (id_start w, id_start w + length d)) (option_map dec (w_id w))) = opt_u64 (w_id w)).
  { destruct (w_id w) as [n|] eqn:Ec; [|reflexivity]. cbn [option_map]. apply cap_u64_dec.
    apply (slice_mid (type_digit (w_kind w) :: count_text w ++ opt_text (fun x => x ++ bs ",") (w_ns w)) (dec n)
             (opt_text (fun a => a) (w_args w))).
    - rewrite Et. unfold wire_text. rewrite Ec. cbn [opt_text]. rewrite <- app_comm_cons, <- !app_assoc. reflexivity.
    - cbn [length]. rewrite app_length. unfold id_start, ns_start. lia.
    - cbn [length]. rewrite app_length. unfold id_start, ns_start. lia. }
  rewrite E2. destruct (opt_u64 (w_id w)) as [id| |]; cbn [rbind]; try reflexivity.
  assert (E3 : forall a, w_args w = Some a -> slice (args_start w) (args_start w + length a) t = a).
  { intros a Ea.
    apply (slice_mid (type_digit (w_kind w) :: count_text w ++ opt_text (fun x => x ++ bs ",") (w_ns w) ++ opt_text dec (w_id w)) a []).
    - rewrite Et. unfold wire_text. rewrite Ea. cbn [opt_text]. rewrite app_nil_r, <- app_comm_cons, <- !app_assoc. reflexivity.
    - cbn [length]. rewrite !app_length. unfold args_start, id_start, ns_start. lia.
    - cbn [length]. rewrite !app_length. unfold args_start, id_start, ns_start. lia. }
  destruct (w_args w) as [a|] eqn:Ea; cbn [option_map]; [|reflexivity].
  rewrite (E3 a eq_refl). reflexivity.
Qed.
Lemma parse_text_invalid text t : sub_deref_str text = Some t -> parse_header t = None ->
  parse_text text = Err (SInvalidMessage t).
Proof. intros Hd Hn. unfold parse_text. rewrite Hd, re_captures, Hn. reflexivity. Qed.

(** Ranges of a good reading lie on character boundaries. *)
Lemma on_char_boundary D i : on_char D i -> is_boundary D i = true.
Proof. intros (c & H & Hc). unfold is_boundary. rewrite H, Hc. apply orb_true_r. Qed.
Lemma on_char_shift p D q i : on_char D i -> on_char (p ++ D ++ q) (i + length p).
Proof.
  intros (c & H & Hc). exists c. split; [|exact Hc].
  assert (i < length D) by (apply nth_error_Some; congruence).
  rewrite nth_error_app2 by lia. rewrite nth_error_app1 by lia.
  replace (i + length p - length p) with i by lia. exact H.
Qed.
Lemma slice_shift p D q a b : b <= length D -> slice (a + length p) (b + length p) (p ++ D ++ q) = slice a b D.
Proof.
  intros H. unfold slice. replace (b + length p - (a + length p)) with (b - a) by lia.
  rewrite <- skipn_skipn. rewrite (skipn_app (length p)), skipn_all, Nat.sub_diag. cbn [skipn app].
  rewrite skipn_app, firstn_app.
  replace (b - a - length (skipn a D)) with 0 by (rewrite skipn_length; lia). cbn [firstn]. apply app_nil_r.
Qed.
Lemma good_str_slice p D q r : good_range D r -> str_slice (p ++ D ++ q) (shift (length p) r) = Some (cut D r).
Proof.
  intros (Hb & H1 & H2). unfold str_slice, shift. cbn [fst snd].
  rewrite (on_char_boundary _ _ (on_char_shift p D q _ H1)), (on_char_boundary _ _ (on_char_shift p D q _ H2)).
  rewrite !app_length.
  replace (fst r + length p <=? snd r + length p) with true by lia.
  replace (snd r + length p <=? length p + (length D + length q)) with true by lia. cbn [andb].
  f_equal. apply slice_shift. lia.
Qed.

(** Reading the arguments back through [Args]. *)
Lemma args_get_good t rs atts ts : Forall2 (fun r x => str_slice t r = Some x) rs ts ->
  forall i, args_get (Args t rs atts) i = Ok (option_map (fun x => Arg x atts) (nth_error ts i)).
Proof.
  intros H i. unfold args_get. cbn [a_ranges a_message a_attachments].
  revert i. induction H as [|r x rs ts Hx H IH]; intros [|i]; cbn; try reflexivity.
  - rewrite Hx. reflexivity.
  - apply IH.
Qed.
Lemma args_iter_from_good a ts atts : (forall i, args_get a i = Ok (option_map (fun x => Arg x atts) (nth_error ts i))) ->
  forall k i, length ts - i <= k -> args_iter_from (S k) a i = Ok (map (fun x => Arg x atts) (skipn i ts)).
Proof.
  intros H. induction k as [|k IH]; intros i Hk.
  - cbn [args_iter_from]. rewrite H. rewrite (proj2 (nth_error_None ts i)) by lia. cbn.
    rewrite skipn_all2 by lia. reflexivity.
  - cbn [args_iter_from]. rewrite H. destruct (nth_error ts i) as [x|] eqn:E; cbn [option_map].
    + assert (i < length ts) by (apply nth_error_Some; congruence).
      change (rmap (cons (Arg x atts)) (args_iter_from (S k) a (S i)) = Ok (map (fun x => Arg x atts) (skipn i ts))).
      rewrite IH by lia. cbn [rmap]. f_equal.
      assert (G : skipn i ts = x :: skipn (S i) ts).
      { clear -E. revert ts E. induction i as [|i IH]; intros ts E; destruct ts as [|y ts]; try discriminate.
        - cbn in *. injection E as ->. reflexivity.
        - cbn in *. apply IH. exact E. }
      rewrite G. reflexivity.
    + apply nth_error_None in E. rewrite skipn_all2 by lia. reflexivity.
Qed.
Lemma Forall2_len {A B} (R : A -> B -> Prop) l m : Forall2 R l m -> length l = length m.
Proof. induction 1; cbn; congruence. Qed.
Lemma args_iter_good t rs atts ts : Forall2 (fun r x => str_slice t r = Some x) rs ts ->
  args_iter (Args t rs atts) = Ok (map (fun x => Arg x atts) ts).
Proof.
  intros H. unfold args_iter, args_len. cbn [a_ranges].
  rewrite (args_iter_from_good _ ts atts (args_get_good _ _ _ _ H)); [reflexivity|].
  apply Forall2_len in H. lia.
Qed.

(** What a successful parse establishes. *)
Definition parsed_ok (t : bytes) (w : wire) (ts : list bytes) (q : parse) : Prop :=
  sub_deref_str (pa_message q) = Some t /\ pa_kind q = w_kind w /\ pa_attachments q = w_count w /\
  pa_id q = w_id w /\
  match w_ns w, pa_namespace q with
  | None, None => True | Some x, Some r => str_slice t r = Some x | _, _ => False end /\
  Forall2 (fun r x => str_slice t r = Some x) (pa_args q) ts.

Lemma too_big_dec o : too_big o \/ ~ too_big o.
Proof.
  destruct o as [n|]; [|right; intros (m & [=] & _)].
  destruct (N.leb_spec n u64_max); [right; intros (m & [= <-] & ?); lia | left; exists n; split; [reflexivity|lia]].
Qed.
Lemma opt_u64_ok o : ~ too_big o -> opt_u64 o = Ok o.
Proof.
  intros H. destruct o as [n|]; [|reflexivity]. cbn. destruct (N.leb_spec n u64_max); [reflexivity|].
  exfalso. apply H. exists n. split; [reflexivity|lia].
Qed.
Lemma opt_u64_panic o : too_big o -> opt_u64 o = Panic.
Proof. intros (n & -> & H). cbn. replace (n <=? u64_max)%N with false by lia. reflexivity. Qed.
Lemma opt_u64_cases o : opt_u64 o = Ok o \/ opt_u64 o = Panic.
Proof. destruct (too_big_dec o); [right; apply opt_u64_panic | left; apply opt_u64_ok]; assumption. Qed.

Lemma ns_slice t w : reads_as t w ->
  match w_ns w, ns_range w with
  | None, None => True | Some x, Some r => str_slice t r = Some x | _, _ => False end.
Proof.
  intros (Et & [Hns _] & _). unfold ns_range. destruct (w_ns w) as [x|] eqn:E; cbn [option_map]; [|exact I].
  destruct (Hns x eq_refl) as [(c & r & Ex) _].
  set (p := type_digit (w_kind w) :: count_text w).
  set (q := opt_text dec (w_id w) ++ opt_text (fun a => a) (w_args w)).
  assert (Et' : t = p ++ x ++ ","%byte :: q).
  { rewrite Et. unfold wire_text, p, q. rewrite E. cbn [opt_text].
    rewrite <- app_comm_cons, <- !app_assoc. reflexivity. }
  assert (Hp : ns_start w = length p) by reflexivity.
  unfold str_slice. cbn [fst snd]. rewrite Hp.
  assert (B1 : is_boundary t (length p) = true).
  { apply on_char_boundary. rewrite Et', Ex. cbn [app]. apply on_char_app. reflexivity. }
  assert (B2 : is_boundary t (length p + length x) = true).
  { apply on_char_boundary. rewrite Et', app_assoc, <- app_length. apply on_char_app. reflexivity. }
  rewrite B1, B2. rewrite Et' at 1. rewrite !app_length. cbn [length].
  replace (length p <=? length p + length x) with true by lia.
  replace (length p + length x <=? length p + (length x + S (length q))) with true by lia. cbn [andb].
  f_equal. apply (slice_mid p x (","%byte :: q)); auto.
Qed.
Lemma args_slices t w a l : reads_as t w -> w_args w = Some a -> raw_array_ranges a = Some l ->
  Forall2 (fun r x => str_slice t r = Some x) (map (shift (args_start w)) l) (map (cut a) l).
Proof.
  intros (Et & _ & _) Ea Hl. apply raw_array_ranges_sound in Hl as [_ HF].
  set (p := type_digit (w_kind w) :: count_text w ++ opt_text (fun x => x ++ bs ",") (w_ns w) ++ opt_text dec (w_id w)).
  assert (Et' : t = p ++ a ++ []).
  { rewrite Et. unfold wire_text, p. rewrite Ea. cbn [opt_text].
    rewrite app_nil_r, <- app_comm_cons, <- !app_assoc. reflexivity. }
  assert (Hp : args_start w = length p).
  { unfold p. cbn [length]. rewrite !app_length. unfold args_start, id_start, ns_start. lia. }
  rewrite Hp, Et'. clear -HF. induction HF as [|r l Hr HF IH]; cbn [map]; constructor; [|exact IH].
  apply good_str_slice. exact Hr.
Qed.

(** The three possible results of [parse_text] on a text that reads as [w]. *)
Lemma parse_text_cases text t w : sub_deref_str text = Some t -> reads_as t w ->
  ((too_big (w_count w) \/ too_big (w_id w)) /\ parse_text text = Panic) \/
  (~ too_big (w_count w) /\ ~ too_big (w_id w) /\
   ((exists a, w_args w = Some a /\ (forall ts, ~ jarray ts a) /\ parse_text text = Err (SInvalidDataJson a)) \/
    (exists ts q, elements (w_args w) ts /\ parse_text text = Ok q /\ parsed_ok t w ts q))).
Proof.
  intros Hd Hr. rewrite (parse_text_reads text t w Hd Hr). unfold parsed.
  destruct (too_big_dec (w_count w)) as [Hc|Hc].
  { left. split; [auto|]. rewrite opt_u64_panic by exact Hc. reflexivity. }
  rewrite (opt_u64_ok _ Hc). cbn [rbind].
  destruct (too_big_dec (w_id w)) as [Hi|Hi].
  { left. split; [auto|]. rewrite opt_u64_panic by exact Hi. reflexivity. }
  rewrite (opt_u64_ok _ Hi). cbn [rbind]. right. split; [exact Hc|]. split; [exact Hi|].
  pose proof (ns_slice t w Hr) as Hns.
  destruct (w_args w) as [a|] eqn:Ea.
  - unfold parse_args. destruct (raw_array_ranges a) as [l|] eqn:El; cbn [rmap rbind].
    + right. exists (map (cut a) l). eexists. split; [apply raw_array_ranges_sound; exact El|].
      split; [reflexivity|]. unfold parsed_ok. cbn [pa_message pa_kind pa_attachments pa_id pa_namespace pa_args].
      repeat split; auto. apply args_slices; assumption.
    + left. exists a. split; [reflexivity|]. split; [|reflexivity].
      intros ts H. apply raw_array_ranges_complete in H as (l & E & _). congruence.
  - right. exists []. eexists. split; [reflexivity|]. split; [reflexivity|].
    unfold parsed_ok. cbn [pa_message pa_kind pa_attachments pa_id pa_namespace pa_args]. repeat split; auto.
Qed.

(** [view] of a packet built from a successful parse. *)
Lemma view_of t w ts q k atts vs :
  parsed_ok t w ts q ->
  all_some (map sub_deref_vec atts) = Some vs ->
  (k = KAck -> pa_id q <> None) ->
  (k = KEvent \/ k = KAck) ->
  view (Packet (pa_message q) k (pa_namespace q) (pa_id q) (pa_args q) atts) =
  Some (PView k (match w_ns w with Some x => x | None => bs "/" end) (w_id w) ts vs).
Proof.
  intros (Hm & _ & _ & Hi & Hn & Ha) Hv Hk Hk'. unfold view, packet_namespace. cbn [p_namespace p_message].
  assert (En : match pa_namespace q with
    | Some r => match sub_deref_str (pa_message q) with Some t0 => str_slice t0 r | None => None end
    | None => Some (bs "/") end = Some (match w_ns w with Some x => x | None => bs "/" end)).
  { rewrite Hm. destruct (w_ns w), (pa_namespace q); try contradiction; [exact Hn|reflexivity]. }
  rewrite En. unfold packet_data, packet_args. cbn [p_kind p_message p_args p_attachments p_id]. rewrite Hm.
  assert (Ev : args_view (Args t (pa_args q) atts) = Some (ts, vs)).
  { unfold args_view. rewrite (args_iter_good _ _ _ _ Ha). cbn [a_attachments]. rewrite Hv, map_map. cbn. rewrite map_id. reflexivity. }
  destruct Hk' as [-> | ->].
  - rewrite Ev, Hi. reflexivity.
  - specialize (Hk eq_refl). destruct (pa_id q) as [n|] eqn:E; [|congruence]. rewrite Ev, <- Hi. reflexivity.
Qed.
Lemma view_dataless t w ts q k : parsed_ok t w ts q -> k = KConnect \/ k = KDisconnect ->
  view (Packet (pa_message q) k (pa_namespace q) None [] []) =
  Some (PView k (match w_ns w with Some x => x | None => bs "/" end) None [] []).
Proof.
  intros (Hm & _ & _ & Hi & Hn & Ha) Hk. unfold view, packet_namespace. cbn [p_namespace p_message].
  assert (En : match pa_namespace q with
    | Some r => match sub_deref_str (pa_message q) with Some t0 => str_slice t0 r | None => None end
    | None => Some (bs "/") end = Some (match w_ns w with Some x => x | None => bs "/" end)).
  { rewrite Hm. destruct (w_ns w), (pa_namespace q); try contradiction; [exact Hn|reflexivity]. }
  rewrite En. destruct Hk as [-> | ->]; reflexivity.
Qed.

Ltac conj := match goal with |- _ /\ _ => split; [conj|conj] | _ => idtac end.
(** ** [deserialize] *)
Definition dispatch (p : parse) : res serror dresult :=
  match pa_kind p with
  | PKConnect => rmap DPacket (deserialize_dataless p KConnect (bs "connect"))
  | PKDisconnect => rmap DPacket (deserialize_dataless p KDisconnect (bs "disconnect"))
  | PKEvent => rmap DPacket (deserialize_event p KEvent (bs "event") [])
  | PKAck => rmap DPacket (deserialize_event p KAck (bs "ack") [])
  | PKBinaryEvent => deserialize_binary p KEvent (bs "binary event")
  | PKBinaryAck => deserialize_binary p KAck (bs "binary ack")
  end.
Lemma deserialize_cases m t : sub_deref_str m = Some t ->
  (parse_header t = None /\ deserialize (MText m) = Err (SInvalidMessage t)) \/
  (exists w, reads_as t w /\ (too_big (w_count w) \/ too_big (w_id w)) /\ deserialize (MText m) = Panic) \/
  (exists w a, reads_as t w /\ ~ too_big (w_count w) /\ ~ too_big (w_id w) /\ w_args w = Some a /\
     (forall ts, ~ jarray ts a) /\ deserialize (MText m) = Err (SInvalidDataJson a)) \/
  (exists w ts q, reads_as t w /\ ~ too_big (w_count w) /\ ~ too_big (w_id w) /\ elements (w_args w) ts /\
     parsed_ok t w ts q /\ deserialize (MText m) = dispatch q).
Proof.
  intros Hd. cbn [deserialize]. unfold deserialize_text.
  destruct (reads_as_some t) as [[w Hw]|[Hn _]].
  - right. destruct (parse_text_cases m t w Hd Hw) as [[Hb E]|(H1 & H2 & [(a & Ha & Hj & E)|(ts & q & Hel & E & Hq)])];
      rewrite E; cbn [rbind].
    + left. eauto.
    + right. left. exists w, a. auto 10.
    + right. right. exists w, ts, q. auto 10.
  - left. rewrite (parse_text_invalid m t Hd Hn). auto.
Qed.
Lemma elements_unique o ts ts' : elements o ts -> elements o ts' -> ts = ts'.
Proof. destruct o as [a|]; cbn; [apply jarray_unique | congruence]. Qed.

Lemma dispatch_not_panic q : dispatch q <> Panic.
Proof.
  unfold dispatch, deserialize_binary, deserialize_dataless, deserialize_event.
  destruct (pa_kind q); destruct (pa_attachments q) as [n|]; destruct (pa_id q); destruct (pa_args q); cbn;
    repeat match goal with |- context [if ?b then _ else _] => destruct b end; discriminate.
Qed.
Lemma deserialize_panic_exact m t : sub_deref_str m = Some t ->
  (deserialize (MText m) = Panic <-> exists w, reads_as t w /\ (too_big (w_count w) \/ too_big (w_id w))).
Proof.
  intros Hd. destruct (deserialize_cases m t Hd) as
    [[Hn E]|[(w & Hw & Hb & E)|[(w & a & Hw & H1 & H2 & Ha & Hj & E)|(w & ts & q & Hw & H1 & H2 & Hel & Hq & E)]]];
    rewrite E.
  - split; [discriminate|]. intros (w & Hw & _). apply reads_as_header in Hw. congruence.
  - split; [eauto|reflexivity].
  - split; [discriminate|]. intros (w' & Hw' & Hb). rewrite (reads_as_unique _ _ _ Hw' Hw) in Hb. tauto.
  - split; [intros X; exfalso; revert X; apply dispatch_not_panic|].
    intros (w' & Hw' & Hb). rewrite (reads_as_unique _ _ _ Hw' Hw) in Hb. tauto.
Qed.

Lemma is_nil_spec {A} (l : list A) : is_nil l = true <-> l = [].
Proof. destruct l; split; (reflexivity || discriminate). Qed.
Lemma is_none_spec {A} (l : option A) : is_none l = true <-> l = None.
Proof. destruct l; split; (reflexivity || discriminate). Qed.
Lemma F2_nil {A B} (R : A -> B -> Prop) l m : Forall2 R l m -> (l = [] <-> m = []).
Proof. destruct 1; split; (reflexivity || discriminate). Qed.

Lemma deserialize_event_spec t w ts q k name atts vs :
  parsed_ok t w ts q -> all_some (map sub_deref_vec atts) = Some vs -> (k = KEvent \/ k = KAck) ->
  (exists p, deserialize_event q k name atts = Ok p /\ complete_ok k (w_id w) ts /\
     N.of_nat (length atts) = opt_or 0 (w_count w) /\
     view p = Some (PView k (match w_ns w with Some x => x | None => bs "/" end) (w_id w) ts vs)) \/
  (exists e, deserialize_event q k name atts = Err e /\
     ~ (complete_ok k (w_id w) ts /\ N.of_nat (length atts) = opt_or 0 (w_count w))).
Proof.
  intros Hq Hv Hk. pose proof Hq as (_ & _ & Hc & Hi & _ & Ha). apply F2_nil in Ha as Hnil.
  unfold deserialize_event, complete_ok. rewrite <- Hi, <- Hc.
  assert (D1 : kind_is_ack k = true <-> k = KAck) by (destruct k; split; (reflexivity || discriminate)).
  destruct (kind_is_ack k && is_none (pa_id q)) eqn:E1.
  { right. eexists. split; [reflexivity|]. apply andb_true_iff in E1 as [E1 E2].
    apply D1 in E1. apply is_none_spec in E2. tauto. }
  destruct (is_nil (pa_args q)) eqn:E2.
  { right. eexists. split; [reflexivity|]. apply is_nil_spec in E2. tauto. }
  cbn [orb].
  assert (C : ts <> [] /\ (k = KAck -> pa_id q <> None)).
  { split.
    - intros Hts. apply Hnil in Hts. rewrite Hts in E2. discriminate.
    - intros -> Hid. rewrite Hid in E1. discriminate. }
  destruct (N.eqb_spec (N.of_nat (length atts)) (opt_or 0 (pa_attachments q))) as [E3|E3]; cbn [negb].
  - left. eexists. split; [reflexivity|]. split; [exact C|]. split; [exact E3|].
    rewrite Hi. rewrite <- Hi at 1. eapply view_of; eauto. apply C.
  - right. eexists. split; [reflexivity|]. tauto.
Qed.

Lemma opt_or_zero o : 0%N = opt_or 0 o <-> (o = None \/ o = Some 0%N).
Proof. destruct o as [n|]; cbn; split; intros H; [right; congruence | destruct H; congruence | left; reflexivity | reflexivity]. Qed.

Definition dview_ok (t : bytes) (r : dresult) (k : kind) (ns : bytes) (id : option N) (ts : list bytes) (n : N) : Prop :=
  match r with
  | DPacket p => n = 0%N /\ view p = Some (PView k ns id ts [])
  | DDataNeeded q => (n > 0)%N /\ partial_attachments q = Some n /\
      exists w, reads_as t w /\ parsed_ok t w ts q /\ w_id w = id /\
        ns = match w_ns w with Some x => x | None => bs "/" end /\
        ((k = KEvent /\ pa_kind q = PKBinaryEvent) \/ (k = KAck /\ pa_kind q = PKBinaryAck))
  end.

(** Every successful result is an accepted packet, and every accepted packet gives a result. *)
Lemma deserialize_ok_sound m t r : sub_deref_str m = Some t -> deserialize (MText m) = Ok r ->
  exists k ns id ts n, accepts t k ns id ts n /\ dview_ok t r k ns id ts n.
Proof.
  intros Hd E0. destruct (deserialize_cases m t Hd) as
    [[Hn E]|[(w & Hw & Hb & E)|[(w & a & Hw & H1 & H2 & Ha & Hj & E)|(w & ts & q & Hw & H1 & H2 & Hel & Hq & E)]]];
    rewrite E in E0; try discriminate. clear E.
  pose proof Hq as (_ & Hk & Hc & Hi & _ & Hargs). apply F2_nil in Hargs as Hnil.
  unfold dispatch in E0. rewrite Hk in E0.
  set (ns := match w_ns w with Some x => x | None => bs "/" end).
  destruct (w_kind w) eqn:Ekind.
  - unfold deserialize_dataless in E0. rewrite Hc, Hi in E0.
    destruct (w_count w) eqn:Ec; [discriminate|]. destruct (w_id w) eqn:Eid; [discriminate|].
    destruct (pa_args q) eqn:Ea; [|discriminate]. injection E0 as <-.
    assert (ts = []) as -> by (apply Hnil; reflexivity).
    exists KConnect, ns, None, [], 0%N. split.
    + exists w. rewrite Ekind, Ec, Eid in *; conj; auto.
    + split; [reflexivity|]. eapply view_dataless; eauto.
  - unfold deserialize_dataless in E0. rewrite Hc, Hi in E0.
    destruct (w_count w) eqn:Ec; [discriminate|]. destruct (w_id w) eqn:Eid; [discriminate|].
    destruct (pa_args q) eqn:Ea; [|discriminate]. injection E0 as <-.
    assert (ts = []) as -> by (apply Hnil; reflexivity).
    exists KDisconnect, ns, None, [], 0%N. split.
    + exists w. rewrite Ekind, Ec, Eid in *; conj; auto.
    + split; [reflexivity|]. eapply view_dataless; eauto.
  - destruct (deserialize_event_spec t w ts q KEvent (bs "event") [] [] Hq eq_refl (or_introl eq_refl))
      as [(p & E & [Ct Ci] & Cn & Hv)|(e & E & _)]; rewrite E in E0; [|discriminate]. injection E0 as <-.
    exists KEvent, ns, (w_id w), ts, 0%N. split.
    + exists w. rewrite Ekind. conj; auto. apply opt_or_zero. exact Cn.
    + split; [reflexivity|exact Hv].
  - destruct (deserialize_event_spec t w ts q KAck (bs "ack") [] [] Hq eq_refl (or_intror eq_refl))
      as [(p & E & [Ct Ci] & Cn & Hv)|(e & E & _)]; rewrite E in E0; [|discriminate]. injection E0 as <-.
    exists KAck, ns, (w_id w), ts, 0%N. split.
    + exists w. rewrite Ekind. conj; auto. apply opt_or_zero. exact Cn.
    + split; [reflexivity|exact Hv].
  - unfold deserialize_binary in E0. destruct (pa_attachments q) as [n|] eqn:En; [|discriminate].
    destruct (N.eqb_spec n 0) as [->|Hn0].
    + destruct (deserialize_event_spec t w ts q KEvent (bs "binary event") [] [] Hq eq_refl (or_introl eq_refl))
        as [(p & E & [Ct Ci] & Cn & Hv)|(e & E & _)]; rewrite E in E0; [|discriminate]. injection E0 as <-.
      exists KEvent, ns, (w_id w), ts, 0%N. split.
      * exists w. rewrite Ekind. conj; auto.
      * split; [reflexivity|exact Hv].
    + injection E0 as <-. exists KEvent, ns, (w_id w), ts, n. split.
      * exists w. rewrite Ekind. conj; auto; intros ->; congruence.
      * split; [lia|]. split; [exact En|]. exists w. conj; auto.
  - unfold deserialize_binary in E0. destruct (pa_attachments q) as [n|] eqn:En; [|discriminate].
    destruct (N.eqb_spec n 0) as [->|Hn0].
    + destruct (deserialize_event_spec t w ts q KAck (bs "binary ack") [] [] Hq eq_refl (or_intror eq_refl))
        as [(p & E & [Ct Ci] & Cn & Hv)|(e & E & _)]; rewrite E in E0; [|discriminate]. injection E0 as <-.
      exists KAck, ns, (w_id w), ts, 0%N. split.
      * exists w. rewrite Ekind. conj; auto.
      * split; [reflexivity|exact Hv].
    + injection E0 as <-. exists KAck, ns, (w_id w), ts, n. split.
      * exists w. rewrite Ekind. conj; auto; intros ->; congruence.
      * split; [lia|]. split; [exact En|]. exists w. conj; auto.
Qed.

Lemma accepts_unique t k ns id ts n k' ns' id' ts' n' :
  accepts t k ns id ts n -> accepts t k' ns' id' ts' n' ->
  k = k' /\ ns = ns' /\ id = id' /\ ts = ts' /\ n = n'.
Proof.
  intros (w & Hw & _ & _ & Hel & -> & -> & H) (w' & Hw' & _ & _ & Hel' & -> & -> & H').
  rewrite (reads_as_unique _ _ _ Hw' Hw) in *. rewrite (elements_unique _ _ _ Hel' Hel) in *.
  destruct (w_kind w); repeat split; intuition congruence.
Qed.

Lemma accepts_deserialize m t k ns id ts n : sub_deref_str m = Some t -> accepts t k ns id ts n ->
  exists r, deserialize (MText m) = Ok r /\ dview_ok t r k ns id ts n.
Proof.
  intros Hd Hacc.
  assert (X : exists r, deserialize (MText m) = Ok r).
  { destruct Hacc as (w & Hw & Hb1 & Hb2 & Hel & _ & Eid & H).
    destruct (deserialize_cases m t Hd) as
      [[Hn E]|[(w' & Hw' & Hb & E)|[(w' & a & Hw' & _ & _ & Ha & Hj & E)|(w' & ts' & q & Hw' & _ & _ & Hel' & Hq & E)]]].
    - apply reads_as_header in Hw. congruence.
    - rewrite (reads_as_unique _ _ _ Hw' Hw) in Hb. tauto.
    - rewrite (reads_as_unique _ _ _ Hw' Hw) in Ha. rewrite Ha in Hel. exfalso. exact (Hj _ Hel).
    - rewrite (reads_as_unique _ _ _ Hw' Hw) in *. rewrite (elements_unique _ _ _ Hel' Hel) in *. clear Hel' Hw' w' ts'.
      rewrite E. unfold dispatch. pose proof Hq as (_ & Hk & Hc & Hi & _ & Hargs). apply F2_nil in Hargs as Hnil.
      rewrite Hk. destruct (w_kind w) eqn:Ekind.
      + destruct H as (_ & Ec & Eid' & -> & _). unfold deserialize_dataless. rewrite Hc, Hi, Ec, Eid'.
        rewrite (proj2 Hnil eq_refl). cbn. eauto.
      + destruct H as (_ & Ec & Eid' & -> & _). unfold deserialize_dataless. rewrite Hc, Hi, Ec, Eid'.
        rewrite (proj2 Hnil eq_refl). cbn. eauto.
      + destruct H as (_ & Hts & Hcz & _).
        destruct (deserialize_event_spec t w ts q KEvent (bs "event") [] [] Hq eq_refl (or_introl eq_refl))
          as [(p & E1 & _)|(e & E1 & Hno)]; [rewrite E1; cbn; eauto|].
        exfalso. apply Hno. split; [split; [exact Hts|discriminate]|]. apply opt_or_zero. exact Hcz.
      + destruct H as (_ & Hts & Hid & Hcz & _).
        destruct (deserialize_event_spec t w ts q KAck (bs "ack") [] [] Hq eq_refl (or_intror eq_refl))
          as [(p & E1 & _)|(e & E1 & Hno)]; [rewrite E1; cbn; eauto|].
        exfalso. apply Hno. split; [split; [exact Hts|intros _; congruence]|]. apply opt_or_zero. exact Hcz.
      + destruct H as (_ & Ec & Hz). unfold deserialize_binary. rewrite Hc, Ec.
        destruct (N.eqb_spec n 0) as [->|]; [|eauto].
        destruct (deserialize_event_spec t w ts q KEvent (bs "binary event") [] [] Hq eq_refl (or_introl eq_refl))
          as [(p & E1 & _)|(e & E1 & Hno)]; [rewrite E1; cbn; eauto|].
        exfalso. apply Hno. split; [split; [auto|discriminate]|]. rewrite Ec. reflexivity.
      + destruct H as (_ & Ec & Hz). unfold deserialize_binary. rewrite Hc, Ec.
        destruct (N.eqb_spec n 0) as [->|]; [|eauto]. destruct (Hz eq_refl) as [Hz1 Hz2].
        destruct (deserialize_event_spec t w ts q KAck (bs "binary ack") [] [] Hq eq_refl (or_intror eq_refl))
          as [(p & E1 & _)|(e & E1 & Hno)]; [rewrite E1; cbn; eauto|].
        exfalso. apply Hno. split; [split; [auto|intros _; congruence]|]. rewrite Ec. reflexivity. }
  destruct X as [r Er]. exists r. split; [exact Er|].
  destruct (deserialize_ok_sound m t r Hd Er) as (k' & ns' & id' & ts' & n' & Hacc' & Hv).
  destruct (accepts_unique _ _ _ _ _ _ _ _ _ _ _ Hacc Hacc') as (-> & -> & -> & -> & ->). exact Hv.
Qed.

(** ** Completing a partial packet *)
Lemma collect_binary_spec l : Forall emsg_ok l ->
  (exists atts vs, collect_binary l = Ok atts /\ l = map MBinary atts /\ all_some (map sub_deref_vec atts) = Some vs /\
     all_some (map binary_content l) = Some vs) \/
  (exists t, collect_binary l = Err (STextAttachment t) /\ all_some (map binary_content l) = None).
Proof.
  induction 1 as [|m l Hm H IH].
  - left. exists [], []. auto.
  - destruct m as [s|d]; cbn [emsg_ok] in Hm.
    + right. cbn [collect_binary]. destruct (sub_deref_str s) as [t|]; [|congruence]. exists t. auto.
    + cbn [collect_binary map binary_content all_some]. destruct (sub_deref_vec d) as [v|] eqn:Ev; [|congruence].
      destruct IH as [(atts & vs & E1 & E2 & E3 & E4)|(t & E1 & E2)].
      * left. exists (d :: atts), (v :: vs). rewrite E1, E2. cbn [rmap map all_some].
        rewrite Ev, E3. rewrite <- E2, E4. auto.
      * right. exists t. rewrite E1, E2. auto.
Qed.
Lemma partial_spec t k ns id ts n q l :
  dview_ok t (DDataNeeded q) k ns id ts n -> Forall emsg_ok l ->
  (exists p vs, deserialize_partial q l = Ok p /\ complete_ok k id ts /\ N.of_nat (length l) = n /\
     all_some (map binary_content l) = Some vs /\ view p = Some (PView k ns id ts vs)) \/
  (exists e, deserialize_partial q l = Err e /\
     ~ (complete_ok k id ts /\ N.of_nat (length l) = n /\ all_some (map binary_content l) <> None)).
Proof.
  intros (Hn & Hp & w & Hw & Hq & <- & -> & Hk) Hl. unfold deserialize_partial.
  destruct (collect_binary_spec l Hl) as [(atts & vs & E1 & E2 & E3 & E4)|(t' & E1 & E2)]; rewrite E1; cbn [rbind].
  2: { right. eexists. split; [reflexivity|]. intros (_ & _ & H). congruence. }
  assert (Elen : length l = length atts) by (rewrite E2, map_length; reflexivity).
  pose proof Hq as (_ & _ & Hc & _ & _ & _). unfold partial_attachments in Hp. rewrite Hc in Hp.
  assert (G : forall kk name, (kk = KEvent \/ kk = KAck) ->
    (exists p vs, deserialize_event q kk name atts = Ok p /\ complete_ok kk (w_id w) ts /\ N.of_nat (length l) = n /\
     all_some (map binary_content l) = Some vs /\ view p = Some (PView kk (match w_ns w with Some x => x | None => bs "/" end) (w_id w) ts vs)) \/
    (exists e, deserialize_event q kk name atts = Err e /\
     ~ (complete_ok kk (w_id w) ts /\ N.of_nat (length l) = n /\ all_some (map binary_content l) <> None))).
  { intros kk name Hkk. destruct (deserialize_event_spec t w ts q kk name atts vs Hq E3 Hkk)
      as [(p & E & C & Cn & Hv)|(e & E & Hno)]; rewrite Hp in *; cbn [opt_or] in *.
    - left. exists p, vs. rewrite Elen. auto 10.
    - right. exists e. rewrite Elen. split; [exact E|]. tauto. }
  destruct Hk as [[-> Hk]|[-> Hk]]; rewrite Hk; apply G; auto.
Qed.

(** ** Accessors *)
Lemma args_iter_from_get k : forall a i l, args_iter_from k a i = Ok l -> args_len a - i < k ->
  forall j, args_get a (i + j) = Ok (nth_error l j).
Proof.
  induction k as [|k IH]; intros a i l H Hk j; [lia|]. cbn [args_iter_from] in H.
  destruct (args_get a i) as [[g|]| |] eqn:E; try discriminate.
  - destruct (args_iter_from k a (S i)) as [l'| |] eqn:E'; try discriminate. injection H as <-.
    assert (Hi : i < args_len a).
    { unfold args_get in E. unfold args_len. destruct (nth_error (a_ranges a) i) eqn:En; [|discriminate].
      apply nth_error_Some. congruence. }
    destruct j as [|j]; [rewrite Nat.add_0_r; exact E|]. cbn [nth_error].
    rewrite <- (IH a (S i) l' E') by lia. f_equal. lia.
  - injection H as <-. assert (Hi : nth_error (a_ranges a) (i + j) = None).
    { unfold args_get in E. destruct (nth_error (a_ranges a) i) eqn:En.
      - destruct (str_slice (a_message a) r); discriminate.
      - apply nth_error_None in En. apply nth_error_None. lia. }
    unfold args_get. rewrite Hi. destruct j; reflexivity.
Qed.
Lemma args_iter_get a l : args_iter a = Ok l -> forall j, args_get a j = Ok (nth_error l j).
Proof. intros H j. apply (args_iter_from_get _ _ _ _ H). lia. Qed.
Lemma args_get_atts a i g : args_get a i = Ok (Some g) -> g_attachments g = a_attachments a.
Proof.
  unfold args_get. destruct (nth_error (a_ranges a) i); [|discriminate].
  destruct (str_slice (a_message a) r); [|discriminate]. intros [= <-]. reflexivity.
Qed.
Lemma map_fixed {A} (f : A -> A) l : (forall i x, nth_error l i = Some x -> x = f x) -> l = map f l.
Proof.
  induction l as [|x l IH]; intros H; cbn; [reflexivity|]. f_equal; [apply (H 0); reflexivity|].
  apply IH. intros i y Hy. apply (H (S i)). exact Hy.
Qed.
Lemma args_view_accessors a ts atts : args_view a = Some (ts, atts) ->
  args_len a = length ts /\
  (forall i, args_get a i = Ok (option_map (fun x => Arg x (a_attachments a)) (nth_error ts i))) /\
  args_iter a = Ok (map (fun x => Arg x (a_attachments a)) ts) /\
  all_some (map sub_deref_vec (a_attachments a)) = Some atts.
Proof.
  unfold args_view. intros H. destruct (args_iter a) as [l| |] eqn:E; try discriminate.
  destruct (all_some (map sub_deref_vec (a_attachments a))) as [vs|] eqn:Ev; [|discriminate].
  injection H as <- <-. pose proof (args_iter_get a l E) as G.
  assert (El : l = map (fun x => Arg x (a_attachments a)) (map g_text l)).
  { rewrite map_map. apply map_fixed. intros i g Hg. specialize (G i). rewrite Hg in G.
    apply args_get_atts in G. destruct g as [gt ga]. cbn in *. congruence. }
  assert (G' : forall i, args_get a i = Ok (option_map (fun x => Arg x (a_attachments a)) (nth_error (map g_text l) i))).
  { intros i. rewrite G, El at 1. rewrite El at 1. rewrite !nth_error_map.
    destruct (nth_error l i) as [g|] eqn:Eg; cbn [option_map]; reflexivity. }
  split; [|split; [exact G'|split; [congruence|reflexivity]]].
  rewrite map_length. apply Nat.le_antisymm.
  - apply Nat.nlt_ge. intros Hlt. assert (nth_error l (length l) = None) by (apply nth_error_None; lia).
    specialize (G (length l)). rewrite H in G. unfold args_get in G. unfold args_len in Hlt.
    destruct (nth_error (a_ranges a) (length l)) eqn:En.
    + destruct (str_slice (a_message a) r); discriminate.
    + apply nth_error_None in En. lia.
  - apply Nat.nlt_ge. intros Hlt. unfold args_len in Hlt.
    destruct (nth_error l (length (a_ranges a))) eqn:Eg; [|apply nth_error_None in Eg; lia].
    specialize (G (length (a_ranges a))). rewrite Eg in G. unfold args_get in G.
    rewrite (proj2 (nth_error_None (a_ranges a) (length (a_ranges a)))) in G by lia. discriminate.
Qed.
Lemma view_data p v : view p = Some v ->
  packet_namespace p = Some (v_ns v) /\
  exists d, packet_data p = Some d /\
    match d with
    | DataConnect => v_kind v = KConnect
    | DataDisconnect => v_kind v = KDisconnect
    | DataEvent id a => v_kind v = KEvent /\ v_id v = id /\ args_view a = Some (v_args v, v_atts v)
    | DataAck id a => v_kind v = KAck /\ v_id v = Some id /\ args_view a = Some (v_args v, v_atts v)
    end.
Proof.
  unfold view. destruct (packet_namespace p) as [ns|]; [|discriminate].
  destruct (packet_data p) as [[| |id a|id a]|]; try discriminate.
  - intros [= <-]. split; [reflexivity|]. eexists. split; reflexivity.
  - intros [= <-]. split; [reflexivity|]. eexists. split; reflexivity.
  - destruct (args_view a) as [[ts atts]|] eqn:E; [|discriminate]. intros [= <-]. cbn.
    split; [reflexivity|]. eexists. split; [reflexivity|]. cbn. auto.
  - destruct (args_view a) as [[ts atts]|] eqn:E; [|discriminate]. intros [= <-]. cbn.
    split; [reflexivity|]. eexists. split; [reflexivity|]. cbn. auto.
Qed.

(** ** Received packets *)
Lemma received_view m t l p : sub_deref_str m = Some t -> Forall emsg_ok l -> received m l p ->
  exists k ns id ts vs, accepts t k ns id ts (N.of_nat (length l)) /\
    all_some (map binary_content l) = Some vs /\ view p = Some (PView k ns id ts vs).
Proof.
  intros Hd Hl [[E ->]|(q & E & Ep)]; apply (deserialize_ok_sound m t) in E as (k & ns & id & ts & n & Ha & Hv); auto.
  - destruct Hv as [-> Hv]. exists k, ns, id, ts, []. auto.
  - destruct (partial_spec _ _ _ _ _ _ _ l Hv Hl) as [(p' & vs & E1 & _ & <- & E3 & E4)|(e & E1 & _)];
      rewrite E1 in Ep; [injection Ep as <-|discriminate].
    exists k, ns, id, ts, vs. auto.
Qed.
Lemma accepts_complete_ok t k ns id ts : accepts t k ns id ts 0 -> k = KEvent \/ k = KAck -> complete_ok k id ts.
Proof.
  intros (w & _ & _ & _ & _ & _ & _ & H) Hk. unfold complete_ok. destruct (w_kind w); destruct H as (-> & H);
    destruct Hk as [Hk|Hk]; try discriminate; intuition congruence.
Qed.
Lemma received_exact m t l k ns id ts vs : sub_deref_str m = Some t -> Forall emsg_ok l ->
  ((exists p, received m l p /\ view p = Some (PView k ns id ts vs)) <->
   (accepts t k ns id ts (N.of_nat (length l)) /\ all_some (map binary_content l) = Some vs /\
    (k = KEvent \/ k = KAck -> complete_ok k id ts))).
Proof.
  intros Hd Hl. split.
  - intros (p & Hr & Hv). destruct (received_view m t l p Hd Hl Hr) as (k' & ns' & id' & ts' & vs' & Ha & Hb & Hv').
    rewrite Hv in Hv'. injection Hv' as <- <- <- <- <-. split; [exact Ha|]. split; [exact Hb|].
    intros Hk. destruct Hr as [[E ->]|(q & E & Ep)].
    + eapply accepts_complete_ok; eauto.
    + apply (deserialize_ok_sound m t) in E as (k' & ns' & id' & ts' & n & Ha' & Hv'); [|exact Hd].
      destruct (partial_spec _ _ _ _ _ _ _ l Hv' Hl) as [(p' & vs' & E1 & C & <- & E3 & E4)|(e & E1 & _)];
        rewrite E1 in Ep; [injection Ep as <-|discriminate].
      rewrite Hv in E4. injection E4 as <- <- <- <- <-. exact C.
  - intros (Ha & Hb & Hc). destruct (accepts_deserialize _ _ _ _ _ _ _ Hd Ha) as (r & E & Hv).
    destruct r as [p|q]; cbn [dview_ok] in Hv.
    + destruct Hv as [Hn Hv]. destruct l; [|cbn in Hn; lia]. cbn in Hb. injection Hb as <-.
      exists p. split; [left; auto|exact Hv].
    + destruct (partial_spec _ _ _ _ _ _ _ l Hv Hl) as [(p' & vs' & E1 & C & _ & E3 & E4)|(e & E1 & Hno)].
      * rewrite Hb in E3. injection E3 as <-. exists p'. split; [right; eauto|exact E4].
      * exfalso. apply Hno. split; [|split; [reflexivity|congruence]]. apply Hc.
        destruct Hv as (_ & _ & w & _ & _ & _ & _ & [[-> _]|[-> _]]); auto.
Qed.

Lemma C16_refuted_lemma : ~ C16_full.
Proof.
  intros H. apply (H (MText (sub_from (bs "299999999999999999999[1]")))); [discriminate|].
  vm_compute. reflexivity.
Qed.
Lemma utf8_tail_ascii c s : (bN c < 128)%N -> utf8_valid (c :: s) = true -> utf8_valid s = true.
Proof.
  intros Hc. cbn [utf8_valid]. replace (in_rng 0 127 c) with true; [auto|].
  unfold in_rng. symmetry. apply andb_true_iff. split; apply N.leb_le; lia.
Qed.
Lemma decode_emsg_ok st w st' m : (forall s, w = WText s -> utf8_valid s = true) ->
  decode st w = (st', Ok (PktMessage m)) -> emsg_ok m.
Proof.
  intros Hu E.
  assert (T : forall s, w = WText s -> decode_text st s = (st', Ok (PktMessage m)) -> emsg_ok m).
  { intros s Hs. specialize (Hu s Hs). unfold decode_text. destruct s as [|c s]; [discriminate|].
    destruct (c =b "0"); [destruct st; try destruct (parse_open s); discriminate|].
    destruct (c =b "1"); [destruct st; discriminate|].
    destruct (c =b "2"); [destruct st; discriminate|].
    destruct (c =b "3"); [destruct st; discriminate|].
    destruct (c =b "4") eqn:E4; [|discriminate]. intros [= _ <-]. cbn [emsg_ok].
    apply byte_eqb_eq in E4. subst c. rewrite sub_tail_str; [discriminate|].
    apply (utf8_tail_ascii "4"%byte); [vm_compute; reflexivity|exact Hu]. }
  assert (B : forall d, decode_binary st d = (st', Ok (PktMessage m)) -> emsg_ok m).
  { intros d. unfold decode_binary. destruct st; [discriminate| |];
      (destruct d as [|c d]; [discriminate|]; destruct (negb _); [discriminate|];
       intros [= _ <-]; cbn [emsg_ok]; rewrite sub_tail_vec; discriminate). }
  destruct st; [| |discriminate]; cbn [decode] in E; destruct w as [s|d|d|d|f]; try discriminate; eauto.
Qed.
Lemma decoder_emsg_ok ms i m : (forall s, In (WText s) ms -> utf8_valid s = true) ->
  answer_at ms i (Ok (PktMessage m)) -> emsg_ok m.
Proof.
  intros Hu H. apply answer_at_split in H as (w & Hw & E).
  destruct (decode (state_after DInitial (firstn i ms)) w) as [st' r] eqn:Ed. cbn [snd] in E. subst r.
  eapply decode_emsg_ok; [|exact Ed]. intros s ->. apply Hu. eapply nth_error_In; eauto.
Qed.

(** ** Lemmas in the form of the property theorems *)
Lemma panic_exact m t : sub_deref_str m = Some t ->
  (deserialize (MText m) = Panic <-> exists w, reads_as t w /\ (too_big (w_count w) \/ too_big (w_id w))).
Proof. apply deserialize_panic_exact. Qed.
Lemma no_panic_partial m : emsg_ok m ->
  (forall s t w, m = MText s -> sub_deref_str s = Some t -> reads_as t w -> ~ too_big (w_count w) /\ ~ too_big (w_id w)) ->
  deserialize m <> Panic.
Proof.
  intros Hm Hb Hp. destruct m as [s|d]; cbn [emsg_ok] in Hm.
  - destruct (sub_deref_str s) as [t|] eqn:Et; [|congruence].
    apply (deserialize_panic_exact s t Et) in Hp as (w & Hw & Hbig).
    destruct (Hb s t w eq_refl Et Hw). tauto.
  - cbn in Hp. destruct (sub_deref_vec d); [discriminate|congruence].
Qed.
Lemma partial_no_panic m q l : deserialize m = Ok (DDataNeeded q) -> Forall emsg_ok l -> deserialize_partial q l <> Panic.
Proof.
  intros E Hl. destruct m as [s|d].
  - destruct (sub_deref_str s) as [t|] eqn:Et.
    + apply (deserialize_ok_sound s t) in E as (k & ns & id & ts & n & Ha & Hv); [|exact Et].
      destruct (partial_spec _ _ _ _ _ _ _ l Hv Hl) as [(p & vs & E1 & _)|(e & E1 & _)]; congruence.
    + cbn in E. unfold deserialize_text, parse_text in E. rewrite Et in E. discriminate.
  - cbn in E. destruct (sub_deref_vec d); discriminate.
Qed.
Lemma accessors_ok m t l p : sub_deref_str m = Some t -> Forall emsg_ok l -> received m l p ->
  packet_namespace p <> None /\
  exists d, packet_data p = Some d /\
    forall a, data_args d = Some a ->
      (forall i, exists o, args_get a i = Ok o /\ (o = None <-> args_len a <= i)) /\
      (exists gs, args_iter a = Ok gs) /\
      Forall (fun s => sub_deref_vec s <> None) (a_attachments a).
Proof.
  intros Hd Hl Hr. destruct (received_view m t l p Hd Hl Hr) as (k & ns & id & ts & vs & _ & _ & Hv).
  apply view_data in Hv as (Hn & d & Ed & Hdat). split; [congruence|]. exists d. split; [exact Ed|].
  intros a Ha. assert (Hav : args_view a = Some (ts, vs)).
  { destruct d; cbn in Ha; try discriminate; injection Ha as <-; apply Hdat. }
  apply args_view_accessors in Hav as (H1 & H2 & H3 & H4). split; [|split; [eauto|]].
  - intros i. eexists. split; [apply H2|]. rewrite H1, <- nth_error_None.
    destruct (nth_error ts i); cbn; split; congruence.
  - clear -H4. revert vs H4. induction (a_attachments a) as [|x xs IH]; intros vs H; constructor; cbn in H.
    + destruct (sub_deref_vec x); [discriminate|discriminate].
    + destruct (sub_deref_vec x); [|discriminate]. destruct (all_some (map sub_deref_vec xs)) eqn:E; [|discriminate]. eauto.
Qed.
Lemma arguments_are_elements m t l p d a : sub_deref_str m = Some t -> Forall emsg_ok l -> received m l p ->
  packet_data p = Some d -> data_args d = Some a ->
  exists w ts, reads_as t w /\ elements (w_args w) ts /\
    args_len a = length ts /\
    (forall i, args_get a i = Ok (option_map (fun x => Arg x (a_attachments a)) (nth_error ts i))) /\
    args_iter a = Ok (map (fun x => Arg x (a_attachments a)) ts) /\
    all_some (map binary_content l) = all_some (map sub_deref_vec (a_attachments a)) /\
    length (a_attachments a) = length l.
Proof.
  intros Hd Hl Hr Ed Ha. destruct (received_view m t l p Hd Hl Hr) as (k & ns & id & ts & vs & Hac & Hb & Hv).
  apply view_data in Hv as (_ & d' & Ed' & Hdat). rewrite Ed in Ed'. injection Ed' as <-.
  assert (Hav : args_view a = Some (ts, vs)).
  { destruct d; cbn in Ha; try discriminate; injection Ha as <-; apply Hdat. }
  apply args_view_accessors in Hav as (H1 & H2 & H3 & H4).
  destruct Hac as (w & Hw & _ & _ & Hel & _). exists w, ts. conj; auto; [congruence|].
  assert (L : forall A (x : list (option A)) y, all_some x = Some y -> length y = length x).
  { clear. intros A x. induction x as [|[z|] x IH]; cbn; intros y Hy; try discriminate; [injection Hy as <-; reflexivity|].
    destruct (all_some x); [|discriminate]. injection Hy as <-. cbn. f_equal. auto. }
  apply L in H4. apply L in Hb. rewrite map_length in H4, Hb. lia.
Qed.
Lemma arguments_exactly m t l p d a : sub_deref_str m = Some t -> Forall emsg_ok l -> received m l p ->
  packet_data p = Some d -> data_args d = Some a ->
  exists w ts, reads_as t w /\ elements (w_args w) ts /\
    args_len a = length ts /\ (args_is_empty a = true <-> ts = []) /\
    (forall i, args_get a i = Ok (option_map (fun x => Arg x (a_attachments a)) (nth_error ts i))) /\
    args_iter a = Ok (map (fun x => Arg x (a_attachments a)) ts) /\
    all_some (map binary_content l) = all_some (map sub_deref_vec (a_attachments a)) /\
    length (a_attachments a) = length l.
Proof.
  intros Hd Hl Hr Ed Ha. destruct (arguments_are_elements m t l p d a Hd Hl Hr Ed Ha) as (w & ts & H1 & H2 & H3 & H).
  exists w, ts. split; [exact H1|]. split; [exact H2|]. split; [exact H3|]. split; [|exact H].
  unfold args_is_empty. rewrite H3, Nat.eqb_eq. destruct ts; cbn; split; congruence.
Qed.
Lemma well_formed m t l p : sub_deref_str m = Some t -> Forall emsg_ok l -> received m l p ->
  exists v w, view p = Some v /\ reads_as t w /\
    v_ns v = (match w_ns w with Some x => x | None => bs "/" end) /\
    v_id v = w_id w /\ elements (w_args w) (v_args v) /\
    match v_kind v with
    | KConnect => w_kind w = PKConnect /\ w_count w = None /\ v_id v = None /\ v_args v = [] /\ v_atts v = []
    | KDisconnect => w_kind w = PKDisconnect /\ w_count w = None /\ v_id v = None /\ v_args v = [] /\ v_atts v = []
    | KEvent => (w_kind w = PKEvent \/ w_kind w = PKBinaryEvent) /\ v_args v <> [] /\
        N.of_nat (length (v_atts v)) = opt_or 0 (w_count w)
    | KAck => (w_kind w = PKAck \/ w_kind w = PKBinaryAck) /\ v_args v <> [] /\ v_id v <> None /\
        N.of_nat (length (v_atts v)) = opt_or 0 (w_count w)
    end.
Proof.
  intros Hd Hl Hr. destruct (received_view m t l p Hd Hl Hr) as (k & ns & id & ts & vs & Hac & Hb & Hv).
  destruct (proj1 (received_exact m t l k ns id ts vs Hd Hl) (ex_intro _ p (conj Hr Hv))) as (_ & _ & Hc).
  assert (Lvs : length vs = length l).
  { clear -Hb. revert vs Hb. induction l as [|x l IH]; cbn; intros vs Hy; [injection Hy as <-; reflexivity|].
    destruct (binary_content x); [|discriminate]. destruct (all_some (map binary_content l)); [|discriminate].
    injection Hy as <-. cbn. f_equal. auto. }
  destruct Hac as (w & Hw & _ & _ & Hel & -> & -> & H). eexists. exists w. split; [exact Hv|].
  cbn [v_ns v_id v_args v_atts v_kind]. conj; auto. rewrite Lvs. unfold complete_ok in Hc.
  destruct (w_kind w) eqn:Ek; destruct H as (-> & H).
  - destruct H as (H1 & H2 & H3 & H4). conj; auto. destruct l; [|cbn in H4; lia]. destruct vs; [reflexivity|discriminate].
  - destruct H as (H1 & H2 & H3 & H4). conj; auto. destruct l; [|cbn in H4; lia]. destruct vs; [reflexivity|discriminate].
  - destruct H as (H1 & H2 & H3). conj; auto. rewrite H3. destruct H2 as [-> | ->]; reflexivity.
  - destruct H as (H1 & H2 & H3 & H4). conj; auto. rewrite H4. destruct H3 as [-> | ->]; reflexivity.
  - destruct H as (H1 & H2). destruct Hc as [Hc _]; auto. conj; auto. rewrite H1. reflexivity.
  - destruct H as (H1 & H2). destruct Hc as [Hc1 Hc2]; auto. conj; auto. rewrite H1. reflexivity.
Qed.
Lemma partial_exact m t q : sub_deref_str m = Some t -> deserialize (MText m) = Ok (DDataNeeded q) ->
  exists k ns id ts n, accepts t k ns id ts n /\ (n > 0)%N /\ partial_attachments q = Some n /\
    forall l, Forall emsg_ok l ->
      ((exists p, deserialize_partial q l = Ok p) <->
        (N.of_nat (length l) = n /\ all_some (map binary_content l) <> None /\ complete_ok k id ts)) /\
      (forall p, deserialize_partial q l = Ok p ->
        exists vs, all_some (map binary_content l) = Some vs /\ view p = Some (PView k ns id ts vs)).
Proof.
  intros Hd E. apply (deserialize_ok_sound m t) in E as (k & ns & id & ts & n & Ha & Hv); [|exact Hd].
  exists k, ns, id, ts, n. split; [exact Ha|]. pose proof Hv as (Hn & Hp & _). split; [exact Hn|]. split; [exact Hp|].
  intros l Hl. destruct (partial_spec _ _ _ _ _ _ _ l Hv Hl) as [(p & vs & E1 & C & Cn & E3 & E4)|(e & E1 & Hno)].
  - split.
    + split; [intros _; conj; auto; congruence | eauto].
    + intros p' Hp'. rewrite E1 in Hp'. injection Hp' as <-. eauto.
  - split.
    + split; [intros [p Hp']; congruence | intros (H1 & H2 & H3); exfalso; tauto].
    + intros p Hp'. congruence.
Qed.
Lemma partial_when m t k ns id ts n : sub_deref_str m = Some t -> accepts t k ns id ts n ->
  (n = 0%N /\ exists p, deserialize (MText m) = Ok (DPacket p)) \/
  ((n > 0)%N /\ exists q, deserialize (MText m) = Ok (DDataNeeded q)).
Proof.
  intros Hd Ha. destruct (accepts_deserialize _ _ _ _ _ _ _ Hd Ha) as ([p|q] & E & Hv); destruct Hv as [Hn _]; eauto.
Qed.

(** [accepts] by computation, for the examples. *)
Lemma accepts_by_header t w ts k n : parse_header t = Some (hdr_of w) -> 
  (opt_or 0 (w_count w) <=? u64_max)%N = true -> (opt_or 0 (w_id w) <=? u64_max)%N = true ->
  (match w_args w with
   | Some a => match raw_array_ranges a with Some l => map (cut a) l = ts | None => False end
   | None => ts = [] end) ->
  match w_kind w with
    | PKConnect => k = KConnect /\ w_count w = None /\ w_id w = None /\ ts = [] /\ n = 0%N
    | PKDisconnect => k = KDisconnect /\ w_count w = None /\ w_id w = None /\ ts = [] /\ n = 0%N
    | PKEvent => k = KEvent /\ ts <> [] /\ (w_count w = None \/ w_count w = Some 0%N) /\ n = 0%N
    | PKAck => k = KAck /\ ts <> [] /\ w_id w <> None /\ (w_count w = None \/ w_count w = Some 0%N) /\ n = 0%N
    | PKBinaryEvent => k = KEvent /\ w_count w = Some n /\ (n = 0%N -> ts <> [])
    | PKBinaryAck => k = KAck /\ w_count w = Some n /\ (n = 0%N -> ts <> [] /\ w_id w <> None)
  end ->
  accepts t k (match w_ns w with Some x => x | None => bs "/" end) (w_id w) ts n.
Proof.
  intros H1 H2 H3 H4 H5. exists w. split; [apply reads_as_header; exact H1|].
  assert (B : forall o, (opt_or 0 o <=? u64_max)%N = true -> ~ too_big o).
  { intros o Ho (x & -> & Hx). cbn [opt_or] in Ho. apply N.leb_le in Ho. lia. }
  conj; auto. destruct (w_args w) as [a|]; [|exact H4]. destruct (raw_array_ranges a) as [l|] eqn:El; [|contradiction].
  subst ts. apply raw_array_ranges_sound in El as [El _]. exact El.
Qed.
