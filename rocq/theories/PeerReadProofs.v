(** What the client makes of packets of the reference implementation (C69). *)
From Verif Require Export PeerProofs ErrorProofs EndProofs SpecDeliver.

(** ** The text of a packet *)
Definition sio_pkind (ty : sio_type) : pkind :=
  match ty with
  | SConnect | SConnectError => PKConnect | SDisconnect => PKDisconnect | SEvent => PKEvent | SAck => PKAck
  | SBinaryEvent => PKBinaryEvent | SBinaryAck => PKBinaryAck
  end.
Definition sio_wire (p : sio) : wire :=
  Wire (sio_pkind (o_type p)) (if counted (o_type p) then Some (o_count p) else None) (ns_opt (o_nsp p)) (o_id p) (o_data p).
Lemma sio_wire_text p : o_type p <> SConnectError -> sio_encode p = wire_text (sio_wire p).
Proof.
  intros H. unfold sio_encode, wire_text, sio_wire. cbn [w_kind w_count w_ns w_id w_args]. f_equal.
  - destruct (o_type p); try reflexivity. congruence.
  - f_equal; [destruct (counted (o_type p)); reflexivity|]. f_equal. unfold ns_opt. destruct (bytes_eqb _ _); reflexivity.
Qed.
Lemma jarr_brackets l a : jvalue (RArr l) a -> exists u, a = "["%byte :: u ++ ["]"%byte].
Proof. intros H. inversion H; subst; eauto. Qed.
Lemma jobj_braces l a : jvalue (RObj l) a -> exists u, a = "{"%byte :: u ++ ["}"%byte].
Proof. intros H. inversion H; subst; eauto. Qed.
Definition answers_events (ty : sio_type) : Prop := ty = SEvent \/ ty = SBinaryEvent \/ ty = SAck \/ ty = SBinaryAck.
Lemma sends_brackets p : sends p -> answers_events (o_type p) -> exists u, o_data p = Some ("["%byte :: u ++ ["]"%byte]).
Proof.
  intros [_ _ _ _ _ _ H] T.
  destruct T as [T|[T|[T|T]]]; rewrite T in H.
  1,2: destruct H as (r & rs & a & E & J & _). 3: destruct H as (_ & rs & a & E & J). 4: destruct H as (_ & r & rs & a & E & J).
  all: destruct (jarr_brackets _ _ J) as [u ->]; eauto.
Qed.
Lemma sio_wire_ok p : sends p -> answers_events (o_type p) \/ o_type p = SDisconnect -> wire_ok (sio_wire p).
Proof.
  intros S T. split; cbn [sio_wire w_ns w_args].
  - intros x Hx. eapply ns_opt_ok; [apply S|exact Hx].
  - intros a Ha. split; [|eapply sd_newline; eauto]. destruct T as [T|T].
    + destruct (sends_brackets p S T) as [u E]. rewrite Ha in E. injection E as ->. eauto.
    + destruct S as [_ _ _ _ _ _ H]. rewrite T in H. destruct H. congruence.
Qed.
Lemma same_length_reads t w w' : reads_as t w' -> t = wire_text w -> wire_ok w ->
  ns_length w = ns_length w' -> reads_as t w.
Proof. intros (_ & _ & Hm) E Hok L. split; [exact E|]. split; [exact Hok|]. intros w2 E2 O2. rewrite L. auto. Qed.
Lemma ns_opt_some x : (exists c r, x = "/"%byte :: c :: r) -> ns_opt x = Some x.
Proof.
  intros (c & r & ->). unfold ns_opt. destruct (bytes_eqb _ _) eqn:E; [apply bytes_eqb_eq in E; discriminate|reflexivity].
Qed.

Lemma or_compat (A B C D : Prop) : (A <-> B) -> (C <-> D) -> (A \/ C <-> B \/ D).
Proof. tauto. Qed.

(** ** Third revision *)
Lemma third_frames bl : map (attachment_frame Third) bl = map frame bl. Proof. reflexivity. Qed.
Lemma gets_accepts h p bl ts k : opened h -> ~ closed h -> o_type p <> SConnectError ->
  (client_gets h (WText ("4"%byte :: sio_encode p) :: map (attachment_frame Third) bl) k (o_nsp p) (o_id p) ts bl <->
   accepts (sio_encode p) k (o_nsp p) (o_id p) ts (N.of_nat (length bl)) /\
   (k = KEvent \/ k = KAck -> complete_ok k (o_id p) ts)).
Proof.
  intros Ho Hc Ht. rewrite third_frames. unfold client_gets.
  pose proof (received_exact (tsub (sio_encode p)) (sio_encode p) (bmsgs bl) k (o_nsp p) (o_id p) ts bl) as R.
  rewrite (sio_wire_text p Ht) in *. specialize (R (tsub_wire _) (bmsgs_ok bl)).
  replace (length (bmsgs bl)) with (length bl) in R by (unfold bmsgs; rewrite map_length; reflexivity).
  split.
  - intros (q & A & V). apply arrives_received in A; [|assumption..]. destruct (proj1 R (ex_intro _ q (conj A V))) as (X & _ & Y). auto.
  - intros [X Y]. destruct (proj2 R (conj X (conj (bmsgs_content bl) Y))) as (q & A & V).
    exists q. split; [apply arrives_received; assumption|exact V].
Qed.
Lemma accepts_reads p k ts n : sends p -> answers_events (o_type p) \/ o_type p = SDisconnect ->
  accepts (sio_encode p) k (o_nsp p) (o_id p) ts n -> reads_as (sio_encode p) (sio_wire p).
Proof.
  intros S T (w' & R & _ & _ & _ & En & _). assert (Ht : o_type p <> SConnectError).
  { unfold answers_events in T. intuition congruence. }
  eapply same_length_reads; [exact R|apply sio_wire_text; exact Ht|apply sio_wire_ok; assumption|].
  unfold ns_length. cbn [sio_wire w_ns]. destruct R as (_ & [Hn _] & _). destruct (w_ns w') as [x|] eqn:E.
  - rewrite En, ns_opt_some; [reflexivity|]. apply (Hn x eq_refl).
  - rewrite En. reflexivity.
Qed.
Lemma no_braces_read t u w : (exists s, t = s ++ "{"%byte :: u ++ ["}"%byte]) -> ~ reads_as t w.
Proof.
  intros (s & ->) (E & Hok & _).
  assert (L : exists v, s ++ "{"%byte :: u ++ ["}"%byte] = v ++ ["}"%byte]).
  { exists (s ++ "{"%byte :: u). rewrite <- app_assoc. reflexivity. }
  destruct L as [v L]. rewrite L in E. clear L. unfold wire_text in E.
  assert (X : forall a c, v ++ ["}"%byte] = a ++ [c] -> c = "}"%byte) by (intros a c Y; apply app_inj_tail in Y as [_ Y]; auto).
  destruct (w_args w) as [a|] eqn:Ea.
  { destruct (proj2 Hok a Ea) as [[b ->] _]. cbn [opt_text] in E. 
    specialize (X (type_digit (w_kind w) :: opt_text (fun n => dec n ++ bs "-") (w_count w) ++ opt_text (fun x => x ++ bs ",") (w_ns w)
      ++ opt_text dec (w_id w) ++ "["%byte :: b) "]"%byte).
    rewrite E in X. discriminate X. cbn [app]. rewrite <- !app_assoc. reflexivity. }
  cbn [opt_text] in E. rewrite app_nil_r in E. destruct (w_id w) as [i|] eqn:Ei; cbn [opt_text] in E.
  { destruct (exists_last (dec_nonempty i)) as (d & c & Ed).
    assert (D : is_digit c = true).
    { pose proof (dec_digits i) as D. rewrite forallb_forall in D. apply D. rewrite Ed. apply in_or_app. right. left. reflexivity. }
    specialize (X (type_digit (w_kind w) :: opt_text (fun n => dec n ++ bs "-") (w_count w) ++ opt_text (fun x => x ++ bs ",") (w_ns w) ++ d) c).
    rewrite X in D; [discriminate|]. rewrite E, Ed. cbn [app]. rewrite <- !app_assoc. reflexivity. }
  rewrite app_nil_r in E. destruct (w_ns w) as [x|] eqn:En; cbn [opt_text] in E.
  { specialize (X (type_digit (w_kind w) :: opt_text (fun n => dec n ++ bs "-") (w_count w) ++ x) ","%byte).
    discriminate X. rewrite E. cbn [app]. rewrite <- !app_assoc. reflexivity. }
  rewrite app_nil_r in E. destruct (w_count w) as [n|]; cbn [opt_text] in E.
  { specialize (X (type_digit (w_kind w) :: dec n) "-"%byte). discriminate X. rewrite E. reflexivity. }
  specialize (X [] (type_digit (w_kind w)) E). destruct (w_kind w); discriminate.
Qed.
Lemma connect_unread p w : sends p -> opens_namespace (o_type p) -> ~ reads_as (sio_encode p) w.
Proof.
  intros [_ _ _ _ _ _ H] T. assert (X : exists l a, o_data p = Some a /\ jvalue (RObj l) a).
  { destruct T as [T|T]; rewrite T in H; apply H. }
  destruct X as (l & a & Ea & J). destruct (jobj_braces l a J) as [u ->]. apply (no_braces_read _ u).
  eexists. unfold sio_encode. rewrite Ea. cbn [opt_text]. rewrite !app_comm_cons, !app_assoc. reflexivity.
Qed.
Lemma connect_rejects p : sends p -> opens_namespace (o_type p) -> rejects (sio_encode p) (SInvalidMessage (sio_encode p)).
Proof. intros S T. left. split; [|reflexivity]. intros w. apply connect_unread; assumption. Qed.

Lemma third_exact h p bl ts k : opened h -> ~ closed h -> sends p -> o_count p = N.of_nat (length bl) -> sio_args p ts -> sio_kind k (o_type p) ->
  (client_gets h (WText ("4"%byte :: sio_encode p) :: map (attachment_frame Third) bl) k (o_nsp p) (o_id p) ts bl <-> understood p ts).
Proof.
  intros Ho Hc S Hn Ha Hk.
  assert (Ht : o_type p <> SConnectError) by (intros E; rewrite E in Hk; destruct k; cbn in Hk; intuition discriminate).
  rewrite gets_accepts by assumption. rewrite <- Hn.
  assert (C : answers_events (o_type p) \/ o_type p = SDisconnect \/ o_type p = SConnect).
  { unfold answers_events. destruct (o_type p); auto 10; congruence. }
  destruct C as [C|[C|C]].
  - destruct (sends_brackets p S C) as [u Eu].
    assert (U : understood p ts <-> ts <> [] /\ (w_ns (sio_wire p) = None \/ ~ misreadable ("["%byte :: u ++ ["]"%byte]))).
    { transitivity (ts <> [] /\ (o_nsp p = bs "/" \/ forall a, o_data p = Some a -> ~ misreadable a)).
      - unfold understood. destruct C as [C|[C|[C|C]]]; rewrite C; reflexivity.
      - apply and_iff_compat_l. rewrite Eu. cbn [sio_wire w_ns]. apply or_compat.
        + split; [intros ->; reflexivity|]. unfold ns_opt. destruct (bytes_eqb _ _) eqn:E; [|discriminate]. intros _. apply bytes_eqb_eq. exact E.
        + split; [auto|]. intros H a [= <-]. exact H. }
    assert (J : elements (o_data p) ts).
    { unfold sio_args in Ha. destruct C as [C|[C|[C|C]]]; rewrite C in Ha; destruct Ha as (a & E & J); rewrite E; exact J. }
    rewrite U, <- (reads_intended (sio_wire p) u (sio_wire_ok p S (or_introl C)) Eu), <- (sio_wire_text p Ht).
    assert (Kk : k = KEvent \/ k = KAck).
    { destruct C as [C|[C|[C|C]]]; rewrite C in Hk; destruct k; cbn in Hk; intuition discriminate. }
    split.
    + intros [A Y]. split; [apply (Y Kk)|]. eapply accepts_reads; eauto.
    + intros [Hts R]. assert (Hid : k = KAck -> o_id p <> None).
      { intros ->. destruct S as [_ _ _ _ _ _ H]. cbn in Hk. destruct Hk as [E|E]; rewrite E in H; apply H. }
      split; [|intros _; split; assumption]. exists (sio_wire p). split; [exact R|].
      destruct S as [_ Hf Hu Hz _ _ _].
      split; [unfold too_big; cbn [sio_wire w_count]; intros (n & E & Hb); destruct (counted (o_type p)); [injection E as <-; lia|discriminate]|].
      split; [unfold too_big; cbn [sio_wire w_id]; intros (n & E & Hb); rewrite E in Hf; cbn in Hf; lia|].
      split; [exact J|]. split; [cbn [sio_wire w_ns]; rewrite ns_opt_back; reflexivity|]. split; [reflexivity|].
      cbn [sio_wire w_kind w_count]. 
      destruct C as [C|[C|[C|C]]]; rewrite C in *; cbn [sio_pkind counted] in *; destruct k; cbn in Hk; try (exfalso; intuition discriminate);
        intuition congruence.
  - assert (U : understood p ts) by (unfold understood; rewrite C; exact I).
    split; [auto|]. intros _. assert (Kk : k = KDisconnect) by (rewrite C in Hk; destruct k; cbn in Hk; intuition discriminate). subst k.
    split; [|intros [X|X]; discriminate]. pose proof (sio_wire_ok p S (or_intror C)) as Ok.
    destruct S as [_ Hf Hu Hz _ _ H]. rewrite C in *. destruct H as [Hi Hd].
    assert (E : sio_args p ts) by exact Ha. unfold sio_args in E. rewrite C in E. subst ts.
    exists (sio_wire p). split.
    { rewrite (sio_wire_text p) by (rewrite C; discriminate). apply reads_last_comma; [exact Ok|cbn [sio_wire w_count]; rewrite C; reflexivity|].
      cbn [sio_wire w_id w_args]. rewrite Hi, Hd. intros []. }
    unfold too_big. cbn [sio_wire w_kind w_count w_ns w_id w_args]. rewrite C, Hi, Hd. cbn.
    rewrite ns_opt_back. repeat split; try (intros (n & X & _); discriminate). apply Hz. reflexivity.
  - unfold understood. rewrite C. split; [|intros []]. intros [(w & R & _) _]. exact (connect_unread p w S (or_introl C) R).
Qed.

(** ** Fourth revision *)
Lemma fourth_only h t bl m l : opened h -> ~ closed h ->
  history_answers (h ++ WText ("4"%byte :: t) :: map (attachment_frame Fourth) bl) =
    history_answers h ++ map (fun x => Ok (PktMessage x)) (m :: l) ->
  exists cl, bl = map (cons x04) cl /\ m = MText (tsub t) /\ l = bmsgs cl.
Proof.
  intros Ho Hc. unfold history_answers, decoder_new. rewrite answers_app.
  assert (E : state_after DInitial h = DActive) by (apply state_active; auto). rewrite E. intros H. apply app_inv_head in H.
  cbn [answers decode map] in H. injection H as Hm H. 
  assert (X : exists cl, bl = map (cons x04) cl /\ l = bmsgs cl).
  { clear -H. revert l H. induction bl as [|b bl IH]; intros l H.
    { destruct l; [exists []; auto|discriminate]. }
    destruct l as [|x l]; [cbn [map answers] in H; destruct (decode _ _); discriminate|].
    cbn [map attachment_frame answers] in H. destruct b as [|c b]; [discriminate|].
    cbn [decode] in H. unfold decode_binary in H. destruct (Byte.eqb c x04) eqn:Ec.
    - apply byte_eqb_eq in Ec. subst c. cbn in H. injection H as <- H. destruct (IH l H) as (cl & -> & ->). exists (b :: cl). split; reflexivity.
    - exfalso. destruct c; try discriminate. }
  destruct X as (cl & -> & ->). exists cl. split; [reflexivity|]. split; [|reflexivity]. symmetry. exact Hm.
Qed.
Lemma cons_shift (cl : list bytes) : cl = map (cons x04) cl -> cl = [].
Proof. destruct cl as [|c cl]; [reflexivity|]. cbn. intros [= H _]. exfalso. assert (L : length c = length (x04 :: c)) by (rewrite <- H; reflexivity). cbn in L. lia. Qed.
Lemma fourth_gets h p k ts bl : opened h -> ~ closed h ->
  client_gets h (WText ("4"%byte :: sio_encode p) :: map (attachment_frame Fourth) bl) k (o_nsp p) (o_id p) ts bl -> bl = [].
Proof.
  intros Ho Hc (q & (m & l & E & R) & V). destruct (fourth_only h (sio_encode p) bl (MText m) l Ho Hc E) as (cl & -> & Em & ->). injection Em as ->.
  assert (D : sub_deref_str (tsub (sio_encode p)) = Some (sio_encode p)) by (apply tsub_text; destruct (o_type p); reflexivity).
  destruct (proj1 (received_exact _ _ (bmsgs cl) _ _ _ _ _ D (bmsgs_ok cl)) (ex_intro _ q (conj R V))) as (_ & B & _).
  rewrite bmsgs_content in B. injection B as B. rewrite <- (map_id (map (cons x04) cl)), map_id.
  pose proof (cons_shift cl B) as ->. reflexivity.
Qed.
Lemma fourth_exact h p bl ts k : opened h -> ~ closed h -> sends p -> o_count p = N.of_nat (length bl) -> sio_args p ts -> sio_kind k (o_type p) ->
  (client_gets h (WText ("4"%byte :: sio_encode p) :: map (attachment_frame Fourth) bl) k (o_nsp p) (o_id p) ts bl <-> bl = [] /\ understood p ts).
Proof.
  intros Ho Hc S Hn Ha Hk. rewrite <- (third_exact h p bl ts k) by assumption. split.
  - intros H. pose proof (fourth_gets _ _ _ _ _ Ho Hc H) as ->. split; [reflexivity|]. exact H.
  - intros [-> H]. exact H.
Qed.
Lemma client_exact v h p bl ts k : opened h -> ~ closed h -> sends p -> o_count p = N.of_nat (length bl) -> sio_args p ts -> sio_kind k (o_type p) ->
  (client_gets h (WText ("4"%byte :: sio_encode p) :: map (attachment_frame v) bl) k (o_nsp p) (o_id p) ts bl <->
   (v = Third \/ bl = []) /\ understood p ts).
Proof.
  intros. destruct v; [rewrite third_exact by assumption|rewrite fourth_exact by assumption]; intuition discriminate.
Qed.

(** ** In the client *)
Lemma live_answer o m r : live o -> is_data m = true -> snd (decode DActive m) = r -> engine_answer (reads o) m r.
Proof.
  intros [Ho Hc] Hd E. unfold engine_answer, history_answers, decoder_new. rewrite answers_app. f_equal.
  rewrite (proj2 (state_active _) (conj Ho Hc)). cbn [answers]. destruct (decode DActive m). cbn in *. subst. reflexivity.
Qed.
Lemma connect_ends log s o p s' o' : trace log s o -> live o -> between_packets o ->
  sends p -> opens_namespace (o_type p) -> step log s (LRead (WText ("4"%byte :: sio_encode p))) = Some (s', o') ->
  o' = [ORead (WText ("4"%byte :: sio_encode p)); OEnd (EndErr (RSocket (SInvalidMessage (sio_encode p))))] /\
  s_phase s' = PEnded (EndErr (RSocket (SInvalidMessage (sio_encode p)))).
Proof.
  intros Ht Hl [ps Hb] S T H. eapply rejected_ends; eauto.
  assert (D : sub_deref_str (tsub (sio_encode p)) = Some (sio_encode p)) by (apply tsub_text; destruct (o_type p); reflexivity).
  apply re_message with (MText (tsub (sio_encode p))); [reflexivity|apply live_answer; auto|].
  eapply mr_not_a_packet; [exact Hb|]. apply (parse_error_exact _ _ _ D). apply connect_rejects; assumption.
Qed.
Lemma attachment_ends log s o b s' o' : trace log s o -> live o -> (forall r, b <> x04 :: r) ->
  step log s (LRead (attachment_frame Fourth b)) = Some (s', o') ->
  o' = [ORead (WBinary b); OEnd (EndErr (REngine (EInvalidMessage (WBinary b))))] /\
  s_phase s' = PEnded (EndErr (REngine (EInvalidMessage (WBinary b)))).
Proof.
  intros Ht Hl Hb H. eapply rejected_ends; eauto. apply re_error; [reflexivity|]. apply live_answer; auto.
  cbn [attachment_frame decode]. unfold decode_binary. destruct b as [|c b]; [reflexivity|].
  destruct (c =b x04) eqn:E; [|reflexivity]. apply byte_eqb_eq in E. subst c. exfalso. exact (Hb b eq_refl).
Qed.

(** ** What is not understood ends the connection *)
Lemma array_inside ts u : jarray ts ("["%byte :: u ++ ["]"%byte]) -> safe 1 u.
Proof.
  intros (wa & body & wb & Wa & Wb & E & H).
  assert (S : safe 1 body) by (destruct H as [[_ H]|H]; [auto using safe_neutral, ws_neutral|eapply jitems_safe; eauto]).
  destruct wa as [|c wa].
  2:{ exfalso. injection E as <- _. inversion Wa as [|? ? X _]; subst. vm_compute in X. intuition discriminate. }
  cbn [app] in E. injection E as E. destruct wb as [|c wb _] using rev_ind.
  - change (body ++ ["]"%byte]) with (body ++ ["]"%byte]) in E. apply app_inj_tail in E as [-> _]. exact S.
  - exfalso. change (body ++ "]"%byte :: wb ++ [c]) with (body ++ ("]"%byte :: wb) ++ [c]) in E. rewrite app_assoc in E.
    apply app_inj_tail in E as [_ <-]. apply Forall_app in Wb as [_ X]. inversion X as [|? ? Y _]; subst. vm_compute in Y. intuition discriminate.
Qed.
Lemma binary_args p ts : sends p -> counted (o_type p) = true -> sio_args p ts -> ts <> [].
Proof.
  intros S T Ha. destruct S as [_ _ _ _ _ _ H]. unfold sio_args in Ha.
  assert (X : exists r rs a, o_data p = Some a /\ jvalue (RArr (r :: rs)) a /\ jarray ts a).
  { destruct (o_type p); try discriminate; destruct Ha as (a & E & J).
    - destruct H as (r & rs & a' & E' & J' & _). rewrite E in E'. injection E' as <-. eauto 6.
    - destruct H as (_ & r & rs & a' & E' & J'). rewrite E in E'. injection E' as <-. eauto 6. }
  destruct X as (r & rs & a & _ & J1 & J2). intros ->.
  assert (W : exists w, ws w /\ a = "["%byte :: w ++ ["]"%byte]).
  { destruct (jarr_brackets _ _ J1) as [u ->]. destruct J2 as (wa & body & wb & Wa & Wb & E & [[_ H2]|H2]); [|inversion H2].
    destruct wa as [|c wa].
    2:{ exfalso. injection E as <- _. inversion Wa as [|? ? X _]; subst. vm_compute in X. intuition discriminate. }
    cbn [app] in E. injection E as E. destruct wb as [|c wb _] using rev_ind.
    - apply app_inj_tail in E as [-> _]. eauto.
    - exfalso. change (body ++ "]"%byte :: wb ++ [c]) with (body ++ ("]"%byte :: wb) ++ [c]) in E. rewrite app_assoc in E.
      apply app_inj_tail in E as [_ <-]. apply Forall_app in Wb as [_ X]. inversion X as [|? ? Y _]; subst. vm_compute in Y. intuition discriminate. }
  destruct W as (w & Hw & ->). pose proof (jv_arr0 w Hw) as J0.
  pose proof (jdoc_unique _ _ _ (jvalue_doc _ _ J0) (jvalue_doc _ _ J1)). discriminate.
Qed.
Lemma misunderstood p ts : sends p -> sio_args p ts -> ~ understood p ts ->
  (exists e, rejects (sio_encode p) e) \/
  (exists w, reads_as (sio_encode p) w /\ (too_big (w_count w) \/ too_big (w_id w))).
Proof.
  intros S Ha Hu. destruct (parse_trichotomy (sio_encode p)) as [(k & ns & id & ts' & n & A)|H]; [exfalso|exact H].
  assert (C : answers_events (o_type p) \/ o_type p = SDisconnect \/ opens_namespace (o_type p)).
  { unfold answers_events, opens_namespace. destruct (o_type p); auto 10. }
  destruct C as [C|[C|C]].
  - assert (Ht : o_type p <> SConnectError) by (unfold answers_events in C; intuition congruence).
    destruct (sends_brackets p S C) as [u Eu].
    assert (J : jarray ts ("["%byte :: u ++ ["]"%byte])).
    { unfold sio_args in Ha. destruct C as [C|[C|[C|C]]]; rewrite C in Ha; destruct Ha as (a & E & J); rewrite Eu in E; injection E as <-; exact J. }
    rewrite (sio_wire_text p Ht) in A. pose proof (sio_wire_ok p S (or_introl C)) as Ok.
    pose proof (accepts_intended _ u _ _ _ _ _ Ok Eu (array_inside _ _ J) A) as R.
    apply Hu. assert (U : ts <> [] /\ (o_nsp p = bs "/" \/ forall a, o_data p = Some a -> ~ misreadable a)).
    { split.
      - intros ->. destruct A as (w' & R' & _ & _ & El & _ & _ & K). rewrite (reads_as_unique _ _ _ R' R) in *.
        cbn [sio_wire w_args] in El. rewrite Eu in El. cbn [elements] in El. pose proof (jarray_unique _ _ _ El J) as ->.
        cbn [sio_wire w_kind] in K. destruct C as [C|[C|[C|C]]]; rewrite C in K; cbn [sio_pkind] in K.
        + destruct K as (_ & K & _). congruence.
        + apply (binary_args p [] S); [rewrite C; reflexivity|exact Ha|reflexivity].
        + destruct K as (_ & K & _). congruence.
        + apply (binary_args p [] S); [rewrite C; reflexivity|exact Ha|reflexivity].
      - apply (reads_intended _ u Ok Eu) in R. cbn [sio_wire w_ns] in R. destruct R as [R|R].
        + left. pose proof (ns_opt_back (o_nsp p)) as B. rewrite R in B. symmetry. exact B.
        + right. intros a Ea. rewrite Eu in Ea. injection Ea as <-. exact R. }
    unfold understood. destruct C as [C|[C|[C|C]]]; rewrite C; exact U.
  - apply Hu. unfold understood. rewrite C. exact I.
  - destruct A as (w & R & _). exact (connect_unread p w S C R).
Qed.
Lemma misunderstood_ends log s o p ts s' o' : trace log s o -> live o -> between_packets o ->
  sends p -> sio_args p ts -> ~ understood p ts -> step log s (LRead (WText ("4"%byte :: sio_encode p))) = Some (s', o') ->
  exists e, o' = [ORead (WText ("4"%byte :: sio_encode p)); OEnd e] /\ s_phase s' = PEnded e /\
    (e = EndPanic \/ exists x, rejects (sio_encode p) x /\ e = EndErr (RSocket x)).
Proof.
  intros Ht Hl [ps Hb] S Ha Hu H.
  assert (D : sub_deref_str (tsub (sio_encode p)) = Some (sio_encode p)) by (apply tsub_text; destruct (o_type p); reflexivity).
  destruct (misunderstood p ts S Ha Hu) as [[x R]|W].
  - exists (EndErr (RSocket x)).
    destruct (rejected_ends log s o _ (RSocket x) s' o' Ht H) as [E P].
    { apply re_message with (MText (tsub (sio_encode p))); [reflexivity|apply live_answer; auto|].
      eapply mr_not_a_packet; [exact Hb|]. apply (parse_error_exact _ _ _ D). exact R. }
    split; [exact E|]. split; [exact P|]. right. eauto.
  - exists EndPanic.
    assert (X : reaction log o (WText ("4"%byte :: sio_encode p)) [OEnd EndPanic]).
    { apply re_message with (MText (tsub (sio_encode p))); [reflexivity|apply live_answer; auto|].
      eapply mr_panic; [exact Hb|]. apply (deserialize_panic_exact _ _ D). exact W. }
    destruct (reaction_exact _ _ _ _ _ _ Ht H) as (out & Eo & Hr). rewrite (reaction_unique _ _ _ _ _ Hr X) in Eo. subst o'.
    split; [reflexivity|]. split; [|left; reflexivity].
    apply (trace_ended _ _ _ (trace_step _ _ _ _ _ _ Ht H)). apply in_app_iff. cbn. auto.
Qed.

(** ** The witness *)
Definition welcome : sio := Sio SConnect 0 (bs "/") None (Some (bs "{""sid"":""x""}")).
Lemma welcome_sent : sends welcome.
Proof.
  constructor; cbn.
  - split; [split; [exists []; reflexivity|]|]; intros [X|[]]; discriminate.
  - exact I.
  - vm_compute. discriminate.
  - reflexivity.
  - discriminate.
  - intros a [= <-]. vm_compute. intuition discriminate.
  - split; [reflexivity|]. exists [(bs "sid", RStr (bs "x"))]. eexists. split; [reflexivity|].
    apply (jv_obj [(bs "sid", RStr (bs "x"))] (bs """sid"":""x""")).
    apply (jm_one (bs "sid") (RStr (bs "x")) (bs """x""") [] [] [] []); try exact (Forall_nil _).
    + repeat (apply jb_char; [discriminate|discriminate|vm_compute; discriminate|]). constructor.
    + apply (jv_str (bs "x")). apply jb_char; [discriminate|discriminate|vm_compute; discriminate|]. constructor.
Qed.
Lemma C69_refuted_lemma : ~ C69_full.
Proof.
  intros H. specialize (H [WText (bs "0[""a"",1,2]")] welcome [] [] KConnect).
  assert (Ho : opened [WText (bs "0[""a"",1,2]")] /\ ~ closed [WText (bs "0[""a"",1,2]")]) by (apply state_active; vm_compute; reflexivity).
  destruct Ho as [Ho Hc]. specialize (H Ho Hc welcome_sent eq_refl eq_refl eq_refl).
  apply fourth_exact in H; [|assumption..|exact welcome_sent|reflexivity|reflexivity|reflexivity]. exact (proj2 H).
Qed.
Definition greeting : sio :=
  Sio SBinaryEvent 1 (bs "/chat") (Some 3%N) (Some (bs "[""hi"",{""_placeholder"":true,""num"":0}]")).
Lemma body_of b : forallb (fun c => negb (Byte.eqb c x22) && negb (Byte.eqb c x5c) && (32 <=? bN c)%N) b = true -> jbody b.
Proof.
  induction b as [|c b IH]; cbn [forallb]; [constructor|]. intros H. apply andb_true_iff in H as [Hc H].
  apply andb_true_iff in Hc as [Hc H3]. apply andb_true_iff in Hc as [H1 H2]. apply negb_true_iff in H1, H2.
  apply jb_char; [apply byte_eqb_neq; exact H1|apply byte_eqb_neq; exact H2|lia|auto].
Qed.
Lemma hole_text : jvalue (RObj [(key_placeholder, RBool true); (key_num, RNum (NumLit false (bs "0") None None))])
  (bs "{""_placeholder"":true,""num"":0}").
Proof.
  apply (jv_obj _ (bs """_placeholder"":true,""num"":0")).
  apply (jm_cons key_placeholder (RBool true) (bs "true") [] [] [] [] [(key_num, RNum (NumLit false (bs "0") None None))] (bs """num"":0"));
    try exact (Forall_nil _); [apply body_of; reflexivity|constructor|].
  apply (jm_one key_num (RNum (NumLit false (bs "0") None None)) (bs "0") [] [] [] []); try exact (Forall_nil _); [apply body_of; reflexivity|].
  apply (jv_num (NumLit false (bs "0") None None)). vm_compute. tauto.
Qed.
Lemma hi_text : jvalue (RStr (bs "hi")) (bs """hi""").
Proof. apply (jv_str (bs "hi")). apply body_of. reflexivity. Qed.
Lemma greeting_sent : sends greeting.
Proof.
  constructor; cbn.
  - split; [split; [exists (bs "chat"); reflexivity|]|]; vm_compute; intuition discriminate.
  - vm_compute. discriminate.
  - vm_compute. discriminate.
  - discriminate.
  - reflexivity.
  - intros a [= <-]. vm_compute. intuition discriminate.
  - eexists (RStr (bs "hi")), [RObj [(key_placeholder, RBool true); (key_num, RNum (NumLit false (bs "0") None None))]], _. split; [reflexivity|]. split.
    + apply (jv_arr _ (bs """hi"",{""_placeholder"":true,""num"":0}")).
      apply (je_cons (RStr (bs "hi")) (bs """hi""") [] [] [RObj [(key_placeholder, RBool true); (key_num, RNum (NumLit false (bs "0") None None))]] (bs "{""_placeholder"":true,""num"":0}")); try exact (Forall_nil _); [exact hi_text|].
      apply (je_one (RObj [(key_placeholder, RBool true); (key_num, RNum (NumLit false (bs "0") None None))]) (bs "{""_placeholder"":true,""num"":0}") [] []); try exact (Forall_nil _). exact hole_text.
    + cbn. intros e He. apply means_unescape in He. vm_compute in He. injection He as <-.
      vm_compute. intuition discriminate.
Qed.
Lemma greeting_args : sio_args greeting [bs """hi"""; bs "{""_placeholder"":true,""num"":0}"].
Proof.
  eexists. split; [reflexivity|]. exists [], (bs """hi"",{""_placeholder"":true,""num"":0}"), []. split; [exact (Forall_nil _)|].
  split; [exact (Forall_nil _)|]. split; [reflexivity|]. right.
  apply (ji_cons (RStr (bs "hi")) (bs """hi""") [] [] _ (bs "{""_placeholder"":true,""num"":0}") (Forall_nil _) (Forall_nil _) hi_text).
  apply (ji_one (RObj [(key_placeholder, RBool true); (key_num, RNum (NumLit false (bs "0") None None))]) (bs "{""_placeholder"":true,""num"":0}") [] [] (Forall_nil _) (Forall_nil _) hole_text).
Qed.
Lemma greeting_understood : understood greeting [bs """hi"""; bs "{""_placeholder"":true,""num"":0}"].
Proof.
  split; [discriminate|]. right. intros a [= <-] (x & o & y & E).
  change (bs "[""hi"",{""_placeholder"":true,""num"":0}]") with ("["%byte :: bs """hi"",{""_placeholder"":true,""num"":0}]") in E.
  assert (X : In "["%byte (bs """hi"",{""_placeholder"":true,""num"":0}]")).
  { destruct x as [|c x]; [discriminate|]. cbn [app] in E. injection E as _ ->. apply in_or_app. right. right. apply in_or_app. right. left. reflexivity. }
  vm_compute in X. intuition discriminate.
Qed.
