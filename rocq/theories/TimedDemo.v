(** Counterexamples and cases for C91-C93. *)
From Verif Require Export ClientDemo TextProofs ReportProofs.
From Coq Require Import Lia.

(** Runs with given times. *)
Definition opens_or_endsb (x : tobs) : bool := match x with TSys (OOpened _) | TSys (OEnd _) => true | _ => false end.
Definition endsb (x : tobs) : bool := match x with TSys (OEnd _) => true | _ => false end.
Definition promptb (d : N) (o : stamped) (st : stage) (t : N) : bool :=
  match st with
  | TConn since closing s =>
      match s_conn s with
      | CHandshake => (t <=? since + limit + d)%N
      | COpening => (t <=? since + limit + d)%N && forallb (fun x => negb (opens_or_endsb (snd x)) || (t <=? fst x + d)%N) o
      | _ => true
      end &&
      match s_handle s, closing with
      | HClosing, Some c => (t <=? c + limit + d)%N && forallb (fun x => negb (endsb (snd x)) || (t <=? N.max (fst x) c + d)%N) o
      | _, _ => true
      end
  | _ => true
  end.
Lemma promptb_prompt d o st t : promptb d o st t = true -> prompt d o st t.
Proof.
  destruct st as [u|since c s|]; try (intros _; exact I). cbn [promptb]. intros H. apply andb_prop in H as [H1 H2]. split; [|split].
  - intros [E|E]; rewrite E in H1; [|apply andb_prop in H1 as [H1 _]]; apply N.leb_le in H1; exact H1.
  - intros E a x Hi Hx. rewrite E in H1. apply andb_prop in H1 as [_ H1]. rewrite forallb_forall in H1. specialize (H1 _ Hi). cbn in H1.
    apply orb_prop in H1 as [H1|H1]; [|apply N.leb_le in H1; exact H1]. destruct Hx as [[y ->]|[e ->]]; discriminate.
  - intros E c0 ->. rewrite E in H2. apply andb_prop in H2 as [H2 H3]. split; [apply N.leb_le in H2; exact H2|].
    intros a e Hi. rewrite forallb_forall in H3. specialize (H3 _ Hi). cbn in H3. apply N.leb_le in H3. exact H3.
Qed.
Fixpoint play (log : bool) (d : N) (st : stage) (t : N) (o : stamped) (l : list (N * option tlabel)) : option (stage * N * stamped) :=
  match l with
  | [] => Some (st, t, o)
  | (t', k) :: l' =>
      if (t <=? t')%N && promptb d o st t' then
        match k with
        | None => play log d st t' o l'
        | Some k => match tstep log st t' k with Some (st', o') => play log d st' t' (o ++ stamp t' o') l' | None => None end
        end
      else None
  end.
Lemma play_timed log d w given parsed t0 l : forall st t o st' t' o', timed log d w given parsed t0 st t o ->
  play log d st t o l = Some (st', t', o') -> timed log d w given parsed t0 st' t' o'.
Proof.
  induction l as [|[t1 k] l IH]; intros st t o st' t' o' H E; cbn [play] in E; [injection E as <- <- <-; exact H|].
  destruct ((t <=? t1)%N) eqn:L; [|discriminate]. destruct (promptb d o st t1) eqn:P; [|discriminate]. cbn [andb] in E.
  apply N.leb_le in L. apply promptb_prompt in P. destruct k as [k|].
  - destruct (tstep log st t1 k) as [[st1 o1]|] eqn:K; [|discriminate]. eapply IH; [|exact E]. eapply tm_step; [eapply tm_wait; eauto|exact K].
  - eapply IH; [|exact E]. eapply tm_wait; eauto.
Qed.
Definition play_all (w : entry) (given : bytes) (parsed : option url) (l : list (N * option tlabel)) : option (stage * N * stamped) :=
  let (st, o) := begin w given parsed 0 in play false 5 st 0 (stamp 0 o) l.
Lemma play_all_timed w given parsed l st t o : play_all w given parsed l = Some (st, t, o) -> timed false 5 w given parsed 0 st t o.
Proof. unfold play_all. destruct (begin w given parsed 0) as [st0 o0] eqn:B. apply play_timed. constructor. exact B. Qed.

Definition site : url := Url (bs "https") (Some (bs "me:pw")) (Some (bs "h")) None (bs "/") None None.
Definition site_text : bytes := bs "https://me:pw@h/".
Lemma site_ok : parsed_ok site.
Proof. split; [intros _; exists "h"%byte, []; reflexivity|intros N; destruct N; reflexivity]. Qed.

(** The stream takes a minute; then the handshake takes 9 seconds and Open half a second more; [close()] is
    called, and the stream ends a second later. *)
Definition good_run : list (N * option tlabel) :=
  let k l := Some (KStep l) in
  [(60000, Some (KStream None)); (69000, k (LHandshake None)); (69500, k (LRead sample_open)); (69501, k LOpenSeen);
   (80000, k LCloseCall); (80001, k LClosed); (80001, k (LCloseFrame true)); (81000, k LReadEnd); (81003, k LCloseReturn); (99000, None)]%N.
Definition good_obs : stamped :=
  [(0, TDial (bs "h") 443); (60000, TStream None); (60000, TRequest (bs "wss://me:pw@h/?EIO=4&transport=websocket"));
   (69500, TSys (ORead sample_open)); (69500, TSys (OOpened (Open (bs "lv_VI97HAXpY6yYWAAAC") 5000 25000)));
   (69501, TSys (OConnect (CConnected (bs "lv_VI97HAXpY6yYWAAAC"))));
   (80000, TSys OCloseCalled); (80001, TSys OCloseFrame); (81000, TSys (OEnd EndOk)); (81003, TSys (OClose CloseOk))]%N.
Lemma good_timed : exists st, timed false 5 ByConnect site_text (Some site) 0 st 99000 good_obs.
Proof.
  destruct (play_all ByConnect site_text (Some site) good_run) as [[[st t] o]|] eqn:E; [|vm_compute in E; discriminate].
  assert (Q : t = 99000%N /\ o = good_obs) by (vm_compute in E; injection E as _ <- <-; split; vm_compute; reflexivity).
  destruct Q as [-> ->]. exists st. apply (play_all_timed _ _ _ _ _ _ _ E).
Qed.
(** The handshake takes 9 seconds, and then no Open comes: time is up one second later. *)
Definition late_run : list (N * option tlabel) :=
  let k l := Some (KStep l) in [(9000, k (LHandshake None)); (10003, k LOpenTimeout); (20000, None)]%N.
Definition late_obs : stamped :=
  [(0, TRequest (bs "wss://me:pw@h/?EIO=4&transport=websocket")); (10003, TSys (OConnect (CFailed COpenTimeout)))]%N.
Lemma late_timed : exists st, timed false 5 FromStream site_text (Some site) 0 st 20000 late_obs.
Proof.
  destruct (play_all FromStream site_text (Some site) late_run) as [[[st t] o]|] eqn:E; [|vm_compute in E; discriminate].
  assert (Q : t = 20000%N /\ o = late_obs) by (vm_compute in E; injection E as _ <- <-; split; vm_compute; reflexivity).
  destruct Q as [-> ->]. exists st. apply (play_all_timed _ _ _ _ _ _ _ E).
Qed.
(** The server does not react to the close frame. *)
Definition deaf_run : list (N * option tlabel) :=
  let k l := Some (KStep l) in
  [(1, k (LHandshake None)); (2, k (LRead sample_open)); (3, k LOpenSeen);
   (1000, k LCloseCall); (1001, k LClosed); (1001, k (LCloseFrame true)); (11000, k LCloseTimeout); (11002, k LCancel); (20000, None)]%N.
Definition deaf_obs : stamped :=
  [(0, TRequest (bs "wss://me:pw@h/?EIO=4&transport=websocket")); (2, TSys (ORead sample_open));
   (2, TSys (OOpened (Open (bs "lv_VI97HAXpY6yYWAAAC") 5000 25000))); (3, TSys (OConnect (CConnected (bs "lv_VI97HAXpY6yYWAAAC"))));
   (1000, TSys OCloseCalled); (1001, TSys OCloseFrame); (11000, TSys (OClose CloseTimeout)); (11002, TSys (OEnd EndCancelled))]%N.
Lemma deaf_timed : exists st, timed false 5 FromStream site_text (Some site) 0 st 20000 deaf_obs.
Proof.
  destruct (play_all FromStream site_text (Some site) deaf_run) as [[[st t] o]|] eqn:E; [|vm_compute in E; discriminate].
  assert (Q : t = 20000%N /\ o = deaf_obs) by (vm_compute in E; injection E as _ <- <-; split; vm_compute; reflexivity).
  destruct Q as [-> ->]. exists st. apply (play_all_timed _ _ _ _ _ _ _ E).
Qed.

(** C91 is false: the user's function may take any time. *)
Lemma C91_refuted_lemma : ~ C91_full.
Proof.
  intros F. assert (T : exists u, timed false 5 ByConnect site_text (Some site) 0 (TDialing u) 20000 [(0%N, TDial (bs "h") 443)]).
  { eexists. eapply (tm_wait _ _ _ _ _ _ _ 0); [exact (tm_begin false 5 ByConnect site_text (Some site) 0 _ _ eq_refl)|lia|exact I]. }
  destruct T as [u T]. destruct (F _ _ _ _ _ _ _ _ _ T) as (b & x & [[= <- <-]|[]] & E & _); [unfold limit; lia|].
  destruct E as [[e E]|[E|[E|[c E]]]]; discriminate.
Qed.

(** C93 is false: a URL that is refused is quoted. *)
Definition typo (user : bytes) : url := Url (bs "htps") (Some user) (Some (bs "h")) None (bs "/") None None.
Definition typo_text (user : bytes) : bytes := bs "htps://" ++ user ++ bs "@h/".
Definition some_formats : lib_formats := LibFormats (bs "relative URL without a base") (bs "Connection closed normally") (bs "Executor is shutdown").
Lemma typo_ok user : parsed_ok (typo user) /\ refusal (Some (typo user)) (UrlInvalidScheme (bs "htps")).
Proof.
  split; [split; [intros X; cbn in X; repeat (destruct X as [X|X]; [discriminate|]); contradiction|intros X; cbn in X; contradiction X; reflexivity]|].
  split; [intros b X; inversion X|reflexivity].
Qed.
Lemma C93_refuted_lemma : ~ C93_full.
Proof.
  intros F. destruct (typo_ok (bs "me:secret")) as [P R].
  assert (T : timed false 5 FromStream (typo_text (bs "me:secret")) (Some (typo (bs "me:secret"))) 0 TOver 0 (stamp 0 [TFail (LibUrl (typo_text (bs "me:secret")) (UrlInvalidScheme (bs "htps")))]))
    by (constructor; reflexivity).
  assert (S : same_but_user (typo (bs "me:secret")) (typo (bs "you"))) by (repeat split).
  destruct (F TextProofs.plain some_formats _ _ _ _ (typo_text (bs "you")) _ _ _ _ _ _ 0%N (TFail (LibUrl (typo_text (bs "me:secret")) (UrlInvalidScheme (bs "htps")))) _ P S T
    (or_introl eq_refl) (or_introl eq_refl)) as (st' & o' & x' & e' & T' & Hi & He & E).
  destruct (typo_ok (bs "you")) as [P' R'].
  assert (Pp : forall u, Some (typo (bs "you")) = Some u -> parsed_ok u) by (intros u Eu; injection Eu as <-; exact P').
  assert (Eo := refused_alone _ _ _ _ _ _ _ _ _ _ Pp R' T'). subst o'.
  destruct Hi as [[= <-]|[]]. destruct He as [[= <-]|(c & X & _)]; [|discriminate]. vm_compute in E. discriminate.
Qed.
