(** Proofs about the errors of connecting (C93). *)
From Verif Require Export TextProofs TimedProofs.
From Coq Require Import Lia.

(** ** Runs for URLs that differ in the user only *)
Definition plainly (o : stamped) : stamped := map (fun x => (fst x, unrequested (snd x))) o.
Lemma plainly_stamp t l : plainly (stamp t l) = stamp t (map unrequested l).
Proof. unfold plainly, stamp. rewrite !map_map. reflexivity. Qed.
Lemma plainly_sys o o' a x : plainly o = plainly o' -> In (a, TSys x) o -> In (a, TSys x) o'.
Proof.
  intros E H. assert (P : In (a, TSys x) (plainly o)) by (unfold plainly; apply in_map_iff; exists (a, TSys x); auto).
  rewrite E in P. unfold plainly in P. apply in_map_iff in P as ((b & y) & Q & Hi). cbn in Q. destruct y; cbn in Q; try discriminate. congruence.
Qed.
Lemma plainly_fail o o' a e : plainly o = plainly o' -> In (a, TFail e) o -> In (a, TFail e) o'.
Proof.
  intros E H. assert (P : In (a, TFail e) (plainly o)) by (unfold plainly; apply in_map_iff; exists (a, TFail e); auto).
  rewrite E in P. unfold plainly in P. apply in_map_iff in P as ((b & y) & Q & Hi). cbn in Q. destruct y; cbn in Q; try discriminate. congruence.
Qed.
Definition same_stage (st st' : stage) : Prop :=
  match st, st' with TDialing _, TDialing _ => True | TDialing _, _ | _, TDialing _ => False | _, _ => st = st' end.
Lemma prompt_plainly d o o' st st' t : plainly o = plainly o' -> same_stage st st' -> prompt d o st t -> prompt d o' st' t.
Proof.
  intros E S P. destruct st as [u|since c s|], st' as [u'|since' c' s'|]; try exact I; cbn in S; try contradiction; try discriminate.
  injection S as <- <- <-. destruct P as (P1 & P2 & P3). split; [exact P1|]. split.
  - intros Q a x Hi Hx. apply (P2 Q a x); [|exact Hx]. destruct Hx as [[y ->]|[e ->]]; apply (plainly_sys o' o); auto.
  - intros Q c0 Hc. destruct (P3 Q c0 Hc) as [A B]. split; [exact A|]. intros a e Hi. apply (B a e). apply (plainly_sys o' o); auto.
Qed.
Lemma begin_same w given given' u u' b t0 st o : parsed_ok u -> web_scheme (u_scheme u) b -> same_but_user u u' ->
  begin w given (Some u) t0 = (st, o) -> exists st' o', begin w given' (Some u') t0 = (st', o') /\ same_stage st st' /\ map unrequested o = map unrequested o'.
Proof.
  intros Hp Hw (E1 & E2 & E3 & E4 & E5 & E6) H. destruct u as [sc us ho po pa qu fr], u' as [sc' us' ho' po' pa' qu' fr']. cbn in *. subst sc' ho' po' pa' qu' fr'.
  assert (Hh : exists c h, ho = Some (c :: h)) by (apply (proj1 Hp); cbn; inversion Hw; tauto). destruct Hh as (c & h & ->). clear Hp.
  unfold begin, connect_to, from_stream_url, parse_url in *. inversion Hw; subst sc b; cbn in *; destruct w.
  all: destruct po as [p|]; cbn in *; repeat match goal with |- context [match (if ?x then _ else _) with _ => _ end] => destruct x eqn:?; cbn in * end.
  all: injection H as <- <-; do 2 eexists; (split; [reflexivity|]); cbn; auto.
Qed.
Lemma same_user_run log d w given given' u u' b t0 st t o : parsed_ok u -> web_scheme (u_scheme u) b -> same_but_user u u' ->
  timed log d w given (Some u) t0 st t o ->
  exists st' o', timed log d w given' (Some u') t0 st' t o' /\ same_stage st st' /\ plainly o = plainly o'.
Proof.
  intros Hp Hw Hs. induction 1 as [st o H|st t o t' H (st1 & o1 & T1 & S1 & E1) Le P|st t o l st' o' H (st1 & o1 & T1 & S1 & E1) Hl].
  - destruct (begin_same _ _ given' _ _ _ _ _ _ Hp Hw Hs H) as (st' & o' & B & S & E). exists st', (stamp t0 o'). split; [constructor; exact B|]. split; [exact S|].
    rewrite !plainly_stamp, E. reflexivity.
  - exists st1, o1. split; [|auto]. eapply tm_wait; eauto. eapply prompt_plainly; eauto.
  - assert (Q : exists st2 o2, tstep log st1 t l = Some (st2, o2) /\ same_stage st' st2 /\ map unrequested o' = map unrequested o2).
    { destruct st as [v|since c s|], st1 as [v'|since' c' s'|]; cbn in S1; try contradiction; try discriminate.
      - destruct l as [[e|]| |l]; cbn in Hl |- *; try discriminate; injection Hl as <- <-; do 2 eexists; (split; [reflexivity|]); cbn; auto.
      - injection S1 as <- <- <-. exists st', o'. split; [exact Hl|]. split; [|reflexivity]. destruct l as [| |l]; cbn in Hl; try discriminate.
        destruct (timer_allows since c t l); [|discriminate]. destruct (step log s l) as [[s' x]|]; [|discriminate]. injection Hl as <- _. reflexivity. }
    destruct Q as (st2 & o2 & Q1 & Q2 & Q3). exists st2, (o1 ++ stamp t o2). split; [eapply tm_step; eauto|]. split; [exact Q2|].
    unfold plainly in *. rewrite !map_app, E1. f_equal. change (plainly (stamp t o') = plainly (stamp t o2)). rewrite !plainly_stamp, Q3. reflexivity.
Qed.
Lemma user_unreported log d w given given' u u' b t0 st t o : parsed_ok u -> web_scheme (u_scheme u) b -> same_but_user u u' ->
  timed log d w given (Some u) t0 st t o ->
  exists st' o', timed log d w given' (Some u') t0 st' t o' /\
    map (fun x => (fst x, unrequested (snd x))) o' = map (fun x => (fst x, unrequested (snd x))) o /\
    forall a x e, In (a, x) o -> connect_error x e -> In (a, x) o'.
Proof.
  intros Hp Hw Hs H. destruct (same_user_run _ _ _ _ given' _ _ _ _ _ _ _ Hp Hw Hs H) as (st' & o' & T & _ & E). exists st', o'. split; [exact T|]. split; [symmetry; exact E|].
  intros a x e Hi [->|(c & -> & _)]; [eapply plainly_fail; eauto|eapply plainly_sys; eauto].
Qed.

(** ** Refused URLs *)
Lemma over_stays log d w given parsed t0 st t o o0 : begin w given parsed t0 = (TOver, o0) -> timed log d w given parsed t0 st t o -> st = TOver /\ o = stamp t0 o0.
Proof.
  intros B. induction 1 as [st o H|st t o t' H IH Le P|st t o l st' o' H [-> ->] Hl].
  - rewrite B in H. injection H as <- <-. auto.
  - exact IH.
  - destruct l; discriminate.
Qed.
Lemma refused_alone log d w given parsed t0 st t o e : (forall u, parsed = Some u -> parsed_ok u) -> refusal parsed e ->
  timed log d w given parsed t0 st t o -> o = [(t0, TFail (LibUrl given e))].
Proof.
  intros Hp Hr H. destruct (refused_exactly _ Hp e) as [[_ A] [_ B]]. specialize (A Hr). specialize (B Hr).
  assert (E : begin w given parsed t0 = (TOver, [TFail (LibUrl given e)])) by (unfold begin; destruct w; [rewrite A|rewrite B]; reflexivity).
  destruct (over_stays _ _ _ _ _ _ _ _ _ _ E H) as [_ ->]. reflexivity.
Qed.
Lemma url_error_when log d w given parsed t0 st t o b x e : (forall u, parsed = Some u -> parsed_ok u) ->
  timed log d w given parsed t0 st t o -> In (b, x) o -> connect_error x e -> kind_of e = KUrlRefused ->
  exists r, refusal parsed r /\ e = LibUrl given r /\ b = t0.
Proof.
  intros Hp H Hi He Hk.
  assert (Bg : forall st o, begin w given parsed t0 = (st, o) -> forall y g r, In y o -> y = TFail (LibUrl g r) -> g = given /\ refusal parsed r).
  { intros st1 o1 B y g r Hy ->. unfold begin in B. destruct w.
    - destruct (connect_to parsed) as [[[h p] v]|r1|] eqn:E; injection B as <- <-; destruct Hy as [Hy|[]]; try discriminate.
      injection Hy as <- <-. split; [reflexivity|]. apply (proj1 (refused_exactly _ Hp r1)), E.
    - destruct (from_stream_url parsed) as [v|r1|] eqn:E; injection B as <- <-; destruct Hy as [Hy|[]]; try discriminate.
      injection Hy as <- <-. split; [reflexivity|]. apply (proj2 (refused_exactly _ Hp r1)), E. }
  assert (K : forall a g r, In (a, TFail (LibUrl g r)) o -> g = given /\ refusal parsed r /\ a = t0).
  { clear - H Bg. induction H as [st o H|st t o t' H IH Le P|st t o l st' o' H IH Hl]; intros a g r Hi.
    - apply in_stamp in Hi as [-> Hi]. destruct (Bg _ _ H _ _ _ Hi eq_refl). auto.
    - exact (IH _ _ _ Hi).
    - apply in_app_iff in Hi as [Hi|Hi]; [exact (IH _ _ _ Hi)|]. exfalso. apply in_stamp in Hi as [_ Hi].
      destruct st as [v|since c s|]; destruct l as [[e|]| |l]; cbn [tstep] in Hl; try discriminate.
      1-3: injection Hl as <- <-; repeat (destruct Hi as [Hi|Hi]; [discriminate|]); destruct Hi.
      destruct (timer_allows since c t l); [|discriminate]. destruct (step log s l) as [[s' x]|]; [|discriminate]. injection Hl as <- <-.
      apply in_letting in Hi as [Hi|[y Hi]]; discriminate Hi. }
  destruct He as [->|(c & -> & ->)].
  - destruct e; try discriminate. destruct (K _ _ _ Hi) as (-> & A & B). eauto.
  - destruct c; discriminate.
Qed.

(** ** What the texts tell *)
Definition beginning (k : error_kind) : bytes :=
  match k with
  | KUrlRefused => bs "Failed to pa"
  | KWebsocket => bs "Websocket er"
  | KDialing => bs "Connection e"
  | KSpawning => bs "Failed to sp"
  | KPacket => bs "Error proces"
  | KTimeout => bs "Connection t"
  | KClosed => bs "Already clos"
  end.
Lemma text_begins fm lf e t : lib_error_text fm lf e = Some t -> firstn 12 t = beginning (kind_of e).
Proof.
  destruct e as [g r| | | |r| |]; cbn [lib_error_text]; intros H.
  5:{ unfold error_text in H. destruct (receiver_error_text fm r) as [z|]; cbn [option_map] in H; [|discriminate]. injection H as <-. reflexivity. }
  all: injection H as <-; reflexivity.
Qed.
Lemma kinds_told fm lf e e' t : lib_error_text fm lf e = Some t -> lib_error_text fm lf e' = Some t -> kind_of e = kind_of e'.
Proof.
  intros H H'. apply text_begins in H, H'. rewrite H in H'. revert H'. destruct (kind_of e), (kind_of e'); intros X; try reflexivity; discriminate X.
Qed.
Lemma stages_told fm lf e e' t : lib_error_text fm lf (conn_lib_error e) = Some t -> lib_error_text fm lf (conn_lib_error e') = Some t -> e = e'.
Proof.
  intros H H'. destruct e, e'; try reflexivity; exfalso; pose proof (kinds_told _ _ _ _ _ H H') as K; cbn in K; try discriminate; cbn in H, H'; congruence.
Qed.
Lemma last_colon (a b x y : bytes) : ~ In ":"%byte x -> ~ In ":"%byte y -> a ++ ":"%byte :: x = b ++ ":"%byte :: y -> a = b /\ x = y.
Proof.
  revert b. induction a as [|c a IH]; intros [|c' b] Hx Hy E; cbn in E.
  - injection E as ->. auto.
  - injection E as <- ->. destruct Hx. apply in_app_iff. right. left. reflexivity.
  - injection E as -> <-. destruct Hy. apply in_app_iff. right. left. reflexivity.
  - injection E as -> E. destruct (IH _ Hx Hy E) as [-> ->]. auto.
Qed.
Lemma scheme_shown fm s : scheme_chars s -> debug_str fm s = quote :: s ++ [quote].
Proof.
  intros H. unfold debug_str. do 2 f_equal. remember (length s) as k eqn:Ek. assert (L : length s <= k) by lia. clear Ek.
  revert s H L. induction k as [|k IH]; intros s H L; [destruct s; [reflexivity|cbn in L; lia]|]. destruct s as [|c s]; [reflexivity|]. cbn [debug_chars].
  assert (Hc : (bN c <? 128)%N = true /\ debug_ascii c = [c]).
  { assert (D := H c (or_introl eq_refl)). revert D. clear. unfold scheme_chars. revert c.
    assert (A : forall c, (is_digit c || ((97 <=? bN c)%N && (bN c <=? 122)%N) || existsb (Byte.eqb c) (bs "+-.")) = true -> (bN c <? 128)%N = true /\ debug_ascii c = [c]).
    { intros c. destruct c; cbn; intros X; try discriminate X; split; reflexivity. }
    intros c D. apply A. destruct D as [D|[D|D]].
    - rewrite D. reflexivity.
    - destruct D as [D1 D2]. apply N.leb_le in D1, D2. rewrite D1, D2, orb_true_r. reflexivity.
    - rewrite (proj2 (existsb_exists _ _)), orb_true_r; [reflexivity|]. exists c. split; [exact D|apply Byte.byte_dec_lb; reflexivity]. }
  destruct Hc as [A B]. rewrite A, B. cbn [app]. f_equal. apply IH; [intros x Hx; apply H; right; exact Hx|cbn in L; lia].
Qed.
Lemma scheme_no s c : scheme_chars s -> In c s -> c <> ":"%byte /\ c <> quote.
Proof.
  intros H Hi. destruct (H c Hi) as [D|[D|D]]; split; intros ->; cbn in D; try discriminate; try (destruct D as [D1 D2]; vm_compute in D1, D2; congruence); repeat (destruct D as [D|D]; [discriminate|]); contradiction.
Qed.
Lemma url_told fm lf g r g' r' t : plain_parse_text lf -> (forall s, r = UrlInvalidScheme s -> scheme_chars s) -> (forall s, r' = UrlInvalidScheme s -> scheme_chars s) ->
  lib_error_text fm lf (LibUrl g r) = Some t -> lib_error_text fm lf (LibUrl g' r') = Some t -> g = g' /\ r = r'.
Proof.
  intros (Pc & Pq & Pn) Hr Hr' H H'. cbn [lib_error_text] in H, H'. injection H as <-. injection H' as H'. 
  assert (E : g' ++ bs ": " ++ url_error_text fm lf r' = g ++ bs ": " ++ url_error_text fm lf r) by (cbn in H'; repeat (injection H' as H'); exact H'). clear H'.
  assert (F : forall r, (forall s, r = UrlInvalidScheme s -> scheme_chars s) -> forall g, exists a x, g ++ bs ": " ++ url_error_text fm lf r = a ++ ":"%byte :: x /\ ~ In ":"%byte x /\
    match r with UrlInvalidScheme s => a = g ++ bs ": Invalid scheme" /\ x = " "%byte :: quote :: s ++ [quote] | UrlParse => a = g /\ x = " "%byte :: lf_parse lf | UrlNoHost => a = g /\ x = bs " No host" end).
  { intros [|s|] Hs h.
    - exists h, (" "%byte :: lf_parse lf). split; [reflexivity|]. split; [|auto]. intros [X|X]; [discriminate|contradiction].
    - exists (h ++ bs ": Invalid scheme"), (" "%byte :: quote :: s ++ [quote]). cbn [url_error_text]. rewrite (scheme_shown _ _ (Hs s eq_refl)). split; [rewrite <- app_assoc; reflexivity|].
      split; [|auto]. intros [X|[X|X]]; [discriminate|discriminate|]. apply in_app_iff in X as [X|[X|[]]]; [|discriminate]. destruct (scheme_no _ _ (Hs s eq_refl) X) as [Y _]. contradiction.
    - exists h, (bs " No host"). split; [reflexivity|]. split; [|auto]. cbn. intuition discriminate. }
  destruct (F r Hr g) as (a & x & E1 & N1 & M1). destruct (F r' Hr' g') as (a' & x' & E2 & N2 & M2). rewrite E1, E2 in E.
  destruct (last_colon _ _ _ _ N2 N1 E) as [Ea Ex]. clear - M1 M2 Ea Ex Pq Pn. subst a' x'.
  destruct r as [|s|], r' as [|s'|]; destruct M1 as [M1 M1x], M2 as [M2 M2x]; subst.
  all: try (injection M2x as M2x).
  - auto.
  - destruct Pq. rewrite M2x. left. reflexivity.
  - contradiction.
  - destruct Pq. rewrite <- M2x. left. reflexivity.
  - apply app_inv_tail in M2. apply app_inj_tail in M2x as [-> _]. auto.
  - discriminate.
  - destruct Pn. auto.
  - discriminate.
  - auto.
Qed.

(** ** What connecting does, in order *)
Lemma later_new x l o' : In x (letting_go l ++ map TSys o') -> afterwards x.
Proof. intros H. apply in_letting in H as [->|[y ->]]; [left; reflexivity|right; eauto]. Qed.
Lemma connect_story log d given u secure h t0 st t o : parsed_ok u -> web_scheme (u_scheme u) secure -> u_host u = Some h ->
  timed log d ByConnect given (Some u) t0 st t o ->
  exists p req rest, effective_port u p /\ from_stream_url (Some u) = Ok req /\ o = (t0, TDial h p) :: rest /\
    (rest = [] \/ (exists a, rest = [(a, TGiveUp)]) \/ (exists a e, rest = [(a, TStream (Some e)); (a, TFail (LibConnection e))]) \/
     exists a more, rest = (a, TStream None) :: (a, TRequest req) :: more /\ Forall (fun x => afterwards (snd x)) more).
Proof.
  intros Hp Hw Hh H. destruct (connecting_exact _ _ _ Hp Hw Hh) as (p & u' & Ep & _ & _ & _ & _ & _ & _ & _ & Ec & Ef).
  exists p, (url_text u').
  assert (K : exists rest, o = (t0, TDial h p) :: rest /\ match st with
    | TDialing req => req = url_text u' /\ rest = []
    | TOver => (exists a, rest = [(a, TGiveUp)]) \/ exists a e, rest = [(a, TStream (Some e)); (a, TFail (LibConnection e))]
    | TConn a _ _ => exists more, rest = (a, TStream None) :: (a, TRequest (url_text u')) :: more /\ Forall (fun x => afterwards (snd x)) more
    end).
  { induction H as [st o B|st t o t' H IH Le P|st t o l st' o' H IH Hl].
    - cbn [begin] in B. rewrite Ec in B. injection B as <- <-. exists []. auto.
    - exact IH.
    - destruct IH as (rest & -> & M). destruct st as [v|since c s|]; destruct l as [[e|]| |l]; cbn [tstep] in Hl; try discriminate.
      + injection Hl as <- <-. destruct M as [-> ->]. eexists. split; [reflexivity|]. right. exists t, e. reflexivity.
      + injection Hl as <- <-. destruct M as [-> ->]. eexists. split; [reflexivity|]. exists []. split; [reflexivity|constructor].
      + injection Hl as <- <-. destruct M as [-> ->]. eexists. split; [reflexivity|]. left. exists t. reflexivity.
      + destruct (timer_allows since c t l); [|discriminate]. destruct (step log s l) as [[s' x]|]; [|discriminate]. injection Hl as <- <-.
        destruct M as (more & -> & F). eexists. split; [reflexivity|]. eexists. split; [reflexivity|]. apply Forall_app. split; [exact F|].
        apply Forall_forall. intros [a y] Hi. apply in_stamp in Hi as [_ Hi]. exact (later_new _ _ _ Hi). }
  destruct K as (rest & -> & M). exists rest. split; [exact Ep|]. split; [exact Ef|]. split; [reflexivity|].
  destruct st as [v|since c s|].
  - left. apply M.
  - right; right; right. destruct M as (more & A & B). exists since, more. auto.
  - destruct M as [M|M]; auto.
Qed.
Lemma from_stream_story log d given u secure h t0 st t o : parsed_ok u -> web_scheme (u_scheme u) secure -> u_host u = Some h ->
  timed log d FromStream given (Some u) t0 st t o ->
  exists req more, from_stream_url (Some u) = Ok req /\ o = (t0, TRequest req) :: more /\ Forall (fun x => afterwards (snd x)) more.
Proof.
  intros Hp Hw Hh H. destruct (connecting_exact _ _ _ Hp Hw Hh) as (p & u' & Ep & _ & _ & _ & _ & _ & _ & _ & _ & Ef). exists (url_text u').
  assert (K : exists more, o = (t0, TRequest (url_text u')) :: more /\ Forall (fun x => afterwards (snd x)) more /\ match st with TConn _ _ _ => True | _ => False end).
  { induction H as [st o B|st t o t' H IH Le P|st t o l st' o' H IH Hl].
    - cbn [begin] in B. rewrite Ef in B. injection B as <- <-. exists []. split; [reflexivity|]. split; [constructor|exact I].
    - exact IH.
    - destruct IH as (more & -> & F & M). destruct st as [v|since c s|]; [destruct M| |destruct M]. destruct l as [| |l]; cbn [tstep] in Hl; try discriminate.
      destruct (timer_allows since c t l); [|discriminate]. destruct (step log s l) as [[s' x]|]; [|discriminate]. injection Hl as <- <-.
      eexists. split; [reflexivity|]. split; [|exact I]. apply Forall_app. split; [exact F|].
      apply Forall_forall. intros [a y] Hi. apply in_stamp in Hi as [_ Hi]. exact (later_new _ _ _ Hi). }
  destruct K as (more & -> & F & _). exists more. auto.
Qed.

(** ** What [close()] reports *)
Lemma close_told fm lf log d w given parsed t0 st t o b r : tame fm -> timed log d w given parsed t0 st t o -> In (b, TSys (OClose r)) o ->
  match close_lib_error r with
  | None => r = CloseOk \/ r = ClosePanic
  | Some e => (exists x, lib_error_text fm lf e = Some x /\ (kind_of e = KTimeout -> forall c, lib_error_text fm lf (conn_lib_error c) <> Some x)) /\
      match kind_of e with
      | KTimeout => r = CloseTimeout
      | KClosed => r = CloseAlready
      | KWebsocket => r = CloseErr EndWs
      | KPacket => exists y, e = LibProcessing y /\ r = CloseErr (EndErr y)
      | _ => False
      end
  end.
Proof.
  intros T H Hi. destruct (timed_sys _ _ _ _ _ _ _ _ _ _ _ H Hi) as (since & c & s & u & -> & A & _).
  pose proof (ot_trace _ _ _ _ _ _ _ A) as Ht. assert (Hc : In (OClose r) (sys_obs o)) by (apply in_sys; eauto).
  assert (Q : forall e, r = CloseErr e -> (e = EndWs \/ exists x, e = EndErr x) /\ In (OEnd e) (sys_obs o)).
  { intros e ->. split.
    - destruct Ht as [ls Hls]. pose proof (close_result_cause _ ls _ _ _ Hls Hc) as K. cbn in K. destruct K as [[-> _]|(x & m & -> & _)]; eauto.
    - apply in_split in Hc as (o1 & o2 & E). rewrite E in Ht |- *. pose proof (close_reports _ _ _ _ _ Ht) as K. cbn in K. apply in_app_iff. tauto. }
  destruct r as [|e| | |]; cbn; auto.
  - destruct (Q e eq_refl) as [[->|[x ->]] He]; cbn.
    + split; [|reflexivity]. eexists. split; [reflexivity|discriminate].
    + split; [|eauto]. apply in_split in He as (o1 & o2 & E). rewrite E in Ht.
      destruct (trace_split _ _ _ _ _ _ Ht eq_refl) as (s0 & o0 & l & s1 & oa & ob & o3 & K1 & K2 & K3 & _ & _ & _).
      assert (Hx : In (OEnd (EndErr x)) (oa ++ OEnd (EndErr x) :: ob)) by (apply in_app_iff; cbn; auto).
      pose proof (cause_of_end _ _ _ _ _ _ _ K1 K2 Hx) as Cs. inversion Cs; subst.
      destruct (error_lines fm _ _ _ _ _ _ _ T K1 K2 Hx) as (z & Ez & _). exists z. split; [exact Ez|discriminate].
  - split; [|reflexivity]. eexists. split; [reflexivity|]. intros _ [] X; cbn in X; discriminate X.
  - split; [|reflexivity]. eexists. split; [reflexivity|discriminate].
Qed.

(** ** What connecting reports *)
Lemma fail_kinds log d w given parsed t0 st t o : timed log d w given parsed t0 st t o ->
  forall a e, In (a, TFail e) o -> kind_of e = KUrlRefused \/ kind_of e = KDialing.
Proof.
  intros H. induction H as [st o B|st t o t' H IH Le P|st t o l st' o' H IH Hl]; intros a e Hi; [|eauto|].
  - apply in_stamp in Hi as [_ Hi]. left. unfold begin in B.
    destruct w; [destruct (connect_to parsed) as [[[? ?] ?]| |]|destruct (from_stream_url parsed)]; injection B as <- <-; cbn in Hi; destruct Hi as [E|[]]; try discriminate E; injection E as <-; reflexivity.
  - apply in_app_iff in Hi as [Hi|Hi]; [eauto|]. apply in_stamp in Hi as [_ Hi]. right.
    destruct st as [v|since c s|]; destruct l as [[x|]| |l]; cbn [tstep] in Hl; try discriminate;
      try (injection Hl as <- <-; cbn in Hi; destruct Hi as [E|[E|[]]]; try discriminate E; injection E as <-; reflexivity);
      try (injection Hl as <- <-; cbn in Hi; destruct Hi as [E|[]]; discriminate E).
    all: try (destruct (timer_allows since c t l); [|discriminate]; destruct (step log s l) as [[s' x]|]; [|discriminate]; injection Hl as <- <-;
      unfold letting_go in Hi; rewrite ?in_app_iff in Hi; destruct Hi as [Hi|Hi]; [destruct l; cbn in Hi; intuition discriminate|apply in_map_iff in Hi as (y & E & _); discriminate E]).
    all: try (injection Hl as <- <-; cbn in Hi; repeat (destruct Hi as [E|Hi]; [try discriminate E; injection E as <-; reflexivity|]); destruct Hi).
Qed.
Lemma connect_told fm lf log d w given parsed t0 st t o b x e : timed log d w given parsed t0 st t o -> In (b, x) o -> connect_error x e ->
  match kind_of e with
  | KTimeout => (exists a u, In (a, TRequest u) o /\ (a + limit <= b)%N) /\
      ((x = TSys (OConnect (CFailed CHandshakeTimeout)) /\ lib_error_text fm lf e = Some (bs "Connection timed out waiting for websocket handshake")) \/
       (x = TSys (OConnect (CFailed COpenTimeout)) /\ lib_error_text fm lf e = Some (bs "Connection timed out waiting for engine.io protocol Open message")))
  | KWebsocket => x = TSys (OConnect (CFailed CWebsocket))
  | KSpawning => x = TSys (OConnect (CFailed CSpawn))
  | KUrlRefused | KDialing => x = TFail e
  | KPacket | KClosed => False
  end.
Proof.
  intros H Hi [->|(c & -> & ->)].
  - destruct (fail_kinds _ _ _ _ _ _ _ _ _ H _ _ Hi) as [-> | ->]; reflexivity.
  - destruct c; cbn [conn_lib_error kind_of]; try reflexivity.
    + split; [exact (not_early _ _ _ _ _ _ _ _ _ _ _ H Hi (or_introl eq_refl))|left; split; reflexivity].
    + split; [exact (not_early _ _ _ _ _ _ _ _ _ _ _ H Hi (or_intror eq_refl))|right; split; reflexivity].
Qed.
