(** The callbacks for what has arrived are called in time. *)
From Verif Require Export InboxDemo EmitProofs.
From Coq Require Import Lia.

Lemma until_trace log d k c t : attended log d k c -> exists s, trace log s (noticed_until t c).
Proof.
  intros [t0 L]. induction L as [|c1 c2 L IH T]; [exists init; exists []; reflexivity|].
  pose proof (attended_manned _ _ _ _ (ex_intro _ t0 L)) as C.
  destruct T as [| |s t1 a n i h o l s' o' i' H R Hp]; [exact IH|exact IH|].
  set (c2 := Desk s' _ _ _ _ _ _). destruct (le_lt_dec t1 t) as [Hle|Hlt].
  - exists s'. rewrite noticed_all.
    + assert (C2 : manned log d k c2) by (eapply manned_turn; [exact C|apply tn_step; eassumption]). exact (u_trace _ _ _ _ C2).
    + unfold c2. cbn [e_seen]. apply Forall_app. split.
      * eapply Forall_impl; [|exact (u_stamps _ _ _ _ C)]. cbn. intros x Hx. lia.
      * apply Forall_forall. intros x Hx. apply in_map_iff in Hx as (y & <- & _). exact Hle.
  - destruct IH as [s0 IH]. exists s0. replace (noticed_until t c2) with (noticed_until t (Desk s t1 a n i h o)); [exact IH|].
    unfold c2, noticed_until. cbn [e_seen]. rewrite filter_app, map_app.
    replace (filter (fun x => fst x <=? t) (map (pair t1) o')) with (@nil (nat * obs)); [rewrite app_nil_r; reflexivity|].
    clear - Hlt. induction o' as [|y o' IH]; [reflexivity|]. cbn [map filter fst]. replace (t1 <=? t) with false by (symmetry; apply Nat.leb_gt; exact Hlt). exact IH.
Qed.
Lemma until_before log d k c t : attended log d k c -> exists o, noticed c = noticed_until t c ++ o.
Proof.
  intros [t0 L]. induction L as [|c1 c2 L IH T]; [exists []; reflexivity|].
  pose proof (attended_manned _ _ _ _ (ex_intro _ t0 L)) as C. destruct IH as [o0 E].
  destruct T as [| |s t1 a n i h o l s' o' i' H R Hp]; [exists o0; exact E|exists o0; exact E|].
  set (c2 := Desk s' _ _ _ _ _ _). destruct (le_lt_dec t1 t) as [Hle|Hlt].
  - exists []. rewrite app_nil_r. symmetry. apply noticed_all. unfold c2. cbn [e_seen]. apply Forall_app. split.
    + eapply Forall_impl; [|exact (u_stamps _ _ _ _ C)]. cbn. intros x Hx. lia.
    + apply Forall_forall. intros x Hx. apply in_map_iff in Hx as (y & <- & _). exact Hle.
  - exists (o0 ++ o'). unfold c2, noticed, noticed_until in *. cbn [e_seen] in *. rewrite filter_app, !map_app, map_snd_pair, E.
    replace (filter (fun x => fst x <=? t) (map (pair t1) o')) with (@nil (nat * obs)); [cbn [map]; rewrite app_nil_r, <- app_assoc; reflexivity|].
    clear - Hlt. induction o' as [|y o' IH]; [reflexivity|]. cbn [map filter fst]. replace (t1 <=? t) with false by (symmetry; apply Nat.leb_gt; exact Hlt). exact IH.
Qed.
Lemma split_read o : forall q m q', reads o = q ++ m :: q' -> exists o1 o2, o = o1 ++ ORead m :: o2 /\ reads o1 = q.
Proof.
  induction o as [|x o IH]; intros q m q' E; [destruct q; discriminate|].
  change (reads (x :: o)) with (reads ([x] ++ o)) in E. rewrite reads_app in E.
  assert (X : (exists m0, x = ORead m0) \/ reads [x] = []) by (destruct x; eauto).
  destruct X as [[m0 ->]|X].
  - cbn in E. destruct q as [|m1 q]; cbn in E; injection E as -> E.
    + exists [], o. auto.
    + destruct (IH _ _ _ E) as (o1 & o2 & -> & R). exists (ORead m1 :: o1), o2. split; [reflexivity|]. cbn. f_equal. exact R.
  - rewrite X in E. cbn in E. destruct (IH _ _ _ E) as (o1 & o2 & -> & R). exists (x :: o1), o2. split; [reflexivity|].
    change (reads (x :: o1)) with (reads ([x] ++ o1)). rewrite reads_app, X. exact R.
Qed.
Lemma handled_at log d k f c c' q m q' : attended log d k c -> onward log d k c c' ->
  Forall (fun fs => length fs <= f) (queued (noticed c')) ->
  e_now c + d * steps_to_read k f c < e_now c' -> e_came c = q ++ m :: q' ->
  In OBlocked (noticed c') \/ (exists e, In (OEnd e) (noticed c')) \/
  exists s o1 o2, noticed_until (e_now c + d * steps_to_read k f c) c' = o1 ++ ORead m :: o2 /\ reads o1 = q /\ trace log s (o1 ++ ORead m :: o2).
Proof.
  intros P L F N E. destruct (handled_in_time _ _ _ _ _ _ P L F N) as [X|[X|[rest R]]]; auto. right. right.
  rewrite E, <- app_assoc in R. cbn [app] in R. destruct (split_read _ _ _ _ R) as (o1 & o2 & Eo & R1).
  destruct (until_trace _ _ _ _ (e_now c + d * steps_to_read k f c) (attended_onward _ _ _ _ _ P L)) as [s Ht]. rewrite Eo in Ht. eauto 7.
Qed.
Theorem called_in_time log d k f c c' q m q' p ns id a name : attended log d k c -> onward log d k c c' ->
  Forall (fun fs => length fs <= f) (queued (noticed c')) ->
  e_now c + d * steps_to_read k f c < e_now c' ->
  e_came c = q ++ m :: q' -> brings q m p -> packet_namespace p = Some ns -> packet_data p = Some (DataEvent id a) ->
  event_name p (Ok name) -> (log = true -> show_packet p <> None) ->
  In OBlocked (noticed c') \/ (exists e, In (OEnd e) (noticed c')) \/
  exists o1 o2, noticed_until (e_now c + d * steps_to_read k f c) c' = o1 ++ ORead m :: o2 /\ reads o1 = q /\
    forall g, routed (table_history o1) ns name g ->
      exists o3, o2 = OCall p (EventCall g a (option_map (fun i => AckBuilder ns i false) id)) :: o3.
Proof.
  intros P L F N E B Hn Hd He Hs. destruct (handled_at _ _ _ _ _ _ _ _ _ P L F N E) as [X|[X|(s & o1 & o2 & Eo & R & Ht)]]; auto.
  right. right. exists o1, o2. split; [exact Eo|]. split; [exact R|]. intros g Hg.
  destruct (read_in_trace _ _ _ _ _ Ht) as (s0 & s1 & out & o3 & H1 & H2 & _ & _ & -> & _).
  assert (Co : completes o1 m p) by (unfold completes; rewrite R; exact B).
  destruct (event_reaction _ _ _ _ _ _ _ _ _ _ _ H1 H2 Co Hn Hd He Hs) as [X _]. specialize (X g Hg). injection X as ->. exists o3. reflexivity.
Qed.
Theorem acks_called_in_time log d k f c c' q m q' p ns id a : attended log d k c -> onward log d k c c' ->
  Forall (fun fs => length fs <= f) (queued (noticed c')) ->
  e_now c + d * steps_to_read k f c < e_now c' -> honest (noticed c') ->
  e_came c = q ++ m :: q' -> brings q m p -> packet_namespace p = Some ns -> packet_data p = Some (DataAck id a) ->
  (log = true -> show_packet p <> None) ->
  In OBlocked (noticed c') \/ (exists e, In (OEnd e) (noticed c')) \/
  exists o1 o3 g, noticed_until (e_now c + d * steps_to_read k f c) c' = o1 ++ ORead m :: OCall p (AckCall g a) :: o3 /\ reads o1 = q /\
    In (ORegister ns id g) o1.
Proof.
  intros P L F N Hh E B Hn Hd Hs. destruct (handled_at _ _ _ _ _ _ _ _ _ P L F N E) as [X|[X|(s & o1 & o2 & Eo & R & Ht)]]; auto.
  right. right. destruct (read_in_trace _ _ _ _ _ Ht) as (s0 & s1 & out & o3 & H1 & H2 & _ & _ & -> & _).
  assert (Co : completes o1 m p) by (unfold completes; rewrite R; exact B).
  destruct (until_before _ _ _ _ (e_now c + d * steps_to_read k f c) (attended_onward _ _ _ _ _ P L)) as [o4 E4].
  rewrite E4, Eo in Hh. apply honest_prefix in Hh.
  assert (Hh' : honest (o1 ++ ORead m :: out)).
  { apply (honest_prefix _ o3). rewrite <- app_assoc. exact Hh. }
  destruct (honest_delivered _ _ _ _ _ _ _ _ _ _ H1 H2 Co Hn Hd Hs Hh') as (g & Hg & X). injection X as ->.
  exists o1, o3, g. split; [exact Eo|]. auto.
Qed.
