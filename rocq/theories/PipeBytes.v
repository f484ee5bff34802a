(** Accounts of the bytes on a connection that holds a limited number of them. *)
From Verif Require Export PipeDemo.
From Coq Require Import Lia.

Lemma moved_snoc f ls l : moved f (ls ++ [l]) = (moved f ls + f l)%N.
Proof. unfold moved. induction ls as [|x ls IH]; cbn; [lia|]. rewrite IH. lia. Qed.
Lemma sizes_app b x y : sizes b (x ++ y) = (sizes b x + sizes b y)%N.
Proof. unfold sizes. induction x as [|m x IH]; cbn; [reflexivity|]. rewrite IH. lia. Qed.
Lemma begun_snoc ls l : begun (ls ++ [l]) = begun ls ++ match l with NBegin m => [m] | _ => [] end.
Proof. unfold begun. rewrite flat_map_app. cbn. rewrite app_nil_r. reflexivity. Qed.
Lemma close_frames_app a b : close_frames (a ++ b) = close_frames a ++ close_frames b.
Proof. apply flat_map_app. Qed.
Lemma requests_closes n l : close_frames (requests n l) = [].
Proof. revert n. induction l as [|[b|f] l IH]; cbn; intros; auto. Qed.

(** What a step of the client shows of frames. *)
Lemma shown log s l s' o : step log s l = Some (s', o) ->
  reads o = match l with LRead m => [m] | _ => [] end /\
  writes o = match l, s_phase s with LWrite, PSending (m :: _) => [m] | _, _ => [] end /\
  close_frames o = match l with LCloseFrame true => [WClose None] | _ => [] end.
Proof.
  intros H. assert (Hl : (exists m, l = LRead m) \/ forall m, l <> LRead m) by (destruct l; eauto; right; discriminate).
  destruct Hl as [[m ->]|Hl].
  - apply read_label in H as (b & _ & _ & H). revert H. unfold read_step. cbv zeta.
    destruct (process_websocket_packet _ _ _ _ _) as [r c op q out]. cbn [pr_receiver pr_callbacks pr_open pr_queue pr_outcome].
    destruct op; destruct q as [fs|]; unfold push; cbn [s_chan_closed task_ended s_phase set_open set_table set_receiver];
      try (destruct (s_chan_closed s || _) eqn:Ec); destruct out as [[u|e|]|p k]; intros [= <- <-]; cbn; auto.
  - other_cases H Hl; cbn; rewrite ?reads_app, ?requests_reads, ?writes_app, ?(proj2 (requests_sent _ _)), ?close_frames_app, ?requests_closes; cbn;
      repeat match goal with E : s_phase s = _ |- _ => rewrite E; clear E end; auto.
    all: destruct ok; auto.
Qed.

Record accounts (cfg : pipes) (ls : list nlabel) (n : net) (o : list obs) : Prop := {
  ac_up : (n_up n + bytes_taken ls = bytes_put ls)%N;
  ac_cap_up : (n_up n <= cap_up cfg)%N;
  ac_down : (n_down n + bytes_fetched ls = bytes_served ls)%N;
  ac_cap_down : (n_down n <= cap_down cfg)%N;
  ac_written : (n_part n + sizes true (writes o ++ close_frames o) <= bytes_put ls)%N;
  ac_read : (n_got n + sizes false (reads o) = bytes_fetched ls)%N;
  ac_frames : reads o ++ n_frames n = begun ls;
  ac_server : match n_server n with
              | None => bytes_served ls = sizes false (begun ls)
              | Some (m, d) => exists b, begun ls = b ++ [m] /\ (bytes_served ls = sizes false b + d)%N /\ (d <= frame_bytes false m)%N
              end }.
Lemma accounts_step cfg log ls n o l n' o' : accounts cfg ls n o -> nstep cfg log n l = Some (n', o') -> accounts cfg (ls ++ [l]) n' (o ++ o').
Proof.
  intros [A1 A2 A3 A4 A5 A6 A7 A8] H. destruct n as [c part up srv down got frames]. cbn [n_up n_down n_part n_got n_frames n_server] in *.
  destruct l as [l| |k|k|k|m|k|]; cbn [nstep] in H.
  - destruct (client_may _ l) eqn:M; [|discriminate]. destruct (step log c l) as [[c' o1]|] eqn:E; [|discriminate]. injection H as <- <-.
    destruct (shown _ _ _ _ _ E) as (R & W & C).
    constructor; cbn [n_up n_down n_part n_got n_frames n_server]; unfold bytes_put, bytes_taken, bytes_served, bytes_fetched in *; rewrite ?moved_snoc, ?begun_snoc, ?N.add_0_r, ?app_nil_r; auto.
    + rewrite writes_app, close_frames_app, !sizes_app in *. rewrite W, C.
      destruct l; try (match goal with x : bool |- _ => destruct x end); cbn [client_may part_after] in *; try discriminate; cbn [sizes fold_right]; try lia.
      all: unfold complete in M; cbn [n_client n_part] in M; unfold step in E; destruct (s_phase c) as [| |[|m0 q0]| | | | |] eqn:P; try discriminate; unfold outgoing in M; rewrite P in M; try discriminate; apply N.eqb_eq in M; subst part; cbn [sizes fold_right]; lia.
    + rewrite reads_app, R. destruct l; cbn; rewrite ?app_nil_r; auto. discriminate.
    + rewrite reads_app, R. destruct l; cbn; rewrite ?app_nil_r; auto. discriminate.
  - destruct frames as [|m frames]; [discriminate|]. destruct (frame_bytes false m <=? got)%N eqn:G; [|discriminate].
    destruct (step log c (LRead m)) as [[c' o1]|] eqn:E; [|discriminate]. injection H as <- <-. apply N.leb_le in G.
    destruct (shown _ _ _ _ _ E) as (R & W & C). cbn in W.
    constructor; cbn [n_up n_down n_part n_got n_frames n_server]; unfold bytes_put, bytes_taken, bytes_served, bytes_fetched in *; rewrite ?moved_snoc, ?begun_snoc, ?N.add_0_r, ?app_nil_r; auto.
    + rewrite writes_app, close_frames_app, !sizes_app in *. rewrite W, C. cbn. lia.
    + rewrite reads_app, R, sizes_app. cbn [sizes fold_right]. lia.
    + rewrite reads_app, R, <- app_assoc. exact A7.
  - destruct (outgoing c) as [size|]; [|discriminate].
    destruct ((0 <? k) && (part + k <=? size) && (up + k <=? cap_up cfg))%N%bool eqn:G; [|discriminate]. injection H as <- <-.
    apply andb_prop in G as [G G3]. apply andb_prop in G as [G1 G2]. apply N.leb_le in G3.
    constructor; cbn [n_up n_down n_part n_got n_frames n_server]; unfold bytes_put, bytes_taken, bytes_served, bytes_fetched in *; rewrite ?moved_snoc, ?begun_snoc, ?N.add_0_r, ?app_nil_r; auto; lia.
  - destruct ((0 <? k) && (k <=? down))%N%bool eqn:G; [|discriminate]. destruct (listening c); [|discriminate]. injection H as <- <-.
    apply andb_prop in G as [G1 G2]. apply N.leb_le in G2.
    constructor; cbn [n_up n_down n_part n_got n_frames n_server]; unfold bytes_put, bytes_taken, bytes_served, bytes_fetched in *; rewrite ?moved_snoc, ?begun_snoc, ?N.add_0_r, ?app_nil_r; auto; lia.
  - destruct ((0 <? k) && (k <=? up))%N%bool eqn:G; [|discriminate]. destruct (_ || _)%bool; [|discriminate]. injection H as <- <-.
    apply andb_prop in G as [G1 G2]. apply N.leb_le in G2.
    constructor; cbn [n_up n_down n_part n_got n_frames n_server]; unfold bytes_put, bytes_taken, bytes_served, bytes_fetched in *; rewrite ?moved_snoc, ?begun_snoc, ?N.add_0_r, ?app_nil_r; auto; lia.
  - destruct srv; [discriminate|]. injection H as <- <-.
    constructor; cbn [n_up n_down n_part n_got n_frames n_server]; unfold bytes_put, bytes_taken, bytes_served, bytes_fetched in *; rewrite ?moved_snoc, ?begun_snoc, ?N.add_0_r, ?app_nil_r; auto.
    + rewrite <- A7, app_assoc. reflexivity.
    + exists (begun ls). split; [reflexivity|]. split; [lia|]. apply N.le_0_l.
  - destruct srv as [[m d]|]; [|discriminate]. destruct ((0 <? k) && (d + k <=? frame_bytes false m) && (down + k <=? cap_down cfg))%N%bool eqn:G; [|discriminate]. injection H as <- <-.
    apply andb_prop in G as [G G3]. apply andb_prop in G as [G1 G2]. apply N.leb_le in G2, G3. destruct A8 as (b & B1 & B2 & B3).
    constructor; cbn [n_up n_down n_part n_got n_frames n_server]; unfold bytes_put, bytes_taken, bytes_served, bytes_fetched in *; rewrite ?moved_snoc, ?begun_snoc, ?N.add_0_r, ?app_nil_r; auto; try lia.
    exists b. split; [exact B1|]. split; lia.
  - destruct srv as [[m d]|]; [|discriminate]. destruct (d =? frame_bytes false m)%N eqn:G; [|discriminate]. injection H as <- <-.
    apply N.eqb_eq in G. subst d. destruct A8 as (b & B1 & B2 & B3).
    constructor; cbn [n_up n_down n_part n_got n_frames n_server]; unfold bytes_put, bytes_taken, bytes_served, bytes_fetched in *; rewrite ?moved_snoc, ?begun_snoc, ?N.add_0_r, ?app_nil_r; auto; try lia.
    rewrite B2, B1, sizes_app. cbn [sizes fold_right]. lia.
Qed.
Lemma net_accounts cfg log ls : forall n o, net_run cfg log ls n o -> accounts cfg ls n o.
Proof.
  unfold net_run. assert (G : forall ls ls0 n0 o0 n o, accounts cfg ls0 n0 o0 -> nexecute cfg log n0 ls = Some (n, o) -> accounts cfg (ls0 ++ ls) n (o0 ++ o)).
  { clear ls. induction ls as [|l ls IH]; intros ls0 n0 o0 n o A H; cbn [nexecute] in H.
    - injection H as <- <-. rewrite !app_nil_r. exact A.
    - destruct (nstep cfg log n0 l) as [[n1 o1]|] eqn:E; [|discriminate]. destruct (nexecute cfg log n1 ls) as [[n2 o2]|] eqn:E2; [|discriminate].
      injection H as <- <-. specialize (IH (ls0 ++ [l]) n1 (o0 ++ o1) n2 o2 (accounts_step _ _ _ _ _ _ _ _ A E) E2).
      rewrite <- !app_assoc in IH. exact IH. }
  intros n o H. apply (G ls [] net_init [] n o); [|exact H]. constructor; cbn; try reflexivity; lia.
Qed.
Lemma bytes_accounted cfg log ls n o : net_run cfg log ls n o ->
  (bytes_taken ls <= bytes_put ls <= bytes_taken ls + cap_up cfg)%N /\
  (bytes_fetched ls <= bytes_served ls <= bytes_fetched ls + cap_down cfg)%N /\
  (sizes true (writes o ++ close_frames o) <= bytes_put ls)%N /\
  (sizes false (reads o) <= bytes_fetched ls)%N /\ (bytes_served ls <= sizes false (begun ls))%N /\
  exists rest, begun ls = reads o ++ rest.
Proof.
  intros H. destruct (net_accounts _ _ _ _ _ H) as [A1 A2 A3 A4 A5 A6 A7 A8]. repeat split; try lia.
  - destruct (n_server n) as [[m d]|]; [|lia]. destruct A8 as (b & B1 & B2 & B3). rewrite B1, sizes_app. cbn [sizes fold_right]. lia.
  - exists (n_frames n). auto.
Qed.

(** An event written to a server that reads, after the Open packet. *)
Fixpoint pour (k : nat) : list nlabel := match k with O => [] | S k' => NServe 1 :: NFetch 1 :: pour k' end.
Definition over_pipes (ls : list label) : list nlabel :=
  flat_map (fun l => match l with LRead m => NBegin m :: pour (N.to_nat (frame_bytes false m)) ++ [NDone; NRead] | _ => [NClient l] end) ls.
Definition bytes_run : list nlabel :=
  over_pipes opened_run ++ [NClient (LEmit (shout 20)); NClient LTake] ++ drip (N.to_nat (frame_bytes true (shouted 20))) ++ [NClient LWrite].
Lemma bytes_case : exists ls n o, net_run small false ls n o /\ writes o = [shouted 20] /\ length (reads o) = 1.
Proof.
  destruct (nexecute small false net_init bytes_run) as [[n o]|] eqn:E; [|vm_compute in E; discriminate].
  exists bytes_run, n, o. split; [exact E|]. vm_compute in E. injection E as _ <-. split; reflexivity.
Qed.
