(** Runs used in the non-vacuity examples of the client properties. *)
From Verif Require Export AnswerProofs.

(** A check for [honest] on concrete traces. *)
Definition ack_key (x : obs) : option (bytes * N) :=
  match x with
  | OCall p (AckCall _ _) | OEnd (EndErr (RUnexpectedAck p)) =>
      match packet_namespace p, packet_data p with
      | Some ns, Some (DataAck id _) => Some (ns, id)
      | _, _ => None
      end
  | _ => None
  end.
Definition emit_key (x : obs) : option (bytes * N) :=
  match x with OQueued (ByEmit ns (Some id)) _ => Some (ns, id) | _ => None end.
Definition has_key (k : bytes * N) (o : option (bytes * N)) : bool :=
  match o with Some k' => bytes_eqb (fst k) (fst k') && (snd k =? snd k')%N | None => false end.
Fixpoint honest_run (before rest : list obs) : bool :=
  match rest with
  | [] => true
  | x :: rest' =>
      match ack_key x with
      | Some k => existsb (fun y => has_key k (emit_key y)) before && negb (existsb (fun y => has_key k (ack_key y)) before)
      | None => true
      end && honest_run (before ++ [x]) rest'
  end.
Lemma has_key_ok k o : has_key k o = true <-> o = Some k.
Proof.
  destruct k as [ns id], o as [[ns' id']|]; cbn; [|split; discriminate]. rewrite andb_true_iff, bytes_eqb_eq, N.eqb_eq.
  split; [intros [-> ->]; reflexivity|intros [= -> ->]; auto].
Qed.
Lemma honest_run_at o1 : forall b x o2, honest_run b (o1 ++ x :: o2) = true -> forall k, ack_key x = Some k ->
  existsb (fun y => has_key k (emit_key y)) (b ++ o1) = true /\ existsb (fun y => has_key k (ack_key y)) (b ++ o1) = false.
Proof.
  induction o1 as [|y o1 IH]; intros b x o2 H k Hk; cbn [app honest_run] in H; apply andb_true_iff in H as [H H'].
  - rewrite Hk, andb_true_iff, negb_true_iff in H. rewrite app_nil_r. exact H.
  - specialize (IH _ _ _ H' k Hk). rewrite <- app_assoc in IH. exact IH.
Qed.
Lemma ack_follows s o1 m o2 ns id : trace false s (o1 ++ ORead m :: o2) -> brings_ack o1 m ns id ->
  exists x o3, o2 = x :: o3 /\ ack_key x = Some (ns, id).
Proof.
  intros Ht (p & a & Hc & Hn & Hd). destruct (read_in_trace _ _ _ _ _ Ht) as (s0 & s1 & out & o3 & H1 & H2 & _ & _ & -> & _).
  destruct (ack_reaction _ _ _ _ _ _ _ _ _ _ H1 H2 Hc Hn Hd ltac:(discriminate)) as [Ha Hb].
  assert (D : (exists f, awaiting (table_history o1) ns id f) \/ forall f, ~ awaiting (table_history o1) ns id f).
  { destruct (ack_of (table_after (table_history o1)) ns id) as [f|] eqn:E.
    - left. exists f. apply ack_exact. exact E.
    - right. intros f Hf. apply ack_exact in Hf. congruence. }
  destruct D as [[f D]|D].
  - specialize (Ha f D). injection Ha as ->. eexists _, _. split; [reflexivity|]. cbn. rewrite Hn, Hd. reflexivity.
  - specialize (Hb D). injection Hb as ->. eexists _, _. split; [reflexivity|]. cbn. rewrite Hn, Hd. reflexivity.
Qed.
Lemma honest_run_ok s o : trace false s o -> honest_run [] o = true -> honest o.
Proof.
  intros Ht H o1 m o2 ns id -> Hb. destruct (ack_follows _ _ _ _ _ _ Ht Hb) as (x & o3 & -> & Hk).
  replace (o1 ++ ORead m :: x :: o3) with ((o1 ++ [ORead m]) ++ x :: o3) in H by (rewrite <- app_assoc; reflexivity).
  destruct (honest_run_at _ _ _ _ H _ Hk) as [H1 H2]. cbn [app] in H1, H2. split.
  - apply existsb_exists in H1 as (y & Hy & Hk'). apply has_key_ok in Hk'. apply in_app_iff in Hy as [Hy|[Hy|[]]]; [|subst y; discriminate Hk'].
    destruct y as [| | | | |[] fs| | | | | | | | | | |]; try discriminate. cbn in Hk'. destruct id0; [|discriminate]. injection Hk' as -> ->. eauto.
  - intros ob m' oc -> Hb'. rewrite <- app_assoc in Ht. cbn [app] in Ht.
    destruct (ack_follows _ _ _ _ _ _ Ht Hb') as (x' & o4 & Eo & Hk').
    destruct oc as [|z oc]; cbn [app] in Eo; injection Eo as Ex Eo; subst x'; [discriminate Hk'|].
    assert (X : existsb (fun y => has_key (ns, id) (ack_key y)) ((ob ++ ORead m' :: z :: oc) ++ [ORead m]) = true).
    { apply existsb_exists. exists z. split; [|apply has_key_ok; exact Hk']. rewrite !in_app_iff. cbn. auto. }
    congruence.
Qed.

(** A life of a client: an event with an ack request, a ping, the ack, an event that is answered,
    and the end. *)
Definition demo_run : list label := opened_run ++
  [LTable (SetEvent (bs "/") (bs "news") 7%N);
   LEmit (Emission (bs "/") (bs "ask") [SetCallback 9%N] [SInt 1]); LRegister 0; LPush 0; LTake; LWrite;
   LRead (WText (bs "2"));
   LRead (WText (bs "430[true]")); LCbReturn;
   LRead (WText (bs "451-5[""news"",{""_placeholder"":true,""num"":0}]")); LRead (WPing [x00]); LRead (WBinary [x04; x01]);
   LCbAck 0 true [SBytes (bs "ok")]; LCbReturn;
   LTake; LWrite; LTake; LWrite; LWrite;
   LCloseCall; LClosed; LCloseFrame true; LReadEnd; LCloseReturn; LCloseCall].
Definition demo_obs : list obs := match execute false init demo_run with Some (_, o) => o | None => [] end.
Lemma demo_trace : exists s, trace false s demo_obs.
Proof.
  unfold demo_obs. destruct (execute false init demo_run) as [[s o]|] eqn:E; [exists s; eapply run_trace; exact E|].
  vm_compute in E. discriminate.
Qed.
(** What happens in it. *)
Inductive shape := Sread (t : bytes) | Scall (f : cb) | Swrite (m : wsmsg) | Squeue (fs : list wsmsg) | Send | Sclose (b : bool) | Sother.
Definition shape_of (x : obs) : shape :=
  match x with
  | ORead (WText t) => Sread t
  | ORead _ => Sread []
  | OCall _ (EventCall f _ _) | OCall _ (AckCall f _) => Scall f
  | OWrite m => Swrite m
  | OQueued _ fs => Squeue fs
  | OEnd _ => Send
  | OClose CloseOk => Sclose true
  | OClose _ => Sclose false
  | _ => Sother
  end.
Definition demo_ack : list wsmsg := [WText (bs "461-5[{""_placeholder"":true,""num"":0}]"); WBinary (x04 :: bs "ok")].
Lemma demo_shape : map shape_of (tl demo_obs) =
  [Sother; Sother; Sother; Sother; Sother; Squeue [WText (bs "420[""ask"",1]")]; Swrite (WText (bs "420[""ask"",1]"));
   Sread (bs "2"); Squeue [WText (bs "3")];
   Sread (bs "430[true]"); Scall 9%N;
   Sread (bs "451-5[""news"",{""_placeholder"":true,""num"":0}]"); Sread []; Sread []; Scall 7%N;
   Squeue demo_ack; Swrite (WText (bs "3"))] ++ map Swrite demo_ack ++
  [Sother; Sother; Send; Sclose true; Sclose false].
Proof. vm_compute. reflexivity. Qed.
Lemma demo_honest : honest demo_obs.
Proof. destruct demo_trace as [s H]. apply (honest_run_ok s); [exact H|vm_compute; reflexivity]. Qed.
