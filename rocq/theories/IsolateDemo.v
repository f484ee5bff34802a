(** Two runs that differ in what concerns other namespaces (C82). *)
From Verif Require Export IsolateProofs TalkDemo.

(** The inputs of a run in which every message is a packet that calls a callback. *)
Fixpoint tell (h : list wsmsg) (o : list obs) : option (list input) :=
  match o with
  | [] => Some []
  | ORead m :: o' =>
      match o' with
      | OCall p c :: o2 => option_map (cons (Arrived p)) (tell (h ++ [m]) o2)
      | _ => match snd (decode (decoder_of h) m) with
             | Ok (PktMessage _) => None
             | _ => tell (h ++ [m]) o'
             end
      end
  | OTable x :: o' => option_map (cons (Change x)) (tell h o')
  | ORegister ns id f :: o' => option_map (cons (Await ns id f)) (tell h o')
  | _ :: o' => tell h o'
  end.
Lemma reads_one h o m : reads o = h -> reads (o ++ [ORead m]) = h ++ [m].
Proof. intros <-. apply reads_app. Qed.
Lemma tell_story log s n : forall o o0 l0 l h, length o <= n -> trace log s (o0 ++ o) -> story o0 l0 -> reads o0 = h ->
  tell h o = Some l -> story (o0 ++ o) (l0 ++ l).
Proof.
  induction n as [|n IH]; intros o o0 l0 l h L Ht Hs Hh E.
  { destruct o; [|cbn in L; lia]. cbn in E. injection E as <-. rewrite !app_nil_r. exact Hs. }
  destruct o as [|x o]; [cbn in E; injection E as <-; rewrite !app_nil_r; exact Hs|]. cbn [length] in L.
  assert (Go : forall l1 l2, story (o0 ++ [x]) (l0 ++ l1) -> (forall m, x <> ORead m) -> tell h o = Some l2 -> l = l1 ++ l2 -> story (o0 ++ x :: o) (l0 ++ l)).
  { intros l1 l2 S N T ->. change (x :: o) with ([x] ++ o). rewrite !app_assoc. apply (IH o (o0 ++ [x]) (l0 ++ l1) l2 h); [lia| |exact S| |exact T].
    - rewrite <- app_assoc. exact Ht.
    - rewrite reads_app, Hh. destruct x; cbn; rewrite ?app_nil_r; try reflexivity. destruct (N m eq_refl). }
  assert (As : aside x -> tell h o = Some l -> story (o0 ++ x :: o) (l0 ++ l)).
  { intros A T. apply (Go [] l); [|intros m ->; exact A|exact T|reflexivity]. rewrite app_nil_r. apply st_aside; assumption. }
  destruct x; cbn [tell] in E; try (apply As; [exact I|exact E]).
  - destruct (read_in_trace _ _ _ _ _ Ht) as (s0 & s1 & out & o3 & H1 & H2 & Hr & _ & Eo & _).
    assert (Q : (exists p c o2 l2, o = OCall p c :: o2 /\ tell (h ++ [m]) o2 = Some l2 /\ l = Arrived p :: l2) \/
                (tell (h ++ [m]) o = Some l /\ forall y, snd (decode (decoder_of h) m) <> Ok (PktMessage y))).
    { destruct o as [|[| p c| | | | | | | | | | | | | | |] o2]; try (right; destruct (snd (decode (decoder_of h) m)) as [[| | | |?]|?|]; try discriminate E; (split; [exact E|intros y' Y; discriminate Y]); fail).
      left. destruct (tell (h ++ [m]) o2) as [l2|] eqn:T; [|discriminate]. injection E as <-. exists p, c, o2, l2. auto. }
    destruct Q as [(p & c & o2 & l2 & -> & T & ->)|[T N]].
    + assert (C : completes o0 m p).
      { destruct (by_read_follows log s (o0 ++ [ORead m]) (OCall p c) o2) as (o' & m' & E' & R'); [rewrite <- app_assoc; exact Ht|exact I|discriminate|].
        apply app_inj_tail in E' as [<- E']. injection E' as <-. apply (call_completes _ _ _ _ R' p). left. exists c. left. reflexivity. }
      change (ORead m :: OCall p c :: o2) with ([ORead m] ++ [OCall p c] ++ o2). change (Arrived p :: l2) with ([Arrived p] ++ l2).
      rewrite !app_assoc. apply (IH o2 _ _ l2 (h ++ [m])); [cbn in L; lia| | | |exact T].
      * rewrite <- !app_assoc. exact Ht.
      * apply st_aside; [apply st_packet; assumption|exact I].
      * rewrite reads_app, (reads_one h) by exact Hh. apply app_nil_r.
    + change (ORead m :: o) with ([ORead m] ++ o). rewrite app_assoc. apply (IH o _ _ l (h ++ [m])); [lia|rewrite <- app_assoc; exact Ht| |apply reads_one; exact Hh|exact T].
      apply st_read; [exact Hs|]. intros p (_ & y & _ & _ & A & _). apply engine_answer_decode in A. rewrite Hh in A. exact (N _ A).
  - destruct (tell h o) as [l2|] eqn:T; [|discriminate]. injection E as <-. apply (Go [Change o1] l2); [apply st_table; exact Hs|discriminate|reflexivity|reflexivity].
  - destruct (tell h o) as [l2|] eqn:T; [|discriminate]. injection E as <-. apply (Go [Await ns id f] l2); [apply st_register; exact Hs|discriminate|reflexivity|reflexivity].
Qed.

Definition quiet_run : list label := opened_run ++
  [LTable (SetEvent (bs "/a") (bs "x") 1%N); LRead (WText (bs "42/a,[""x"",1]")); LCbReturn].
Definition noisy_run : list label := opened_run ++
  [LTable (SetFallback (bs "/") 9%N); LTable (SetEvent (bs "/a") (bs "x") 1%N); LRead (WText (bs "2")); LTake; LWrite;
   LRead (WText (bs "42[""x"",2]")); LCbReturn; LTable (SetEvent (bs "/b") (bs "x") 8%N); LEmit (Emission (bs "/b") (bs "q") [] []);
   LRead (WText (bs "42/a,[""x"",1]")); LCbReturn].
Definition obs_from (ls : list label) : list obs := match execute false init ls with Some (_, o) => o | None => [] end.
Definition told_of (ls : list label) : list input := match tell [] (obs_from ls) with Some l => l | None => [] end.
Lemma told_story ls : (exists s, execute false init ls = Some (s, obs_from ls)) -> tell [] (obs_from ls) = Some (told_of ls) ->
  (exists s, trace false s (obs_from ls)) /\ story (obs_from ls) (told_of ls).
Proof.
  intros [s E] T. assert (Ht : trace false s (obs_from ls)) by (exists ls; exact E). split; [eauto|].
  apply (tell_story false s _ (obs_from ls) [] [] (told_of ls) [] (le_n _) Ht st_start eq_refl T).
Qed.
Lemma quiet_told : (exists s, trace false s (obs_from quiet_run)) /\ story (obs_from quiet_run) (told_of quiet_run).
Proof. apply told_story; [eexists|]; vm_compute; reflexivity. Qed.
Lemma noisy_told : (exists s, trace false s (obs_from noisy_run)) /\ story (obs_from noisy_run) (told_of noisy_run).
Proof. apply told_story; [eexists|]; vm_compute; reflexivity. Qed.
Lemma both_told : inputs_in (bs "/a") (told_of quiet_run) = inputs_in (bs "/a") (told_of noisy_run) /\
  length (inputs_in (bs "/a") (told_of quiet_run)) = 2 /\ length (told_of noisy_run) = 5 /\
  length (calls_in (bs "/a") (obs_from quiet_run)) = 1.
Proof. vm_compute. auto. Qed.
