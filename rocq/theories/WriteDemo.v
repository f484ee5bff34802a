(** A packet with everything in it, for the examples of [PropWrite.v]. *)
From Verif Require Import PlainProofs.

(** A session in which everything below can be tried. *)
Definition demo_args : list sval :=
  [SStr (bs "a,1[""b"); SMap [(SInt (-3), SSeq [SU8 x01; SU8 x02]); (SStr (bs "k"), SNone)]; SFail;
   SStructVariant (bs "V") [(bs "f", SFloat (Some (NumLit true (bs "1") (Some (bs "5")) (Some ("e"%byte, [], bs "30")))))]].
Definition demo_event := OfEvent (bs "news") (Some 12%N).
Lemma demo_ok : opened [sample_open] /\ ~ closed [sample_open] /\ fits (src_id demo_event) /\
  starts demo_event demo_args /\ usable (all_args demo_event demo_args) /\ usable_binary (all_args demo_event demo_args) /\
  Forall (fun v => serialises v = true -> no_mixed v) (all_args demo_event demo_args).
Proof.
  split; [apply sample_opened|]. split; [apply sample_opened|]. split; [cbn; unfold u64_max; lia|]. split; [exact I|].
  split.
  { unfold usable, demo_args, all_args, demo_event.
    apply Forall_cons; [intros _; split; [exact I|cbn; lia]|].
    apply Forall_cons; [intros _; split; [exact I|cbn; lia]|].
    apply Forall_cons; [intros _; split; [|cbn; lia]|].
    { cbn. repeat split. discriminate. }
    apply Forall_cons; [intros Hs; vm_compute in Hs; discriminate Hs|].
    apply Forall_cons; [intros _; split; [|cbn; lia]|constructor].
    cbn [val_ok]. split; [discriminate|]. split; [discriminate|]. split; [|exact I].
    split; [|vm_compute; reflexivity]. split; [right|split]; cbn.
    - repeat split; try discriminate; repeat constructor.
    - split; [discriminate|repeat constructor].
    - repeat split; auto; try discriminate; repeat constructor. }
  split. { split; [|cbn; unfold u64_max; lia]. unfold demo_args, all_args, demo_event. repeat constructor; cbn; try discriminate. }
  unfold demo_args, all_args, demo_event. repeat constructor; cbn.
Qed.

(** Sequences nested to a given depth. *)
Fixpoint deep (n : nat) : sval := match n with O => SNone | S n' => SSeq [deep n'] end.
