(** Packets for the examples of [PropWire.v]. *)
From Verif Require Export WireProofs WriteDemo.

(** An event with attachments, one without, an answer without arguments, and an answer. *)
Definition talk : list parcel :=
  [(demo_event, bs "/a,5", true, demo_args); (demo_event, bs "/", false, demo_args); (OfAck 5, bs "/a", false, []);
   (OfAck 5, bs "/a", true, [SStr (bs "3/a,5,6]")])].
Lemma talk_ok : Forall parcel_ok talk /\ Forall parcel_starts talk.
Proof.
  destruct demo_ok as (_ & _ & _ & _ & Hu & Hb & _). unfold talk. split.
  - constructor; [|constructor; [|constructor; [|constructor; [|constructor]]]];
      (split; [apply ns_ok_check; reflexivity|split]); try exact Hu; try (intros _; exact Hb).
    + constructor.
    + discriminate.
    + constructor; [|constructor]. intros _. split; [exact I|cbn; lia].
    + intros _. split; [|cbn; unfold u64_max; lia]. constructor; [|constructor]. intros _. exact I.
  - repeat constructor.
Qed.
Lemma talk_wire : exists fs, on_the_wire talk fs /\ length fs = 5.
Proof.
  eexists. split.
  - eexists. split; [|reflexivity]. repeat (constructor; [vm_compute; reflexivity|]). constructor.
  - vm_compute. reflexivity.
Qed.
(** Answers whose first argument fails, in one namespace. *)
Definition broken : list parcel := [(OfAck 5, bs "/a", false, [SFail; SInt 6]); (OfAck 56, bs "/a", false, [SFail])].
Lemma broken_ok : Forall parcel_ok broken /\ Forall (in_ns (bs "/a")) broken /\ on_the_wire broken [WText (bs "43/a,5,6]"); WText (bs "43/a,56]")].
Proof.
  split; [|split].
  - constructor; [exact (proj1 twins_ok)|]. constructor; [|constructor]. split; [apply ns_ok_check; reflexivity|]. split; [|discriminate].
    constructor; [discriminate|constructor].
  - repeat constructor.
  - eexists. split; [repeat (constructor; [vm_compute; reflexivity|]); constructor|reflexivity].
Qed.
