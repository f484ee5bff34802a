(** Adjacently tagged enums in both modes (C86): examples. *)
From Verif Require Export ModeAdjProofs ModeDemo.
From Verif Require Import ReadProofs BuildFacts WriteDemo.

Definition file_variants : list (bytes * alt) := [(bs "Text", ANewtype TyString); (bs "File", ANewtype BufferDemo.u8s)].
Definition raw_variants : list (bytes * alt) := [(bs "File", ANewtype BufferDemo.u8s)].
Lemma file_adjacent_special g : nth_error bin_args 1 = Some g -> nothing_special_adjacent (bs "t") (bs "d") raw_variants g.
Proof.
  intros [= <-] r y Hr _. constructor; [|constructor]. split; [exact I|]. cbn [snd alt_alike]. split; [intros _; exact I|].
  destruct y as [| | | |l|]; try exact I. induction l as [|z l IH]; [exact I|split; [exact I|exact IH]].
Qed.

(** An event with a text and a file. *)
Definition note_src : source := OfEvent (bs "n") (Some 3%N).
Definition note : list sval := [SStruct [(bs "t", SStr (bs "Text")); (bs "d", SStr (bs "hi"))]; SStruct [(bs "t", SStr (bs "File")); (bs "d", SBytes (bs "xyz"))]].
Definition note_text : bytes := bs "23[""n"",{""t"":""Text"",""d"":""hi""},{""t"":""File"",""d"":[120,121,122]}]".
Definition note_binary : bytes := bs "51-3[""n"",{""t"":""Text"",""d"":""hi""},{""t"":""File"",""d"":{""_placeholder"":true,""num"":0}}]".
Definition note_plain : arg_t := Arg (bs "{""t"":""Text"",""d"":""hi""}") [].
Definition note_bin : arg_t := Arg (bs "{""t"":""Text"",""d"":""hi""}") [bsub (bs "xyz")].
Lemma note_either : either_mode note_src (bs "/") note.
Proof.
  split; [apply ns_ok_check; reflexivity|]. split; [vm_compute; discriminate|]. split; [exact I|]. split; [|split].
  - unfold usable, all_args, note_src, note. repeat apply Forall_cons; try apply Forall_nil; intros _;
      (split; [cbn; intuition (try lia; try reflexivity; try discriminate)|]; vm_compute; repeat constructor; try discriminate).
  - vm_compute. discriminate.
  - unfold all_args, note_src, note. repeat apply Forall_cons; try apply Forall_nil; intros _; (split; [cbn; intuition auto|]);
      cbn; repeat split; repeat constructor; try (vm_compute; discriminate); try (vm_compute; intros ?; discriminate).
Qed.
Lemma note_sent : exists pt pb, sent_both note_src (bs "/") note pt pb /\ argument pt 1 note_plain /\ argument pb 1 note_bin.
Proof.
  destruct sample_opened as [Ho Hc].
  destruct (got note_text []) as [pt|] eqn:Et; [|vm_compute in Et; discriminate].
  destruct (got note_binary (bmsgs [bs "xyz"])) as [pb|] eqn:Eb; [|vm_compute in Eb; discriminate].
  exists pt, pb. split; [split|split].
  - exists [sample_open], [WText ("4"%byte :: note_text)]. split; [exact Ho|]. split; [exact Hc|]. split; [vm_compute; reflexivity|].
    apply (arrives_received [sample_open] note_text [] pt Ho Hc). apply got_received. exact Et.
  - exists [sample_open], (WText ("4"%byte :: note_binary) :: map frame [bs "xyz"]). split; [exact Ho|]. split; [exact Hc|]. split; [vm_compute; reflexivity|].
    apply (arrives_received [sample_open] note_binary [bs "xyz"] pb Ho Hc). apply got_received. exact Eb.
  - apply nth_argument. rewrite <- Et. clear Et Eb. vm_compute; reflexivity.
  - apply nth_argument. rewrite <- Eb. clear Et Eb. vm_compute; reflexivity.
Qed.
