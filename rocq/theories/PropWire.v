(** C85: different packets look different on the wire. *)
From Verif Require Import WireDemo.

(** The full statement is false: if the first argument of an answer cannot be serialised, its array has
    no opening bracket, and the answer may look like one to another event in another namespace. *)
Theorem C85_wire_tells_refuted : ~ C85_full.
Proof. exact C85_refutation. Qed.
Print Assumptions C85_wire_tells_refuted.
(** The two answers of the witness. *)
Example C85_twins : frames_of twin1 = frames_of twin2 /\ frames_of twin1 = Some [WText (bs "43/a,5,6]")] /\ meant twin1 <> meant twin2.
Proof. split; [vm_compute; reflexivity|]. split; [vm_compute; reflexivity|vm_compute; discriminate]. Qed.

(** Otherwise the frames of any number of packets tell how many there are, and of each its kind, mode,
    namespace, id and the values of its arguments. *)
Theorem C85_wire_tells_partial : forall xs ys fs, Forall parcel_ok xs -> Forall parcel_ok ys ->
  Forall parcel_starts xs -> Forall parcel_starts ys ->
  on_the_wire xs fs -> on_the_wire ys fs -> map meant xs = map meant ys.
Proof. exact C85_apart. Qed.
Print Assumptions C85_wire_tells_partial.
Example C85_wire_tells_nonvacuous : Forall parcel_ok talk /\ Forall parcel_starts talk /\ exists fs, on_the_wire talk fs /\ length fs = 5.
Proof. exact (conj (proj1 talk_ok) (conj (proj2 talk_ok) talk_wire)). Qed.

(** Within one namespace they do so without exception. *)
Theorem C85_within_a_namespace : forall ns xs ys fs, Forall parcel_ok xs -> Forall parcel_ok ys ->
  Forall (in_ns ns) xs -> Forall (in_ns ns) ys ->
  on_the_wire xs fs -> on_the_wire ys fs -> map meant xs = map meant ys.
Proof. exact C85_one_ns. Qed.
Print Assumptions C85_within_a_namespace.
Example C85_within_nonvacuous : Forall parcel_ok broken /\ Forall (in_ns (bs "/a")) broken /\
  on_the_wire broken [WText (bs "43/a,5,6]"); WText (bs "43/a,56]")] /\ ~ Forall parcel_starts broken.
Proof.
  destruct broken_ok as (H1 & H2 & H3). split; [exact H1|]. split; [exact H2|]. split; [exact H3|].
  intros H. inversion H as [|x l F _]. vm_compute in F. discriminate.
Qed.
