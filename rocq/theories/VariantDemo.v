(** A packet with values of enums of all representations (C87). *)
From Verif Require Export VariantProofs.
From Verif Require Export ModeDemo.
From Verif Require Import ReadProofs BuildFacts WriteDemo.
From Coq Require Import Lia.

Definition post_src : source := OfEvent (bs "f") None.
Definition xy_seq : sval := SSeq [SU8 "x"%byte; SU8 "y"%byte].
Definition post : list sval :=
  [xy_seq; SStruct [(bs "t", SStr (bs "File")); (bs "d", xy_seq)]; SStruct [(bs "t", SUnitVariant (bs "Bin")); (bs "c", SBytes (bs "xyz"))];
   SU8 x05; SMap [(SStr (bs "t"), SStr (bs "Any"))]].
Definition post_text : bytes :=
  bs "53-[""f"",{""_placeholder"":true,""num"":0},{""t"":""File"",""d"":{""_placeholder"":true,""num"":1}},{""t"":""Bin"",""c"":{""_placeholder"":true,""num"":2}},5,{""t"":""Any""}]".
Definition post_blobs : list bytes := [bs "xy"; bs "xy"; bs "xyz"].
Definition post_args : list arg_t := map (fun t => Arg t (map bsub post_blobs))
  [bs """f"""; num_ph (bs "0"); bs "{""t"":""File"",""d"":" ++ num_ph (bs "1") ++ bs "}"; bs "{""t"":""Bin"",""c"":" ++ num_ph (bs "2") ++ bs "}"; bs "5"; bs "{""t"":""Any""}"].
Lemma post_sendable : sendable true post_src (bs "/") post.
Proof.
  split; [apply ns_ok_check; reflexivity|]. split; [exact I|]. split; [exact I|]. split; [|vm_compute; discriminate].
  unfold usable, all_args, post_src, post. repeat apply Forall_cons; try apply Forall_nil; intros _;
    (split; [cbn; intuition (try lia; try reflexivity; try discriminate)|]; vm_compute; repeat constructor; try discriminate).
Qed.
Lemma post_became i v g : made_from post_src post i v -> nth_error post_args i = Some g -> became true post_src (bs "/") post i v g.
Proof.
  intros Hv Hg. split; [exact Hv|]. destruct sample_opened as [Ho Hc].
  destruct (got post_text (bmsgs post_blobs)) as [p|] eqn:E; [|vm_compute in E; discriminate].
  exists [sample_open], (WText ("4"%byte :: post_text) :: map frame post_blobs), p. split; [exact Ho|]. split; [exact Hc|]. split; [vm_compute; reflexivity|]. split.
  - apply (arrives_received [sample_open] post_text post_blobs p Ho Hc). apply got_received. exact E.
  - apply nth_argument. rewrite <- E. clear - Hg. do 6 (destruct i as [|i]; [injection Hg as <-; vm_compute; reflexivity|]). destruct i; discriminate.
Qed.
(** Two numbers, the wider one first. *)
Definition widths : list (bytes * alt) := [(bs "Wide", ANewtype (TyInt 0 65535)); (bs "Small", ANewtype (TyInt 0 255))].
Lemma C87_refuted_lemma : ~ C87_full.
Proof.
  intros H.
  specialize (H true post_src (bs "/") post 4 (SU8 x05) (Arg (bs "5") (map bsub post_blobs)) (Untagged widths) (XVariant (bs "Small") (XInt 5)) post_sendable
    (post_became 4 _ _ eq_refl eq_refl)).
  assert (R : arg_enum (Untagged widths) (Arg (bs "5") (map bsub post_blobs)) = Ok (XVariant (bs "Wide") (XInt 5))) by (vm_compute; reflexivity).
  rewrite R in H. assert (X : enum_ok (Untagged widths)).
  { split; [|split; [|exact I]].
    - cbn. constructor; [intros [X|[]]; discriminate X|constructor; [intros []|constructor]].
    - intros n a t [E|[E|[]]]; injection E as <- <-; intros ->; exact I. }
  specialize (H X). assert (Y : enum_encodes (Untagged widths) (XVariant (bs "Small") (XInt 5)) (SU8 x05)).
  { eapply (ee_untagged _ _ (ANewtype (TyInt 0 255)) (TyInt 0 255)); [right; left; reflexivity|reflexivity|exact (en_u8 x05)]. }
  specialize (H Y). discriminate.
Qed.
(** The enums. *)
Definition num_or_data : list (bytes * alt) := [(bs "Num", ANewtype (TyInt 0 65535)); (bs "Data", ANewtype BufferDemo.u8s)].
Definition xy_val : dval := DeModel.XSeq [XInt 120; XInt 121].
Lemma xy_encodes : encodes BufferDemo.u8s xy_val xy_seq.
Proof. constructor. constructor; [exact (en_u8 "x"%byte)|constructor; [exact (en_u8 "y"%byte)|constructor]]. Qed.
Lemma xy_recoverable bin : recoverable bin BufferDemo.u8s xy_val.
Proof. repeat constructor. Qed.
Lemma untagged_case : enum_ok (Untagged num_or_data) /\ enum_encodes (Untagged num_or_data) (XVariant (bs "Data") xy_val) xy_seq /\
  enum_keeps true (Untagged num_or_data) (XVariant (bs "Data") xy_val) /\ enum_first true (Untagged num_or_data) xy_seq /\
  Forall (fun na : bytes * alt => alt_no_int_map (snd na)) num_or_data /\ none_earlier num_or_data (bs "Data") xy_seq.
Proof.
  split; [|split; [|split; [|split; [|split]]]].
  - split; [|split; [|exact I]].
    + cbn. constructor; [intros [X|[]]; discriminate X|constructor; [intros []|constructor]].
    + intros n a t [E|[E|[]]]; injection E as <- <-; intros ->; exact I.
  - eapply (ee_untagged _ _ (ANewtype BufferDemo.u8s) BufferDemo.u8s); [right; left; reflexivity|reflexivity|exact xy_encodes].
  - intros n y a t [= <- <-] [E|[E|[]]]; [discriminate E|injection E as <-]. intros ->. split; [apply xy_recoverable|exact I].
  - intros _. cbn. intuition auto.
  - repeat constructor.
  - exists [(bs "Num", ANewtype (TyInt 0 65535))], (ANewtype BufferDemo.u8s), [], (bs "[120,121]"). eexists. split; [reflexivity|]. split; [vm_compute; reflexivity|].
    split; [apply jvalue_by_scan; vm_compute; reflexivity|]. constructor; [|constructor]. intros u X. cbn [snd alone] in X. vm_compute in X. discriminate.
Qed.
Lemma tagged_case : let alts := file_alts BufferDemo.u8s in let v := SStruct [(bs "t", SStr (bs "File")); (bs "d", xy_seq)] in
  enum_ok (Tagged (bs "t") alts) /\ enum_encodes (Tagged (bs "t") alts) (XVariant (bs "File") (XStruct [xy_val])) v /\
  enum_keeps true (Tagged (bs "t") alts) (XVariant (bs "File") (XStruct [xy_val])) /\ enum_first true (Tagged (bs "t") alts) v.
Proof.
  cbv zeta. unfold file_alts. split; [|split; [|split]].
  - split; [|split; [|exact I]].
    + cbn. constructor; [intros [X|[]]; discriminate X|constructor; [intros []|constructor]].
    + intros n a t [E|[E|[]]]; injection E as <- <-; [intros []|]. intros ->. split; [constructor; [intros []|constructor]|cbn; auto].
  - eapply (ee_tagged _ _ _ (AStruct [(bs "d", BufferDemo.u8s)]) (TyStruct [(bs "d", BufferDemo.u8s)]) _ (SStruct [(bs "d", xy_seq)])); [right; left; reflexivity|reflexivity| | |].
    + constructor. constructor; [|constructor]. split; [reflexivity|exact xy_encodes].
    + cbn. intuition discriminate.
    + constructor. intros [X|[]]. discriminate X.
  - intros n y a t [= <- <-] [E|[E|[]]]; [discriminate E|injection E as <-]. intros ->. split; [|split; [cbn; auto|intros []]].
    constructor; [discriminate|]. constructor; [apply xy_recoverable|constructor].
  - intros _. cbn. repeat split; try (vm_compute; discriminate); repeat constructor; vm_compute; discriminate.
Qed.
Lemma adjacent_case : let v := SStruct [(bs "t", SUnitVariant (bs "Bin")); (bs "c", SBytes (bs "xyz"))] in
  enum_ok (Adjacent (bs "t") (bs "c") bin_alts) /\ enum_encodes (Adjacent (bs "t") (bs "c") bin_alts) (XVariant (bs "Bin") (XBytes (bs "xyz"))) v /\
  enum_keeps true (Adjacent (bs "t") (bs "c") bin_alts) (XVariant (bs "Bin") (XBytes (bs "xyz"))) /\ enum_first true (Adjacent (bs "t") (bs "c") bin_alts) v.
Proof.
  cbv zeta. unfold bin_alts. split; [|split; [|split]].
  - split; [|split; [|discriminate]].
    + cbn. constructor; [intros []|constructor].
    + intros n a t [E|[]]; injection E as <- <-. intros ->. exact I.
  - eapply (ee_adjacent _ _ _ _ (ANewtype TyBytes) TyBytes); [left; reflexivity|reflexivity|constructor].
  - intros n y a t [= <- <-] [E|[]]; injection E as <-. intros ->. constructor; [reflexivity|discriminate].
  - intros _. split; [|vm_compute; discriminate]. repeat constructor; vm_compute; discriminate.
Qed.
