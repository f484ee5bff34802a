(** A packet in both modes (C86). *)
From Verif Require Export ModeProofs.
From Verif Require Export FilledDemo.
From Verif Require Import ReadProofs BuildFacts WriteDemo.

(** An enum, a byte string, a struct with bytes among its flattened fields, and an argument without bytes. *)
Definition album_src : source := OfEvent (bs "f") None.
Definition album : list sval :=
  [SStruct [(bs "t", SStr (bs "File")); (bs "d", SBytes (bs "xyz"))]; SBytes (bs "xyz");
   SStruct [(bs "id", SInt 7); (bs "d", SSeq [SU8 "x"%byte; SU8 "y"%byte]); (bs "y", SInt 2)]; SSeq [SStr (bs "a")]].
Definition album_text : bytes := bs "2[""f"",{""t"":""File"",""d"":[120,121,122]},[120,121,122],{""id"":7,""d"":[120,121],""y"":2},[""a""]]".
Definition album_binary : bytes :=
  bs "53-[""f"",{""t"":""File"",""d"":{""_placeholder"":true,""num"":0}},{""_placeholder"":true,""num"":1},{""id"":7,""d"":{""_placeholder"":true,""num"":2},""y"":2},[""a""]]".
Definition album_blobs : list bytes := [bs "xyz"; bs "xyz"; bs "xy"].
Definition album_atts : list subslice_t := map bsub album_blobs.
Definition num_ph (k : bytes) : bytes := bs "{""_placeholder"":true,""num"":" ++ k ++ bs "}".
Definition plain_args : list arg_t :=
  [Arg (bs """f""") []; Arg (bs "{""t"":""File"",""d"":[120,121,122]}") []; Arg (bs "[120,121,122]") [];
   Arg (bs "{""id"":7,""d"":[120,121],""y"":2}") []; Arg (bs "[""a""]") []].
Definition bin_args : list arg_t :=
  [Arg (bs """f""") album_atts; Arg (bs "{""t"":""File"",""d"":" ++ num_ph (bs "0") ++ bs "}") album_atts; Arg (num_ph (bs "1")) album_atts;
   Arg (bs "{""id"":7,""d"":" ++ num_ph (bs "2") ++ bs ",""y"":2}") album_atts; Arg (bs "[""a""]") album_atts].
Lemma album_either : either_mode album_src (bs "/") album.
Proof.
  split; [apply ns_ok_check; reflexivity|]. split; [exact I|]. split; [exact I|]. split; [|split].
  - unfold usable, all_args, album_src, album. repeat apply Forall_cons; try apply Forall_nil; intros _;
      (split; [cbn; intuition (try lia; try reflexivity; try discriminate)|]; vm_compute; repeat constructor; try discriminate).
  - vm_compute. discriminate.
  - unfold all_args, album_src, album. repeat apply Forall_cons; try apply Forall_nil; intros _; (split; [cbn; intuition auto|]);
      cbn; repeat split; repeat constructor; try (vm_compute; discriminate); try (vm_compute; intros ?; discriminate).
Qed.
(** What the text and the attachments make. *)
Definition got (t : bytes) (l : list emsg) : option packet :=
  match deserialize (MText (tsub t)) with
  | Ok (DPacket p) => match l with [] => Some p | _ => None end
  | Ok (DDataNeeded q) => match deserialize_partial q l with Ok p => Some p | _ => None end
  | _ => None
  end.
Definition nth_arg (o : option packet) (i : nat) : option arg_t :=
  match o with
  | Some p =>
      match packet_data p with
      | Some d => match data_args d with Some a => match args_get a i with Ok x => x | _ => None end | None => None end
      | None => None
      end
  | None => None
  end.
Lemma got_received t l p : got t l = Some p -> received (tsub t) l p.
Proof.
  unfold got. intros H. destruct (deserialize (MText (tsub t))) as [[p'|q]| |] eqn:E; try discriminate.
  - destruct l; [|discriminate]. injection H as ->. left. auto.
  - destruct (deserialize_partial q l) as [p'| |] eqn:E'; try discriminate. injection H as ->. right. exists q. auto.
Qed.
Lemma nth_argument p i g : nth_arg (Some p) i = Some g -> argument p i g.
Proof.
  unfold nth_arg. intros H. destruct (packet_data p) as [d|] eqn:Ed; [|discriminate]. destruct (data_args d) as [a|] eqn:Ea; [|discriminate].
  destruct (args_get a i) as [x| |] eqn:Eg; try discriminate. subst x. exists d, a. auto.
Qed.
Lemma album_sent : exists pt pb, sent_both album_src (bs "/") album pt pb /\
  (forall i g, nth_error plain_args i = Some g -> argument pt i g) /\ (forall i g, nth_error bin_args i = Some g -> argument pb i g).
Proof.
  destruct sample_opened as [Ho Hc].
  destruct (got album_text []) as [pt|] eqn:Et; [|vm_compute in Et; discriminate].
  destruct (got album_binary (bmsgs album_blobs)) as [pb|] eqn:Eb; [|vm_compute in Eb; discriminate].
  exists pt, pb. split; [split|split].
  - exists [sample_open], [WText ("4"%byte :: album_text)]. split; [exact Ho|]. split; [exact Hc|]. split; [vm_compute; reflexivity|].
    apply (arrives_received [sample_open] album_text [] pt Ho Hc). apply got_received. exact Et.
  - exists [sample_open], (WText ("4"%byte :: album_binary) :: map frame album_blobs). split; [exact Ho|]. split; [exact Hc|]. split; [vm_compute; reflexivity|].
    apply (arrives_received [sample_open] album_binary album_blobs pb Ho Hc). apply got_received. exact Eb.
  - intros i g Hi. apply nth_argument. rewrite <- Et. clear Et Eb. do 5 (destruct i as [|i]; [injection Hi as <-; vm_compute; reflexivity|]). destruct i; discriminate.
  - intros i g Hi. apply nth_argument. rewrite <- Eb. clear Et Eb. do 5 (destruct i as [|i]; [injection Hi as <-; vm_compute; reflexivity|]). destruct i; discriminate.
Qed.
(** The byte string is a string in binary mode and none in text mode. *)
Lemma C86_refuted_lemma : ~ C86_full.
Proof.
  intros H. destruct album_sent as (pt & pb & Hb & Ht & Hbin).
  specialize (H album_src (bs "/") album pt pb 2 _ _ TyString (XStr (bs "xyz")) album_either Hb (Ht 2 _ eq_refl) (Hbin 2 _ eq_refl)).
  destruct H as [_ H]. vm_compute in H. specialize (H eq_refl). discriminate.
Qed.
Definition file_struct : ty := TyStruct [(bs "t", TyString); (bs "d", BufferDemo.u8s)].
Lemma file_special g : nth_error bin_args 1 = Some g -> nothing_special file_struct g.
Proof.
  intros [= <-]. split; [repeat split|]. intros r Hr.
  assert (J : jvalue (RObj [(bs "t", RStr (bs "File")); (bs "d", RObj ph0)]) (g_text (Arg (bs "{""t"":""File"",""d"":" ++ num_ph (bs "0") ++ bs "}") album_atts)))
    by (apply jvalue_by_scan; vm_compute; reflexivity).
  rewrite (jvalue_unique _ _ _ Hr J). cbn -[unescape]. split; [intros [_ X]; discriminate X|].
  repeat split; intros E; try (vm_compute in E; discriminate E); try (intros [_ X]; exact X); try (intros _; exact I).
Qed.
Lemma entry_special g : nth_error bin_args 3 = Some g -> nothing_special (TyStruct entry_own) g.
Proof.
  intros [= <-]. split; [repeat split|]. intros r Hr.
  assert (J : exists l, jvalue (RObj l) (g_text (Arg (bs "{""id"":7,""d"":" ++ num_ph (bs "2") ++ bs ",""y"":2}") album_atts)) /\ exists x l', l = (bs "id", x) :: l')
    by (eexists; split; [apply jvalue_by_scan; vm_compute; reflexivity|eexists _, _; reflexivity]).
  destruct J as (l & J & x & l' & ->). rewrite (jvalue_unique _ _ _ Hr J). cbn -[unescape]. split; [intros [_ X]; discriminate X|].
  split; [|exact I]. split; [intros _; exact I|]. apply allP_In. intros [k z] _ _. exact I.
Qed.
