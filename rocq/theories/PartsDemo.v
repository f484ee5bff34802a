(** A packet with values that have enums within them (C90). *)
From Verif Require Export PartsProofs VariantDemo.
From Verif Require Import ReadProofs BuildFacts WriteDemo.
From Coq Require Import Lia.

(** [struct Album { parts: Vec<Part>, cover: Option<File>, by: HashMap<String, Bin> }], with an untagged, an
    internally and an adjacently tagged enum; a list that begins with a byte; [Some] of a unit variant. *)
Definition file_seq : sval := SStruct [(bs "t", SStr (bs "File")); (bs "d", xy_seq)].
Definition bin_seq : sval := SStruct [(bs "t", SUnitVariant (bs "Bin")); (bs "c", SBytes (bs "xyz"))].
Definition album_v : sval := SStruct [(bs "parts", SSeq [SInt 300; xy_seq]); (bs "cover", SSome file_seq); (bs "by", SMap [(SStr (bs "k"), bin_seq)])].
Definition mixed_v : sval := SSeq [SU8 x05; xy_seq].
Definition album_src : source := OfEvent (bs "f") None.
Definition album : list sval := [album_v; mixed_v; SSome SUnit].
Definition album_text : bytes :=
  bs "54-[""f"",{""parts"":[300,{""_placeholder"":true,""num"":0}],""cover"":{""t"":""File"",""d"":{""_placeholder"":true,""num"":1}},""by"":{""k"":{""t"":""Bin"",""c"":{""_placeholder"":true,""num"":2}}}},[4,5,{""_placeholder"":true,""num"":3}],null]".
Definition album_blobs : list bytes := [bs "xy"; bs "xy"; bs "xyz"; bs "xy"].
Definition album_args : list arg_t := map (fun t => Arg t (map bsub album_blobs))
  [bs """f"""; bs "{""parts"":[300," ++ num_ph (bs "0") ++ bs "],""cover"":{""t"":""File"",""d"":" ++ num_ph (bs "1") ++ bs "},""by"":{""k"":{""t"":""Bin"",""c"":" ++ num_ph (bs "2") ++ bs "}}}";
   bs "[4,5," ++ num_ph (bs "3") ++ bs "]"; bs "null"].
Lemma album_sendable : sendable true album_src (bs "/") album.
Proof.
  split; [apply ns_ok_check; reflexivity|]. split; [exact I|]. split; [exact I|]. split; [|vm_compute; discriminate].
  unfold usable, all_args, album_src, album. repeat apply Forall_cons; try apply Forall_nil; intros _;
    (split; [cbn; intuition (try lia; try reflexivity; try discriminate)|]; vm_compute; repeat constructor; try discriminate).
Qed.
Lemma album_became i v g : made_from album_src album i v -> nth_error album_args i = Some g -> became true album_src (bs "/") album i v g.
Proof.
  intros Hv Hg. split; [exact Hv|]. destruct sample_opened as [Ho Hc].
  destruct (got album_text (bmsgs album_blobs)) as [p|] eqn:E; [|vm_compute in E; discriminate].
  exists [sample_open], (WText ("4"%byte :: album_text) :: map frame album_blobs), p. split; [exact Ho|]. split; [exact Hc|]. split; [vm_compute; reflexivity|]. split.
  - apply (arrives_received [sample_open] album_text album_blobs p Ho Hc). apply got_received. exact E.
  - apply nth_argument. rewrite <- E. clear - Hg. do 4 (destruct i as [|i]; [injection Hg as <-; vm_compute; reflexivity|]). destruct i; discriminate.
Qed.
Definition album_ty : xty := XRec [(bs "parts", XVec (XEnum (Untagged num_or_data))); (bs "cover", Nested.XOpt (XEnum (Tagged (bs "t") (file_alts BufferDemo.u8s))));
  (bs "by", XDict (XEnum (Adjacent (bs "t") (bs "c") bin_alts)))].
Definition album_value : dval := XStruct [DeModel.XSeq [XVariant (bs "Num") (XInt 300); XVariant (bs "Data") xy_val];
  XSome (XVariant (bs "File") (XStruct [xy_val])); XMap [(bs "k", XVariant (bs "Bin") (XBytes (bs "xyz")))]].
Lemma num_nests careful : nests true careful (XEnum (Untagged num_or_data)) (XVariant (bs "Num") (XInt 300)) (SInt 300).
Proof.
  destruct untagged_case as (U1 & _ & _ & _ & U5 & _). apply ne_untagged; [exact U1| | | |exact U5|].
  - eapply (ee_untagged _ _ (ANewtype (TyInt 0 65535)) (TyInt 0 65535)); [left; reflexivity|reflexivity|]. constructor; lia.
  - intros n y a t [= <- <-] [E|[E|[]]]; [injection E as <-|discriminate E]. intros ->. split; [constructor|exact I].
  - intros _. split; exact I.
  - exists [], (ANewtype (TyInt 0 65535)), [(bs "Data", ANewtype BufferDemo.u8s)], (bs "300"). eexists. split; [reflexivity|]. split; [vm_compute; reflexivity|].
    split; [apply jvalue_by_scan; vm_compute; reflexivity|constructor].
Qed.
Lemma data_nests careful : nests true careful (XEnum (Untagged num_or_data)) (XVariant (bs "Data") xy_val) xy_seq.
Proof. destruct untagged_case as (U1 & U2 & U3 & U4 & U5 & U6). apply ne_untagged; assumption. Qed.
Lemma album_nests : nests true true album_ty album_value album_v.
Proof.
  apply ne_rec.
  - cbn. repeat (constructor; [cbn; intuition discriminate|]). constructor.
  - intros _ _. split; [|vm_compute; discriminate]. repeat constructor; vm_compute; discriminate.
  - constructor; [|constructor; [|constructor; [|constructor]]]; (split; [reflexivity|]); cbn [snd].
    + apply ne_vec; [reflexivity|]. constructor; [apply num_nests|constructor; [apply data_nests|constructor]].
    + apply ne_some; [reflexivity|]. destruct tagged_case as (U1 & U2 & U3 & U4). apply ne_tagged; assumption.
    + eapply ne_dict; [repeat constructor|apply Permutation_refl| |].
      * intros _ _. split; [|vm_compute; discriminate]. repeat constructor; vm_compute; discriminate.
      * constructor; [|constructor]. split; [reflexivity|]. destruct adjacent_case as (U1 & U2 & U3 & U4). apply ne_adjacent; assumption.
Qed.
(** A list of bytes and byte strings. *)
Definition byte_or_data : list (bytes * alt) := [(bs "Byte", ANewtype (TyInt 0 255)); (bs "Data", ANewtype BufferDemo.u8s)].
Definition mixed_value : dval := DeModel.XSeq [XVariant (bs "Byte") (XInt 5); XVariant (bs "Data") xy_val].
Lemma mixed_nests : nests true false (XVec (XEnum (Untagged byte_or_data))) mixed_value mixed_v.
Proof.
  assert (U : enum_ok (Untagged byte_or_data)).
  { split; [|split; [|exact I]].
    - cbn. constructor; [intros [X|[]]; discriminate X|constructor; [intros []|constructor]].
    - intros n a t [E|[E|[]]]; injection E as <- <-; intros ->; exact I. }
  apply ne_vec; [discriminate|]. constructor; [|constructor; [|constructor]]; apply ne_untagged; try exact U; try (repeat constructor; fail).
  - eapply (ee_untagged _ _ (ANewtype (TyInt 0 255)) (TyInt 0 255)); [left; reflexivity|reflexivity|exact (en_u8 x05)].
  - intros n y a t [= <- <-] [E|[E|[]]]; [injection E as <-|discriminate E]. intros ->. split; [constructor|exact I].
  - exists [], (ANewtype (TyInt 0 255)), [(bs "Data", ANewtype BufferDemo.u8s)], (bs "5"). eexists. split; [reflexivity|]. split; [vm_compute; reflexivity|].
    split; [apply jvalue_by_scan; vm_compute; reflexivity|constructor].
  - eapply (ee_untagged _ _ (ANewtype BufferDemo.u8s) BufferDemo.u8s); [right; left; reflexivity|reflexivity|exact xy_encodes].
  - intros n y a t [= <- <-] [E|[E|[]]]; [discriminate E|injection E as <-]. intros ->. split; [apply xy_recoverable|exact I].
  - exists [(bs "Byte", ANewtype (TyInt 0 255))], (ANewtype BufferDemo.u8s), [], (bs "[120,121]"). eexists. split; [reflexivity|]. split; [vm_compute; reflexivity|].
    split; [apply jvalue_by_scan; vm_compute; reflexivity|]. constructor; [|constructor]. intros u X. cbn [snd alone] in X. vm_compute in X. discriminate.
Qed.
Definition mixed_arg : arg_t := Arg (bs "[4,5," ++ num_ph (bs "3") ++ bs "]") (map bsub album_blobs).
Lemma mixed_read : arg_nested (XVec (XEnum (Untagged byte_or_data))) mixed_arg =
  Ok (DeModel.XSeq [XVariant (bs "Byte") (XInt 4); XVariant (bs "Byte") (XInt 5); XVariant (bs "Data") xy_val]).
Proof. vm_compute. reflexivity. Qed.
Lemma C90_refuted_lemma : ~ C90_full.
Proof.
  intros H. specialize (H true album_src (bs "/") album 2 mixed_v mixed_arg _ _ album_sendable (album_became 2 _ _ eq_refl eq_refl) mixed_nests).
  rewrite mixed_read in H. discriminate.
Qed.
