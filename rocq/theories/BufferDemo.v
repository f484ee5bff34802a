(** Cases for C74-C76, and the refutations of the full statements. *)
From Verif Require Export AdjacentProofs ArriveProofs.

Definition ph0 : list (bytes * raw) := [(key_placeholder, RBool true); (key_num, RNum (int_lit false 0))].
Definition ph0_text : bytes := bs "{""_placeholder"":true,""num"":0}".
Definition att1 : list subslice_t := [bsub (bs "xyz")].

(** An attachment for [enum { Bin(&[u8]) }], untagged. *)
Definition bin_alts : list (bytes * alt) := [(bs "Bin", ANewtype TyBytes)].
Lemma C74_refuted_lemma : ~ C74_full.
Proof.
  intros H. specialize (H bin_alts ph0_text (RObj ph0) att1 (XVariant (bs "Bin") (XBytes (bs "xyz")))).
  destruct H as [_ H]; [apply jvalue_by_scan; vm_compute; reflexivity|].
  assert (C : arg_enum (Untagged bin_alts) (Arg ph0_text att1) = Err (AJsonDeError ph0_text)) by (vm_compute; reflexivity).
  rewrite C in H. discriminate H. exists [], (bs "Bin"), (ANewtype TyBytes), [], (XBytes (bs "xyz")).
  split; [reflexivity|]. split; [reflexivity|]. split; [vm_compute; reflexivity|constructor].
Qed.

(** [{"t":"Bin","c":<attachment>}] and [{"c":<attachment>,"t":"Bin"}]. *)
Definition tag_first : list (bytes * raw) := [(bs "t", RStr (bs "Bin")); (bs "c", RObj ph0)].
Definition tag_last : list (bytes * raw) := [(bs "c", RObj ph0); (bs "t", RStr (bs "Bin"))].
Definition tag_first_text : bytes := bs "{""t"":""Bin"",""c"":" ++ ph0_text ++ bs "}".
Definition tag_last_text : bytes := bs "{""c"":" ++ ph0_text ++ bs ",""t"":""Bin""}".
Lemma demo_ordinary : ordinary_first tag_first /\ ordinary_first tag_last.
Proof. split; (split; [vm_compute; reflexivity|discriminate]). Qed.
Lemma C75_refuted_lemma : ~ C75_full.
Proof.
  intros H. specialize (H (bs "t") (bs "c") bin_alts tag_first tag_last tag_first_text tag_last_text att1 (XVariant (bs "Bin") (XBytes (bs "xyz")))).
  destruct H as [H _]; [discriminate|apply jvalue_by_scan; vm_compute; reflexivity|apply jvalue_by_scan; vm_compute; reflexivity|apply perm_swap|intros _; exact demo_ordinary|].
  assert (C : arg_enum (Adjacent (bs "t") (bs "c") bin_alts) (Arg tag_last_text att1) = Err (AJsonDeError tag_last_text)) by (vm_compute; reflexivity).
  rewrite C in H. discriminate H. vm_compute. reflexivity.
Qed.

(** [{"t":"File","d":<attachment>}] as [enum { File { d: &[u8] } }] with [tag = "t"]. *)
Definition file_alts (u : ty) : list (bytes * alt) := [(bs "Ping", AUnit); (bs "File", AStruct [(bs "d", u)])].
Definition file_rest : list (bytes * raw) := [(bs "d", RObj ph0)].
Definition file_text : bytes := bs "{""t"":""File"",""d"":" ++ ph0_text ++ bs "}".
Definition file_rest_text : bytes := bs "{""d"":" ++ ph0_text ++ bs "}".
Lemma file_with_tag : with_tag (bs "t") (bs "File") file_rest file_text file_rest_text.
Proof.
  exists [], file_rest, (bs "t"), (bs "File"). split; [reflexivity|]. split; [apply jvalue_by_scan; vm_compute; reflexivity|].
  split; [apply jvalue_by_scan; vm_compute; reflexivity|]. split; [vm_compute; reflexivity|]. split; [vm_compute; reflexivity|].
  split; [constructor; [vm_compute; discriminate|constructor]|]. split; (split; [vm_compute; reflexivity|discriminate]).
Qed.
Lemma file_named u : named_alt (file_alts u) (bs "File") (AStruct [(bs "d", u)]).
Proof. exists [(bs "Ping", AUnit)], []. split; [reflexivity|]. cbn. intros [H|[]]. discriminate H. Qed.
Lemma C76_refuted_lemma : ~ C76_full.
Proof.
  intros H. specialize (H (bs "t") (file_alts TyBytes) _ _ _ _ _ att1 (XStruct [XBytes (bs "xyz")]) file_with_tag (file_named TyBytes)).
  destruct H as [_ H].
  assert (C : arg_enum (Tagged (bs "t") (file_alts TyBytes)) (Arg file_text att1) = Err (AJsonDeError file_text)) by (vm_compute; reflexivity).
  rewrite C in H. discriminate H. vm_compute. reflexivity.
Qed.
Definition u8s : ty := TySeq (TyInt 0 255).
Definition xyz : dval := DeModel.XSeq [XInt 120; XInt 121; XInt 122].
Definition att_zero : list subslice_t := [bsub [x00]].
