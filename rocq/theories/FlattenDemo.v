(** Cases for C84, and the refutation of the full statement. *)
From Verif Require Export FlattenProofs BufferDemo.

(** [{"id":7,"d":<attachment>,"x":[1],"y":2}] as [struct { id: u64, #[serde(flatten)] file: File,
    #[serde(flatten)] more: HashMap<String, Value> }] with [struct File { d: .. }]. *)
Definition entry : list (bytes * raw) :=
  [(bs "id", RNum (int_lit false 7)); (bs "d", RObj ph0); (bs "x", RArr [RNum (int_lit false 1)]); (bs "y", RNum (int_lit false 2))].
Definition entry_text : bytes := bs "{""id"":7,""d"":" ++ ph0_text ++ bs ",""x"":[1],""y"":2}".
Definition entry_own : list (bytes * ty) := [(bs "id", TyInt 0 255)].
Definition entry_file (u : ty) : list (bytes * ty) := [(bs "d", u); (bs "note", TyOption TyString)].
Definition entry_parts : list part := [PStruct (entry_file u8s); PMap TyValue].
Lemma entry_json : jvalue (RObj entry) entry_text.
Proof. apply jvalue_by_scan; vm_compute; reflexivity. Qed.
Lemma entry_ordinary : ordinary_first entry.
Proof. split; [vm_compute; reflexivity|discriminate]. Qed.
Lemma entry_values : others_are_values att1 entry_own entry.
Proof.
  split; [intros _; split; [vm_compute; reflexivity|discriminate]|].
  exists (bs "{""d"":" ++ ph0_text ++ bs ",""x"":[1],""y"":2}"). eexists. split; [apply jvalue_by_scan; vm_compute; reflexivity|vm_compute; reflexivity].
Qed.
Lemma entry_names u : NoDup (map fst (entry_own ++ entry_file u)).
Proof. cbn. repeat constructor; cbn; intuition discriminate. Qed.
Lemma entry_file_alike : alike (has_some att1) true (TyStruct (entry_file u8s)) (RObj entry).
Proof.
  cbn -[unescape]. split; [intros [_ H]; discriminate H|]. repeat split; intros H; try (vm_compute in H; discriminate H);
    try (intros [_ X]; exact X); try (intros _; exact I).
Qed.
Lemma entry_alike : parts_alike att1 entry (map fst entry_own) entry_parts.
Proof.
  cbn [parts_alike entry_parts]. split; [|split; [exact entry_file_alike|]].
  - cbn. repeat constructor; cbn; intuition discriminate.
  - split; [intros _; split; [vm_compute; reflexivity|discriminate]|]. split; [|exact I]. cbn [alike]. apply allP_In. intros [k x] _. exact I.
Qed.
(** As it is read. *)
Lemma entry_read : arg_flat entry_own entry_parts (Arg entry_text att1) =
  Ok (XStruct [XInt 7; XStruct [xyz; XNone];
               XMap [(bs "x", XValue (VArr [VNum (NPos 1)])); (bs "y", XValue (VNum (NPos 2)))]]).
Proof. vm_compute. reflexivity. Qed.
Lemma entry_inlined : arg_flat entry_own [PStruct (entry_file u8s)] (Arg entry_text att1) = Ok (XStruct ([XInt 7] ++ [XStruct [xyz; XNone]])).
Proof. vm_compute. reflexivity. Qed.
(** With borrowed bytes the attachment is lost. *)
Lemma C84_refuted_lemma : ~ C84_full.
Proof.
  intros H. specialize (H entry_own (entry_file TyBytes) entry entry_text att1 [XInt 7] [XBytes (bs "xyz"); XNone] entry_json (entry_names _) eq_refl).
  destruct H as [_ H]. assert (C : arg_flat entry_own [PStruct (entry_file TyBytes)] (Arg entry_text att1) = Err (AJsonDeError entry_text)) by (vm_compute; reflexivity).
  rewrite C in H. discriminate H. vm_compute. reflexivity.
Qed.
(** A list, an attachment, and a member that is no value. *)
Lemma flat_refusals :
  (exists v, arg_deserialize (TyStruct entry_own) (Arg (bs "[7]") []) = Ok v) /\ (forall x, arg_flat entry_own [] (Arg (bs "[7]") []) <> Ok x) /\
  (forall x, arg_flat [] [] (Arg ph0_text att1) <> Ok x) /\
  (exists v, arg_deserialize (TyStruct entry_own) (Arg (bs "{""id"":7,""z"":1e999}") []) = Ok v) /\
  (forall x, arg_flat entry_own [] (Arg (bs "{""id"":7,""z"":1e999}") []) <> Ok x).
Proof.
  split; [eexists; vm_compute; reflexivity|]. split; [intros x; vm_compute; discriminate|]. split; [intros x; vm_compute; discriminate|].
  split; [eexists; vm_compute; reflexivity|intros x; vm_compute; discriminate].
Qed.
Lemma entry_no_token : allP (fun '(_, y) => no_token y) entry.
Proof. cbn -[unescape raw_token]. repeat split; vm_compute; discriminate. Qed.
