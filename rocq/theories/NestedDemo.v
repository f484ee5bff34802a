(** Types with enums and flattened structs within them (C89): examples. *)
From Verif Require Export NestedProofs BufferDemo.

(** [struct Post { title: String, parts: Vec<Part>, by: Option<Who> }]; [Part] is untagged, [Who] has a
    flattened map. *)
Definition part_alts : list (bytes * alt) := [(bs "Text", ANewtype TyString); (bs "File", ANewtype BufferDemo.u8s)].
Definition post_ty : xty := XRec [(bs "title", XTy TyString); (bs "parts", XVec (XEnum (Untagged part_alts)));
  (bs "by", Nested.XOpt (XFlatten [(bs "id", TyInt 0 255)] [PMap TyValue]))].
Definition post_text : bytes := bs "{""title"":""t"",""parts"":[""a""," ++ ph0_text ++ bs "],""by"":{""id"":7,""x"":null}}".
Definition post_raw : raw := match scan_value (value_fuel post_text) post_text with Some (r, _) => r | None => RNull end.
Definition post_value : dval := XStruct [XStr (bs "t");
  DeModel.XSeq [XVariant (bs "Text") (XStr (bs "a")); XVariant (bs "File") xyz];
  XSome (XStruct [XInt 7; XMap [(bs "x", XValue VNull)]])].
Lemma post_jvalue : jvalue post_raw post_text.
Proof. apply jvalue_by_scan; vm_compute; reflexivity. Qed.
Lemma post_within : within 127 post_raw.
Proof. vm_compute. repeat split; exact I. Qed.
Lemma att1_contents : contents att1 <> None.
Proof. vm_compute. discriminate. Qed.
Lemma post_read : arg_nested post_ty (Arg post_text att1) = Ok post_value.
Proof. vm_compute. reflexivity. Qed.

(** A list of untagged enums out of an attachment: every byte is a number. *)
Definition num_alts : list (bytes * alt) := [(bs "Small", ANewtype (TyInt 0 120)); (bs "Other", ANewtype TyF64)].
Lemma octets_read : arg_nested (XVec (XEnum (Untagged num_alts))) (Arg ph0_text att1) =
  Ok (DeModel.XSeq [XVariant (bs "Small") (XInt 120); XVariant (bs "Other") (XF64 (NPos 121)); XVariant (bs "Other") (XF64 (NPos 122))]).
Proof. vm_compute. reflexivity. Qed.

(** The elements of a list. *)
Definition parts_ts : list bytes := [bs """a"""; ph0_text].
Definition parts_body : bytes := bs """a"", " ++ ph0_text.
Lemma parts_items : jitems parts_ts parts_body /\ Forall (fun t => exists r, jvalue r t /\ within 126 r) parts_ts.
Proof.
  assert (J1 : jvalue (RStr (bs "a")) (bs """a""")) by (apply jvalue_by_scan; vm_compute; reflexivity).
  assert (J2 : jvalue (RObj ph0) ph0_text) by (apply jvalue_by_scan; vm_compute; reflexivity).
  assert (W : ws [x20]) by (constructor; [cbn; auto|constructor]).
  split.
  - change parts_body with ([] ++ bs """a""" ++ [] ++ ","%byte :: [x20] ++ ph0_text ++ []). apply (ji_cons (RStr (bs "a"))); auto using ws_nil.
    apply (ji_one (RObj ph0)); auto using ws_nil.
  - repeat constructor; eexists; (split; [eassumption|]); vm_compute; repeat split; exact I.
Qed.
