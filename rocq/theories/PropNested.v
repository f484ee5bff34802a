(** C89: enums and structs with flattened fields within other types. *)
From Verif Require Import NestedDemo.

(** Whatever is not a container is read as it would be as an argument of its own, in packets with and
    without attachments, however deep within the argument it is. *)
Theorem C89_each_as_alone : forall x r text A v, jvalue r text -> within 127 r -> contents A <> None ->
  (arg_nested x (Arg text A) = Ok v <-> piece A x r v).
Proof. exact nested_exact. Qed.
Print Assumptions C89_each_as_alone.
Example C89_each_as_alone_nonvacuous : jvalue post_raw post_text /\ within 127 post_raw /\ contents att1 <> None /\
  arg_nested post_ty (Arg post_text att1) = Ok post_value.
Proof. split; [exact post_jvalue|]. split; [exact post_within|]. split; [exact att1_contents|]. exact post_read. Qed.
(** A list of enums read out of an attachment. *)
Example C89_octets : arg_nested (XVec (XEnum (Untagged num_alts))) (Arg ph0_text att1) =
  Ok (DeModel.XSeq [XVariant (bs "Small") (XInt 120); XVariant (bs "Other") (XF64 (NPos 121)); XVariant (bs "Other") (XF64 (NPos 122))]).
Proof. exact octets_read. Qed.

(** A list is read exactly if each of its elements, as an argument of its own, is read; with the same values. *)
Theorem C89_list : forall u body ts A v, jitems ts body -> Forall (fun t => exists r, jvalue r t /\ within 126 r) ts -> contents A <> None ->
  (arg_nested (XVec u) (Arg ("["%byte :: body ++ ["]"%byte]) A) = Ok v <->
   exists vs, v = DeModel.XSeq vs /\ Forall2 (fun t v => arg_nested u (Arg t A) = Ok v) ts vs).
Proof. exact nested_list. Qed.
Print Assumptions C89_list.
Example C89_list_nonvacuous : jitems parts_ts parts_body /\ Forall (fun t => exists r, jvalue r t /\ within 126 r) parts_ts /\
  arg_nested (XVec (XEnum (Untagged part_alts))) (Arg ("["%byte :: parts_body ++ ["]"%byte]) att1) =
    Ok (DeModel.XSeq [XVariant (bs "Text") (XStr (bs "a")); XVariant (bs "File") xyz]).
Proof. split; [apply parts_items|]. split; [apply parts_items|]. vm_compute. reflexivity. Qed.

(** With nothing within it, such a type is the type of the whole argument. *)
Theorem C89_alone : forall g, (forall t, arg_nested (XTy t) g = arg_deserialize t g) /\ (forall e, arg_nested (XEnum e) g = arg_enum e g) /\
  (forall own ps, arg_nested (XFlatten own ps) g = arg_flat own ps g).
Proof. exact nested_alone. Qed.
Print Assumptions C89_alone.

(** A type without such enums and structs is read as before, whatever the text. *)
Theorem C89_ordinary_types : forall x t g, ordinary_ty x = Some t -> arg_nested x g = arg_deserialize t g.
Proof. exact nested_ordinary. Qed.
Print Assumptions C89_ordinary_types.
Example C89_ordinary_types_nonvacuous : let x := XRec [(bs "d", Nested.XOpt (XVec (XTy (TyInt 0 255)))); (bs "e", XVar [(bs "A", (VtNewtype, XTup [XTy TyBool; XDict (XTy TyStr)]))])] in
  (exists t, ordinary_ty x = Some t) /\
  arg_nested x (Arg (bs "{""d"":" ++ ph0_text ++ bs ",""e"":{""A"":[true,{""k"":""v""}]}}") att1) =
    Ok (XStruct [XSome xyz; XVariant (bs "A") (XTuple [XBool true; XMap [(bs "k", XStr (bs "v"))]])]).
Proof. split; [eexists; reflexivity|vm_compute; reflexivity]. Qed.
