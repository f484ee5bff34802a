(** C74-C76, C84: attachments in values that serde buffers. *)
From Verif Require Import FilledDemo.

(** An untagged enum is read from a packet with attachments exactly as from the packet without, with the
    numbers of its bytes in the place of each attachment. *)
Theorem C74_attachments_are_numbers :
  forall alts text r A bl r' text' x, jvalue r text -> A <> [] -> contents A = Some bl -> spelt bl r r' -> jvalue r' text' ->
    arg_enum (Untagged alts) (Arg text A) = Ok x <-> arg_enum (Untagged alts) (Arg text' []) = Ok x.
Proof. exact untagged_spelt. Qed.
Print Assumptions C74_attachments_are_numbers.
Example C74_numbers_nonvacuous :
  (contents att1 = Some [bs "xyz"] /\ att1 <> []) /\ spelt [bs "xyz"] (RObj ph0) xyz_raw /\
  (jvalue (RObj ph0) ph0_text /\ jvalue xyz_raw xyz_text /\ no_token (RObj ph0) /\ Forall (fun na => alt_no_int_map (snd na)) triple /\
   arg_enum (Untagged triple) (Arg ph0_text att1) = Ok (XVariant (bs "Rgb") (XTuple [XInt 120; XInt 121; XInt 122]))).
Proof. split; [exact att1_contents|]. split; [exact ph0_spelt|exact triple_read]. Qed.

(** It is read only if that packet exists, that is, if every placeholder stands for an attachment. *)
Theorem C74_needs_attachments :
  forall alts text r A bl x, jvalue r text -> A <> [] -> contents A = Some bl ->
    arg_enum (Untagged alts) (Arg text A) = Ok x -> exists r' text', spelt bl r r' /\ jvalue r' text'.
Proof. exact untagged_has_spelling. Qed.
Print Assumptions C74_needs_attachments.
Example C74_needs_attachments_nonvacuous :
  let t := bs "{""a"":{""_placeholder"":true,""num"":3}}" in
  (exists x, arg_enum (Untagged triple) (Arg ph0_text att1) = Ok x) /\
  forall x, arg_enum (Untagged [(bs "Any", ANewtype TyIgnored)]) (Arg t att1) <> Ok x.
Proof. cbv zeta. split; [eexists; vm_compute; reflexivity|]. intros x. vm_compute. discriminate. Qed.

(** Exactly what an untagged enum is: the first variant, in the order of the declaration, that can be read
    from the text with the numbers in the place of the attachments. *)
Theorem C74_first_of_numbers :
  forall alts text r A bl x, jvalue r text -> no_token r -> A <> [] -> contents A = Some bl -> Forall (fun na => alt_no_int_map (snd na)) alts ->
    arg_enum (Untagged alts) (Arg text A) = Ok x <->
    exists r' text' v, spelt bl r r' /\ jvalue r' text' /\ arg_deserialize TyValue (Arg text' []) = Ok v /\ first_reading alts r' (Arg text' []) x.
Proof. exact untagged_exactly. Qed.
Print Assumptions C74_first_of_numbers.
Example C74_first_of_numbers_nonvacuous :
  (contents att1 = Some [bs "xyz"] /\ att1 <> []) /\
  (jvalue (RObj ph0) ph0_text /\ jvalue xyz_raw xyz_text /\ no_token (RObj ph0) /\ Forall (fun na => alt_no_int_map (snd na)) triple /\
   arg_enum (Untagged triple) (Arg ph0_text att1) = Ok (XVariant (bs "Rgb") (XTuple [XInt 120; XInt 121; XInt 122]))).
Proof. split; [exact att1_contents|exact triple_read]. Qed.

(** The content of an adjacently tagged enum, where it comes before the tag, is read likewise. *)
Theorem C75_content_first_numbers :
  forall tag cont alts text l A bl y y' l' text' x, tag <> cont -> jvalue (RObj l) text -> ordinary_first l -> A <> [] -> contents A = Some bl ->
    spelt bl y y' -> content_ahead tag cont y y' l l' -> jvalue (RObj l') text' ->
    arg_enum (Adjacent tag cont alts) (Arg text A) = Ok x <-> arg_enum (Adjacent tag cont alts) (Arg text' []) = Ok x.
Proof. exact adjacent_spelt. Qed.
Print Assumptions C75_content_first_numbers.
Example C75_numbers_nonvacuous :
  ordinary_first tag_last /\ spelt [bs "xyz"] (RObj ph0) xyz_raw /\ content_ahead (bs "t") (bs "c") (RObj ph0) xyz_raw tag_last last_spelt /\
  jvalue (RObj tag_last) tag_last_text /\ jvalue (RObj last_spelt) last_spelt_text /\
  arg_enum (Adjacent (bs "t") (bs "c") [(bs "Bin", ANewtype u8s)]) (Arg tag_last_text att1) = Ok (XVariant (bs "Bin") xyz).
Proof. split; [apply demo_ordinary|]. split; [exact ph0_spelt|]. split; [exact (last_ahead xyz_raw)|exact last_case]. Qed.
Theorem C75_content_first_needs :
  forall tag cont alts text l A bl y x, tag <> cont -> jvalue (RObj l) text -> ordinary_first l -> A <> [] -> contents A = Some bl ->
    content_ahead tag cont y y l l -> arg_enum (Adjacent tag cont alts) (Arg text A) = Ok x ->
    exists y' l' text', spelt bl y y' /\ content_ahead tag cont y y' l l' /\ jvalue (RObj l') text'.
Proof. exact adjacent_has_spelling. Qed.
Print Assumptions C75_content_first_needs.
Example C75_needs_nonvacuous :
  ordinary_first tag_last /\ content_ahead (bs "t") (bs "c") (RObj ph0) (RObj ph0) tag_last tag_last /\ jvalue (RObj tag_last) tag_last_text /\
  exists x, arg_enum (Adjacent (bs "t") (bs "c") [(bs "Bin", ANewtype u8s)]) (Arg tag_last_text att1) = Ok x.
Proof. split; [apply demo_ordinary|]. split; [exact (last_ahead (RObj ph0))|]. split; [apply last_case|]. eexists. apply last_case. Qed.

(** An internally tagged enum likewise, unless the whole value is an attachment (see
    [C76_attachment_names_variant]). *)
Theorem C76_attachments_are_numbers :
  forall tag alts text r A bl r' text' x, jvalue r text -> not_attached r -> A <> [] -> contents A = Some bl -> spelt bl r r' -> jvalue r' text' ->
    arg_enum (Tagged tag alts) (Arg text A) = Ok x <-> arg_enum (Tagged tag alts) (Arg text' []) = Ok x.
Proof. exact tagged_spelt. Qed.
Print Assumptions C76_attachments_are_numbers.
Example C76_numbers_nonvacuous :
  jvalue (RObj file_members) file_text /\ not_attached (RObj file_members) /\ spelt [bs "xyz"] (RObj file_members) (RObj file_spelt) /\
  jvalue (RObj file_spelt) file_spelt_text /\
  arg_enum (Tagged (bs "t") (file_alts u8s)) (Arg file_text att1) = Ok (XVariant (bs "File") (XStruct [xyz])).
Proof. exact file_case. Qed.
Theorem C76_needs_attachments :
  forall tag alts text r A bl x, jvalue r text -> not_attached r -> A <> [] -> contents A = Some bl ->
    arg_enum (Tagged tag alts) (Arg text A) = Ok x -> exists r' text', spelt bl r r' /\ jvalue r' text'.
Proof. exact tagged_has_spelling. Qed.
Print Assumptions C76_needs_attachments.
Example C76_needs_attachments_nonvacuous :
  let t := bs "{""t"":""Ping"",""a"":{""_placeholder"":true,""num"":3}}" in
  (exists x, arg_enum (Tagged (bs "t") (file_alts u8s)) (Arg file_text att1) = Ok x) /\ not_attached (RObj file_members) /\
  forall x, arg_enum (Tagged (bs "t") (file_alts u8s)) (Arg t att1) <> Ok x.
Proof. cbv zeta. split; [eexists; apply file_case|]. split; [apply file_case|]. intros x. vm_compute. discriminate. Qed.

(** The flattened fields of a struct likewise: its own fields are read from the packet itself, the flattened
    ones from the other members, with the numbers in the place of the attachments. *)
Theorem C84_attachments_are_numbers :
  forall own ps l text A bl l' rest' x, jvalue (RObj l) text -> ordinary_first l -> A <> [] -> contents A = Some bl ->
    spelt_members bl (without (map fst own) l) l' -> jvalue (RObj l') rest' ->
    (arg_flat own ps (Arg text A) = Ok x <->
     exists vs us, x = XStruct (vs ++ us) /\ arg_deserialize (TyStruct own) (Arg text A) = Ok (XStruct vs) /\
       arg_flat [] ps (Arg rest' []) = Ok (XStruct us)).
Proof. exact flat_spelt. Qed.
Print Assumptions C84_attachments_are_numbers.
Example C84_numbers_nonvacuous :
  jvalue (RObj entry) entry_text /\ ordinary_first entry /\
  (spelt_members [bs "xyz"] (without (map fst entry_own) entry) entry_spelt /\ jvalue (RObj entry_spelt) entry_spelt_text) /\
  arg_flat entry_own entry_parts (Arg entry_text att1) =
    Ok (XStruct [XInt 7; XStruct [xyz; XNone]; XMap [(bs "x", XValue (VArr [VNum (NPos 1)])); (bs "y", XValue (VNum (NPos 2)))]]).
Proof. split; [exact entry_json|]. split; [exact entry_ordinary|]. split; [exact entry_case|exact entry_read]. Qed.
Theorem C84_needs_attachments :
  forall own ps l text A bl x, jvalue (RObj l) text -> ordinary_first l -> A <> [] -> contents A = Some bl ->
    arg_flat own ps (Arg text A) = Ok x -> exists l' rest', spelt_members bl (without (map fst own) l) l' /\ jvalue (RObj l') rest'.
Proof. exact flat_has_spelling. Qed.
Print Assumptions C84_needs_attachments.
Example C84_needs_attachments_nonvacuous :
  let t := bs "{""id"":7,""z"":{""_placeholder"":true,""num"":3}}" in
  (exists x, arg_flat entry_own entry_parts (Arg entry_text att1) = Ok x) /\ ordinary_first entry /\
  forall x, arg_flat entry_own [] (Arg t att1) <> Ok x.
Proof. cbv zeta. split; [eexists; exact entry_read|]. split; [exact entry_ordinary|]. intros x. vm_compute. discriminate. Qed.
