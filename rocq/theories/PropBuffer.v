(** C74-C76: enums that serde reads through a buffer. *)
From Verif Require Import BufferDemo.

(** C74 is false of the code: borrowed bytes are a variant that can be read on their own, but not out
    of the buffer, where an attachment is a list of numbers. *)
Theorem C74_first_variant_refuted : ~ C74_full.
Proof. exact C74_refuted_lemma. Qed.
Print Assumptions C74_first_variant_refuted.

(** Proved part: an argument that reads as a [Value], with no attachment, unit object or integer key at
    a place where the buffer makes a difference, is the first variant that can be read.  Missing: the
    rest, where the claim fails. *)
Theorem C74_first_variant_partial :
  forall alts text r A v x, jvalue r text -> arg_deserialize TyValue (Arg text A) = Ok v ->
    Forall (fun na => alt_alike (has_some A) false (snd na) r) alts ->
    arg_enum (Untagged alts) (Arg text A) = Ok x <-> first_reading alts r (Arg text A) x.
Proof. exact untagged_first. Qed.
Print Assumptions C74_first_variant_partial.
Example C74_partial_nonvacuous :
  let alts := [(bs "Text", ANewtype TyF64); (bs "Bin", ANewtype u8s); (bs "Any", ANewtype TyValue)] in
  jvalue (RObj ph0) ph0_text /\ (exists v, arg_deserialize TyValue (Arg ph0_text att1) = Ok v) /\
  Forall (fun na => alt_alike (has_some att1) false (snd na) (RObj ph0)) alts /\
  arg_enum (Untagged alts) (Arg ph0_text att1) = Ok (XVariant (bs "Bin") xyz).
Proof.
  cbv zeta. split; [apply jvalue_by_scan; vm_compute; reflexivity|]. split; [eexists; vm_compute; reflexivity|].
  split; [repeat constructor|vm_compute; reflexivity].
Qed.

(** An argument with something in it that [Value] does not take (a number out of range, say) is no
    variant of any untagged enum, even if the variant's type would skip it. *)
Theorem C74_needs_a_value :
  forall alts text r A x, jvalue r text -> no_token r -> arg_enum (Untagged alts) (Arg text A) = Ok x ->
    exists v, arg_deserialize TyValue (Arg text A) = Ok (XValue v).
Proof. exact untagged_needs_value. Qed.
Print Assumptions C74_needs_a_value.
Example C74_needs_a_value_nonvacuous :
  let t := bs "{""a"":1,""b"":1e999}" in let u := TyStruct [(bs "a", TyInt 0 255)] in
  arg_deserialize u (Arg t []) = Ok (XStruct [XInt 1]) /\
  arg_enum (Untagged [(bs "A", ANewtype u)]) (Arg t []) = Err (AJsonDeError t) /\
  arg_enum (Untagged [(bs "A", ANewtype u)]) (Arg (bs "{""a"":1,""b"":1e9}") []) = Ok (XVariant (bs "A") (XStruct [XInt 1])).
Proof. vm_compute. auto. Qed.

(** Strings and borrowed bytes never receive an attachment as variants of an untagged enum. *)
Theorem C74_no_attachment_for_bytes :
  forall alts text l A x, jvalue (RObj l) text -> attached (has_some A) (RObj l) ->
    Forall (fun na => In (snd na) [ANewtype TyString; ANewtype TyStr; ANewtype TyBytes]) alts ->
    arg_enum (Untagged alts) (Arg text A) <> Ok x.
Proof. exact untagged_no_bytes. Qed.
Print Assumptions C74_no_attachment_for_bytes.
Example C74_no_attachment_nonvacuous :
  jvalue (RObj ph0) ph0_text /\ attached (has_some att1) (RObj ph0) /\
  arg_deserialize TyString (Arg ph0_text att1) = Ok (XStr (bs "xyz")) /\
  arg_deserialize TyBytes (Arg ph0_text att1) = Ok (XBytes (bs "xyz")).
Proof. split; [apply jvalue_by_scan; vm_compute; reflexivity|]. split; [split; reflexivity|]. vm_compute. auto. Qed.

(** C75 is false of the code: [{"t":"Bin","c":<attachment>}] is read, the same members in the other
    order are not. *)
Theorem C75_order_refuted : ~ C75_full.
Proof. exact C75_refuted_lemma. Qed.
Print Assumptions C75_order_refuted.

(** Proved part: if the content, where there is one, reads as a [Value], and nothing in it is at a place
    where the buffer makes a difference, the order of the members is of no importance. *)
Theorem C75_order_partial :
  forall tag cont alts l1 l2 text1 text2 A v x, tag <> cont -> jvalue (RObj l1) text1 -> jvalue (RObj l2) text2 ->
    Permutation l1 l2 -> (A <> [] -> ordinary_first l1 /\ ordinary_first l2) ->
    arg_deserialize (TyStruct [(cont, TyOption TyValue)]) (Arg text1 A) = Ok v ->
    (forall k y n a, In (k, y) l1 -> unescape k = Some cont -> In (n, a) alts -> alt_alike (has_some A) true a y) ->
    arg_enum (Adjacent tag cont alts) (Arg text1 A) = Ok x <-> arg_enum (Adjacent tag cont alts) (Arg text2 A) = Ok x.
Proof. exact adjacent_order. Qed.
Print Assumptions C75_order_partial.
Example C75_partial_nonvacuous :
  let alts := [(bs "Stop", AUnit); (bs "Bin", ANewtype u8s)] in
  jvalue (RObj tag_first) tag_first_text /\ jvalue (RObj tag_last) tag_last_text /\ Permutation tag_first tag_last /\
  ordinary_first tag_first /\ ordinary_first tag_last /\
  (exists v, arg_deserialize (TyStruct [(bs "c", TyOption TyValue)]) (Arg tag_first_text att1) = Ok v) /\
  (forall k y n a, In (k, y) tag_first -> unescape k = Some (bs "c") -> In (n, a) alts -> alt_alike (has_some att1) true a y) /\
  arg_enum (Adjacent (bs "t") (bs "c") alts) (Arg tag_first_text att1) = Ok (XVariant (bs "Bin") xyz) /\
  arg_enum (Adjacent (bs "t") (bs "c") alts) (Arg tag_last_text att1) = Ok (XVariant (bs "Bin") xyz).
Proof.
  cbv zeta. split; [apply jvalue_by_scan; vm_compute; reflexivity|]. split; [apply jvalue_by_scan; vm_compute; reflexivity|].
  split; [apply perm_swap|]. split; [apply demo_ordinary|]. split; [apply demo_ordinary|]. split; [eexists; vm_compute; reflexivity|].
  split; [|vm_compute; auto]. intros k y n a _ _ [[= <- <-]|[[= <- <-]|[]]]; [exact I|]. cbn [alt_alike u8s alike].
  split; [intros _; exact I|]. destruct y; try exact I. apply allP_In. intros z _. exact I.
Qed.

(** With the tag ahead of the content, exactly the variant named by the tag is read, and its value is what
    its type reads from the content: as if tag and content were the fields of a struct. *)
Theorem C75_variant_read :
  forall tag cont alts n a l text A v, tag <> cont -> jvalue (RObj l) text -> (A <> [] -> ordinary_first l) ->
    tag_ahead tag cont n l -> named_alt alts n a ->
    arg_enum (Adjacent tag cont alts) (Arg text A) = Ok (XVariant n v) <-> as_fields tag cont n a l (Arg text A) v.
Proof. exact adjacent_variant. Qed.
Print Assumptions C75_variant_read.
Example C75_variant_nonvacuous :
  jvalue (RObj tag_first) tag_first_text /\ ordinary_first tag_first /\ tag_ahead (bs "t") (bs "c") (bs "Bin") tag_first /\
  named_alt bin_alts (bs "Bin") (ANewtype TyBytes) /\
  as_fields (bs "t") (bs "c") (bs "Bin") (ANewtype TyBytes) tag_first (Arg tag_first_text att1) (XBytes (bs "xyz")).
Proof.
  split; [apply jvalue_by_scan; vm_compute; reflexivity|]. split; [apply demo_ordinary|].
  split; [exists [], (bs "t"), (bs "Bin"), [(bs "c", RObj ph0)]; repeat split; [constructor|constructor; [discriminate|constructor]]|].
  split; [exists [], []; split; [reflexivity|intros []]|vm_compute; reflexivity].
Qed.

(** The list of tag and content is read likewise. *)
Theorem C75_pair_read :
  forall tag cont alts n a b y text A v, jvalue (RArr [RStr b; y]) text -> unescape b = Some n -> named_alt alts n a ->
    arg_enum (Adjacent tag cont alts) (Arg text A) = Ok (XVariant n v) <-> as_pair n a y (Arg text A) v.
Proof. exact adjacent_pair. Qed.
Print Assumptions C75_pair_read.
Example C75_pair_nonvacuous :
  let t := bs "[""Bin""," ++ ph0_text ++ bs "]" in
  jvalue (RArr [RStr (bs "Bin"); RObj ph0]) t /\ unescape (bs "Bin") = Some (bs "Bin") /\
  named_alt bin_alts (bs "Bin") (ANewtype TyBytes) /\
  as_pair (bs "Bin") (ANewtype TyBytes) (RObj ph0) (Arg t att1) (XBytes (bs "xyz")).
Proof.
  cbv zeta. split; [apply jvalue_by_scan; vm_compute; reflexivity|]. split; [reflexivity|].
  split; [exists [], []; split; [reflexivity|intros []]|vm_compute; reflexivity].
Qed.

(** An object is read only if it has one member for the tag, which names a variant, and at most one for the
    content. *)
Theorem C75_one_tag :
  forall tag cont alts l text A x, tag <> cont -> jvalue (RObj l) text -> (A <> [] -> ordinary_first l) ->
    arg_enum (Adjacent tag cont alts) (Arg text A) = Ok x ->
    exists n v y, x = XVariant n v /\ In n (map fst alts) /\ sole_member tag l y /\ tag_for y n /\
      (no_member cont l \/ exists z, sole_member cont l z).
Proof. exact adjacent_one_tag. Qed.
Print Assumptions C75_one_tag.
Example C75_one_tag_nonvacuous :
  let alts := [(bs "Bin", ANewtype u8s)] in
  (exists x, arg_enum (Adjacent (bs "t") (bs "c") alts) (Arg tag_last_text att1) = Ok x) /\ ordinary_first tag_last /\
  (exists x, arg_enum (Adjacent (bs "t") (bs "c") alts) (Arg (bs "{""t"":{""Bin"":null},""c"":[1]}") []) = Ok x) /\
  (forall x, arg_enum (Adjacent (bs "t") (bs "c") alts) (Arg (bs "{""t"":""Bin"",""c"":[1],""t"":""Bin""}") []) <> Ok x).
Proof.
  cbv zeta. split; [eexists; vm_compute; reflexivity|]. split; [apply demo_ordinary|]. split; [eexists; vm_compute; reflexivity|].
  intros x. vm_compute. discriminate.
Qed.

(** C76 is false of the code: borrowed bytes in a variant of an internally tagged enum never receive an
    attachment. *)
Theorem C76_tag_refuted : ~ C76_full.
Proof. exact C76_refuted_lemma. Qed.
Print Assumptions C76_tag_refuted.

(** Proved part: if the other members read as [Value]s, and nothing in them is at a place where the
    buffer makes a difference, the variant named by the tag is read, and it is what its type reads from
    the object without the tag. *)
Theorem C76_tag_partial :
  forall tag alts n a l text rest A v0 v, with_tag tag n l text rest -> named_alt alts n a ->
    arg_deserialize (TyMap TyValue) (Arg rest A) = Ok v0 -> alt_alike (has_some A) true a (RObj l) ->
    arg_enum (Tagged tag alts) (Arg text A) = Ok (XVariant n v) <-> untagged_part a (Arg rest A) v.
Proof. exact tagged_variant. Qed.
Print Assumptions C76_tag_partial.
Example C76_partial_nonvacuous :
  with_tag (bs "t") (bs "File") file_rest file_text file_rest_text /\
  named_alt (file_alts u8s) (bs "File") (AStruct [(bs "d", u8s)]) /\
  (exists v, arg_deserialize (TyMap TyValue) (Arg file_rest_text att1) = Ok v) /\
  alt_alike (has_some att1) true (AStruct [(bs "d", u8s)]) (RObj file_rest) /\
  arg_enum (Tagged (bs "t") (file_alts u8s)) (Arg file_text att1) = Ok (XVariant (bs "File") (XStruct [xyz])).
Proof.
  split; [exact file_with_tag|]. split; [exact (file_named u8s)|]. split; [eexists; vm_compute; reflexivity|].
  split; [|vm_compute; reflexivity]. cbn. split; [intros [_ H]; discriminate H|]. repeat split.
Qed.

(** An object is read only if it has one member for the tag, and that is the name of a variant. *)
Theorem C76_one_tag :
  forall tag alts l text A x, jvalue (RObj l) text -> (A <> [] -> ordinary_first l) ->
    arg_enum (Tagged tag alts) (Arg text A) = Ok x ->
    exists n v b, x = XVariant n v /\ In n (map fst alts) /\ sole_member tag l (RStr b) /\ unescape b = Some n.
Proof. exact tagged_one_tag. Qed.
Print Assumptions C76_one_tag.
Example C76_one_tag_nonvacuous :
  (exists x, arg_enum (Tagged (bs "t") (file_alts u8s)) (Arg file_text att1) = Ok x) /\
  (exists x, arg_enum (Tagged (bs "t") (file_alts u8s)) (Arg (bs "{""x"":1,""t"":""Ping""}") []) = Ok x) /\
  (forall x, arg_enum (Tagged (bs "t") (file_alts u8s)) (Arg (bs "{""t"":""Ping"",""t"":""Ping""}") []) <> Ok x).
Proof. split; [eexists; vm_compute; reflexivity|]. split; [eexists; vm_compute; reflexivity|]. intros x. vm_compute. discriminate. Qed.

(** Likewise for a list whose first element is the tag. *)
Theorem C76_list_partial :
  forall tag alts n a b l text rest A v0 v, jvalue (RArr (RStr b :: l)) text -> unescape b = Some n -> jvalue (RArr l) rest ->
    named_alt alts n a -> arg_deserialize TyValue (Arg rest A) = Ok v0 -> alt_alike (has_some A) true a (RArr l) ->
    arg_enum (Tagged tag alts) (Arg text A) = Ok (XVariant n v) <-> untagged_list a l (Arg rest A) v.
Proof. exact tagged_list. Qed.
Print Assumptions C76_list_partial.
Example C76_list_nonvacuous :
  let t := bs "[""File""," ++ ph0_text ++ bs "]" in let rest := bs "[" ++ ph0_text ++ bs "]" in
  jvalue (RArr [RStr (bs "File"); RObj ph0]) t /\ jvalue (RArr [RObj ph0]) rest /\
  named_alt (file_alts u8s) (bs "File") (AStruct [(bs "d", u8s)]) /\
  (exists v0, arg_deserialize TyValue (Arg rest att1) = Ok v0) /\
  alt_alike (has_some att1) true (AStruct [(bs "d", u8s)]) (RArr [RObj ph0]) /\
  untagged_list (AStruct [(bs "d", u8s)]) [RObj ph0] (Arg rest att1) (XStruct [xyz]).
Proof.
  cbv zeta. split; [apply jvalue_by_scan; vm_compute; reflexivity|]. split; [apply jvalue_by_scan; vm_compute; reflexivity|].
  split; [exact (file_named u8s)|]. split; [eexists; vm_compute; reflexivity|]. split; [|vm_compute; reflexivity].
  cbn. split; [intros [_ H]; destruct H|]. repeat split.
Qed.

(** Exactly what an attachment in place of the whole object is: its first byte is the number of a
    variant, whatever the tag, and the other bytes are the variant's fields. *)
Theorem C76_attachment_names_variant :
  forall tag alts l text A bl b t' x, jvalue (RObj l) text -> A <> [] -> contents A = Some bl -> stands_for bl l b ->
    jvalue (RArr (map byte_lit (tl b))) t' ->
    arg_enum (Tagged tag alts) (Arg text A) = Ok x <->
    exists c n a v, hd_error b = Some c /\ nth_error alts (N.to_nat (bN c)) = Some (n, a) /\ x = XVariant n v /\ from_octets a (tl b) t' v.
Proof. exact tagged_octets. Qed.
Print Assumptions C76_attachment_names_variant.
Example C76_attachment_nonvacuous :
  jvalue (RObj ph0) ph0_text /\ contents att_zero = Some [[x00]] /\ stands_for [[x00]] ph0 [x00] /\
  jvalue (RArr (map byte_lit (tl [x00]))) (bs "[]") /\
  arg_enum (Tagged (bs "t") (file_alts u8s)) (Arg ph0_text att_zero) = Ok (XVariant (bs "Ping") XUnit).
Proof.
  split; [apply jvalue_by_scan; vm_compute; reflexivity|]. split; [vm_compute; reflexivity|].
  split; [exists true, (int_lit false 0), 0%N; vm_compute; auto|]. split; [apply jvalue_by_scan; vm_compute; reflexivity|vm_compute; reflexivity].
Qed.
