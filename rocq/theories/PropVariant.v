(** C87: values of enums with the other representations of serde, sent and read back. *)
From Verif Require Import VariantDemo.

(** The full statement is false: of an untagged enum an earlier variant may be read. *)
Theorem C87_enums_return_refuted : ~ C87_full.
Proof. exact C87_refuted_lemma. Qed.
Print Assumptions C87_enums_return_refuted.

(** Untagged enums: exactly the values come back whose text is not read by an earlier variant. *)
Theorem C87_untagged_partial : forall bin src ns args i v g alts n x,
  sendable bin src ns args -> became bin src ns args i v g -> enum_ok (Untagged alts) -> enum_encodes (Untagged alts) (XVariant n x) v ->
  enum_keeps bin (Untagged alts) (XVariant n x) -> enum_first bin (Untagged alts) v -> Forall (fun na : bytes * alt => alt_no_int_map (snd na)) alts ->
  arg_enum (Untagged alts) g = Ok (XVariant n x) <-> none_earlier alts n v.
Proof. exact untagged_returns. Qed.
Print Assumptions C87_untagged_partial.
Example C87_untagged_nonvacuous : sendable true post_src (bs "/") post /\
  (exists g, nth_error post_args 1 = Some g /\ became true post_src (bs "/") post 1 xy_seq g) /\
  enum_ok (Untagged num_or_data) /\ enum_encodes (Untagged num_or_data) (XVariant (bs "Data") xy_val) xy_seq /\
  enum_keeps true (Untagged num_or_data) (XVariant (bs "Data") xy_val) /\ enum_first true (Untagged num_or_data) xy_seq /\
  Forall (fun na : bytes * alt => alt_no_int_map (snd na)) num_or_data /\ none_earlier num_or_data (bs "Data") xy_seq.
Proof.
  split; [exact post_sendable|]. split; [|exact untagged_case]. eexists. split; [reflexivity|]. apply post_became; reflexivity.
Qed.

(** Internally tagged enums: the values come back, in both modes; except what enum_keeps and enum_first name. *)
Theorem C87_tagged_partial : forall bin src ns args i v g tag alts x,
  sendable bin src ns args -> became bin src ns args i v g -> enum_ok (Tagged tag alts) -> enum_encodes (Tagged tag alts) x v ->
  enum_keeps bin (Tagged tag alts) x -> enum_first bin (Tagged tag alts) v -> arg_enum (Tagged tag alts) g = Ok x.
Proof. exact tagged_returns. Qed.
Print Assumptions C87_tagged_partial.
Example C87_tagged_nonvacuous : let alts := file_alts BufferDemo.u8s in let v := SStruct [(bs "t", SStr (bs "File")); (bs "d", xy_seq)] in
  sendable true post_src (bs "/") post /\ (exists g, nth_error post_args 2 = Some g /\ became true post_src (bs "/") post 2 v g) /\
  enum_ok (Tagged (bs "t") alts) /\ enum_encodes (Tagged (bs "t") alts) (XVariant (bs "File") (XStruct [xy_val])) v /\
  enum_keeps true (Tagged (bs "t") alts) (XVariant (bs "File") (XStruct [xy_val])) /\ enum_first true (Tagged (bs "t") alts) v.
Proof.
  cbv zeta. split; [exact post_sendable|]. split; [|exact tagged_case]. eexists. split; [reflexivity|]. apply post_became; reflexivity.
Qed.

(** One of the exceptions: a [Value::Null] in an internally tagged variant arrives as the empty object. *)
Theorem C87_tagged_null : forall bin src ns args i g tag alts n,
  sendable bin src ns args -> became bin src ns args i (SMap [(SStr tag, SStr n)]) g -> enum_ok (Tagged tag alts) -> In (n, ANewtype TyValue) alts ->
  (bin = true -> plain_key tag) -> arg_enum (Tagged tag alts) g = Ok (XVariant n (XValue (VObj []))).
Proof. exact tagged_null. Qed.
Print Assumptions C87_tagged_null.
Example C87_tagged_null_nonvacuous : let alts := [(bs "Any", ANewtype TyValue)] in
  enum_encodes (Tagged (bs "t") alts) (XVariant (bs "Any") (XValue VNull)) (SMap [(SStr (bs "t"), SStr (bs "Any"))]) /\
  exists g, nth_error post_args 5 = Some g /\ became true post_src (bs "/") post 5 (SMap [(SStr (bs "t"), SStr (bs "Any"))]) g /\
    arg_enum (Tagged (bs "t") alts) g = Ok (XVariant (bs "Any") (XValue (VObj []))).
Proof.
  cbv zeta. split; [|eexists; split; [reflexivity|]; split; [apply post_became; reflexivity|vm_compute; reflexivity]].
  eapply (ee_tagged _ _ _ (ANewtype TyValue) TyValue _ SUnit); [left; reflexivity|reflexivity|exact (en_value VNull I)|exact I|constructor].
Qed.

(** Adjacently tagged enums: the values come back, borrowed bytes and all that [Arg::deserialize] itself recovers included. *)
Theorem C87_adjacent_partial : forall bin src ns args i v g tag cont alts x,
  sendable bin src ns args -> became bin src ns args i v g -> enum_ok (Adjacent tag cont alts) -> enum_encodes (Adjacent tag cont alts) x v ->
  enum_keeps bin (Adjacent tag cont alts) x -> enum_first bin (Adjacent tag cont alts) v -> arg_enum (Adjacent tag cont alts) g = Ok x.
Proof. exact adjacent_returns. Qed.
Print Assumptions C87_adjacent_partial.
Example C87_adjacent_nonvacuous : let v := SStruct [(bs "t", SUnitVariant (bs "Bin")); (bs "c", SBytes (bs "xyz"))] in
  sendable true post_src (bs "/") post /\ (exists g, nth_error post_args 3 = Some g /\ became true post_src (bs "/") post 3 v g) /\
  enum_ok (Adjacent (bs "t") (bs "c") bin_alts) /\ enum_encodes (Adjacent (bs "t") (bs "c") bin_alts) (XVariant (bs "Bin") (XBytes (bs "xyz"))) v /\
  enum_keeps true (Adjacent (bs "t") (bs "c") bin_alts) (XVariant (bs "Bin") (XBytes (bs "xyz"))) /\ enum_first true (Adjacent (bs "t") (bs "c") bin_alts) v.
Proof.
  cbv zeta. split; [exact post_sendable|]. split; [|exact adjacent_case]. eexists. split; [reflexivity|]. apply post_became; reflexivity.
Qed.
