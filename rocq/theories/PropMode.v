(** C86: the same packet in text mode and in binary mode. *)
From Verif Require Import ModeAdjDemo.

(** The full statement is false: bytes are read as a [String] in binary mode only. *)
Theorem C86_modes_agree_refuted : ~ C86_full.
Proof. exact C86_refuted_lemma. Qed.
Print Assumptions C86_modes_agree_refuted.

(** Both packets have the same number of arguments. *)
Theorem C86_same_arguments : forall src ns args, either_mode src ns args -> forall pt pb i, sent_both src ns args pt pb ->
  (exists g, argument pt i g) <-> (exists g, argument pb i g).
Proof. exact mode_same_arguments. Qed.
Print Assumptions C86_same_arguments.
Example C86_nonvacuous : either_mode album_src (bs "/") album /\ exists pt pb, sent_both album_src (bs "/") album pt pb /\
  (forall i g, nth_error plain_args i = Some g -> argument pt i g) /\ (forall i g, nth_error bin_args i = Some g -> argument pb i g).
Proof. exact (conj album_either album_sent). Qed.

(** An argument is read as the same value into every type that has nothing special (a string, a tuple,
    a struct, ...) where the argument has an attachment. *)
Theorem C86_types_partial : forall src ns args, either_mode src ns args -> forall pt pb i gt gb, sent_both src ns args pt pb ->
  argument pt i gt -> argument pb i gb -> forall t x, nothing_special t gb ->
  arg_deserialize t gt = Ok x <-> arg_deserialize t gb = Ok x.
Proof. exact C86_type_lemma. Qed.
Print Assumptions C86_types_partial.
Example C86_types_nonvacuous : exists gt gb, nth_error plain_args 1 = Some gt /\ nth_error bin_args 1 = Some gb /\ nothing_special file_struct gb /\
  arg_deserialize file_struct gt = Ok (XStruct [XStr (bs "File"); xyz]) /\ arg_deserialize file_struct gb = Ok (XStruct [XStr (bs "File"); xyz]).
Proof. eexists _, _. split; [reflexivity|]. split; [reflexivity|]. split; [exact (file_special _ eq_refl)|]. split; vm_compute; reflexivity. Qed.

(** An argument without bytes is read the same into any type, whatever the other arguments have. *)
Theorem C86_without_bytes : forall src ns args, either_mode src ns args -> forall pt pb i gt gb, sent_both src ns args pt pb ->
  argument pt i gt -> argument pb i gb -> forall t x v, made_from src args i v -> blobs v = [] -> no_int_map t ->
  arg_deserialize t gt = Ok x <-> arg_deserialize t gb = Ok x.
Proof. exact C86_bytesless_lemma. Qed.
Print Assumptions C86_without_bytes.
Example C86_without_bytes_nonvacuous : made_from album_src album 4 (SSeq [SStr (bs "a")]) /\ blobs (SSeq [SStr (bs "a")]) = [] /\
  exists gb, nth_error bin_args 4 = Some gb /\ g_attachments gb <> [] /\ arg_deserialize (TySeq TyString) gb = Ok (DeModel.XSeq [XStr (bs "a")]).
Proof. split; [reflexivity|]. split; [reflexivity|]. eexists. split; [reflexivity|]. split; [discriminate|vm_compute; reflexivity]. Qed.

(** Untagged enums: any argument, any variants. *)
Theorem C86_untagged : forall src ns args, either_mode src ns args -> forall pt pb i gt gb, sent_both src ns args pt pb ->
  argument pt i gt -> argument pb i gb -> forall alts x,
  arg_enum (Untagged alts) gt = Ok x <-> arg_enum (Untagged alts) gb = Ok x.
Proof. exact C86_untagged_lemma. Qed.
Print Assumptions C86_untagged.
Example C86_untagged_nonvacuous : exists gt gb, nth_error plain_args 2 = Some gt /\ nth_error bin_args 2 = Some gb /\
  arg_enum (Untagged triple) gt = Ok (XVariant (bs "Rgb") (XTuple [XInt 120; XInt 121; XInt 122])) /\
  arg_enum (Untagged triple) gb = Ok (XVariant (bs "Rgb") (XTuple [XInt 120; XInt 121; XInt 122])).
Proof. eexists _, _. split; [reflexivity|]. split; [reflexivity|]. split; vm_compute; reflexivity. Qed.

(** Internally tagged enums, unless the argument is itself a byte string. *)
Theorem C86_tagged : forall src ns args, either_mode src ns args -> forall pt pb i gt gb, sent_both src ns args pt pb ->
  argument pt i gt -> argument pb i gb -> forall tag alts x, (forall v, made_from src args i v -> ~ is_blob v) ->
  arg_enum (Tagged tag alts) gt = Ok x <-> arg_enum (Tagged tag alts) gb = Ok x.
Proof. exact C86_tagged_lemma. Qed.
Print Assumptions C86_tagged.
Example C86_tagged_nonvacuous : (forall v, made_from album_src album 1 v -> ~ is_blob v) /\
  exists gt gb, nth_error plain_args 1 = Some gt /\ nth_error bin_args 1 = Some gb /\
  arg_enum (Tagged (bs "t") (file_alts BufferDemo.u8s)) gt = Ok (XVariant (bs "File") (XStruct [xyz])) /\
  arg_enum (Tagged (bs "t") (file_alts BufferDemo.u8s)) gb = Ok (XVariant (bs "File") (XStruct [xyz])).
Proof.
  split; [intros v Hv; vm_compute in Hv; injection Hv as <-; intros X; exact X|].
  eexists _, _. split; [reflexivity|]. split; [reflexivity|]. split; vm_compute; reflexivity.
Qed.

(** Structs with flattened fields, with attachments at any place among the flattened ones. *)
Theorem C86_flattened : forall src ns args, either_mode src ns args -> forall pt pb i gt gb, sent_both src ns args pt pb ->
  argument pt i gt -> argument pb i gb -> forall own ps x, nothing_special (TyStruct own) gb ->
  arg_flat own ps gt = Ok x <-> arg_flat own ps gb = Ok x.
Proof. exact C86_flat_lemma. Qed.
Print Assumptions C86_flattened.
Example C86_flattened_nonvacuous : exists gt gb x, nth_error plain_args 3 = Some gt /\ nth_error bin_args 3 = Some gb /\
  nothing_special (TyStruct entry_own) gb /\ arg_flat entry_own entry_parts gt = Ok x /\ arg_flat entry_own entry_parts gb = Ok x /\
  x = XStruct [XInt 7; XStruct [DeModel.XSeq [XInt 120; XInt 121]; XNone]; XMap [(bs "y", XValue (VNum (NPos 2)))]].
Proof.
  eexists _, _, _. split; [reflexivity|]. split; [reflexivity|]. split; [exact (entry_special _ eq_refl)|].
  split; [vm_compute; reflexivity|]. split; vm_compute; reflexivity.
Qed.

(** Adjacently tagged enums: nothing is asked where the content comes before the tag. *)
Theorem C86_adjacent : forall src ns args, either_mode src ns args -> forall pt pb i gt gb, sent_both src ns args pt pb ->
  argument pt i gt -> argument pb i gb -> forall tag cont alts x, nothing_special_adjacent tag cont alts gb ->
  arg_enum (Adjacent tag cont alts) gt = Ok x <-> arg_enum (Adjacent tag cont alts) gb = Ok x.
Proof. exact C86_adjacent_lemma. Qed.
Print Assumptions C86_adjacent.
Example C86_adjacent_nonvacuous : exists gt gb, nth_error plain_args 1 = Some gt /\ nth_error bin_args 1 = Some gb /\
  nothing_special_adjacent (bs "t") (bs "d") raw_variants gb /\
  arg_enum (Adjacent (bs "t") (bs "d") raw_variants) gt = Ok (XVariant (bs "File") xyz) /\
  arg_enum (Adjacent (bs "t") (bs "d") raw_variants) gb = Ok (XVariant (bs "File") xyz).
Proof. eexists _, _. split; [reflexivity|]. split; [reflexivity|]. split; [exact (file_adjacent_special _ eq_refl)|]. split; vm_compute; reflexivity. Qed.

(** An argument without bytes is read as the same adjacently tagged enum, whatever the other arguments have. *)
Theorem C86_adjacent_without_bytes : forall src ns args, either_mode src ns args -> forall pt pb i gt gb, sent_both src ns args pt pb ->
  argument pt i gt -> argument pb i gb -> forall tag cont alts x v, made_from src args i v -> blobs v = [] ->
  Forall (fun na => alt_no_int_map (snd na)) alts ->
  arg_enum (Adjacent tag cont alts) gt = Ok x <-> arg_enum (Adjacent tag cont alts) gb = Ok x.
Proof. exact C86_adjacent_bytesless_lemma. Qed.
Print Assumptions C86_adjacent_without_bytes.
Example C86_adjacent_without_bytes_nonvacuous : either_mode note_src (bs "/") note /\
  (exists pt pb, sent_both note_src (bs "/") note pt pb /\ argument pt 1 note_plain /\ argument pb 1 note_bin) /\
  (exists v, made_from note_src note 1 v /\ blobs v = []) /\ Forall (fun na => alt_no_int_map (snd na)) file_variants /\
  arg_enum (Adjacent (bs "t") (bs "d") file_variants) note_bin = Ok (XVariant (bs "Text") (XStr (bs "hi"))).
Proof.
  split; [exact note_either|]. split; [exact note_sent|]. split; [eexists; split; reflexivity|]. split; [repeat constructor|vm_compute; reflexivity].
Qed.
