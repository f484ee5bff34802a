(** C90: values with enums and flattened structs within them, sent and read back. *)
From Verif Require Import PartsDemo.

(** The full statement is false: a [Vec] of an untagged enum that begins with a byte and holds something else gains an element. *)
Theorem C90_nested_return_refuted : ~ C90_full.
Proof. exact C90_refuted_lemma. Qed.
Print Assumptions C90_nested_return_refuted.

(** With careful containers (no [Some] of something written as [null]; in binary mode no such [Vec] and no
    object that begins with a key that needs an escape or is [_placeholder]): a value all parts of which come
    back when sent alone comes back, in both modes, however deep the parts are. *)
Theorem C90_nested_return_partial : forall bin src ns args i v g x d,
  sendable bin src ns args -> became bin src ns args i v g -> nests bin true x d v -> arg_nested x g = Ok d.
Proof. exact parts_return. Qed.
Print Assumptions C90_nested_return_partial.
Example C90_nested_return_nonvacuous : sendable true album_src (bs "/") album /\
  (exists g, nth_error album_args 1 = Some g /\ became true album_src (bs "/") album 1 album_v g) /\ nests true true album_ty album_value album_v.
Proof. split; [exact album_sendable|]. split; [eexists; split; [reflexivity|]; apply album_became; reflexivity|exact album_nests]. Qed.

(** [Some] of something written as [null] always comes back as [None]. *)
Theorem C90_some_null : forall bin src ns args i v g u, sendable bin src ns args -> became bin src ns args i (SSome v) g ->
  null_written v = true -> arg_nested (Nested.XOpt u) g = Ok XNone.
Proof. exact some_null. Qed.
Print Assumptions C90_some_null.
Example C90_some_null_nonvacuous : sendable true album_src (bs "/") album /\
  (exists g, nth_error album_args 3 = Some g /\ became true album_src (bs "/") album 3 (SSome SUnit) g) /\ null_written SUnit = true.
Proof. split; [exact album_sendable|]. split; [eexists; split; [reflexivity|]; apply album_became; reflexivity|reflexivity]. Qed.

(** A sequence that begins with a byte and holds something else never comes back in binary mode: what is
    read, if anything, has one element too many. *)
Theorem C90_mixed_grows : forall src ns args i vs g u ds, sendable true src ns args -> became true src ns args i (SSeq vs) g ->
  mixed_seq vs = true -> arg_nested (XVec u) g = Ok (DeModel.XSeq ds) -> length ds = S (length vs).
Proof. exact mixed_grows. Qed.
Print Assumptions C90_mixed_grows.
Example C90_mixed_grows_nonvacuous : sendable true album_src (bs "/") album /\ became true album_src (bs "/") album 2 mixed_v mixed_arg /\
  arg_nested (XVec (XEnum (Untagged byte_or_data))) mixed_arg =
    Ok (DeModel.XSeq [XVariant (bs "Byte") (XInt 4); XVariant (bs "Byte") (XInt 5); XVariant (bs "Data") xy_val]).
Proof. split; [exact album_sendable|]. split; [apply album_became; reflexivity|exact mixed_read]. Qed.
