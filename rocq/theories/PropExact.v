(** Exactly which parts a string has, and which arguments the readers treat differently: theorems, the assumptions of each, and a
    case that meets their hypotheses. *)
From Verif Require Import ReadProofs ValueProofs ExactProofs AgreeProofs SliceProofs.

(** ** C06 *)
(** The visible part of a string: it is there (no panic) exactly when it lies in the buffer and cuts
    through no character. *)
Theorem C06_parts_of_strings :
  forall d x y v, characters d -> (sub_deref_str (sub_new d (x, y)) = Some v <-> whole_part d x y v).
Proof. exact string_parts. Qed.
Print Assumptions C06_parts_of_strings.
(** Likewise a part of a part; the end is moved into the part. *)
Theorem C06_parts_of_parts_of_strings :
  forall s u r v, characters u -> sub_deref_str s = Some u ->
    (sub_deref_str (sub_subslice s r) = Some v <-> whole_part u (fst r) (Nat.min (snd r) (length u)) v).
Proof. exact string_parts_of_parts. Qed.
Print Assumptions C06_parts_of_parts_of_strings.
Example C06_parts_nonvacuous : let d := bs "4" ++ [xc2; x80] ++ bs "x" in
  characters d /\ sub_deref_str (sub_new d (1, 3)) = Some [xc2; x80] /\ sub_deref_str (sub_new d (1, 2)) = None /\
  sub_deref_str (sub_subslice (sub_new d (1, 4)) (2, 9)) = Some (bs "x") /\ sub_deref_str (sub_subslice (sub_new d (1, 4)) (1, 9)) = None.
Proof. cbv zeta. split; [apply utf8_characters; reflexivity|]. repeat apply conj; vm_compute; reflexivity. Qed.

(** ** C24 *)
(** If the text has a value and the keys of every object differ: the readers agree exactly when every
    object either stands for an attachment as this library writes it or has no [_placeholder] key
    and no escape in its first key, or else when both fail. *)
Theorem C24_readers_agree_exactly :
  forall text r A bl w, jvalue r text -> contents A = Some bl -> A <> [] -> from_str_value text = Some w ->
    different_keys r ->
    readers_agree (Arg text A) <->
      (forall l, inside r (RObj l) -> proper bl l) \/ (typed_rejects bl r /\ json_rejects bl r).
Proof. exact agree_exact. Qed.
Print Assumptions C24_readers_agree_exactly.
Example C24_exactly_nonvacuous :
  let t := bs "[{""num"":0,""_placeholder"":true}]" in
  let l := [(key_num, RNum (NumLit false (bs "0") None None)); (key_placeholder, RBool true)] in
  let A := [sub_from (bs "x")] in
  jvalue (RArr [RObj l]) t /\ contents A = Some [bs "x"] /\ from_str_value t <> None /\
  different_keys (RArr [RObj l]) /\ ~ proper [bs "x"] l /\ ~ bad_start [bs "x"] l.
Proof.
  cbv zeta. split; [apply jvalue_by_scan; vm_compute; reflexivity|]. split; [reflexivity|].
  split; [vm_compute; discriminate|]. split; [|split].
  - intros l H. inversion H as [|? x ? Hx H'|]; subst. destruct Hx as [<-|[]].
    inversion H' as [| |? k x ? Hx H'']; subst; [|destruct Hx as [E|[E|[]]]].
    + split; [|intros k x l' [= <- <- <-]; vm_compute; discriminate]. cbn [map fst]. repeat constructor; vm_compute; intuition discriminate.
    + injection E as <- <-. inversion H''.
    + injection E as <- <-. inversion H''.
  - intros [(b & f & x & k & E & _)|[H _]]; [discriminate|]. apply H. exists key_placeholder, (RBool true).
    split; [right; left; reflexivity|vm_compute; reflexivity].
  - intros (k & x & l' & [= <- <- <-] & [H|[H _]]); [revert H; vm_compute; intuition discriminate|discriminate].
Qed.

(** ** C25 *)
(** With attachments and no [_placeholder] key, a value is read exactly when it is read without the
    attachments and every object that is read by its members (as a map, a struct, a [Value]) starts
    with a key written without escapes, no map with integer keys has members, and no byte buffer is
    written as a string with a lone surrogate. *)
Theorem C25_unused_attachments_exactly :
  forall t text r A v, jvalue r text -> no_placeholder_key r -> A <> [] ->
    arg_deserialize t (Arg text A) = Ok v <->
      arg_deserialize t (Arg text []) = Ok v /\ plain_starts t r /\ no_numeric_keys t r /\ no_lone_surrogates t r.
Proof. exact unused_exact. Qed.
Print Assumptions C25_unused_attachments_exactly.
Example C25_exactly_nonvacuous :
  let t := bs "{""a"":1,""b"":{""\n"":2}}" in
  let x := RNum (NumLit false (bs "1") None None) in
  let y := RObj [(bs "\n", RNum (NumLit false (bs "2") None None))] in
  let r := RObj [(bs "a", x); (bs "b", y)] in
  let u := TyStruct [(bs "a", TyU8)] in
  jvalue r t /\ no_placeholder_key r /\ arg_deserialize u (Arg t []) = Ok (XStruct [XInt 1]) /\
  plain_starts u r /\ no_numeric_keys u r /\ no_lone_surrogates u r /\ ~ plain_starts TyValue r /\
  (let tm := bs "{""7"":true}" in let rm := RObj [(bs "7", RBool true)] in let um := TyIntMap 0 255 TyBool in
   jvalue rm tm /\ arg_deserialize um (Arg tm []) = Ok (XIntMap [(7%Z, XBool true)]) /\ plain_starts um rm /\ ~ no_numeric_keys um rm) /\
  (let tb := bs """\udc00""" in let rb := RStr (bs "\udc00") in
   jvalue rb tb /\ arg_deserialize TyByteBuf (Arg tb []) = Ok (XBytes [xed; xb0; x80]) /\ ~ no_lone_surrogates TyByteBuf rb).
Proof.
  cbv zeta. split; [apply jvalue_by_scan; vm_compute; reflexivity|]. split; [cbn; repeat split; discriminate|].
  split; [vm_compute; reflexivity|]. split; [|split; [|split; [|split; [|split]]]].
  - intros t' k x l H Hm. inversion H as [| | | | | | |? ? n u ? ? ? ? Hf Hin Hk Hr| | | |]; subst; [vm_compute; intuition discriminate|].
    destruct Hf as [[= <- <-]|[]]. inversion Hr; subst. destruct Hm.
  - intros lo hi v l H. inversion H as [| | | | | | |? ? n u ? ? ? ? Hf Hin Hk Hr| | | |]; subst. destruct Hf as [[= <- <-]|[]]. inversion Hr.
  - intros b H. inversion H as [| | | | | | |? ? n u ? ? ? ? Hf Hin Hk Hr| | | |]; subst. destruct Hf as [[= <- <-]|[]]. inversion Hr.
  - intros H. apply (H TyValue (bs "\n") (RNum (NumLit false (bs "2") None None)) []); [|exact I|left; reflexivity].
    eapply rd_value_obj; [right; left; reflexivity|apply rd_here].
  - cbv zeta. split; [apply jvalue_by_scan; vm_compute; reflexivity|]. split; [vm_compute; reflexivity|]. split.
    + intros t' k x l H Hm. inversion H as [| | | | | | | | |? ? ? ? ? ? ? ? Hin Hr| |]; subst; [destruct Hm|]. destruct Hin as [[= <- <-]|[]]. inversion Hr.
    + intros H. discriminate (H 0%Z 255%Z TyBool _ (rd_here _ _)).
  - cbv zeta. split; [apply jvalue_by_scan; vm_compute; reflexivity|]. split; [vm_compute; reflexivity|].
    intros H. destruct (H _ (rd_here _ _)) as (s & Hs). apply means_unescape in Hs. revert Hs. vm_compute. discriminate.
Qed.
