(** Which texts a type accepts, and with which value: theorems, the assumptions of each, and a case
    that meets their hypotheses. *)
From Verif Require Import ShapeProofs.

(** ** C62 *)
(** Every argument of a received packet is a JSON text, and reading it as a type gives exactly what
    the text is worth as that type ([worth], SpecShape.v). *)
Theorem C62_argument_worth :
  forall m t l g, sub_deref_str m = Some t -> Forall emsg_ok l -> argument_of m l g ->
    exists r, jvalue r (g_text g) /\
      forall u v, arg_deserialize u g = Ok v <-> worth (seen_with (g_attachments g)) 127 u r v.
Proof. exact argument_worth. Qed.
Print Assumptions C62_argument_worth.

(** The same for any JSON text with any attachments. *)
Theorem C62_reads_exactly :
  forall t text r A v, jvalue r text -> contents A <> None ->
    (arg_deserialize t (Arg text A) = Ok v <-> worth (seen_with A) 127 t r v).
Proof. exact worth_exact. Qed.
Print Assumptions C62_reads_exactly.

(** A text that is worth nothing as the type is reported as an error that carries the text. *)
Theorem C62_otherwise_error :
  forall t text r A, jvalue r text -> contents A <> None ->
    (forall v, ~ worth (seen_with A) 127 t r v) -> arg_deserialize t (Arg text A) = Err (AJsonDeError text).
Proof. exact worth_error. Qed.
Print Assumptions C62_otherwise_error.

(** A text is worth at most one value. *)
Theorem C62_worth_unique :
  forall t text r A v w, jvalue r text -> contents A <> None ->
    worth (seen_with A) 127 t r v -> worth (seen_with A) 127 t r w -> v = w.
Proof. exact worth_unique. Qed.
Print Assumptions C62_worth_unique.

(** A struct with a field that is absent and not an option is not read. *)
Theorem C62_missing_field :
  forall fs text l A f u, jvalue (RObj l) text -> contents A <> None ->
    In (f, u) fs -> (forall u', u <> TyOption u') -> (forall b, ~ attachment (seen_with A) l b) ->
    (forall k x, In (k, x) l -> ~ string_means k f) ->
    arg_deserialize (TyStruct fs) (Arg text A) = Err (AJsonDeError text).
Proof. exact missing_rejected. Qed.
Print Assumptions C62_missing_field.

Example C62_nonvacuous :
  let text := bs "{""b"":{""_placeholder"":true,""num"":0},""x"":1,""a"":[1,-2]}" in
  let one := NumLit false (bs "1") None None in
  let two := NumLit true (bs "2") None None in
  let zero := NumLit false (bs "0") None None in
  let r := RObj [(bs "b", RObj [(key_placeholder, RBool true); (key_num, RNum zero)]); (bs "x", RNum one);
                 (bs "a", RArr [RNum one; RNum two])] in
  let A := [sub_from (bs "hi")] in
  let t := TyStruct [(bs "a", TySeq (TyInt (-128) 127)); (bs "b", TyBytes); (bs "c", TyOption TyBool)] in
  jvalue r text /\ contents A <> None /\
  worth (seen_with A) 127 t r (XStruct [XSeq [XInt 1; XInt (-2)]; XBytes (bs "hi"); XNone]) /\
  arg_deserialize t (Arg text A) = Ok (XStruct [XSeq [XInt 1; XInt (-2)]; XBytes (bs "hi"); XNone]) /\
  arg_deserialize (TyStruct [(bs "a", TySeq (TyInt (-128) 127)); (bs "c", TyBool)]) (Arg text A) = Err (AJsonDeError text).
Proof.
  cbv zeta. assert (J : jvalue (RObj [(bs "b", RObj [(key_placeholder, RBool true); (key_num, RNum (NumLit false (bs "0") None None))]);
    (bs "x", RNum (NumLit false (bs "1") None None)); (bs "a", RArr [RNum (NumLit false (bs "1") None None); RNum (NumLit true (bs "2") None None)])])
    (bs "{""b"":{""_placeholder"":true,""num"":0},""x"":1,""a"":[1,-2]}")) by (apply jvalue_by_scan; vm_compute; reflexivity).
  split; [exact J|]. split; [discriminate|]. split; [|split; vm_compute; reflexivity].
  apply (proj1 (worth_exact _ _ _ [sub_from (bs "hi")] _ J ltac:(discriminate))). vm_compute. reflexivity.
Qed.
(** Characters, byte buffers and integer keys; a lone surrogate is three bytes of a byte buffer. *)
Example C62_nonvacuous_buffers :
  let text := bs "[""é"",""\ud800"",[104,105],{""7"":null,""-3"":true,""7"":true}]" in
  let t := TyTuple [TyChar; TyByteBuf; TyByteBuf; TyIntMap (-10) 10 (TyOption TyBool)] in
  arg_deserialize t (Arg text []) =
    Ok (XTuple [XStr [xc3; xa9]; XBytes [xed; xa0; x80]; XBytes (bs "hi"); XIntMap [((-3)%Z, XSome (XBool true)); (7%Z, XSome (XBool true))]]) /\
  (exists r, jvalue r text /\ worth (seen_with []) 127 t r
    (XTuple [XStr [xc3; xa9]; XBytes [xed; xa0; x80]; XBytes (bs "hi"); XIntMap [((-3)%Z, XSome (XBool true)); (7%Z, XSome (XBool true))]])) /\
  arg_deserialize t (Arg text [sub_from (bs "hi")]) = Err (AJsonDeError text) /\
  arg_deserialize (TyIntMap (-10) 10 TyUnit) (Arg (bs "{""7"":null}") [sub_from (bs "hi")]) = Err (AJsonDeError (bs "{""7"":null}")).
Proof.
  cbv zeta.
  assert (V : arg_deserialize (TyTuple [TyChar; TyByteBuf; TyByteBuf; TyIntMap (-10) 10 (TyOption TyBool)])
    (Arg (bs "[""é"",""\ud800"",[104,105],{""7"":null,""-3"":true,""7"":true}]") []) =
    Ok (XTuple [XStr [xc3; xa9]; XBytes [xed; xa0; x80]; XBytes (bs "hi"); XIntMap [((-3)%Z, XSome (XBool true)); (7%Z, XSome (XBool true))]]))
    by (vm_compute; reflexivity).
  split; [exact V|]. split; [|split; vm_compute; reflexivity].
  set (num := fun s : bytes => RNum (NumLit false s None None)).
  assert (J : jvalue (RArr [RStr [xc3; xa9]; RStr (bs "\ud800"); RArr [num (bs "104"); num (bs "105")]; RObj [(bs "7", RNull); (bs "-3", RBool true); (bs "7", RBool true)]])
    (bs "[""é"",""\ud800"",[104,105],{""7"":null,""-3"":true,""7"":true}]")) by (apply jvalue_by_scan; vm_compute; reflexivity).
  eexists. split; [exact J|]. apply (proj1 (worth_exact _ _ _ [] _ J ltac:(discriminate)) V).
Qed.
