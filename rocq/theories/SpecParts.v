(** Values that have enums and structs with flattened fields within them (C90): what derived [Serialize]
    writes for them, and which come back. *)
From Verif Require Export SpecNested SpecMerge.

(** Written as [null]. *)
Fixpoint null_written (v : sval) : bool :=
  match v with
  | SNone | SUnit | SUnitStruct | SFloat None => true
  | SSome x | SNewtypeStruct x => null_written x
  | _ => false
  end.

(** [nests bin careful x d v]: the value [d] of type [x] is written as [v], and the parts of it that are no
    containers are such that they come back when they are sent alone (C52, C87, C88).  If [careful], the
    containers observe: no [Some] of something written as [null]; and in binary mode no [Vec] that begins
    with a byte and holds something else, and no object whose first key needs an escape or is
    [_placeholder]. *)
Inductive nests (bin careful : bool) : xty -> dval -> sval -> Prop :=
| ne_ty t d v : ty_ok t -> encodes t d v -> recoverable bin t d -> nests bin careful (XTy t) d v
| ne_untagged alts n d v : enum_ok (Untagged alts) -> enum_encodes (Untagged alts) (XVariant n d) v ->
    enum_keeps bin (Untagged alts) (XVariant n d) -> enum_first bin (Untagged alts) v ->
    Forall (fun na => alt_no_int_map (snd na)) alts -> none_earlier alts n v ->
    nests bin careful (XEnum (Untagged alts)) (XVariant n d) v
| ne_tagged tag alts d v : enum_ok (Tagged tag alts) -> enum_encodes (Tagged tag alts) d v ->
    enum_keeps bin (Tagged tag alts) d -> enum_first bin (Tagged tag alts) v -> nests bin careful (XEnum (Tagged tag alts)) d v
| ne_adjacent tag cont alts d v : enum_ok (Adjacent tag cont alts) -> enum_encodes (Adjacent tag cont alts) d v ->
    enum_keeps bin (Adjacent tag cont alts) d -> enum_first bin (Adjacent tag cont alts) v ->
    nests bin careful (XEnum (Adjacent tag cont alts)) d v
| ne_flat own ps vs us ovs es : flat_ok own ps -> flat_encodes own ps vs us ovs es -> flat_keeps bin own ps vs us ->
    NoDup (map fst own ++ names_of (concat es)) ->
    (bin = true -> no_mixed (merged ovs es) /\ plain_first (merged ovs es)) -> maps_alone ps es ->
    nests bin careful (XFlatten own ps) (XStruct (vs ++ us)) (merged ovs es)
| ne_none u : nests bin careful (Nested.XOpt u) XNone SNone
| ne_some u d v : (careful = true -> null_written v = false) -> nests bin careful u d v ->
    nests bin careful (Nested.XOpt u) (XSome d) (SSome v)
| ne_new u d v : nests bin careful u d v -> nests bin careful (XNew u) (XNewtype d) (SNewtypeStruct v)
| ne_vec u ds vs : (careful = true -> bin = true -> mixed_seq vs = false) -> Forall2 (nests bin careful u) ds vs ->
    nests bin careful (XVec u) (DeModel.XSeq ds) (SSeq vs)
| ne_tup us ds vs : Forall3 (nests bin careful) us ds vs -> nests bin careful (XTup us) (XTuple ds) (STuple vs)
| ne_tup_struct us ds vs : Forall3 (nests bin careful) us ds vs -> nests bin careful (XTup us) (XTuple ds) (STupleStruct vs)
| ne_dict u m m' vs : in_key_order m -> Permutation m m' -> (careful = true -> bin = true -> first_plain m') ->
    Forall2 (fun kx kv => fst kv = SStr (fst kx) /\ nests bin careful u (snd kx) (snd kv)) m' vs ->
    nests bin careful (XDict u) (XMap m) (SMap vs)
| ne_rec fs ds vs : NoDup (map fst fs) -> (careful = true -> bin = true -> first_plain fs) ->
    Forall3 (fun f d kv => fst kv = fst f /\ nests bin careful (snd f) d (snd kv)) fs ds vs ->
    nests bin careful (XRec fs) (XStruct ds) (SStruct vs)
| ne_unit_variant es n u : NoDup (map fst es) -> In (n, (VtUnit, u)) es ->
    nests bin careful (XVar es) (XVariant n XUnit) (SUnitVariant n)
| ne_newtype_variant es n u d v : NoDup (map fst es) -> In (n, (VtNewtype, u)) es -> nests bin careful u d v ->
    nests bin careful (XVar es) (XVariant n d) (SNewtypeVariant n v)
| ne_tuple_variant es n us d vs : NoDup (map fst es) -> In (n, (VtTuple, XTup us)) es -> nests bin careful (XTup us) d (STuple vs) ->
    nests bin careful (XVar es) (XVariant n d) (STupleVariant n vs)
| ne_struct_variant es n fs d vs : NoDup (map fst es) -> In (n, (VtStruct, XRec fs)) es -> nests bin careful (XRec fs) d (SStruct vs) ->
    nests bin careful (XVar es) (XVariant n d) (SStructVariant n vs).

(** C90, the full statement (false): values all parts of which come back come back. *)
Definition C90_full : Prop := forall bin src ns args i v g x d,
  sendable bin src ns args -> became bin src ns args i v g -> nests bin false x d v -> arg_nested x g = Ok d.
