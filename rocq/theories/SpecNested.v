(** What a text is worth when it is read as a type that has enums read through a buffer, or structs with
    flattened fields, within it (C89).  The containers have the rules of SpecShape.v; whatever is not a
    container is worth what it would be worth as an argument of its own. *)
From Verif Require Export SpecShape Nested.

(** At most [n] arrays and objects within one another. *)
Fixpoint within (n : nat) (r : raw) {struct r} : Prop :=
  match r with
  | RArr l => match n with O => False | S n' => allP (within n') l end
  | RObj l => match n with O => False | S n' => allP (fun '(_, x) => within n' x) l end
  | _ => True
  end.

(** One byte of an attachment, where the elements of a sequence are wanted. *)
Inductive piece_octet : xty -> byte -> dval -> Prop :=
| po_ty t c v : byte_worth t c v -> piece_octet (XTy t) c v
| po_untagged alts c x text v : number_means x (NPos (bN c)) -> jvalue (RNum x) text ->
    arg_enum (Untagged alts) (Arg text []) = Ok v -> piece_octet (XEnum (Untagged alts)) c v.

(** [piece A x r v]: in a packet with the attachments [A], a value with tree [r] read as an [x] gives [v]. *)
Inductive piece (A : list subslice_t) : xty -> raw -> dval -> Prop :=
| pi_ty t r text v : jvalue r text -> arg_deserialize t (Arg text A) = Ok v -> piece A (XTy t) r v
| pi_enum e r text v : jvalue r text -> arg_enum e (Arg text A) = Ok v -> piece A (XEnum e) r v
| pi_flatten own ps r text v : jvalue r text -> arg_flat own ps (Arg text A) = Ok v -> piece A (XFlatten own ps) r v
| pi_none u : piece A (XOpt u) RNull XNone
| pi_some u r v : r <> RNull -> piece A u r v -> piece A (XOpt u) r (XSome v)
| pi_new u r v : piece A u r v -> piece A (XNew u) r (XNewtype v)
| pi_vec u l vs : Forall2 (piece A u) l vs -> piece A (XVec u) (RArr l) (DeModel.XSeq vs)
| pi_vec_octets u l b vs : attachment (seen_with A) l b -> Forall2 (piece_octet u) b vs -> piece A (XVec u) (RObj l) (DeModel.XSeq vs)
| pi_tup us l vs : Forall3 (piece A) us l vs -> piece A (XTup us) (RArr l) (XTuple vs)
| pi_tup_octets us l b b' vs : attachment (seen_with A) l (b ++ b') -> Forall3 piece_octet us b vs -> piece A (XTup us) (RObj l) (XTuple vs)
| pi_dict u l ms m : by_members (seen_with A) l ->
    Forall2 (fun a b => string_means (fst a) (fst b) /\ piece A u (snd a) (snd b)) l ms -> map_of_members ms m ->
    piece A (XDict u) (RObj l) (XMap m)
| pi_rec_arr fs l vs : Forall3 (fun f => piece A (snd f)) fs l vs -> piece A (XRec fs) (RArr l) (XStruct vs)
| pi_rec_octets fs l b b' vs : attachment (seen_with A) l (b ++ b') -> Forall3 (fun f => piece_octet (snd f)) fs b vs ->
    piece A (XRec fs) (RObj l) (XStruct vs)
  (* an absent field is an error unless it is an option *)
| pi_rec fs l ms vs : by_members (seen_with A) l ->
    Forall2 (fun a b => string_means (fst a) (fst b) /\ snd a = snd b) l ms ->
    Forall2 (fun f v => (exists x, only_member ms (fst f) x /\ piece A (snd f) x v) \/
                        ~ In (fst f) (map fst ms) /\ ((exists u, snd f = XOpt u) \/ (exists t, snd f = XTy (TyOption t))) /\ v = XNone) fs vs ->
    piece A (XRec fs) (RObj l) (XStruct vs)
| pi_name pre e u post b : string_means b e -> ~ In e (map fst pre) ->
    piece A (XVar (pre ++ (e, (VtUnit, u)) :: post)) (RStr b) (XVariant e XUnit)
| pi_unit_variant pre e u post k : string_means k e -> ~ In e (map fst pre) ->
    piece A (XVar (pre ++ (e, (VtUnit, u)) :: post)) (RObj [(k, RNull)]) (XVariant e XUnit)
| pi_variant pre e tag u post k x v : string_means k e -> ~ In e (map fst pre) -> tag <> VtUnit ->
    (tag = VtTuple -> exists l, x = RArr l) -> piece A u x v ->
    piece A (XVar (pre ++ (e, (tag, u)) :: post)) (RObj [(k, x)]) (XVariant e v).

(** Nothing special within: the type of DeModel.v that it is. *)
Fixpoint ordinary_ty (x : xty) : option ty :=
  match x with
  | XTy t => Some t
  | XEnum _ | XFlatten _ _ => None
  | XOpt u => option_map TyOption (ordinary_ty u)
  | XNew u => option_map TyNewtype (ordinary_ty u)
  | XVec u => option_map TySeq (ordinary_ty u)
  | XDict u => option_map TyMap (ordinary_ty u)
  | XTup us => option_map TyTuple (all_some (map ordinary_ty us))
  | XRec fs => option_map TyStruct (all_some (map (fun f => option_map (pair (fst f)) (ordinary_ty (snd f))) fs))
  | XVar vs => option_map TyEnum (all_some (map (fun v => option_map (fun t => (fst v, (fst (snd v), t))) (ordinary_ty (snd (snd v)))) vs))
  end.
