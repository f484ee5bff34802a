(** How a buffered value sees attachments (C74-C76, C84): as the lists of their numbers. *)
From Verif Require Export SpecExact SpecFlatten.

(** [spelt bl r r']: [r'] is [r] with the list of its bytes, as numbers, in place of every attachment.  No
    object of [r] begins with an escaped key or with a [_placeholder] that stands for no attachment. *)
Inductive spelt (bl : list bytes) : raw -> raw -> Prop :=
| sp_scalar r : match r with RArr _ | RObj _ => False | _ => True end -> spelt bl r r
| sp_arr l l' : Forall2 (spelt bl) l l' -> spelt bl (RArr l) (RArr l')
| sp_attachment l b : stands_for bl l b -> spelt bl (RObj l) (RArr (map byte_lit b))
| sp_obj l l' : ordinary_first l -> Forall2 (fun a a' => fst a = fst a' /\ spelt bl (snd a) (snd a')) l l' ->
    spelt bl (RObj l) (RObj l').
(** The members of an object, whatever its first key. *)
Definition spelt_members (bl : list bytes) : list (bytes * raw) -> list (bytes * raw) -> Prop :=
  Forall2 (fun a a' => fst a = fst a' /\ spelt bl (snd a) (snd a')).

(** [l] has one member named [cont], with the value [y], and after it one named [tag], a string; [l'] is [l]
    with [y'] in place of [y]. *)
Definition content_ahead (tag cont : bytes) (y y' : raw) (l l' : list (bytes * raw)) : Prop :=
  exists l1 k l2 k' b l3, l = l1 ++ (k, y) :: l2 ++ (k', RStr b) :: l3 /\ l' = l1 ++ (k, y') :: l2 ++ (k', RStr b) :: l3 /\
    unescape k = Some cont /\ unescape k' = Some tag /\
    Forall (fun kx => unescape (fst kx) <> Some tag /\ unescape (fst kx) <> Some cont) (l1 ++ l2 ++ l3).
(** The value is not itself an attachment. *)
Definition not_attached (r : raw) : Prop := match r with RObj l => ordinary_first l | _ => True end.
(** The type has no maps with integer keys. *)
Fixpoint no_int_map (t : ty) : Prop :=
  match t with
  | TyIntMap _ _ _ => False
  | TyOption u | TyNewtype u | TySeq u | TyMap u => no_int_map u
  | TyTuple l => allP no_int_map l
  | TyStruct fs => allP (fun '(_, u) => no_int_map u) fs
  | TyEnum es => allP (fun '(_, (_, u)) => no_int_map u) es
  | _ => True
  end.
Definition alt_no_int_map (a : alt) : Prop :=
  match a with AUnit => True | ANewtype t => no_int_map t | AStruct fs => no_int_map (TyStruct fs) end.
