(** Structs with flattened fields (C84), in terms of how arguments are read as ordinary types. *)
From Verif Require Export SpecBuffer Flatten.

(** The members without those of the given names. *)
Definition without (names : list bytes) (l : list (bytes * raw)) : list (bytes * raw) :=
  filter (fun kx => match unescape (fst kx) with Some k => negb (existsb (bytes_eqb k) names) | None => true end) l.

(** What the flattened fields of the struct are, for the object [RObj l] with the given text: a struct
    is what would be read of the whole object; a map is what would be read of the object without the
    members named before it. *)
Fixpoint parts_read (A : list subslice_t) (text : bytes) (l : list (bytes * raw)) (seen : list bytes)
    (ps : list part) (us : list dval) : Prop :=
  match ps, us with
  | [], [] => True
  | PStruct fs :: ps', u :: us' =>
      arg_deserialize (TyStruct fs) (Arg text A) = Ok u /\ parts_read A text l (seen ++ map fst fs) ps' us'
  | PMap t :: ps', u :: us' =>
      (exists rest, jvalue (RObj (without seen l)) rest /\ arg_deserialize (TyMap t) (Arg rest A) = Ok u) /\
      parts_read A text l seen ps' us'
  | _, _ => False
  end.
(** The names are different, and nothing is at a place where the buffer makes a difference. *)
Fixpoint parts_alike (A : list subslice_t) (l : list (bytes * raw)) (seen : list bytes) (ps : list part) : Prop :=
  match ps with
  | [] => True
  | PStruct fs :: ps' =>
      Forall (fun f => ~ In f seen) (map fst fs) /\ alike (has_some A) true (TyStruct fs) (RObj l) /\
      parts_alike A l (seen ++ map fst fs) ps'
  | PMap t :: ps' =>
      (A <> [] -> ordinary_first (without seen l)) /\ alike (has_some A) false (TyMap t) (RObj (without seen l)) /\
      parts_alike A l seen ps'
  end.
(** The members that are not fields of the struct itself read as [Value]s. *)
Definition others_are_values (A : list subslice_t) (own : list (bytes * ty)) (l : list (bytes * raw)) : Prop :=
  (A <> [] -> ordinary_first (without (map fst own) l)) /\
  exists rest v, jvalue (RObj (without (map fst own) l)) rest /\ arg_deserialize (TyMap TyValue) (Arg rest A) = Ok v.

(** C84, the full statement (false): a flattened struct makes no difference. *)
Definition C84_full : Prop := forall own fs l text A vs us,
  jvalue (RObj l) text -> NoDup (map fst (own ++ fs)) -> length vs = length own ->
  (arg_flat own [PStruct fs] (Arg text A) = Ok (XStruct (vs ++ [XStruct us])) <->
   arg_deserialize (TyStruct (own ++ fs)) (Arg text A) = Ok (XStruct (vs ++ us))).
