(** Values of structs with [#[serde(flatten)]] fields (C88): what derived [Serialize] writes for them, and
    which come back. *)
From Verif Require Export SpecVariant.

(** The members that a flattened field writes (serde's [FlatMapSerializer]): those of the struct, under the
    names of its fields, or those of the map. *)
Inductive part_writes : part -> dval -> list (sval * sval) -> Prop :=
| pw_struct fs xs vs : encodes (TyStruct fs) (XStruct xs) (SStruct vs) -> val_ok (SStruct vs) ->
    part_writes (PStruct fs) (XStruct xs) (map (fun kv => (SStr (fst kv), snd kv)) vs)
| pw_map t m vs : encodes (TyMap t) (XMap m) (SMap vs) -> val_ok (SMap vs) -> part_writes (PMap t) (XMap m) vs.
(** The value [vs], [us] of a struct with the fields [own] and the flattened fields [ps] is written as the
    map of the members of [own] (written as [ovs]) and then those of [ps] ([es]). *)
Definition flat_encodes (own : list (bytes * ty)) (ps : list part) (vs us : list dval) (ovs : list (bytes * sval))
    (es : list (list (sval * sval))) : Prop :=
  encodes (TyStruct own) (XStruct vs) (SStruct ovs) /\ Forall3 part_writes ps us es.
Definition merged (ovs : list (bytes * sval)) (es : list (list (sval * sval))) : sval :=
  SMap (map (fun kv => (SStr (fst kv), snd kv)) ovs ++ concat es).

(** The names of the fields of flattened structs; the names of members. *)
Definition struct_names (ps : list part) : list bytes :=
  flat_map (fun p => match p with PStruct fs => map fst fs | PMap _ => [] end) ps.
Definition names_of (l : list (sval * sval)) : list bytes :=
  flat_map (fun kx => match key_of (fst kx) with Some s => [s] | None => [] end) l.
(** The declaration is in order. *)
Definition flat_ok (own : list (bytes * ty)) (ps : list part) : Prop :=
  ty_ok (TyStruct own) /\ NoDup (map fst own ++ struct_names ps) /\
  Forall (fun p => match p with PStruct fs => ty_ok (TyStruct fs) | PMap t => ty_ok t end) ps.

(** The mode can carry the value: the own fields are recoverable in the mode, the flattened ones in text
    mode (they are read out of a buffer, where attachments are lists of numbers), without integer keys. *)
Definition flat_keeps (bin : bool) (own : list (bytes * ty)) (ps : list part) (vs us : list dval) : Prop :=
  Forall2 (fun f x => recoverable bin (snd f) x) own vs /\
  Forall2 (fun p u => match p with
                      | PStruct fs => recoverable false (TyStruct fs) u /\ no_int_map (TyStruct fs)
                      | PMap t => recoverable false (TyMap t) u /\ no_int_map t
                      end) ps us.
(** Every flattened map has written exactly the members that no field declared before it names. *)
Definition maps_alone (ps : list part) (es : list (list (sval * sval))) : Prop :=
  forall before t after e m e', ps = before ++ PMap t :: after -> es = e ++ m :: e' -> length before = length e ->
    forall s, In s (names_of (concat es)) -> (In s (names_of m) <-> ~ In s (struct_names before)).

(** C88, the full statement (false): values of such structs arrive as themselves. *)
Definition C88_full : Prop := forall bin src ns args i g own ps vs us ovs es,
  sendable bin src ns args -> became bin src ns args i (merged ovs es) g -> flat_ok own ps ->
  flat_encodes own ps vs us ovs es -> arg_flat own ps g = Ok (XStruct (vs ++ us)).
(** At most one map, declared last. *)
Definition map_at_end (ps : list part) : Prop :=
  exists fss last, ps = map PStruct fss ++ last /\ (last = [] \/ exists t, last = [PMap t]).
(** How many members of the object have the name. *)
Definition times_named (s : bytes) (l : list (bytes * raw)) : nat :=
  length (filter (fun kx => match unescape (fst kx) with Some k => bytes_eqb k s | None => false end) l).
