(** Model of arguments read as structs with [#[serde(flatten)]] fields.  serde's derived code and its
    [FlatMapDeserializer] are external (serde 1.0, private/de.rs); what they drive is the wrapper of
    socket-io-protocol/src/socket/args/deserialize_attachments.rs, or serde_json.  The struct is the type
    of the whole argument; its own fields are listed before the flattened ones. *)
From Verif Require Export Buffered.

(** A flattened field: a struct, or a map with [String] keys. *)
Inductive part :=
| PStruct (fs : list (bytes * ty))
| PMap (t : ty).

Definition is_named (names : list bytes) (k : bytes) : bool := existsb (bytes_eqb k) names.

Section Flat.
Variable reparse : bytes -> option value.
Variable w : way.

(** The own fields: read directly, as in a derived struct. *)
Fixpoint own_fields (d : nat) (m : list (bytes * raw)) (own : list (bytes * ty)) : option (list dval) :=
  match own with
  | [] => Some []
  | (f, u) :: own' =>
      match (match members_named f m with
             | [] => missing_field u
             | [x] => de_direct reparse w u d x
             | _ => None
             end), own_fields d m own' with
      | Some v, Some vs => Some (v :: vs) | _, _ => None end
  end.
(** The other members: read into a buffer. *)
Fixpoint collect (names : list bytes) (d : nat) (m : list (bytes * raw)) : option (list (bytes * content)) :=
  match m with
  | [] => Some []
  | (k, x) :: m' =>
      if is_named names k then collect names d m'
      else match content_of (objects w) d x, collect names d m' with
           | Some c, Some cs => Some ((k, c) :: cs) | _, _ => None end
  end.
(** [FlatMapDeserializer]: a struct takes the members that it names out of the buffer
    ([FlatStructAccess], [ContentDeserializer]), a map looks at those that are left ([FlatMapAccess],
    [ContentRefDeserializer]). *)
Fixpoint take_parts (ps : list part) (cs : list (bytes * content)) : option (list dval) :=
  match ps with
  | [] => Some []
  | PStruct fs :: ps' =>
      let mine := is_named (map fst fs) in
      match de_content reparse true (TyStruct fs) (KMap (filter (fun kc => mine (fst kc)) cs)),
            take_parts ps' (filter (fun kc => negb (mine (fst kc))) cs) with
      | Some v, Some vs => Some (v :: vs) | _, _ => None end
  | PMap t :: ps' =>
      match de_content reparse false (TyMap t) (KMap cs), take_parts ps' cs with
      | Some v, Some vs => Some (v :: vs) | _, _ => None end
  end.
(** The derived implementation calls [deserialize_map] (deserialize_attachments.rs:170): its visitor
    takes maps only, so neither a list nor an attachment. *)
Definition de_flat (own : list (bytes * ty)) (ps : list part) (d : nat) (r : raw) : option dval :=
  match r, enter d with
  | RObj l, Some d' =>
      match objects w l, str_members l with
      | OMMap, Some m =>
          match own_fields d' m own, collect (map fst own) d' m with
          | Some vs, Some cs => option_map (fun us => XStruct (vs ++ us)) (take_parts ps cs)
          | _, _ => None
          end
      | _, _ => None
      end
  | _, _ => None
  end.
End Flat.

(** args/mod.rs:75-85 [Arg::deserialize] for these types. *)
Definition arg_flat (own : list (bytes * ty)) (ps : list part) (g : arg_t) : res aerror dval :=
  let rp := from_str_value_n (S (length (g_text g))) in
  match (match way_of g with
         | Plain => match scan_doc (g_text g) with Some r => de_flat rp Plain own ps 128 r | None => None end
         | w => match scan_value (value_fuel (g_text g)) (g_text g) with Some (r, _) => de_flat rp w own ps 128 r | None => None end
         end) with
  | Some v => Ok v
  | None => Err (AJsonDeError (g_text g))
  end.
