(** Model of arguments whose type has enums read through a buffer (Buffered.v) or structs with flattened
    fields (Flatten.v) anywhere within it: in options, newtypes, lists, tuples, maps, structs and
    externally tagged enums.  The derived code is external (serde 1.0); what it drives is the wrapper of
    socket-io-protocol/src/socket/args/deserialize_attachments.rs, or serde_json. *)
From Verif Require Export Flatten.

Inductive xty :=
| XTy (t : ty)
| XEnum (e : enum_ty)
| XFlatten (own : list (bytes * ty)) (ps : list part)
| XOpt (u : xty)                                 (* [Option<T>] *)
| XNew (u : xty)                                 (* a newtype struct *)
| XVec (u : xty)                                 (* [Vec<T>] *)
| XTup (us : list xty)
| XDict (u : xty)                                (* [BTreeMap<String, T>] *)
| XRec (fs : list (bytes * xty))                 (* a derived struct *)
| XVar (vs : list (bytes * (vtag * xty)))        (* an externally tagged enum *).

(** ** The loops of serde's visitors (external) *)
Section Loops.
Context {T : Type}.
Variable read : T -> raw -> option dval.
Definition read_list (u : T) := fix go (l : list raw) : option (list dval) :=
  match l with
  | [] => Some []
  | x :: l' => match read u x, go l' with Some v, Some vs => Some (v :: vs) | _, _ => None end
  end.
Definition read_dict (u : T) := fix go (m : list (bytes * raw)) (acc : list (bytes * dval)) : option (list (bytes * dval)) :=
  match m with
  | [] => Some acc
  | (k, x) :: m' => match read u x with Some v => go m' (obj_insert k v acc) | None => None end
  end.
Definition read_tuple := fix go (us : list T) (l : list raw) : option (list dval) :=
  match us, l with
  | [], [] => Some []
  | u :: us', x :: l' => match read u x, go us' l' with Some v, Some vs => Some (v :: vs) | _, _ => None end
  | _, _ => None
  end.
Definition read_fields_in_order := fix go (fs : list (bytes * T)) (l : list raw) : option (list dval) :=
  match fs, l with
  | [], [] => Some []
  | (_, u) :: fs', x :: l' => match read u x, go fs' l' with Some v, Some vs => Some (v :: vs) | _, _ => None end
  | _, _ => None
  end.
Variable missing : T -> option dval.
Definition read_fields (m : list (bytes * raw)) := fix go (fs : list (bytes * T)) : option (list dval) :=
  match fs with
  | [] => Some []
  | (n, u) :: fs' =>
      match (match members_named n m with [] => missing u | [x] => read u x | _ => None end), go fs' with
      | Some v, Some vs => Some (v :: vs) | _, _ => None end
  end.
Definition read_variant (x : raw) (name : bytes) := fix go (vs : list (bytes * (vtag * T))) : option dval :=
  match vs with
  | [] => None
  | (n, (tag, u)) :: vs' =>
      if bytes_eqb n name then
        match tag with
        | VtUnit => match x with RNull => Some (XVariant n XUnit) | _ => None end
        | VtTuple => match x with RArr _ => option_map (XVariant n) (read u x) | _ => None end
        | _ => option_map (XVariant n) (read u x)
        end
      else go vs'
  end.
Definition named_variant (name : bytes) := fix go (vs : list (bytes * (vtag * T))) : option dval :=
  match vs with
  | [] => None
  | (n, (tag, u)) :: vs' =>
      if bytes_eqb n name then match tag with VtUnit => Some (XVariant n XUnit) | _ => None end else go vs'
  end.
(** The elements of a sequence that is an attachment: the bytes (deserialize_attachments.rs:308-310).  A
    visitor for a fixed number of elements does not look at surplus bytes. *)
Variable octet : T -> byte -> option dval.
Definition read_octets (u : T) := fix go (b : bytes) : option (list dval) :=
  match b with
  | [] => Some []
  | c :: b' => match octet u c, go b' with Some v, Some vs => Some (v :: vs) | _, _ => None end
  end.
Definition read_octets_in_order := fix go (us : list T) (b : bytes) : option (list dval) :=
  match us, b with
  | [], _ => Some []
  | u :: us', c :: b' => match octet u c, go us' b' with Some v, Some vs => Some (v :: vs) | _, _ => None end
  | _ :: _, [] => None
  end.
End Loops.

Section Nested.
Variable reparse : bytes -> option value.
Variable w : way.

(** A field that is absent: [MissingFieldDeserializer] (external). *)
Definition missing_nested (x : xty) : option dval :=
  match x with XTy t => missing_field t | XOpt _ => Some XNone | _ => None end.
(** One byte of an attachment: [U8Deserializer] (external) calls [visit_u8].  An untagged enum buffers
    it; the visitors of the other enums, of options, newtypes and containers refuse it. *)
Definition octet_nested (x : xty) (c : byte) : option dval :=
  match x with
  | XTy t => visit_u8 t c
  | XEnum (Untagged alts) => try_alts reparse alts (KNum (NPos (bN c)))
  | _ => None
  end.

(** Reading directly, by serde_json or by the wrapper (deserialize_attachments.rs:146-192, 209-321,
    323-466): options, newtypes and enums are forwarded (152-176), sequences, tuples and structs go
    through [deserialize_any] (178-187) so that an object may stand for an attachment, and the elements
    are read in the same way as the whole. *)
Fixpoint de_nested (x : xty) (d : nat) (r : raw) {struct x} : option dval :=
  match x with
  | XTy t => de_direct reparse w t d r
  | XEnum e => de_enum reparse w e d r
  | XFlatten own ps => de_flat reparse w own ps d r
  | XOpt u => match r with RNull => Some XNone | _ => option_map XSome (de_nested u d r) end
  | XNew u => option_map XNewtype (de_nested u d r)
  | XVec u =>
      match r, enter d with
      | RArr l, Some d' => option_map XSeq (read_list (fun u => de_nested u d') u l)
      | RObj l, Some _ =>
          match objects w l with
          | OMBuffer b => option_map XSeq (read_octets octet_nested u b)
          | _ => None
          end
      | _, _ => None
      end
  | XTup us =>
      match r, enter d with
      | RArr l, Some d' => option_map XTuple (read_tuple (fun u => de_nested u d') us l)
      | RObj l, Some _ =>
          match objects w l with
          | OMBuffer b => option_map XTuple (read_octets_in_order octet_nested us b)
          | _ => None
          end
      | _, _ => None
      end
  | XDict u =>
      match r, enter d with
      | RObj l, Some d' =>
          match objects w l, str_members l with
          | OMMap, Some m => option_map XMap (read_dict (fun u => de_nested u d') u m [])
          | _, _ => None
          end
      | _, _ => None
      end
  | XRec fs =>
      match r, enter d with
      | RArr l, Some d' => option_map XStruct (read_fields_in_order (fun u => de_nested u d') fs l)
      | RObj l, Some d' =>
          match objects w l with
          | OMError => None
          | OMBuffer b => option_map XStruct (read_octets_in_order octet_nested (map snd fs) b)
          | OMMap =>
              match str_members l with
              | Some m => option_map XStruct (read_fields (fun u => de_nested u d') missing_nested m fs)
              | None => None
              end
          end
      | _, _ => None
      end
  | XVar vs =>
      match r with
      | RStr b => match unescape b with Some name => named_variant name vs | None => None end
      | RObj [(k, x)] =>
          match enter d, unescape k with
          | Some d', Some name => read_variant (fun u => de_nested u d') x name vs
          | _, _ => None
          end
      | _ => None
      end
  end.
End Nested.

(** args/mod.rs:75-85 [Arg::deserialize] for these types. *)
Definition arg_nested (x : xty) (g : arg_t) : res aerror dval :=
  let rp := from_str_value_n (S (length (g_text g))) in
  match (match way_of g with
         | Plain => match scan_doc (g_text g) with Some r => de_nested rp Plain x 128 r | None => None end
         | w => match scan_value (value_fuel (g_text g)) (g_text g) with Some (r, _) => de_nested rp w x 128 r | None => None end
         end) with
  | Some v => Ok v
  | None => Err (AJsonDeError (g_text g))
  end.
