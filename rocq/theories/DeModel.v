(** Model of typed deserialisation: serde_json's own reader (external) and the wrapper of
    socket-io-protocol/src/socket/args/deserialize_attachments.rs around it. *)
From Verif Require Export Args.

(** A universe of [Deserialize] target types, by the serde entry point their (std or derived)
    implementation uses.  Not included: 128-bit integers, maps with keys other than strings and
    integers; [RawValue] as a whole argument is in RawArg.v; enums with other taggings are in Buffered.v, as the type of a whole argument. *)
Inductive vtag := VtUnit | VtNewtype | VtTuple | VtStruct.
Inductive ty :=
| TyBool
| TyInt (lo hi : Z)                       (* u8 .. i64: integers within [lo, hi] *)
| TyF64
| TyString                                (* String, Cow<str> *)
| TyStr                                   (* &'a str *)
| TyBytes                                 (* &'a [u8] *)
| TyUnit
| TyIgnored                               (* IgnoredAny *)
| TyOption (t : ty)
| TyNewtype (t : ty)
| TySeq (t : ty)                          (* Vec<T> *)
| TyTuple (l : list ty)
| TyMap (t : ty)                          (* map with String keys *)
| TyStruct (l : list (bytes * ty))        (* derived struct *)
| TyEnum (l : list (bytes * (vtag * ty))) (* derived, externally tagged; the [ty] of a unit
                                             variant is unused, of a tuple (struct) variant is
                                             a [TyTuple] ([TyStruct]) *)
| TyValue                                 (* serde_json::Value *)
| TyChar                                  (* char *)
| TyByteBuf                               (* serde_bytes::ByteBuf *)
| TyIntMap (lo hi : Z) (t : ty)           (* map with integer keys within [lo, hi] *)
.

Inductive dval :=
| XBool (b : bool)
| XInt (z : Z)
| XF64 (n : num)
| XStr (s : bytes)
| XBytes (b : bytes)
| XUnit
| XIgnored
| XNone
| XSome (v : dval)
| XNewtype (v : dval)
| XSeq (l : list dval)
| XTuple (l : list dval)
| XMap (l : list (bytes * dval))          (* sorted, last duplicate wins *)
| XStruct (l : list dval)                 (* in field order *)
| XVariant (name : bytes) (v : dval)
| XValue (v : value)
| XIntMap (l : list (Z * dval)).          (* sorted, last duplicate wins *)

Definition num_Z (n : num) : option Z :=
  match n with NPos x => Some (Z.of_N x) | NNeg z => Some z | NFloat _ => None end.
Definition int_in (lo hi : Z) (n : num) : option dval :=
  match num_Z n with
  | Some z => if (lo <=? z)%Z && (z <=? hi)%Z then Some (XInt z) else None
  | None => None
  end.
Definition no_backslash (s : bytes) : bool := forallb (fun c => negb (c =b backslash)) s.

(** Keys of an object, strictly unescaped. *)
Fixpoint str_members (l : list (bytes * raw)) : option (list (bytes * raw)) :=
  match l with
  | [] => Some []
  | (k, v) :: l' =>
      match unescape k, str_members l' with
      | Some k', Some m => Some ((k', v) :: m)
      | _, _ => None
      end
  end.
Definition members_named (k : bytes) (m : list (bytes * raw)) : list raw :=
  map snd (filter (fun p => bytes_eqb k (fst p)) m).
(** [char]: a string of one character ([CharVisitor::visit_str]).  Strings are valid UTF-8; the
    check here is redundant. *)
Definition one_char (s : bytes) : bool :=
  utf8_valid s && (length (filter (fun c => negb (in_rng 128 191 c)) s) =? 1).
(** Unescaping of a byte string ([parse_escape] and [parse_unicode_escape] with [validate = false]):
    as [unescape], but surrogates without a partner are encoded like characters. *)
Fixpoint unescape_octets (s : bytes) : option bytes :=
  match s with
  | [] => Some []
  | c :: r =>
      if c =b backslash then
        match r with
        | [] => None
        | e :: r1 =>
            match simple_esc e with
            | Some b => match unescape_octets r1 with Some t => Some (b :: t) | None => None end
            | None =>
                match r1 with
                | h1 :: h2 :: h3 :: h4 :: r2 =>
                    let n := hex4 h1 h2 h3 h4 in
                    let alone := match unescape_octets r2 with Some t => Some (utf8_encode n ++ t) | None => None end in
                    if (n <? 55296)%N || (56319 <? n)%N then alone
                    else (* leading surrogate *)
                      match r2 with
                      | b1 :: u1 :: g1 :: g2 :: g3 :: g4 :: r3 =>
                          let n2 := hex4 g1 g2 g3 g4 in
                          if (b1 =b backslash) && (u1 =b "u") && ((56320 <=? n2)%N && (n2 <=? 57343)%N) then
                            match unescape_octets r3 with
                            | Some t =>
                                Some (utf8_encode ((n - 55296) * 1024 + (n2 - 56320) + 65536)%N ++ t)
                            | None => None
                            end
                          else alone
                      | _ => alone
                      end
                | _ => None
                end
            end
        end
      else match unescape_octets r with Some t => Some (c :: t) | None => None end
  end.
(** An element of a byte buffer: a [u8]. *)
Definition octet_of (r : raw) : option byte :=
  match u64_of_raw r with
  | Some k => if (k <? 256)%N then Some (byte_of k) else None
  | None => None
  end.
Fixpoint octets_of (l : list raw) : option bytes :=
  match l with
  | [] => Some []
  | x :: l' => match octet_of x, octets_of l' with Some c, Some b => Some (c :: b) | _, _ => None end
  end.
(** An integer as a key: a number between quotes (serde_json's [MapKey], [deserialize_numeric_key]). *)
Definition int_key (lo hi : Z) (k : bytes) : option Z :=
  match scan_num k with
  | Some (n, []) =>
      match num_of n with
      | Some x => match int_in lo hi x with Some (XInt z) => Some z | _ => None end
      | None => None
      end
  | _ => None
  end.
(** [BTreeMap::insert] with integer keys. *)
Fixpoint int_insert {A} (k : Z) (v : A) (m : list (Z * A)) : list (Z * A) :=
  match m with
  | [] => [(k, v)]
  | (k', v') :: m' =>
      if (k =? k')%Z then (k, v) :: m'
      else if (k <? k')%Z then (k, v) :: m
      else (k', v') :: int_insert k v m'
  end.
(** What a derived struct does for a field that is absent. *)
Definition missing_field (t : ty) : option dval :=
  match t with TyOption _ => Some XNone | _ => None end.

Definition enter (d : nat) : option nat :=   (* check_recursion *)
  match d with S (S d') => Some (S d') | _ => None end.

Section Readers.
(** Reader of the private raw-value token inside [Value] (see Json.v). *)
Variable reparse : bytes -> option value.

(** serde_json's [Deserializer] driving the visitor of [t] (external). *)
Fixpoint de_plain (t : ty) (d : nat) (r : raw) {struct t} : option dval :=
  match t with
  | TyBool => match r with RBool b => Some (XBool b) | _ => None end
  | TyInt lo hi =>
      match r with
      | RNum n => match num_of n with Some x => int_in lo hi x | None => None end
      | _ => None
      end
  | TyF64 =>
      match r with
      | RNum n => match num_of n with Some x => Some (XF64 x) | None => None end
      | _ => None
      end
  | TyString => match r with RStr b => option_map XStr (unescape b) | _ => None end
  | TyStr => match r with RStr b => if no_backslash b then Some (XStr b) else None | _ => None end
  | TyBytes => match r with RStr b => if no_backslash b then Some (XBytes b) else None | _ => None end
  | TyUnit => match r with RNull => Some XUnit | _ => None end
  | TyIgnored => Some XIgnored
  | TyOption u => match r with RNull => Some XNone | _ => option_map XSome (de_plain u d r) end
  | TyNewtype u => option_map XNewtype (de_plain u d r)
  | TySeq u =>
      match r, enter d with
      | RArr l, Some d' =>
          option_map XSeq ((fix go (l : list raw) : option (list dval) :=
             match l with
             | [] => Some []
             | x :: l' =>
                 match de_plain u d' x, go l' with
                 | Some v, Some vs => Some (v :: vs) | _, _ => None end
             end) l)
      | _, _ => None
      end
  | TyTuple ts =>
      match r, enter d with
      | RArr l, Some d' =>
          option_map XTuple ((fix go (ts : list ty) (l : list raw) : option (list dval) :=
             match ts, l with
             | [], [] => Some []
             | u :: ts', x :: l' =>
                 match de_plain u d' x, go ts' l' with
                 | Some v, Some vs => Some (v :: vs) | _, _ => None end
             | _, _ => None
             end) ts l)
      | _, _ => None
      end
  | TyMap u =>
      match r, enter d with
      | RObj l, Some d' =>
          match str_members l with
          | None => None
          | Some m =>
              option_map XMap ((fix go (m : list (bytes * raw)) (acc : list (bytes * dval))
                                  : option (list (bytes * dval)) :=
                 match m with
                 | [] => Some acc
                 | (k, x) :: m' =>
                     match de_plain u d' x with
                     | Some v => go m' (obj_insert k v acc)
                     | None => None
                     end
                 end) m [])
          end
      | _, _ => None
      end
  | TyStruct fs =>
      match enter d with
      | None => None
      | Some d' =>
          match r with
          | RArr l =>
              option_map XStruct ((fix go (fs : list (bytes * ty)) (l : list raw) : option (list dval) :=
                 match fs, l with
                 | [], [] => Some []
                 | (_, u) :: fs', x :: l' =>
                     match de_plain u d' x, go fs' l' with
                     | Some v, Some vs => Some (v :: vs) | _, _ => None end
                 | _, _ => None
                 end) fs l)
          | RObj l =>
              match str_members l with
              | None => None
              | Some m =>
                  option_map XStruct ((fix go (fs : list (bytes * ty)) : option (list dval) :=
                     match fs with
                     | [] => Some []
                     | (f, u) :: fs' =>
                         match (match members_named f m with
                                | [] => missing_field u
                                | [x] => de_plain u d' x
                                | _ => None
                                end), go fs' with
                         | Some v, Some vs => Some (v :: vs) | _, _ => None end
                     end) fs)
              end
          | _ => None
          end
      end
  | TyEnum vs =>
      match r with
      | RStr b =>
          match unescape b with
          | None => None
          | Some name =>
              (fix go (vs : list (bytes * (vtag * ty))) : option dval :=
                 match vs with
                 | [] => None
                 | (n, (tag, u)) :: vs' =>
                     if bytes_eqb n name then
                       match tag with VtUnit => Some (XVariant n XUnit) | _ => None end
                     else go vs'
                 end) vs
          end
      | RObj [(k, x)] =>
          match enter d, unescape k with
          | Some d', Some name =>
              (fix go (vs : list (bytes * (vtag * ty))) : option dval :=
                 match vs with
                 | [] => None
                 | (n, (tag, u)) :: vs' =>
                     if bytes_eqb n name then
                       match tag with
                       | VtUnit => match x with RNull => Some (XVariant n XUnit) | _ => None end
                       | VtTuple => (* deserialize_seq *)
                           match x with
                           | RArr _ => option_map (XVariant n) (de_plain u d' x)
                           | _ => None
                           end
                       | _ => option_map (XVariant n) (de_plain u d' x)
                       end
                     else go vs'
                 end) vs
          | _, _ => None
          end
      | _ => None
      end
  | TyValue => option_map XValue (val_of reparse d r)
  | TyChar =>
      match r with
      | RStr b => match unescape b with Some s => if one_char s then Some (XStr s) else None | None => None end
      | _ => None
      end
  | TyByteBuf =>
      match r with
      | RStr b => option_map XBytes (unescape_octets b)
      | RArr l => match enter d with Some _ => option_map XBytes (octets_of l) | None => None end
      | _ => None
      end
  | TyIntMap lo hi u =>
      match r, enter d with
      | RObj l, Some d' =>
          option_map XIntMap ((fix go (l : list (bytes * raw)) (acc : list (Z * dval)) : option (list (Z * dval)) :=
             match l with
             | [] => Some acc
             | (k, x) :: l' =>
                 match int_key lo hi k, de_plain u d' x with
                 | Some z, Some v => go l' (int_insert z v acc)
                 | _, _ => None
                 end
             end) l [])
      | _, _ => None
      end
  end.

(** ** The wrapper *)

Variable buffers : list subslice_t.

(** How [BinaryVisitor::visit_map] (deserialize_attachments.rs:287-320) treats an object. *)
Inductive omap :=
| OMError
| OMBuffer (b : bytes)  (* a placeholder: the attachment it designates *)
| OMMap.                (* an ordinary map *)
(** - the first key is read as a *borrowed* string (line 291): a key with an escape is an error;
    - [_placeholder] must come first, its value must be a boolean (either one), the next key must
      be [num] (read borrowed as well) with a [u64] value in range (lines 292-305);
    - serde_json then requires the object to end there, so there are exactly two members.
    A panic of the attachment's [Deref] is impossible (ranges produced by the engine decoder are in
    range) and is mapped to an error. *)
Definition classify_obj (l : list (bytes * raw)) : omap :=
  match l with
  | [] => OMMap
  | (k, v) :: l' =>
      if negb (no_backslash k) then OMError
      else if bytes_eqb k key_placeholder then
        match v, l' with
        | RBool _, [(k2, v2)] =>
            if no_backslash k2 && bytes_eqb k2 key_num then
              match u64_of_raw v2 with
              | Some n =>
                  if (n <? N.of_nat (length buffers))%N then
                    match nth_error buffers (N.to_nat n) with
                    | Some s => match sub_deref_vec s with Some b => OMBuffer b | None => OMError end
                    | None => OMError
                    end
                  else OMError
              | None => OMError
              end
            else OMError
        | _, _ => OMError
        end
      else OMMap
  end.

(** The visitor of [t] on one [u8] of a [SeqDeserializer] over an attachment
    (deserialize_attachments.rs:308-310). *)
Definition visit_u8 (t : ty) (b : byte) : option dval :=
  match t with
  | TyInt lo hi => int_in lo hi (NPos (bN b))
  | TyF64 => Some (XF64 (NPos (bN b)))
  | TyIgnored => Some XIgnored
  | TyValue => Some (XValue (VNum (NPos (bN b))))
  | _ => None
  end.
Fixpoint visit_u8_all (t : ty) (b : bytes) : option (list dval) :=
  match b with
  | [] => Some []
  | c :: b' =>
      match visit_u8 t c, visit_u8_all t b' with
      | Some v, Some vs => Some (v :: vs) | _, _ => None end
  end.
(** A visitor that reads a fixed number of elements: surplus bytes are ignored (nothing checks the
    end of the [SeqDeserializer]). *)
Fixpoint visit_u8_each (ts : list ty) (b : bytes) : option (list dval) :=
  match ts, b with
  | [], _ => Some []
  | u :: ts', c :: b' =>
      match visit_u8 u c, visit_u8_each ts' b' with
      | Some v, Some vs => Some (v :: vs) | _, _ => None end
  | _ :: _, [] => None
  end.

(** [Value] through the wrapper. *)
Fixpoint val_wrap (d : nat) (r : raw) {struct r} : option value :=
  match r with
  | RNull => Some VNull
  | RBool b => Some (VBool b)
  | RNum n => match num_of n with Some x => Some (VNum x) | None => None end
  | RStr b => match unescape b with Some s => Some (VStr s) | None => None end
  | RArr l =>
      match d with
      | S (S d') =>
          match (fix go (l : list raw) : option (list value) :=
                   match l with
                   | [] => Some []
                   | x :: l' =>
                       match val_wrap (S d') x with
                       | None => None
                       | Some v => match go l' with Some vs => Some (v :: vs) | None => None end
                       end
                   end) l with
          | Some vs => Some (VArr vs)
          | None => None
          end
      | _ => None
      end
  | RObj l =>
      match d with
      | S (S d') =>
          let go := (fix go (l : list (bytes * raw)) (acc : list (bytes * value))
                       : option (list (bytes * value)) :=
                       match l with
                       | [] => Some acc
                       | (k, x) :: l' =>
                           match unescape k with
                           | None => None
                           | Some k' =>
                               match val_wrap (S d') x with
                               | None => None
                               | Some v => go l' (obj_insert k' v acc)
                               end
                           end
                       end) in
          match classify_obj l with
          | OMError => None
          | OMBuffer b => Some (bytes_value b)
          | OMMap =>
              match l with
              | (k, x) :: l' =>
                  match unescape k with
                  | Some k' =>
                      if bytes_eqb k' raw_token then
                        match x, l' with
                        | RStr b, [] => match unescape b with Some t => reparse t | None => None end
                        | _, _ => None
                        end
                      else match go l [] with Some m => Some (VObj m) | None => None end
                  | None => None
                  end
              | [] => Some (VObj [])
              end
          end
      | _ => None
      end
  end.

(** [BinaryDeserializer] driving the visitor of [t] (deserialize_attachments.rs:146-192, 209-321,
    323-466).  Scalars, options, newtypes, enums are forwarded (152-176) with wrapped children;
    strings, bytes, sequences, tuples and structs go through [deserialize_any] (178-187), so that an
    object can be met and treated as a placeholder. *)
Fixpoint de_wrap (t : ty) (d : nat) (r : raw) {struct t} : option dval :=
  match t with
  | TyBool | TyInt _ _ | TyF64 | TyUnit | TyIgnored | TyChar => de_plain t d r
  | TyString =>
      match r with
      | RObj l =>
          match enter d, classify_obj l with
          | Some _, OMBuffer b => if utf8_valid b then Some (XStr b) else None
          | _, _ => None
          end
      | _ => de_plain t d r
      end
  | TyStr =>
      match r with
      | RObj l =>
          match enter d, classify_obj l with
          | Some _, OMBuffer b => if utf8_valid b then Some (XStr b) else None
          | _, _ => None
          end
      | _ => de_plain t d r
      end
  | TyBytes =>
      match r with
      | RObj l =>
          match enter d, classify_obj l with
          | Some _, OMBuffer b => Some (XBytes b)
          | _, _ => None
          end
      | _ => de_plain t d r
      end
  | TyOption u => match r with RNull => Some XNone | _ => option_map XSome (de_wrap u d r) end
  | TyNewtype u => option_map XNewtype (de_wrap u d r)
  | TySeq u =>
      match r, enter d with
      | RArr l, Some d' =>
          option_map XSeq ((fix go (l : list raw) : option (list dval) :=
             match l with
             | [] => Some []
             | x :: l' =>
                 match de_wrap u d' x, go l' with
                 | Some v, Some vs => Some (v :: vs) | _, _ => None end
             end) l)
      | RObj l, Some d' =>
          match classify_obj l with
          | OMBuffer b => option_map XSeq (visit_u8_all u b)
          | _ => None
          end
      | _, _ => None
      end
  | TyTuple ts =>
      match r, enter d with
      | RArr l, Some d' =>
          option_map XTuple ((fix go (ts : list ty) (l : list raw) : option (list dval) :=
             match ts, l with
             | [], [] => Some []
             | u :: ts', x :: l' =>
                 match de_wrap u d' x, go ts' l' with
                 | Some v, Some vs => Some (v :: vs) | _, _ => None end
             | _, _ => None
             end) ts l)
      | RObj l, Some d' =>
          match classify_obj l with
          | OMBuffer b => option_map XTuple (visit_u8_each ts b)
          | _ => None
          end
      | _, _ => None
      end
  | TyMap u =>
      match r, enter d with
      | RObj l, Some d' =>
          match classify_obj l with
          | OMMap =>
              match str_members l with
              | None => None
              | Some m =>
                  option_map XMap ((fix go (m : list (bytes * raw)) (acc : list (bytes * dval))
                                      : option (list (bytes * dval)) :=
                     match m with
                     | [] => Some acc
                     | (k, x) :: m' =>
                         match de_wrap u d' x with
                         | Some v => go m' (obj_insert k v acc)
                         | None => None
                         end
                     end) m [])
              end
          | _ => None
          end
      | _, _ => None
      end
  | TyStruct fs =>
      match enter d with
      | None => None
      | Some d' =>
          match r with
          | RArr l =>
              option_map XStruct ((fix go (fs : list (bytes * ty)) (l : list raw) : option (list dval) :=
                 match fs, l with
                 | [], [] => Some []
                 | (_, u) :: fs', x :: l' =>
                     match de_wrap u d' x, go fs' l' with
                     | Some v, Some vs => Some (v :: vs) | _, _ => None end
                 | _, _ => None
                 end) fs l)
          | RObj l =>
              match classify_obj l with
              | OMError => None
              | OMBuffer b => option_map XStruct (visit_u8_each (map snd fs) b)
              | OMMap =>
                  match str_members l with
                  | None => None
                  | Some m =>
                      option_map XStruct ((fix go (fs : list (bytes * ty)) : option (list dval) :=
                         match fs with
                         | [] => Some []
                         | (f, u) :: fs' =>
                             match (match members_named f m with
                                    | [] => missing_field u
                                    | [x] => de_wrap u d' x
                                    | _ => None
                                    end), go fs' with
                             | Some v, Some vs => Some (v :: vs) | _, _ => None end
                         end) fs)
                  end
              end
          | _ => None
          end
      end
  | TyEnum vs =>
      match r with
      | RStr b => de_plain t d r
      | RObj [(k, x)] =>
          match enter d, unescape k with
          | Some d', Some name =>
              (fix go (vs : list (bytes * (vtag * ty))) : option dval :=
                 match vs with
                 | [] => None
                 | (n, (tag, u)) :: vs' =>
                     if bytes_eqb n name then
                       match tag with
                       | VtUnit => match x with RNull => Some (XVariant n XUnit) | _ => None end
                       | VtNewtype => option_map (XVariant n) (de_wrap u d' x)
                       | VtTuple => (* tuple_variant calls deserialize_seq: arrays only *)
                           match x with
                           | RArr _ => option_map (XVariant n) (de_wrap u d' x)
                           | _ => None
                           end
                       | VtStruct => option_map (XVariant n) (de_wrap u d' x)
                       end
                     else go vs'
                 end) vs
          | _, _ => None
          end
      | _ => None
      end
  | TyValue => option_map XValue (val_wrap d r)
  | TyByteBuf =>
      match r with
      | RStr b => option_map XBytes (unescape b)
      | RArr _ => de_plain t d r
      | RObj l =>
          match enter d, classify_obj l with
          | Some _, OMBuffer b => Some (XBytes b)
          | _, _ => None
          end
      | _ => None
      end
  | TyIntMap lo hi u =>
      (* the first key goes through a [BorrowedStrDeserializer] (lines 424-430), which gives a string
         to every visitor: no integer is read from it *)
      match r, enter d with
      | RObj l, Some _ =>
          match classify_obj l, l with OMMap, [] => Some (XIntMap []) | _, _ => None end
      | _, _ => None
      end
  end.
End Readers.

(** deserialize_attachments.rs:30-37 [deserialize]; no check that the text ends after the value. *)
Definition deserialize_with (t : ty) (text : bytes) (buffers : list subslice_t) : option dval :=
  match scan_value (value_fuel text) text with
  | Some (r, _) => de_wrap (from_str_value_n (S (length text))) buffers t 128 r
  | None => None
  end.
(** [serde_json::from_str::<T>] *)
Definition from_str_typed (t : ty) (text : bytes) : option dval :=
  match scan_doc text with
  | Some r => de_plain (from_str_value_n (S (length text))) t 128 r
  | None => None
  end.
(** args/mod.rs:75-85 [Arg::deserialize] *)
Definition arg_deserialize (t : ty) (g : arg_t) : res aerror dval :=
  match (match g_attachments g with
         | [] => from_str_typed t (g_text g)
         | atts => deserialize_with t (g_text g) atts
         end) with
  | Some v => Ok v
  | None => Err (AJsonDeError (g_text g))
  end.
