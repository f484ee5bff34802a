(** Model of arguments whose type makes serde read the value into a buffer first: enums with
    [#[serde(untagged)]], [#[serde(tag = "...")]] and [#[serde(tag = "...", content = "...")]].
    serde's derived code and its [Content] type are external (serde 1.0, private/de.rs); what they
    drive is the wrapper of socket-io-protocol/src/socket/args/deserialize_attachments.rs.  The enum
    is the type of the whole argument; the types within it are those of DeModel.v. *)
From Verif Require Export DeModel.

(** serde's [Content] (external): the variants that JSON and attachments give rise to. *)
Inductive content :=
| KNull
| KBool (b : bool)
| KNum (n : num)                          (* U8, U64, I64, F64 *)
| KStr (borrowed : bool) (s : bytes)      (* Str, String *)
| KSeq (l : list content)
| KMap (l : list (bytes * content)).

(** [Content::deserialize], which is [deserialize_any] (deserialize_attachments.rs:153): sequences
    and maps are read with wrapped children (lines 257-267, 287-320), a placeholder is visited as a
    sequence of [u8], because the access type is [Neither] (lines 308-310).  [cls] tells how objects
    are treated: [classify_obj] by the wrapper, always as maps by serde_json itself. *)
Fixpoint content_of (cls : list (bytes * raw) -> omap) (d : nat) (r : raw) {struct r} : option content :=
  match r with
  | RNull => Some KNull
  | RBool b => Some (KBool b)
  | RNum n => option_map KNum (num_of n)
  | RStr b => option_map (KStr (no_backslash b)) (unescape b)
  | RArr l =>
      match enter d with
      | Some d' =>
          option_map KSeq ((fix go (l : list raw) : option (list content) :=
             match l with
             | [] => Some []
             | x :: l' =>
                 match content_of cls d' x, go l' with
                 | Some c, Some cs => Some (c :: cs) | _, _ => None end
             end) l)
      | None => None
      end
  | RObj l =>
      match enter d with
      | Some d' =>
          match cls l with
          | OMError => None
          | OMBuffer b => Some (KSeq (map (fun c => KNum (NPos (bN c))) b))
          | OMMap =>
              option_map KMap ((fix go (l : list (bytes * raw)) : option (list (bytes * content)) :=
                 match l with
                 | [] => Some []
                 | (k, x) :: l' =>
                     match unescape k, content_of cls d' x, go l' with
                     | Some k', Some c, Some cs => Some ((k', c) :: cs) | _, _, _ => None end
                 end) l)
          end
      | None => None
      end
  end.

Definition contents_named (k : bytes) (m : list (bytes * content)) : list content :=
  map snd (filter (fun p => bytes_eqb k (fst p)) m).
Definition content_octet (c : content) : option byte :=
  match c with KNum (NPos k) => if (k <? 256)%N then Some (byte_of k) else None | _ => None end.
Fixpoint content_octets (l : list content) : option bytes :=
  match l with
  | [] => Some []
  | x :: l' => match content_octet x, content_octets l' with Some c, Some b => Some (c :: b) | _, _ => None end
  end.

Section Content.
(** Reader of the private raw-value token inside [Value] (see Json.v). *)
Variable reparse : bytes -> option value.

(** [Value] read from a buffer (serde_json's [ValueVisitor], external). *)
Fixpoint content_value (c : content) : option value :=
  match c with
  | KNull => Some VNull
  | KBool b => Some (VBool b)
  | KNum n => Some (VNum n)
  | KStr _ s => Some (VStr s)
  | KSeq l =>
      option_map VArr ((fix go (l : list content) : option (list value) :=
         match l with
         | [] => Some []
         | x :: l' => match content_value x, go l' with Some v, Some vs => Some (v :: vs) | _, _ => None end
         end) l)
  | KMap l =>
      let go := (fix go (l : list (bytes * content)) (acc : list (bytes * value)) : option (list (bytes * value)) :=
         match l with
         | [] => Some acc
         | (k, x) :: l' => match content_value x with Some v => go l' (obj_insert k v acc) | None => None end
         end) in
      match l with
      | (k, x) :: l' =>
          if bytes_eqb k raw_token then
            match x, l' with KStr _ t, [] => reparse t | _, _ => None end
          else option_map VObj (go l [])
      | [] => Some (VObj [])
      end
  end.

(** serde's [ContentRefDeserializer] ([owned = false], untagged enums) and [ContentDeserializer]
    ([owned = true], tagged enums) driving the visitor of [t] (external).  They differ in one respect:
    the second takes an empty map for a unit.  Sequences must be used up ([SeqDeserializer::end]). *)
Fixpoint de_content (owned : bool) (t : ty) (c : content) {struct t} : option dval :=
  match t with
  | TyBool => match c with KBool b => Some (XBool b) | _ => None end
  | TyInt lo hi => match c with KNum n => int_in lo hi n | _ => None end
  | TyF64 => match c with KNum n => Some (XF64 n) | _ => None end
  | TyString => match c with KStr _ s => Some (XStr s) | _ => None end
  | TyStr => match c with KStr true s => Some (XStr s) | _ => None end
  | TyBytes => match c with KStr true s => Some (XBytes s) | _ => None end
  | TyUnit =>
      match c with
      | KNull => Some XUnit
      | KMap [] => if owned then Some XUnit else None
      | _ => None
      end
  | TyIgnored => Some XIgnored
  | TyOption u => match c with KNull => Some XNone | _ => option_map XSome (de_content owned u c) end
  | TyNewtype u => option_map XNewtype (de_content owned u c)
  | TySeq u =>
      match c with
      | KSeq l =>
          option_map XSeq ((fix go (l : list content) : option (list dval) :=
             match l with
             | [] => Some []
             | x :: l' =>
                 match de_content owned u x, go l' with
                 | Some v, Some vs => Some (v :: vs) | _, _ => None end
             end) l)
      | _ => None
      end
  | TyTuple ts =>
      match c with
      | KSeq l =>
          option_map XTuple ((fix go (ts : list ty) (l : list content) : option (list dval) :=
             match ts, l with
             | [], [] => Some []
             | u :: ts', x :: l' =>
                 match de_content owned u x, go ts' l' with
                 | Some v, Some vs => Some (v :: vs) | _, _ => None end
             | _, _ => None
             end) ts l)
      | _ => None
      end
  | TyMap u =>
      match c with
      | KMap m =>
          option_map XMap ((fix go (m : list (bytes * content)) (acc : list (bytes * dval))
                              : option (list (bytes * dval)) :=
             match m with
             | [] => Some acc
             | (k, x) :: m' =>
                 match de_content owned u x with
                 | Some v => go m' (obj_insert k v acc)
                 | None => None
                 end
             end) m [])
      | _ => None
      end
  | TyStruct fs =>
      match c with
      | KSeq l =>
          option_map XStruct ((fix go (fs : list (bytes * ty)) (l : list content) : option (list dval) :=
             match fs, l with
             | [], [] => Some []
             | (_, u) :: fs', x :: l' =>
                 match de_content owned u x, go fs' l' with
                 | Some v, Some vs => Some (v :: vs) | _, _ => None end
             | _, _ => None
             end) fs l)
      | KMap m =>
          option_map XStruct ((fix go (fs : list (bytes * ty)) : option (list dval) :=
             match fs with
             | [] => Some []
             | (f, u) :: fs' =>
                 match (match contents_named f m with
                        | [] => missing_field u
                        | [x] => de_content owned u x
                        | _ => None
                        end), go fs' with
                 | Some v, Some vs => Some (v :: vs) | _, _ => None end
             end) fs)
      | _ => None
      end
  | TyEnum vs =>
      match c with
      | KStr _ name =>
          (fix go (vs : list (bytes * (vtag * ty))) : option dval :=
             match vs with
             | [] => None
             | (n, (tag, u)) :: vs' =>
                 if bytes_eqb n name then
                   match tag with VtUnit => Some (XVariant n XUnit) | _ => None end
                 else go vs'
             end) vs
      | KMap [(name, x)] =>
          (fix go (vs : list (bytes * (vtag * ty))) : option dval :=
             match vs with
             | [] => None
             | (n, (tag, u)) :: vs' =>
                 if bytes_eqb n name then
                   match tag with
                   | VtUnit => (* [unit_variant] reads a unit *)
                       match x with
                       | KNull => Some (XVariant n XUnit)
                       | KMap [] => if owned then Some (XVariant n XUnit) else None
                       | _ => None
                       end
                   | VtTuple => match x with KSeq _ => option_map (XVariant n) (de_content owned u x) | _ => None end
                   | _ => option_map (XVariant n) (de_content owned u x)
                   end
                 else go vs'
             end) vs
      | _ => None
      end
  | TyValue => option_map XValue (content_value c)
  | TyChar => match c with KStr _ s => if one_char s then Some (XStr s) else None | _ => None end
  | TyByteBuf =>
      match c with
      | KStr _ s => Some (XBytes s)
      | KSeq l => option_map XBytes (content_octets l)
      | _ => None
      end
  | TyIntMap lo hi u => (* keys are strings, which the visitor of an integer refuses *)
      match c with KMap [] => Some (XIntMap []) | _ => None end
  end.
End Content.

(** One variant of such an enum.  Tuple variants are read like a newtype variant around a tuple. *)
Inductive alt :=
| AUnit                            (* [A] *)
| ANewtype (t : ty)                (* [A(T)] *)
| AStruct (fs : list (bytes * ty)) (* [A { f: T, .. }] *).

(** How an argument is read: args/mod.rs:75-85 [Arg::deserialize] uses serde_json itself if the
    packet has no attachments, and the wrapper if it has. *)
Inductive way := Plain | Wrapped (buffers : list subslice_t).
Definition way_of (g : arg_t) : way :=
  match g_attachments g with [] => Plain | atts => Wrapped atts end.
(** How objects are treated. *)
Definition objects (w : way) : list (bytes * raw) -> omap :=
  match w with Plain => fun _ => OMMap | Wrapped atts => classify_obj atts end.

Section Enums.
Variable reparse : bytes -> option value.
Variable w : way.

(** Reading a type of DeModel.v. *)
Definition de_direct (t : ty) (d : nat) (r : raw) : option dval :=
  match w with Plain => de_plain reparse t d r | Wrapped atts => de_wrap reparse atts t d r end.

(** A variant read from a buffer: for a unit variant [UntaggedUnitVisitor], for a struct variant a
    visitor without [visit_seq] (external). *)
Definition alt_content (owned : bool) (a : alt) (c : content) : option dval :=
  match a with
  | AUnit => match c with KNull => Some XUnit | _ => None end
  | ANewtype t => de_content reparse owned t c
  | AStruct fs => match c with KMap _ => de_content reparse owned (TyStruct fs) c | _ => None end
  end.
(** The same, read directly. *)
Definition alt_direct (a : alt) (d : nat) (r : raw) : option dval :=
  match a with
  | AUnit => match r with RNull => Some XUnit | _ => None end
  | ANewtype t => de_direct t d r
  | AStruct fs =>
      match r with
      | RObj l => match objects w l with OMMap => de_direct (TyStruct fs) d r | _ => None end
      | _ => None
      end
  end.

(** *** [#[serde(untagged)]]: the value is buffered, the variants are tried in order. *)
Fixpoint try_alts (alts : list (bytes * alt)) (c : content) : option dval :=
  match alts with
  | [] => None
  | (n, a) :: alts' =>
      match alt_content false a c with
      | Some v => Some (XVariant n v)
      | None => try_alts alts' c
      end
  end.
Definition de_untagged (alts : list (bytes * alt)) (d : nat) (r : raw) : option dval :=
  match content_of (objects w) d r with Some c => try_alts alts c | None => None end.

(** *** [#[serde(tag = "...")]]: the tag is looked for among the members, the others are buffered
    ([TaggedContentVisitor::visit_map], external); or the tag is the first element of a sequence
    ([visit_seq]). *)
(** A variant read from the buffer: a unit variant takes any map and the empty sequence
    ([InternallyTaggedUnitVisitor]). *)
Definition tagged_content (a : alt) (c : content) : option dval :=
  match a with
  | AUnit => match c with KMap _ | KSeq [] => Some XUnit | _ => None end
  | ANewtype t => de_content reparse true t c
  | AStruct fs => de_content reparse true (TyStruct fs) c
  end.
Fixpoint find_alt (name : bytes) (alts : list (bytes * alt)) : option alt :=
  match alts with
  | [] => None
  | (n, a) :: alts' => if bytes_eqb n name then Some a else find_alt name alts'
  end.
Definition tagged_as (alts : list (bytes * alt)) (name : bytes) (c : content) : option dval :=
  match find_alt name alts with
  | Some a => option_map (XVariant name) (tagged_content a c)
  | None => None
  end.
(** The name of a variant: a string ([deserialize_identifier]). *)
Definition tag_name (r : raw) : option bytes := match r with RStr b => unescape b | _ => None end.
(** A loop over the members: the tag so far, the members so far (reversed). *)
Fixpoint tag_loop (tag : bytes) (d : nat) (l : list (bytes * raw)) (found : option bytes)
    (acc : list (bytes * content)) : option (bytes * content) :=
  match l with
  | [] => match found with Some n => Some (n, KMap (rev acc)) | None => None end
  | (k, x) :: l' =>
      match unescape k with
      | None => None
      | Some k' =>
          if bytes_eqb k' tag then
            match found, tag_name x with
            | None, Some n => tag_loop tag d l' (Some n) acc
            | _, _ => None
            end
          else
            match content_of (objects w) d x with
            | Some c => tag_loop tag d l' found ((k', c) :: acc)
            | None => None
            end
      end
  end.
Fixpoint contents_of (d : nat) (l : list raw) : option (list content) :=
  match l with
  | [] => Some []
  | x :: l' =>
      match content_of (objects w) d x, contents_of d l' with
      | Some c, Some cs => Some (c :: cs) | _, _ => None end
  end.
Definition de_tagged (tag : bytes) (alts : list (bytes * alt)) (d : nat) (r : raw) : option dval :=
  match r, enter d with
  | RArr (x :: l), Some d' =>
      match tag_name x, contents_of d' l with
      | Some n, Some cs => tagged_as alts n (KSeq cs)
      | _, _ => None
      end
  | RObj l, Some d' =>
      match objects w l with
      | OMError => None
      | OMBuffer b => (* a sequence of [u8]: a variant identifier takes a number for an index *)
          match b with
          | [] => None
          | c :: b' =>
              match nth_error alts (N.to_nat (bN c)) with
              | Some (n, a) => option_map (XVariant n) (tagged_content a (KSeq (map (fun x => KNum (NPos (bN x))) b')))
              | None => None
              end
          end
      | OMMap =>
          match tag_loop tag d' l None [] with
          | Some (n, c) => tagged_as alts n c
          | None => None
          end
      end
  | _, _ => None
  end.

(** *** [#[serde(tag = "...", content = "...")]]: read like a struct of two fields
    (deserialize_attachments.rs:186); the content is buffered only if it comes before the tag
    (derived code, external). *)
(** The tag: a unit variant ([AdjacentlyTaggedEnumVariantVisitor]). *)
Definition adjacent_tag (alts : list (bytes * alt)) (d : nat) (r : raw) : option bytes :=
  match de_direct (TyEnum (map (fun na => (fst na, (VtUnit, TyUnit))) alts)) d r with
  | Some (XVariant n _) => Some n
  | _ => None
  end.
Definition missing_content (a : alt) : option dval :=
  match a with AUnit => Some XUnit | ANewtype t => missing_field t | AStruct _ => None end.
Definition adjacent_as (alts : list (bytes * alt)) (name : bytes) (read : alt -> option dval) : option dval :=
  match find_alt name alts with
  | Some a => option_map (XVariant name) (read a)
  | None => None
  end.
(** The members that are the tag or the content, in their order; the others are skipped. *)
Definition relevant (tag cont : bytes) (m : list (bytes * raw)) : list (bytes * raw) :=
  filter (fun p => bytes_eqb (fst p) tag || bytes_eqb (fst p) cont) m.
Definition de_adjacent (tag cont : bytes) (alts : list (bytes * alt)) (d : nat) (r : raw) : option dval :=
  match r, enter d with
  | RArr [x; y], Some d' =>
      match adjacent_tag alts d' x with
      | Some n => adjacent_as alts n (fun a => alt_direct a d' y)
      | None => None
      end
  | RObj l, Some d' =>
      match objects w l, str_members l with
      | OMMap, Some m =>
          match relevant tag cont m with
          | [(k, x)] =>
              if bytes_eqb k tag then
                match adjacent_tag alts d' x with
                | Some n => adjacent_as alts n missing_content
                | None => None
                end
              else None
          | [(k1, x1); (k2, x2)] =>
              if bytes_eqb k1 tag then
                if bytes_eqb k2 tag then None
                else
                  match adjacent_tag alts d' x1 with
                  | Some n => adjacent_as alts n (fun a => alt_direct a d' x2)
                  | None => None
                  end
              else if bytes_eqb k2 tag then
                match content_of (objects w) d' x1, adjacent_tag alts d' x2 with
                | Some c, Some n => adjacent_as alts n (fun a => alt_content true a c)
                | _, _ => None
                end
              else None
          | _ => None
          end
      | _, _ => None (* a placeholder is visited as a sequence of [u8], and a [u8] is not a tag *)
      end
  | _, _ => None
  end.
End Enums.

Inductive enum_ty :=
| Untagged (alts : list (bytes * alt))
| Tagged (tag : bytes) (alts : list (bytes * alt))
| Adjacent (tag cont : bytes) (alts : list (bytes * alt)).
Definition de_enum (reparse : bytes -> option value) (w : way) (e : enum_ty) (d : nat) (r : raw) : option dval :=
  match e with
  | Untagged alts => de_untagged reparse w alts d r
  | Tagged tag alts => de_tagged reparse w tag alts d r
  | Adjacent tag cont alts => de_adjacent reparse w tag cont alts d r
  end.
(** args/mod.rs:75-85 [Arg::deserialize] for these types; with attachments there is no check that the
    text ends after the value (deserialize_attachments.rs:30-37). *)
Definition arg_enum (e : enum_ty) (g : arg_t) : res aerror dval :=
  let rp := from_str_value_n (S (length (g_text g))) in
  match (match way_of g with
         | Plain => match scan_doc (g_text g) with Some r => de_enum rp Plain e 128 r | None => None end
         | w => match scan_value (value_fuel (g_text g)) (g_text g) with Some (r, _) => de_enum rp w e 128 r | None => None end
         end) with
  | Some v => Ok v
  | None => Err (AJsonDeError (g_text g))
  end.
