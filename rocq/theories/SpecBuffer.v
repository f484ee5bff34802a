(** Specifications for enums that serde reads through a buffer (C74-C76), in terms of how arguments
    are read as ordinary types. *)
From Verif Require Export SpecTyped Buffered.

(** The value is an object that stands for an attachment (only in packets that have some). *)
Definition attached (bin : bool) (r : raw) : Prop :=
  bin = true /\ match r with RObj ((k, _) :: _) => k = key_placeholder | _ => False end.
(** Elements that are neither optional nor a newtype. *)
Definition single (u : ty) : Prop := match u with TyOption _ | TyNewtype _ => False | _ => True end.

(** [alike bin owned t r]: nothing in [r] is at a place of [t] where a buffered value is treated
    differently: an attachment where a string, borrowed bytes, a tuple, a struct, or a sequence of
    optional elements is expected; an empty object where a unit is expected (tagged enums); a map with
    integer keys. *)
Fixpoint alike (bin owned : bool) (t : ty) (r : raw) {struct t} : Prop :=
  match t with
  | TyString | TyStr | TyBytes => ~ attached bin r
  | TyUnit => owned = true -> r <> RObj []
  | TyOption u | TyNewtype u => alike bin owned u r
  | TySeq u =>
      (attached bin r -> single u) /\ match r with RArr l => allP (alike bin owned u) l | _ => True end
  | TyTuple ts =>
      ~ attached bin r /\
      match r with
      | RArr l =>
          (fix go (ts : list ty) (l : list raw) : Prop :=
             match ts, l with u :: ts', x :: l' => alike bin owned u x /\ go ts' l' | _, _ => True end) ts l
      | _ => True
      end
  | TyMap u => match r with RObj l => allP (fun '(_, x) => alike bin owned u x) l | _ => True end
  | TyStruct fs =>
      ~ attached bin r /\
      match r with
      | RArr l =>
          (fix go (fs : list (bytes * ty)) (l : list raw) : Prop :=
             match fs, l with (_, u) :: fs', x :: l' => alike bin owned u x /\ go fs' l' | _, _ => True end) fs l
      | RObj l =>
          (fix go (fs : list (bytes * ty)) : Prop :=
             match fs with
             | [] => True
             | (f, u) :: fs' => allP (fun '(k, x) => unescape k = Some f -> alike bin owned u x) l /\ go fs'
             end) fs
      | _ => True
      end
  | TyEnum vs =>
      match r with
      | RObj [(k, x)] =>
          (fix go (vs : list (bytes * (vtag * ty))) : Prop :=
             match vs with
             | [] => True
             | (n, (tag, u)) :: vs' =>
                 (unescape k = Some n ->
                  match tag with
                  | VtUnit => owned = true -> x <> RObj []
                  | VtTuple => ~ attached bin x /\ alike bin owned u x
                  | _ => alike bin owned u x
                  end) /\ go vs'
             end) vs
      | _ => True
      end
  | TyIntMap _ _ _ => bin = false -> match r with RObj (_ :: _) => False | _ => True end
  | _ => True
  end.
Definition alt_alike (bin owned : bool) (a : alt) (r : raw) : Prop :=
  match a with
  | AUnit => True
  | ANewtype t => alike bin owned t r
  | AStruct fs => alike bin owned (TyStruct fs) r
  end.
Definition has_some {A} (l : list A) : bool := match l with [] => false | _ => true end.

(** What a variant gives when the argument is read as the variant's own type. *)
Definition alone (a : alt) (r : raw) (g : arg_t) (v : dval) : Prop :=
  match a with
  | AUnit => r = RNull /\ v = XUnit
  | ANewtype t => arg_deserialize t g = Ok v
  | AStruct fs => (exists l, r = RObj l) /\ arg_deserialize (TyStruct fs) g = Ok v
  end.
(** The first variant, in the order of the declaration, that can be read. *)
Definition first_reading (alts : list (bytes * alt)) (r : raw) (g : arg_t) (x : dval) : Prop :=
  exists before n a after v, alts = before ++ (n, a) :: after /\ x = XVariant n v /\
    alone a r g v /\ Forall (fun na => forall u, ~ alone (snd na) r g u) before.

(** No object begins with serde_json's private key for raw values. *)
Fixpoint no_token (r : raw) : Prop :=
  match r with
  | RArr l => allP no_token l
  | RObj l => match l with (k, _) :: _ => unescape k <> Some raw_token | [] => True end /\ allP (fun '(_, x) => no_token x) l
  | _ => True
  end.

(** C74, the full statement (false): an untagged enum is the first of its variants that can be read. *)
Definition C74_full : Prop := forall alts text r A x, jvalue r text ->
  arg_enum (Untagged alts) (Arg text A) = Ok x <-> first_reading alts r (Arg text A) x.

(** C75, the full statement (false): the order of the members of an object is of no importance. *)
Definition C75_full : Prop := forall tag cont alts l1 l2 text1 text2 A x,
  tag <> cont -> jvalue (RObj l1) text1 -> jvalue (RObj l2) text2 -> Permutation l1 l2 ->
  (A <> [] -> ordinary_first l1 /\ ordinary_first l2) ->
  arg_enum (Adjacent tag cont alts) (Arg text1 A) = Ok x <-> arg_enum (Adjacent tag cont alts) (Arg text2 A) = Ok x.

(** An object with one member named [tag], a string for [n], and none named [cont] before it. *)
Definition tag_ahead (tag cont n : bytes) (l : list (bytes * raw)) : Prop :=
  exists l1 k b l2, l = l1 ++ (k, RStr b) :: l2 /\ unescape k = Some tag /\ unescape b = Some n /\
    Forall (fun kx => unescape (fst kx) <> Some tag /\ unescape (fst kx) <> Some cont) l1 /\
    Forall (fun kx => unescape (fst kx) <> Some tag) l2.
(** What the variant of an adjacently tagged enum gives: the tag and the content are two fields. *)
Definition as_fields (tag cont n : bytes) (a : alt) (l : list (bytes * raw)) (g : arg_t) (v : dval) : Prop :=
  let read t x := arg_deserialize (TyStruct [(tag, TyString); (cont, t)]) g = Ok (XStruct [XStr n; x]) in
  match a with
  | AUnit => v = XUnit /\ read (TyOption TyUnit) XNone
  | ANewtype t => read t v
  | AStruct fs =>
      read (TyStruct fs) v /\
      forall k y, In (k, y) l -> unescape k = Some cont -> (exists m, y = RObj m) /\ ~ attached (has_some (g_attachments g)) y
  end.

(** The same for the list of tag and content. *)
Definition as_pair (n : bytes) (a : alt) (y : raw) (g : arg_t) (v : dval) : Prop :=
  let read t x := arg_deserialize (TyTuple [TyString; t]) g = Ok (XTuple [XStr n; x]) in
  match a with
  | AUnit => v = XUnit /\ y = RNull
  | ANewtype t => read t v
  | AStruct fs => read (TyStruct fs) v /\ (exists m, y = RObj m) /\ ~ attached (has_some (g_attachments g)) y
  end.

(** What the variant of an internally tagged enum gives on the members without the tag. *)
Definition untagged_part (a : alt) (g : arg_t) (v : dval) : Prop :=
  match a with
  | AUnit => v = XUnit
  | ANewtype t => arg_deserialize t g = Ok v
  | AStruct fs => arg_deserialize (TyStruct fs) g = Ok v
  end.
(** What it gives on the elements of a list without the tag. *)
Definition untagged_list (a : alt) (l : list raw) (g : arg_t) (v : dval) : Prop :=
  match a with
  | AUnit => l = [] /\ v = XUnit
  | ANewtype t => arg_deserialize t g = Ok v
  | AStruct fs => arg_deserialize (TyStruct fs) g = Ok v
  end.
(** The first variant of that name (names are distinct in Rust). *)
Definition named_alt (alts : list (bytes * alt)) (n : bytes) (a : alt) : Prop :=
  exists before after, alts = before ++ (n, a) :: after /\ ~ In n (map fst before).
(** [text] is an object with one member named [tag], whose value is the string [n]; without it, it is
    the object [RObj l], written [rest]. *)
Definition with_tag (tag n : bytes) (l : list (bytes * raw)) (text rest : bytes) : Prop :=
  exists l1 l2 k b, l = l1 ++ l2 /\ jvalue (RObj (l1 ++ (k, RStr b) :: l2)) text /\ jvalue (RObj l) rest /\
    unescape k = Some tag /\ unescape b = Some n /\ Forall (fun kx => unescape (fst kx) <> Some tag) l /\
    ordinary_first l /\ ordinary_first (l1 ++ (k, RStr b) :: l2).
(** C76, the full statement (false): the tag selects the variant, which is read from the other members. *)
Definition C76_full : Prop := forall tag alts n a l text rest A v,
  with_tag tag n l text rest -> named_alt alts n a ->
  arg_enum (Tagged tag alts) (Arg text A) = Ok (XVariant n v) <-> untagged_part a (Arg rest A) v.

(** The only member of that name; no member of that name. *)
Definition no_member (n : bytes) (l : list (bytes * raw)) : Prop := Forall (fun kx => unescape (fst kx) <> Some n) l.
Definition sole_member (n : bytes) (l : list (bytes * raw)) (y : raw) : Prop :=
  exists l1 k l2, l = l1 ++ (k, y) :: l2 /\ unescape k = Some n /\ no_member n l1 /\ no_member n l2.
(** The tag of an adjacently tagged enum: a string, or an object as for a unit variant. *)
Definition tag_for (y : raw) (n : bytes) : Prop :=
  (exists b, y = RStr b /\ unescape b = Some n) \/ (exists k, y = RObj [(k, RNull)] /\ unescape k = Some n).

(** What a variant gives when it is read from bytes: as from a list of numbers. *)
Definition from_octets (a : alt) (b : bytes) (text : bytes) (v : dval) : Prop :=
  match a with
  | AUnit => b = [] /\ v = XUnit
  | ANewtype t => arg_deserialize t (Arg text []) = Ok v
  | AStruct fs => arg_deserialize (TyStruct fs) (Arg text []) = Ok v
  end.
