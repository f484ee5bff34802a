(** Values of enums with the representations of serde other than the default one (C87): what derived
    [Serialize] writes for them, and which come back. *)
From Verif Require Export SpecMode SpecTyped.

(** Packets that can be sent and understood, in one mode. *)
Definition sendable (bin : bool) (src : source) (ns : bytes) (args : list sval) : Prop :=
  ns_ok ns /\ fits (src_id src) /\ starts src args /\ usable (all_args src args) /\
  (bin = true -> N.of_nat (length (flat_map blobs (kept (all_args src args)))) <= u64_max)%N.
(** The argument [g] that the value [v] in place [i] has become. *)
Definition became (bin : bool) (src : source) (ns : bytes) (args : list sval) (i : nat) (v : sval) (g : arg_t) : Prop :=
  made_from src args i v /\
  exists h fs p, opened h /\ ~ closed h /\ build src ns bin args = Some fs /\ arrives h fs p /\ argument p i g.

(** The type of what a variant holds. *)
Definition alt_type (a : alt) (t : ty) : Prop :=
  match a with AUnit => False | ANewtype u => t = u | AStruct fs => t = TyStruct fs end.
(** What is written for a variant of an internally tagged enum that holds something written as [v]: the
    members of [v], after the tag (serde's [TaggedSerializer]); no other member is named like the tag. *)
Inductive tagged_writes (tag n : bytes) : sval -> sval -> Prop :=
| tw_struct l : ~ In tag (map fst l) -> tagged_writes tag n (SStruct l) (SStruct ((tag, SStr n) :: l))
| tw_map l : Forall (fun kx => key_of (fst kx) <> Some tag) l -> tagged_writes tag n (SMap l) (SMap ((SStr tag, SStr n) :: l))
| tw_unit : tagged_writes tag n SUnit (SMap [(SStr tag, SStr n)])
| tw_unit_variant m : m <> tag -> tagged_writes tag n (SUnitVariant m) (SMap [(SStr tag, SStr n); (SStr m, SUnit)])
| tw_newtype_variant m v : m <> tag -> tagged_writes tag n (SNewtypeVariant m v) (SMap [(SStr tag, SStr n); (SStr m, v)])
| tw_tuple_variant m l : m <> tag -> tagged_writes tag n (STupleVariant m l) (SMap [(SStr tag, SStr n); (SStr m, STupleStruct l)])
| tw_struct_variant m l : m <> tag -> tagged_writes tag n (SStructVariant m l) (SMap [(SStr tag, SStr n); (SStr m, SStruct l)])
| tw_newtype v w : tagged_writes tag n v w -> tagged_writes tag n (SNewtypeStruct v) w.
(** [enum_encodes e x v]: serialising the value [x] of the enum [e] writes [v]. *)
Inductive enum_encodes : enum_ty -> dval -> sval -> Prop :=
| ee_untagged_unit alts n : In (n, AUnit) alts -> enum_encodes (Untagged alts) (XVariant n XUnit) SUnit
| ee_untagged alts n a t x v : In (n, a) alts -> alt_type a t -> encodes t x v -> enum_encodes (Untagged alts) (XVariant n x) v
| ee_tagged_unit tag alts n : In (n, AUnit) alts -> enum_encodes (Tagged tag alts) (XVariant n XUnit) (SStruct [(tag, SStr n)])
| ee_tagged tag alts n a t x v w : In (n, a) alts -> alt_type a t -> encodes t x v -> val_ok v -> tagged_writes tag n v w ->
    enum_encodes (Tagged tag alts) (XVariant n x) w
| ee_adjacent_unit tag cont alts n : In (n, AUnit) alts ->
    enum_encodes (Adjacent tag cont alts) (XVariant n XUnit) (SStruct [(tag, SUnitVariant n)])
| ee_adjacent tag cont alts n a t x v : In (n, a) alts -> alt_type a t -> encodes t x v ->
    enum_encodes (Adjacent tag cont alts) (XVariant n x) (SStruct [(tag, SUnitVariant n); (cont, v)]).

(** The declaration is in order: different names, as Rust and serde demand. *)
Definition alts_of (e : enum_ty) : list (bytes * alt) :=
  match e with Untagged alts | Tagged _ alts | Adjacent _ _ alts => alts end.
Definition enum_ok (e : enum_ty) : Prop :=
  NoDup (map fst (alts_of e)) /\ (forall n a t, In (n, a) (alts_of e) -> alt_type a t -> ty_ok t) /\
  match e with Adjacent tag cont _ => tag <> cont | _ => True end.
(** [enum_keeps bin e x]: the mode can carry the value: what the variant holds is recoverable; if it is
    read through a buffer, also in text mode, where bytes are numbers, and not by means of integer keys.
    An internally tagged [Value::Null] leaves no trace.
    In binary mode the first keys are ordinary, and no sequence begins like a byte string. *)
Fixpoint null_value (x : dval) : Prop :=
  match x with XValue VNull => True | XNewtype y => null_value y | _ => False end.
Definition enum_keeps (bin : bool) (e : enum_ty) (x : dval) : Prop :=
  forall n y a t, x = XVariant n y -> In (n, a) (alts_of e) -> alt_type a t ->
    match e with
    | Untagged _ => recoverable false t y /\ no_int_map t
    | Tagged _ _ => recoverable false t y /\ no_int_map t /\ ~ null_value y
    | Adjacent _ _ _ => recoverable bin t y
    end.
Definition enum_first (bin : bool) (e : enum_ty) (v : sval) : Prop :=
  bin = true -> match e with Adjacent tag _ _ => plain_key tag | _ => no_mixed v /\ plain_first v end.
(** No variant declared before [n] can be read from the JSON text of [v]. *)
Definition none_earlier (alts : list (bytes * alt)) (n : bytes) (v : sval) : Prop :=
  exists before a after text r, alts = before ++ (n, a) :: after /\ json_ser v [] = (text, OOk) /\ jvalue r text /\
    Forall (fun na => forall u, ~ alone (snd na) r (Arg text []) u) before.

(** C87, the full statement (false): values of such enums arrive as themselves. *)
Definition C87_full : Prop := forall bin src ns args i v g e x,
  sendable bin src ns args -> became bin src ns args i v g -> enum_ok e -> enum_encodes e x v -> arg_enum e g = Ok x.
