(** Typed round trip: which serialised value a Rust value of a type has under std or derived
    [Serialize], and which values survive being read back as that type.  Independent of the writers
    and readers. *)
From Coq Require Export Sorting.Permutation Sorting.Sorted.
From Verif Require Export SpecDeliver SpecUtf8.

Inductive Forall3 {A B C} (R : A -> B -> C -> Prop) : list A -> list B -> list C -> Prop :=
| F3_nil : Forall3 R [] [] []
| F3_cons a b c la lb lc : R a b c -> Forall3 R la lb lc -> Forall3 R (a :: la) (b :: lb) (c :: lc).

(** A map with distinct keys in key order, as [BTreeMap<String, _>] is. *)
Definition in_key_order {A} (m : list (bytes * A)) : Prop :=
  StronglySorted (fun a b => bytes_ltb (fst a) (fst b) = true) m.

(** The same for integer keys. *)
Definition in_int_order {A} (m : list (Z * A)) : Prop := StronglySorted (fun a b => (fst a < fst b)%Z) m.
(** How an integer is written: [u8] is a serde type of its own. *)
Definition int_writes (lo hi z : Z) (v : sval) : Prop :=
  (lo <= z <= hi)%Z /\
  ((lo = 0 /\ hi = 255)%Z /\ (exists c, z = Z.of_N (bN c) /\ v = SU8 c) \/ ~ (lo = 0 /\ hi = 255)%Z /\ v = SInt z).

(** What [serde_json::Value] asks the serialiser to write. *)
Fixpoint value_writes (x : value) : sval :=
  match x with
  | VNull => SUnit
  | VBool b => SBool b
  | VNum (NPos n) => SInt (Z.of_N n)
  | VNum (NNeg z) => SInt z
  | VNum (NFloat t) => SFloat (Some t)
  | VStr s => SStr s
  | VArr l => SSeq (map value_writes l)
  | VObj m => SMap (map (fun '(k, y) => (SStr k, value_writes y)) m)
  end.
(** Invariants of [serde_json::Value]. *)
Fixpoint value_ok (x : value) : Prop :=
  match x with
  | VNum (NNeg z) => (z < 0)%Z
  | VArr l => allP value_ok l
  | VObj m => in_key_order m /\ allP (fun '(_, y) => value_ok y) m
  | _ => True
  end.

(** [encodes t x v]: serialising the value [x] of type [t] writes [v]. *)
Inductive encodes : ty -> dval -> sval -> Prop :=
| en_bool b : encodes TyBool (XBool b) (SBool b)
| en_u8 c : encodes (TyInt 0 255) (XInt (Z.of_N (bN c))) (SU8 c)
| en_int lo hi z : ~ (lo = 0 /\ hi = 255)%Z -> (lo <= z <= hi)%Z -> encodes (TyInt lo hi) (XInt z) (SInt z)
| en_f64 l : encodes TyF64 (XF64 (NFloat l)) (SFloat (Some l))
| en_string s : encodes TyString (XStr s) (SStr s)
| en_str s : encodes TyStr (XStr s) (SStr s)
| en_slice b : encodes TyBytes (XBytes b) (SSeq (map SU8 b))
| en_bytes b : encodes TyBytes (XBytes b) (SBytes b)
| en_unit : encodes TyUnit XUnit SUnit
| en_unit_struct : encodes TyUnit XUnit SUnitStruct
| en_none u : encodes (TyOption u) XNone SNone
| en_some u x v : encodes u x v -> encodes (TyOption u) (XSome x) (SSome v)
| en_newtype u x v : encodes u x v -> encodes (TyNewtype u) (XNewtype x) (SNewtypeStruct v)
| en_seq u xs vs : Forall2 (encodes u) xs vs -> encodes (TySeq u) (XSeq xs) (SSeq vs)
| en_tuple ts xs vs : Forall3 encodes ts xs vs -> encodes (TyTuple ts) (XTuple xs) (STuple vs)
| en_tuple_struct ts xs vs : Forall3 encodes ts xs vs -> encodes (TyTuple ts) (XTuple xs) (STupleStruct vs)
| en_map u m m' vs : in_key_order m -> Permutation m m' ->   (* [HashMap]: any order *)
    Forall2 (fun kx kv => fst kv = SStr (fst kx) /\ encodes u (snd kx) (snd kv)) m' vs ->
    encodes (TyMap u) (XMap m) (SMap vs)
| en_struct fs xs vs : Forall3 (fun f x kv => fst kv = fst f /\ encodes (snd f) x (snd kv)) fs xs vs ->
    encodes (TyStruct fs) (XStruct xs) (SStruct vs)
| en_unit_variant es n u : In (n, (VtUnit, u)) es -> encodes (TyEnum es) (XVariant n XUnit) (SUnitVariant n)
| en_newtype_variant es n u x v : In (n, (VtNewtype, u)) es -> encodes u x v ->
    encodes (TyEnum es) (XVariant n x) (SNewtypeVariant n v)
| en_tuple_variant es n ts x vs : In (n, (VtTuple, TyTuple ts)) es -> encodes (TyTuple ts) x (STuple vs) ->
    encodes (TyEnum es) (XVariant n x) (STupleVariant n vs)
| en_struct_variant es n fs x vs : In (n, (VtStruct, TyStruct fs)) es -> encodes (TyStruct fs) x (SStruct vs) ->
    encodes (TyEnum es) (XVariant n x) (SStructVariant n vs)
| en_value x : value_ok x -> encodes TyValue (XValue x) (value_writes x)
| en_char n s : utf8_char n s -> encodes TyChar (XStr s) (SChar s)
| en_byte_buf b : encodes TyByteBuf (XBytes b) (SBytes b)
| en_int_map lo hi u m m' vs : in_int_order m -> Permutation m m' ->
    Forall2 (fun kx kv => int_writes lo hi (fst kx) (fst kv) /\ encodes u (snd kx) (snd kv)) m' vs ->
    encodes (TyIntMap lo hi u) (XIntMap m) (SMap vs).

(** Field and variant names are distinct, as Rust demands; integer keys have at most 64 bits. *)
Fixpoint ty_ok (t : ty) : Prop :=
  match t with
  | TyOption u | TyNewtype u | TySeq u | TyMap u => ty_ok u
  | TyIntMap lo hi u => (- 2 ^ 63 <= lo)%Z /\ (hi <= Z.of_N u64_max)%Z /\ ty_ok u
  | TyTuple l => allP ty_ok l
  | TyStruct fs => NoDup (map fst fs) /\ allP (fun '(_, u) => ty_ok u) fs
  | TyEnum es => NoDup (map fst es) /\ allP (fun '(_, (_, u)) => ty_ok u) es
  | _ => True
  end.

(** Strings that JSON writes without escapes. *)
Definition unescaped (s : bytes) : Prop := Forall (fun c => (32 <= bN c)%N /\ c <> x22 /\ c <> x5c) s.
Definition plain_key (k : bytes) : Prop := unescaped k /\ k <> key_placeholder.
Definition first_plain {A} (l : list (bytes * A)) : Prop :=
  match l with [] => True | (k, _) :: _ => plain_key k end.
Fixpoint value_plain (x : value) : Prop :=
  match x with
  | VArr l => allP value_plain l
  | VObj m => first_plain m /\ allP (fun '(_, y) => value_plain y) m
  | _ => True
  end.
(** Values that are written as [null]. *)
Fixpoint null_like (x : dval) : bool :=
  match x with
  | XUnit | XNone | XValue VNull => true
  | XSome y | XNewtype y => null_like y
  | _ => false
  end.
(** [recoverable bin t x]: sending [x] with the builder (in binary mode if [bin]) and reading it back
    as [t] can give [x] again.  What is excluded: borrowed strings that need escapes; borrowed byte
    slices in text mode, or empty; [Some] of something written as [null]; and in binary mode
    objects whose first key needs an escape or is [_placeholder], and maps with integer keys that are
    not empty. *)
Inductive recoverable (bin : bool) : ty -> dval -> Prop :=
| rc_bool b : recoverable bin TyBool (XBool b)
| rc_int lo hi z : recoverable bin (TyInt lo hi) (XInt z)
| rc_f64 n : recoverable bin TyF64 (XF64 n)
| rc_string s : recoverable bin TyString (XStr s)
| rc_str s : unescaped s -> recoverable bin TyStr (XStr s)
| rc_bytes b : bin = true -> b <> [] -> recoverable bin TyBytes (XBytes b)
| rc_unit : recoverable bin TyUnit XUnit
| rc_none u : recoverable bin (TyOption u) XNone
| rc_some u x : null_like x = false -> recoverable bin u x -> recoverable bin (TyOption u) (XSome x)
| rc_newtype u x : recoverable bin u x -> recoverable bin (TyNewtype u) (XNewtype x)
| rc_seq u xs : Forall (recoverable bin u) xs -> recoverable bin (TySeq u) (XSeq xs)
| rc_tuple ts xs : Forall2 (recoverable bin) ts xs -> recoverable bin (TyTuple ts) (XTuple xs)
| rc_map u m : (bin = true -> Forall (fun kx => plain_key (fst kx)) m) ->
    Forall (fun kx => recoverable bin u (snd kx)) m -> recoverable bin (TyMap u) (XMap m)
| rc_struct fs xs : (bin = true -> first_plain fs) -> Forall2 (fun f x => recoverable bin (snd f) x) fs xs ->
    recoverable bin (TyStruct fs) (XStruct xs)
| rc_unit_variant es n u : In (n, (VtUnit, u)) es -> recoverable bin (TyEnum es) (XVariant n XUnit)
| rc_variant es n tag u x : In (n, (tag, u)) es -> tag <> VtUnit -> recoverable bin u x ->
    recoverable bin (TyEnum es) (XVariant n x)
| rc_value x : (bin = true -> value_plain x) -> recoverable bin TyValue (XValue x)
| rc_char s : recoverable bin TyChar (XStr s)
| rc_byte_buf b : recoverable bin TyByteBuf (XBytes b)
| rc_int_map lo hi u m : (bin = true -> m = []) -> Forall (fun kx => recoverable bin u (snd kx)) m ->
    recoverable bin (TyIntMap lo hi u) (XIntMap m).

(** Where the arguments of the sender start: the event name is argument 0. *)
Definition args_from (src : source) : nat := match src with OfEvent _ _ => 1 | OfAck _ => 0 end.
(** Positions: every argument reads back, as its type, as the value that was sent. *)
Definition typed_args (first : nat) (a : args_t) (ts : list ty) (xs : list dval) : Prop :=
  forall i t x, nth_error ts i = Some t -> nth_error xs i = Some x ->
    exists g, args_get a (first + i) = Ok (Some g) /\ arg_deserialize t g = Ok x.

(** The full statement, without the restriction to recoverable values (false). *)
Definition C52_full : Prop := forall h src bin ts xs args fs,
  opened h -> ~ closed h -> deliverable src (bs "/") bin args -> build src (bs "/") bin args = Some fs ->
  Forall ty_ok ts -> Forall3 encodes ts xs args ->
  exists p d a, arrives h fs p /\ packet_data p = Some d /\ data_args d = Some a /\
    typed_args (args_from src) a ts xs.
