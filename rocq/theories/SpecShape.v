(** What a text is worth when it is read as a type: independent of the readers.

    Strings and numbers have the meaning of SpecValue.v; every rule says which texts a type accepts and
    with which value.  [bl] are the attachments of the packet: [None] for a packet without. *)
From Verif Require Export SpecRead SpecValue.

(** The object is [{"_placeholder":<boolean>,"num":k}], written without escapes, and [k] designates
    the attachment [b]. *)
Definition attachment (bl : option (list bytes)) (l : list (bytes * raw)) (b : bytes) : Prop :=
  match bl with
  | None => False
  | Some bs => exists f x k, l = [(key_placeholder, RBool f); (key_num, RNum x)] /\ number_means x (NPos k) /\
      nth_error bs (N.to_nat k) = Some b
  end.
(** An object that is read by its members.  In a packet with attachments its first key must be
    written without escapes, and not be [_placeholder]. *)
Definition by_members (bl : option (list bytes)) (l : list (bytes * raw)) : Prop :=
  bl = None \/ forall k x l', l = (k, x) :: l' -> ~ In x5c k /\ k <> key_placeholder.

(** As [means], with attachments: an object that stands for one is worth the array of its bytes. *)
Inductive means_with (bl : option (list bytes)) : nat -> raw -> value -> Prop :=
| mw_null n : means_with bl n RNull VNull
| mw_bool n b : means_with bl n (RBool b) (VBool b)
| mw_num n x y : number_means x y -> means_with bl n (RNum x) (VNum y)
| mw_str n b s : string_means b s -> means_with bl n (RStr b) (VStr s)
| mw_arr n l vs : Forall2 (means_with bl n) l vs -> means_with bl (S n) (RArr l) (VArr vs)
| mw_attachment n l b : attachment bl l b -> means_with bl (S n) (RObj l) (VArr (map (fun c => VNum (NPos (bN c))) b))
| mw_obj n l ms m : by_members bl l -> (forall k x l', l = (k, x) :: l' -> ~ string_means k raw_token) ->
    Forall2 (fun a b => string_means (fst a) (fst b) /\ means_with bl n (snd a) (snd b)) l ms -> map_of_members ms m ->
    means_with bl (S n) (RObj l) (VObj m)
| mw_private n k b t r v : by_members bl [(k, RStr b)] -> string_means k raw_token -> string_means b t -> jdoc r t ->
    means 127 r v -> means_with bl (S n) (RObj [(k, RStr b)]) v.

(** One byte of an attachment as an element of a sequence. *)
Inductive byte_worth : ty -> byte -> dval -> Prop :=
| bw_int lo hi c : (lo <= Z.of_N (bN c) <= hi)%Z -> byte_worth (TyInt lo hi) c (XInt (Z.of_N (bN c)))
| bw_f64 c : byte_worth TyF64 c (XF64 (NPos (bN c)))
| bw_ignored c : byte_worth TyIgnored c XIgnored
| bw_value c : byte_worth TyValue c (XValue (VNum (NPos (bN c)))).

(** The only member of that name. *)
Definition only_member (ms : list (bytes * raw)) (k : bytes) (x : raw) : Prop :=
  exists pre post, ms = pre ++ (k, x) :: post /\ ~ In k (map fst pre) /\ ~ In k (map fst post).

(** [octets_mean b s]: the text [b] between the quotes denotes the byte string [s]: as for strings, but
    a surrogate without partner stands for three bytes, as if it were a character. *)
Definition has_partner (n : N) (b : bytes) : Prop :=
  (n <= 56319)%N /\ exists g1 g2 g3 g4 lo b', b = x5c :: "u"%byte :: g1 :: g2 :: g3 :: g4 :: b' /\
    hex_quad g1 g2 g3 g4 lo /\ (56320 <= lo <= 57343)%N.
Inductive octets_mean : bytes -> bytes -> Prop :=
| oc_nil : octets_mean [] []
| oc_char c b s : c <> x5c -> octets_mean b s -> octets_mean (c :: b) (c :: s)
| oc_escape e c b s : In (e, c) escape_table -> octets_mean b s -> octets_mean (x5c :: e :: b) (c :: s)
| oc_unicode h1 h2 h3 h4 n u b s : hex_quad h1 h2 h3 h4 n -> ~ (55296 <= n <= 57343)%N -> utf8_char n u ->
    octets_mean b s -> octets_mean (x5c :: "u"%byte :: h1 :: h2 :: h3 :: h4 :: b) (u ++ s)
| oc_pair h1 h2 h3 h4 g1 g2 g3 g4 hi lo u b s : hex_quad h1 h2 h3 h4 hi -> hex_quad g1 g2 g3 g4 lo ->
    (55296 <= hi <= 56319)%N -> (56320 <= lo <= 57343)%N -> utf8_char (65536 + (hi - 55296) * 1024 + (lo - 56320)) u ->
    octets_mean b s ->
    octets_mean (x5c :: "u"%byte :: h1 :: h2 :: h3 :: h4 :: x5c :: "u"%byte :: g1 :: g2 :: g3 :: g4 :: b) (u ++ s)
| oc_lone h1 h2 h3 h4 n x y z a b c t s : hex_quad h1 h2 h3 h4 n -> (55296 <= n <= 57343)%N -> ~ has_partner n t ->
    n = ((x * 64 + y) * 64 + z)%N -> (y < 64)%N -> (z < 64)%N ->
    bN a = (224 + x)%N -> bN b = (128 + y)%N -> bN c = (128 + z)%N ->
    octets_mean t s -> octets_mean (x5c :: "u"%byte :: h1 :: h2 :: h3 :: h4 :: t) (a :: b :: c :: s).
(** The integer a key spells, as a JSON number. *)
Definition key_int (k : bytes) (z : Z) : Prop :=
  exists x, numlit_ok x /\ k = numlit_text x /\ ((exists n, number_means x (NPos n) /\ z = Z.of_N n) \/ number_means x (NNeg z)).
(** [m] is the map with the integer keys of [ms], of which the last for each key counts. *)
Definition int_map_of_members {T} (ms m : list (Z * T)) : Prop :=
  StronglySorted (fun a b => (fst a < fst b)%Z) m /\
  forall k v, In (k, v) m <-> exists pre post, ms = pre ++ (k, v) :: post /\ ~ In k (map fst post).

(** [worth bl n t r v]: a text with tree [r], of which at most [n] levels are entered, read as a [t]
    gives [v]. *)
Inductive worth (bl : option (list bytes)) : nat -> ty -> raw -> dval -> Prop :=
| wo_bool n b : worth bl n TyBool (RBool b) (XBool b)
| wo_pos n lo hi x k : number_means x (NPos k) -> (lo <= Z.of_N k <= hi)%Z -> worth bl n (TyInt lo hi) (RNum x) (XInt (Z.of_N k))
| wo_neg n lo hi x z : number_means x (NNeg z) -> (lo <= z <= hi)%Z -> worth bl n (TyInt lo hi) (RNum x) (XInt z)
| wo_f64 n x y : number_means x y -> worth bl n TyF64 (RNum x) (XF64 y)
| wo_string n b s : string_means b s -> worth bl n TyString (RStr b) (XStr s)
| wo_str n b : ~ In x5c b -> worth bl n TyStr (RStr b) (XStr b)      (* borrowed: no escapes *)
| wo_bytes n b : ~ In x5c b -> worth bl n TyBytes (RStr b) (XBytes b)
| wo_unit n : worth bl n TyUnit RNull XUnit
| wo_ignored n r : worth bl n TyIgnored r XIgnored
| wo_none n u : worth bl n (TyOption u) RNull XNone
| wo_some n u r v : r <> RNull -> worth bl n u r v -> worth bl n (TyOption u) r (XSome v)
| wo_newtype n u r v : worth bl n u r v -> worth bl n (TyNewtype u) r (XNewtype v)
| wo_seq n u l vs : Forall2 (worth bl n u) l vs -> worth bl (S n) (TySeq u) (RArr l) (XSeq vs)
| wo_tuple n ts l vs : Forall3 (worth bl n) ts l vs -> worth bl (S n) (TyTuple ts) (RArr l) (XTuple vs)
| wo_map n u l ms m : by_members bl l ->
    Forall2 (fun a b => string_means (fst a) (fst b) /\ worth bl n u (snd a) (snd b)) l ms -> map_of_members ms m ->
    worth bl (S n) (TyMap u) (RObj l) (XMap m)
| wo_struct_arr n fs l vs : Forall3 (fun f => worth bl n (snd f)) fs l vs -> worth bl (S n) (TyStruct fs) (RArr l) (XStruct vs)
  (* members of other names are skipped; an absent field is an error unless it is an option *)
| wo_struct n fs l ms vs : by_members bl l ->
    Forall2 (fun a b => string_means (fst a) (fst b) /\ snd a = snd b) l ms ->
    Forall2 (fun f v => (exists x, only_member ms (fst f) x /\ worth bl n (snd f) x v) \/
                        ~ In (fst f) (map fst ms) /\ (exists u, snd f = TyOption u) /\ v = XNone) fs vs ->
    worth bl (S n) (TyStruct fs) (RObj l) (XStruct vs)
  (* a variant without contents, by its name alone or with null *)
| wo_name n pre e u post b : string_means b e -> ~ In e (map fst pre) ->
    worth bl n (TyEnum (pre ++ (e, (VtUnit, u)) :: post)) (RStr b) (XVariant e XUnit)
| wo_unit_variant n pre e u post k : string_means k e -> ~ In e (map fst pre) ->
    worth bl (S n) (TyEnum (pre ++ (e, (VtUnit, u)) :: post)) (RObj [(k, RNull)]) (XVariant e XUnit)
| wo_variant n pre e tag u post k x v : string_means k e -> ~ In e (map fst pre) -> tag <> VtUnit ->
    (tag = VtTuple -> exists l, x = RArr l) -> worth bl n u x v ->
    worth bl (S n) (TyEnum (pre ++ (e, (tag, u)) :: post)) (RObj [(k, x)]) (XVariant e v)
| wo_value n r v : means_with bl n r v -> worth bl n TyValue r (XValue v)
| wo_char n b s c : string_means b s -> utf8_char c s -> worth bl n TyChar (RStr b) (XStr s)
  (* bytes: a string (in a packet with attachments, one that has a meaning as a string), or an array *)
| wo_octets n b s : bl = None -> octets_mean b s -> worth bl n TyByteBuf (RStr b) (XBytes s)
| wo_octets_str n b s : bl <> None -> string_means b s -> worth bl n TyByteBuf (RStr b) (XBytes s)
| wo_octets_arr n l b : Forall2 (fun r c => exists x, r = RNum x /\ number_means x (NPos (bN c))) l b ->
    worth bl (S n) TyByteBuf (RArr l) (XBytes b)
| wo_int_map n lo hi u l ms m : bl = None ->
    Forall2 (fun a b => key_int (fst a) (fst b) /\ (lo <= fst b <= hi)%Z /\ worth bl n u (snd a) (snd b)) l ms ->
    int_map_of_members ms m -> worth bl (S n) (TyIntMap lo hi u) (RObj l) (XIntMap m)
  (* with attachments, no map with integer keys is read unless it is empty *)
| wo_int_map_empty n lo hi u : bl <> None -> worth bl (S n) (TyIntMap lo hi u) (RObj []) (XIntMap [])
  (* an object that stands for an attachment *)
| wo_a_string n l b : attachment bl l b -> characters b -> worth bl (S n) TyString (RObj l) (XStr b)
| wo_a_str n l b : attachment bl l b -> characters b -> worth bl (S n) TyStr (RObj l) (XStr b)
| wo_a_bytes n l b : attachment bl l b -> worth bl (S n) TyBytes (RObj l) (XBytes b)
| wo_a_octets n l b : attachment bl l b -> worth bl (S n) TyByteBuf (RObj l) (XBytes b)
| wo_a_seq n u l b vs : attachment bl l b -> Forall2 (byte_worth u) b vs -> worth bl (S n) (TySeq u) (RObj l) (XSeq vs)
| wo_a_tuple n ts l b b' vs : attachment bl l (b ++ b') -> Forall3 byte_worth ts b vs ->
    worth bl (S n) (TyTuple ts) (RObj l) (XTuple vs)                 (* surplus bytes are dropped *)
| wo_a_struct n fs l b b' vs : attachment bl l (b ++ b') -> Forall3 (fun f => byte_worth (snd f)) fs b vs ->
    worth bl (S n) (TyStruct fs) (RObj l) (XStruct vs).

(** The attachments a reader of the argument sees. *)
Definition seen_with (A : list subslice_t) : option (list bytes) :=
  match A with [] => None | _ => contents A end.
