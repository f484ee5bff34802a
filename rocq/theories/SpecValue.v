(** What a JSON text means, independent of the readers: strings as sequences of characters with
    escapes, numbers by their exact value, objects as maps in which the last of equal keys counts. *)
From Verif Require Export SpecTyped.

(** ** Strings *)
Definition hex_digit (h : byte) (v : N) : Prop :=
  nth_error (bs "0123456789abcdef") (N.to_nat v) = Some h \/ nth_error (bs "0123456789ABCDEF") (N.to_nat v) = Some h.
Definition hex_quad (h1 h2 h3 h4 : byte) (n : N) : Prop :=
  exists a b c d, hex_digit h1 a /\ hex_digit h2 b /\ hex_digit h3 c /\ hex_digit h4 d /\
    n = (a * 4096 + b * 256 + c * 16 + d)%N.
(** The character of an escape with one letter. *)
Definition escape_table : list (byte * byte) :=
  [(x22, x22); (x5c, x5c); ("/", "/"); ("b", x08); ("f", x0c); ("n", x0a); ("r", x0d); ("t", x09)]%byte.
(** [string_means b s]: the text [b] between the quotes denotes the (UTF-8) string [s]. *)
Inductive string_means : bytes -> bytes -> Prop :=
| sm_nil : string_means [] []
| sm_char c b s : c <> x5c -> string_means b s -> string_means (c :: b) (c :: s)
| sm_escape e c b s : In (e, c) escape_table -> string_means b s -> string_means (x5c :: e :: b) (c :: s)
| sm_unicode h1 h2 h3 h4 n u b s : hex_quad h1 h2 h3 h4 n -> ~ (55296 <= n <= 57343)%N -> utf8_char n u ->
    string_means b s -> string_means (x5c :: "u"%byte :: h1 :: h2 :: h3 :: h4 :: b) (u ++ s)
| sm_pair h1 h2 h3 h4 g1 g2 g3 g4 hi lo u b s : hex_quad h1 h2 h3 h4 hi -> hex_quad g1 g2 g3 g4 lo ->
    (55296 <= hi <= 56319)%N -> (56320 <= lo <= 57343)%N -> utf8_char (65536 + (hi - 55296) * 1024 + (lo - 56320)) u ->
    string_means b s ->
    string_means (x5c :: "u"%byte :: h1 :: h2 :: h3 :: h4 :: x5c :: "u"%byte :: g1 :: g2 :: g3 :: g4 :: b) (u ++ s).

(** ** Numbers *)
Definition magnitude (ds : bytes) : Z := fold_left (fun a c => a * 10 + (Z.of_N (bN c) - 48))%Z ds 0%Z.
Definition whole (x : numlit) : Prop := nl_frac x = None /\ nl_exp x = None.
Definition is_u64 (x : numlit) : Prop := whole x /\ nl_neg x = false /\ (magnitude (nl_int x) < 2 ^ 64)%Z.
Definition is_i64 (x : numlit) : Prop := whole x /\ nl_neg x = true /\ (0 < magnitude (nl_int x) <= 2 ^ 63)%Z.
(** Neither of them: a double.  Between the two bounds of theorem [C55_double_range], the rounding of
    serde_json decides whether it is in range. *)
Inductive number_means : numlit -> num -> Prop :=
| nm_u64 x : is_u64 x -> number_means x (NPos (Z.to_N (magnitude (nl_int x))))
| nm_i64 x : is_i64 x -> number_means x (NNeg (- magnitude (nl_int x)))
| nm_double x : ~ is_u64 x -> ~ is_i64 x -> num_of x <> None -> number_means x (NFloat x).
(** The absolute value of a literal is [scaled_num x / scaled_den x]. *)
Definition fraction (x : numlit) : bytes := match nl_frac x with Some f => f | None => [] end.
Definition exponent (x : numlit) : Z :=
  match nl_exp x with
  | Some (_, sg, ds) => if bytes_eqb sg (bs "-") then - magnitude ds else magnitude ds
  | None => 0
  end%Z.
Definition scaled_num (x : numlit) : Z := (magnitude (nl_int x ++ fraction x) * 10 ^ Z.max 0 (exponent x))%Z.
Definition scaled_den (x : numlit) : Z := (10 ^ (Z.of_nat (length (fraction x)) + Z.max 0 (- exponent x)))%Z.

(** ** Values *)
(** Byte-wise lexicographic order of keys. *)
Definition key_less (a b : bytes) : Prop :=
  (exists c r, b = a ++ c :: r) \/
  exists p x y r r', a = p ++ x :: r /\ b = p ++ y :: r' /\ (bN x < bN y)%N.
(** [m] is the map with the bindings [ms], of which the last for each key counts. *)
Definition map_of_members {T} (ms m : list (bytes * T)) : Prop :=
  StronglySorted (fun a b => key_less (fst a) (fst b)) m /\
  forall k v, In (k, v) m <-> exists pre post, ms = pre ++ (k, v) :: post /\ ~ In k (map fst post).
(** [means n r v]: a text with tree [r], of at most [n] levels, has the value [v].  (Last rule: the
    private key of serde_json, whose string is read as a JSON text of its own.) *)
Inductive means : nat -> raw -> value -> Prop :=
| me_null n : means n RNull VNull
| me_bool n b : means n (RBool b) (VBool b)
| me_num n x y : number_means x y -> means n (RNum x) (VNum y)
| me_str n b s : string_means b s -> means n (RStr b) (VStr s)
| me_arr n l vs : Forall2 (means n) l vs -> means (S n) (RArr l) (VArr vs)
| me_obj n l ms m : (forall k x l', l = (k, x) :: l' -> ~ string_means k raw_token) ->
    Forall2 (fun a b => string_means (fst a) (fst b) /\ means n (snd a) (snd b)) l ms -> map_of_members ms m ->
    means (S n) (RObj l) (VObj m)
| me_private n k b t r v : string_means k raw_token -> string_means b t -> jdoc r t -> means 127 r v ->
    means (S n) (RObj [(k, RStr b)]) v.
(** All strings and keys of a value satisfy [P]. *)
Fixpoint all_strings (P : bytes -> Prop) (v : value) : Prop :=
  match v with
  | VStr s => P s
  | VArr l => allP (all_strings P) l
  | VObj m => allP (fun '(k, x) => P k /\ all_strings P x) m
  | _ => True
  end.
