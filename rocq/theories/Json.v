(** Model of the parts of [serde_json] (1.0, features std + raw_value) on which the crate
    relies.  [serde_json] is an external crate: this file is part of the trusted reading, it
    models no file of /repo, but is used wherever /repo calls
    - [serde_json::from_str::<Vec<&RawValue>>]  (socket/de.rs:111),
    - [serde_json::from_str::<Value>]           (socket/args/mod.rs:68),
    - [serde_json::from_str::<T>]               (socket/args/mod.rs:82, engine.rs:149),
    - [serde_json::to_writer], [JsonSerializer] (socket/args/mod.rs:124, serialize_attachments.rs:34).

    Two readers are distinguished, as in serde_json:
    - the *lax* scan used for [RawValue] and ignored values ([ignore_value]): checks the JSON
      grammar only (no nesting limit, no surrogate check, no number range check);
    - the *strict* reading into [Value]: recursion limit 128, surrogate pairs checked, numbers
      must not overflow [f64]. *)
From Verif Require Export Bytes.

(** ** Lax grammar *)

Definition is_ws (c : byte) : bool :=
  (c =b x20) || (c =b x0a) || (c =b x09) || (c =b x0d).
Fixpoint skip_ws (s : bytes) : bytes :=
  match s with c :: r => if is_ws c then skip_ws r else s | [] => [] end.

(** A number literal as written: sign, integer digits, fraction digits, exponent. *)
Record numlit := NumLit {
  nl_neg : bool;
  nl_int : bytes;
  nl_frac : option bytes;
  nl_exp : option (byte * bytes * bytes)  (* 'e' or 'E', sign text, digits *)
}.
Definition numlit_text (n : numlit) : bytes :=
  (if nl_neg n then ["-"%byte] else []) ++ nl_int n
  ++ match nl_frac n with Some f => "."%byte :: f | None => [] end
  ++ match nl_exp n with Some (e, sg, d) => e :: sg ++ d | None => [] end.

(** [ignore_integer]: integer part. *)
Definition scan_int (s : bytes) : option (bytes * bytes) :=
  match s with
  | [] => None
  | c :: r =>
      if c =b "0" then
        match r with
        | d :: _ => if is_digit d then None else Some ([c], r)
        | [] => Some ([c], [])
        end
      else if is_digit c then let (ds, r') := span is_digit r in Some (c :: ds, r')
      else None
  end.
(** [ignore_decimal]: fraction; the '.' is optional here. *)
Definition scan_frac (s : bytes) : option (option bytes * bytes) :=
  match s with
  | c :: r =>
      if c =b "." then
        match span is_digit r with
        | ([], _) => None
        | (ds, r') => Some (Some ds, r')
        end
      else Some (None, s)
  | [] => Some (None, [])
  end.
Definition is_e (c : byte) : bool := (c =b "e") || (c =b "E").
Definition is_sign (c : byte) : bool := (c =b "+") || (c =b "-").
(** [ignore_exponent]: exponent; the 'e' is optional here. *)
Definition scan_exp (s : bytes) : option (option (byte * bytes * bytes) * bytes) :=
  match s with
  | c :: r =>
      if is_e c then
        let '(sg, r1) :=
          match r with
          | d :: r' => if is_sign d then ([d], r') else ([], r)
          | [] => ([], [])
          end in
        match span is_digit r1 with
        | ([], _) => None
        | (ds, r') => Some (Some (c, sg, ds), r')
        end
      else Some (None, s)
  | [] => Some (None, [])
  end.
Definition scan_num (s : bytes) : option (numlit * bytes) :=
  let '(neg, s1) := match s with
                    | c :: r => if c =b "-" then (true, r) else (false, s)
                    | [] => (false, [])
                    end in
  match scan_int s1 with
  | None => None
  | Some (i, s2) =>
      match scan_frac s2 with
      | None => None
      | Some (f, s3) =>
          match scan_exp s3 with
          | None => None
          | Some (e, s4) => Some (NumLit neg i f e, s4)
          end
      end
  end.

Definition is_hex (c : byte) : bool :=
  is_digit c || ((97 <=? bN c)%N && (bN c <=? 102)%N) || ((65 <=? bN c)%N && (bN c <=? 70)%N).
Definition hex_val (c : byte) : N :=
  if is_digit c then bN c - 48
  else if (97 <=? bN c)%N then bN c - 87 else bN c - 55.
Definition quote : byte := x22.
Definition backslash : byte := x5c.
Definition is_ctrl (c : byte) : bool := (bN c <? 32)%N.
(** Escape letters other than 'u', and the byte they denote. *)
Definition simple_esc (c : byte) : option byte :=
  if c =b x22 then Some x22          (* quote *)
  else if c =b x5c then Some x5c     (* backslash *)
  else if c =b "/" then Some "/"%byte
  else if c =b "b" then Some x08
  else if c =b "f" then Some x0c
  else if c =b "n" then Some x0a
  else if c =b "r" then Some x0d
  else if c =b "t" then Some x09
  else None.

(** [ignore_str]: input starts after the opening quote; returns the escaped body and what
    follows the closing quote. *)
Fixpoint scan_str (s : bytes) : option (bytes * bytes) :=
  match s with
  | [] => None
  | c :: r =>
      if c =b quote then Some ([], r)
      else if c =b backslash then
        match r with
        | [] => None
        | e :: r1 =>
            match simple_esc e with
            | Some _ =>
                match scan_str r1 with Some (b, r') => Some (c :: e :: b, r') | None => None end
            | None =>
                if e =b "u" then
                  match r1 with
                  | h1 :: h2 :: h3 :: h4 :: r2 =>
                      if is_hex h1 && is_hex h2 && is_hex h3 && is_hex h4 then
                        match scan_str r2 with
                        | Some (b, r') => Some (c :: e :: h1 :: h2 :: h3 :: h4 :: b, r')
                        | None => None
                        end
                      else None
                  | _ => None
                  end
                else None
            end
        end
      else if is_ctrl c then None
      else match scan_str r with Some (b, r') => Some (c :: b, r') | None => None end
  end.

(** Syntax trees of the lax grammar; strings keep their escaped body, objects their order. *)
Inductive raw :=
| RNull
| RBool (b : bool)
| RNum (n : numlit)
| RStr (body : bytes)
| RArr (l : list raw)
| RObj (l : list (bytes * raw)).

Fixpoint strip_prefix (p s : bytes) : option bytes :=
  match p, s with
  | [], _ => Some s
  | x :: p', y :: s' => if x =b y then strip_prefix p' s' else None
  | _, [] => None
  end.

(** [ignore_value] (as a grammar: serde_json's loop with an explicit stack is written as
    recursive descent).  The first argument is fuel; [S (length s)] always suffices
    (theorem [scan_doc_exact] in JsonProofs.v). *)
Fixpoint scan_value (n : nat) (s : bytes) {struct n} : option (raw * bytes) :=
  match n with
  | O => None
  | S n' =>
      match skip_ws s with
      | [] => None
      | c :: r =>
          if c =b "n" then
            match strip_prefix (bs "ull") r with Some r' => Some (RNull, r') | None => None end
          else if c =b "t" then
            match strip_prefix (bs "rue") r with Some r' => Some (RBool true, r') | None => None end
          else if c =b "f" then
            match strip_prefix (bs "alse") r with Some r' => Some (RBool false, r') | None => None end
          else if c =b quote then
            match scan_str r with Some (b, r') => Some (RStr b, r') | None => None end
          else if c =b "[" then
            match skip_ws r with
            | d :: r' =>
                if d =b "]" then Some (RArr [], r')
                else match scan_elems n' r with
                     | Some (l, r'') => Some (RArr l, r'') | None => None end
            | [] => None
            end
          else if c =b "{" then
            match skip_ws r with
            | d :: r' =>
                if d =b "}" then Some (RObj [], r')
                else match scan_members n' r with
                     | Some (l, r'') => Some (RObj l, r'') | None => None end
            | [] => None
            end
          else if (c =b "-") || is_digit c then
            match scan_num (c :: r) with Some (x, r') => Some (RNum x, r') | None => None end
          else None
      end
  end
(** One or more elements, up to and including the closing bracket. *)
with scan_elems (n : nat) (s : bytes) {struct n} : option (list raw * bytes) :=
  match n with
  | O => None
  | S n' =>
      match scan_value n' s with
      | None => None
      | Some (v, r) =>
          match skip_ws r with
          | d :: r' =>
              if d =b "]" then Some ([v], r')
              else if d =b "," then
                match scan_elems n' r' with
                | Some (l, r'') => Some (v :: l, r'') | None => None end
              else None
          | [] => None
          end
      end
  end
(** One or more members, up to and including the closing brace. *)
with scan_members (n : nat) (s : bytes) {struct n} : option (list (bytes * raw) * bytes) :=
  match n with
  | O => None
  | S n' =>
      match skip_ws s with
      | c :: r =>
          if c =b quote then
            match scan_str r with
            | None => None
            | Some (k, r1) =>
                match skip_ws r1 with
                | d :: r2 =>
                    if d =b ":" then
                      match scan_value n' r2 with
                      | None => None
                      | Some (v, r3) =>
                          match skip_ws r3 with
                          | d' :: r4 =>
                              if d' =b "}" then Some ([(k, v)], r4)
                              else if d' =b "," then
                                match scan_members n' r4 with
                                | Some (l, r5) => Some ((k, v) :: l, r5) | None => None end
                              else None
                          | [] => None
                          end
                      end
                    else None
                | [] => None
                end
            end
          else None
      | [] => None
      end
  end.

Definition value_fuel (s : bytes) : nat := 2 * length s + 2.
(** A complete document: one value, then only whitespace ([Deserializer::end]). *)
Definition scan_doc (s : bytes) : option raw :=
  match scan_value (value_fuel s) s with
  | Some (v, r) => match skip_ws r with [] => Some v | _ => None end
  | None => None
  end.

(** [from_str::<Vec<&RawValue>>]: the document must be an array; for every element, its
    byte range inside the document ([SeqAccess] + [deserialize_raw_value]: leading whitespace
    is skipped before buffering starts, the range ends with the value).  [total] is the length
    of the whole document, so [total - length rest] is the current position. *)
Fixpoint raw_elems (n total : nat) (first : bool) (s : bytes) : option (list range * bytes) :=
  match n with
  | O => None
  | S n' =>
      match skip_ws s with
      | [] => None
      | d :: r =>
          if d =b "]" then (* [first] or after an element: end of list *)
            Some ([], r)
          else
            let start := if first then Some (d :: r)
                         else if d =b "," then
                                match skip_ws r with
                                | d' :: r' => if d' =b "]" then None else Some (d' :: r')
                                | [] => None
                                end
                              else None in
            match start with
            | None => None
            | Some s1 =>
                match scan_value (value_fuel s1) s1 with
                | None => None
                | Some (_, s2) =>
                    match raw_elems n' total false s2 with
                    | None => None
                    | Some (l, s3) => Some ((total - length s1, total - length s2) :: l, s3)
                    end
                end
            end
      end
  end.
Definition raw_array_ranges (s : bytes) : option (list range) :=
  match skip_ws s with
  | c :: r =>
      if c =b "[" then
        match raw_elems (S (length s)) (length s) true r with
        | Some (l, r') => match skip_ws r' with [] => Some l | _ => None end
        | None => None
        end
      else None
  | [] => None
  end.

(** ** Strict values ([serde_json::Value]) *)

(** A [serde_json::Number]: [u64], negative [i64], or [f64].  An [f64] is represented by the
    literal it was read from (simplification: two literals of the same double are kept apart). *)
Inductive num :=
| NPos (n : N)
| NNeg (z : Z)
| NFloat (t : numlit).

(** Objects are [BTreeMap<String, Value>]: association lists sorted by key. *)
Inductive value :=
| VNull
| VBool (b : bool)
| VNum (n : num)
| VStr (s : bytes)
| VArr (l : list value)
| VObj (l : list (bytes * value)).

(** [BTreeMap::insert]. *)
Fixpoint obj_insert {A} (k : bytes) (v : A) (m : list (bytes * A)) : list (bytes * A) :=
  match m with
  | [] => [(k, v)]
  | (k', v') :: m' =>
      if bytes_eqb k k' then (k, v) :: m'
      else if bytes_ltb k k' then (k, v) :: m
      else (k', v') :: obj_insert k v m'
  end.
Fixpoint obj_get {A} (k : bytes) (m : list (bytes * A)) : option A :=
  match m with
  | [] => None
  | (k', v') :: m' => if bytes_eqb k k' then Some v' else obj_get k m'
  end.

Definition hex4 (a b c d : byte) : N :=
  (((hex_val a * 16 + hex_val b) * 16 + hex_val c) * 16 + hex_val d)%N.

(** Strict unescaping of a string body accepted by [scan_str] ([parse_escape] and
    [parse_unicode_escape] with [validate = true]). *)
Fixpoint unescape (s : bytes) : option bytes :=
  match s with
  | [] => Some []
  | c :: r =>
      if c =b backslash then
        match r with
        | [] => None
        | e :: r1 =>
            match simple_esc e with
            | Some b => match unescape r1 with Some t => Some (b :: t) | None => None end
            | None =>
                match r1 with
                | h1 :: h2 :: h3 :: h4 :: r2 =>
                    let n := hex4 h1 h2 h3 h4 in
                    if (56320 <=? n)%N && (n <=? 57343)%N then None (* 0xDC00..=0xDFFF *)
                    else if (n <? 55296)%N || (56319 <? n)%N then
                      match unescape r2 with Some t => Some (utf8_encode n ++ t) | None => None end
                    else (* leading surrogate: a trailing one must follow *)
                      match r2 with
                      | b1 :: u1 :: g1 :: g2 :: g3 :: g4 :: r3 =>
                          if (b1 =b backslash) && (u1 =b "u") then
                            let n2 := hex4 g1 g2 g3 g4 in
                            if (n2 <? 56320)%N || (57343 <? n2)%N then None
                            else match unescape r3 with
                                 | Some t =>
                                     Some (utf8_encode ((n - 55296) * 1024 + (n2 - 56320) + 65536)%N ++ t)
                                 | None => None
                                 end
                          else None
                      | _ => None
                      end
                | _ => None
                end
            end
        end
      else match unescape r with Some t => Some (c :: t) | None => None end
  end.

(** Round a positive integer to 53 significant bits, ties to even ([u64 as f64], [f64] product). *)
Definition round53 (x : Z) : Z :=
  let e := (Z.log2 x - 52)%Z in
  if (e <=? 0)%Z then x
  else
    let m := (2 ^ e)%Z in
    let q := (x / m)%Z in
    let r := (x mod m)%Z in
    let up := if (2 * r =? m)%Z then Z.odd q else (m <? 2 * r)%Z in
    ((if up then q + 1 else q) * m)%Z.

(** [f64_from_parts]: [true] iff the result is not reported as out of range. *)
Definition f64_in_range (significand : N) (exponent : Z) : bool :=
  if (exponent <? 0)%Z then true
  else if (308 <? exponent)%Z then (significand =? 0)%N
  else if (significand =? 0)%N then true
  else (round53 (round53 (Z.of_N significand) * round53 (10 ^ exponent)) <? 2 ^ 1024)%Z.

Definition i32_max : Z := 2147483647%Z.
Definition i32_min : Z := (-2147483648)%Z.
Definition sat_i32 (z : Z) : Z :=
  if (i32_max <? z)%Z then i32_max else if (z <? i32_min)%Z then i32_min else z.

(** Digit loop of [parse_integer]: accumulates in [u64]; on overflow stops, and the remaining
    digits only count ([parse_long_integer]).  Result: significand, digits not absorbed. *)
Fixpoint absorb (sig : N) (ds : bytes) : N * bytes :=
  match ds with
  | [] => (sig, [])
  | d :: r =>
      let s' := (sig * 10 + digit_val d)%N in
      if (u64_max <? s')%N then (sig, ds) else absorb s' r
  end.
(** Digits absorbed by the loop, as a count. *)
Definition exp_ok (sig : N) (start : Z) (e : option (byte * bytes * bytes)) : bool :=
  match e with
  | None => f64_in_range sig start
  | Some (_, sg, ds) =>
      let positive := negb (bytes_eqb sg ["-"%byte]) in
      let x := Z.of_N (undec ds) in
      if (i32_max <? x)%Z then (* parse_exponent_overflow *)
        negb (negb (sig =? 0)%N && positive)
      else f64_in_range sig (sat_i32 (if positive then start + x else start - x))
  end.
(** Strict reading of a number literal ([parse_any_number] / [parse_integer] / ...). *)
Definition num_of (n : numlit) : option num :=
  let '(sig, more) := absorb 0 (nl_int n) in
  let float_ok :=
    match nl_frac n with
    | None => exp_ok sig (Z.of_nat (length more)) (nl_exp n)
    | Some f =>
        let '(sig', more') := absorb sig f in
        exp_ok sig' (Z.of_nat (length more) - Z.of_nat (length f - length more')) (nl_exp n)
    end in
  match nl_frac n, nl_exp n, more with
  | None, None, [] =>
      if nl_neg n then
        (* i64 wrapping negation; floats on underflow and on -0 *)
        if (0 <? sig)%N && (sig <=? 9223372036854775808)%N
        then Some (NNeg (- Z.of_N sig)) else Some (NFloat n)
      else Some (NPos sig)
  | _, _, _ => if float_ok then Some (NFloat n) else None
  end.

(** Private object key that [Value]'s reader treats specially with feature raw_value. *)
Definition raw_token : bytes := bs "$serde_json::private::RawValue".

(** [Value::deserialize] on an already scanned tree.  [d] is [remaining_depth]
    (initially 128); entering an array or object decrements it and fails at 0.
    [reparse] reads the string held by an object whose first key is [raw_token]. *)
Fixpoint val_of (reparse : bytes -> option value) (d : nat) (r : raw) {struct r} : option value :=
  match r with
  | RNull => Some VNull
  | RBool b => Some (VBool b)
  | RNum n => match num_of n with Some x => Some (VNum x) | None => None end
  | RStr b => match unescape b with Some s => Some (VStr s) | None => None end
  | RArr l =>
      match d with
      | S (S d') =>
          match (fix go (l : list raw) : option (list value) :=
                   match l with
                   | [] => Some []
                   | x :: l' =>
                       match val_of reparse (S d') x with
                       | None => None
                       | Some v => match go l' with Some vs => Some (v :: vs) | None => None end
                       end
                   end) l with
          | Some vs => Some (VArr vs)
          | None => None
          end
      | _ => None
      end
  | RObj l =>
      match d with
      | S (S d') =>
          let go := (fix go (l : list (bytes * raw)) (acc : list (bytes * value))
                       : option (list (bytes * value)) :=
                       match l with
                       | [] => Some acc
                       | (k, x) :: l' =>
                           match unescape k with
                           | None => None
                           | Some k' =>
                               match val_of reparse (S d') x with
                               | None => None
                               | Some v => go l' (obj_insert k' v acc)
                               end
                           end
                       end) in
          match l with
          | (k, x) :: l' =>
              match unescape k with
              | Some k' =>
                  if bytes_eqb k' raw_token then
                    match x, l' with
                    | RStr b, [] => match unescape b with Some t => reparse t | None => None end
                    | _, _ => None
                    end
                  else match go l [] with Some m => Some (VObj m) | None => None end
              | None => None
              end
          | [] => Some (VObj [])
          end
      | _ => None
      end
  end.

Fixpoint from_str_value_n (n : nat) (text : bytes) : option value :=
  match n with
  | O => None
  | S n' =>
      match scan_doc text with
      | Some r => val_of (from_str_value_n n') 128 r
      | None => None
      end
  end.
(** [serde_json::from_str::<Value>]. *)
Definition from_str_value (text : bytes) : option value :=
  from_str_value_n (S (length text)) text.

(** ** Writer (compact formatter) *)

Definition hex_lower (n : N) : byte := if (n <? 10)%N then byte_of (48 + n) else byte_of (87 + n).
Definition esc_byte (c : byte) : bytes :=
  if c =b quote then [backslash; quote]
  else if c =b backslash then [backslash; backslash]
  else if c =b x08 then [backslash; "b"%byte]
  else if c =b x09 then [backslash; "t"%byte]
  else if c =b x0a then [backslash; "n"%byte]
  else if c =b x0c then [backslash; "f"%byte]
  else if c =b x0d then [backslash; "r"%byte]
  else if is_ctrl c then
    [backslash; "u"%byte; "0"%byte; "0"%byte; hex_lower (bN c / 16); hex_lower (bN c mod 16)]
  else [c].
Definition escape (s : bytes) : bytes := flat_map esc_byte s.
Definition json_str (s : bytes) : bytes := quote :: escape s ++ [quote].

(** Compact text of a [Value] ([Display for Value]); floats print as their literal. *)
Definition num_text (n : num) : bytes :=
  match n with NPos n => dec n | NNeg z => decZ z | NFloat t => numlit_text t end.
Fixpoint value_text (v : value) : bytes :=
  match v with
  | VNull => bs "null"
  | VBool b => if b then bs "true" else bs "false"
  | VNum n => num_text n
  | VStr s => json_str s
  | VArr l =>
      "["%byte :: (fix go (first : bool) (l : list value) : bytes :=
                match l with
                | [] => []
                | x :: l' => (if first then [] else [","%byte]) ++ value_text x ++ go false l'
                end) true l ++ ["]"%byte]
  | VObj l =>
      "{"%byte :: (fix go (first : bool) (l : list (bytes * value)) : bytes :=
                match l with
                | [] => []
                | (k, x) :: l' =>
                    (if first then [] else [","%byte]) ++ json_str k ++ ":"%byte
                       :: value_text x ++ go false l'
                end) true l ++ ["}"%byte]
  end.
