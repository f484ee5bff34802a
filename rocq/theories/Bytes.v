(** Bytes, results, decimal numbers and checked slices.

    Conventions of the whole model:
    - a Rust [String], [&str], [Vec<u8>] or [&[u8]] is a [list byte];
    - a Rust [Result] whose computation may also panic is a [res];
    - [u64]/[usize] values are [N] or, for positions inside a buffer, [nat]. *)
From Coq Require Export Strings.String.
From Coq Require Export Arith NArith ZArith Lia Bool.
From Coq Require Export Strings.Byte.
From Coq Require Export List.
Export ListNotations.
Open Scope list_scope.

Definition bytes := list byte.

(** Literal helper: [bs "abc"] is the ASCII text abc. *)
Definition bs (s : string) : bytes := list_byte_of_string s.
Arguments bs s%string_scope.

(** Result of a Rust call: a value, an error, or a panic. *)
Inductive res (E A : Type) : Type :=
| Ok (a : A)
| Err (e : E)
| Panic.
Arguments Ok {E A} a.
Arguments Err {E A} e.
Arguments Panic {E A}.

Definition rbind {E A B} (r : res E A) (f : A -> res E B) : res E B :=
  match r with Ok a => f a | Err e => Err e | Panic => Panic end.
Definition rmap {E A B} (f : A -> B) (r : res E A) : res E B :=
  match r with Ok a => Ok (f a) | Err e => Err e | Panic => Panic end.

Notation "a =b b" := (Byte.eqb a b) (at level 70, no associativity).

Definition bN (b : byte) : N := Byte.to_N b.
(** [byte_of n] is the byte with value [n]; only used with [n < 256]. *)
Definition byte_of (n : N) : byte :=
  match Byte.of_N n with Some b => b | None => x00 end.

Fixpoint bytes_eqb (a b : bytes) : bool :=
  match a, b with
  | [], [] => true
  | x :: a', y :: b' => (x =b y) && bytes_eqb a' b'
  | _, _ => false
  end.

(** Lexicographic byte order: the [Ord] of [String], used by [BTreeMap<String, _>]. *)
Fixpoint bytes_ltb (a b : bytes) : bool :=
  match a, b with
  | _, [] => false
  | [], _ :: _ => true
  | x :: a', y :: b' =>
      if N.ltb (bN x) (bN y) then true
      else if N.ltb (bN y) (bN x) then false else bytes_ltb a' b'
  end.

Definition is_digit (c : byte) : bool := (48 <=? bN c)%N && (bN c <=? 57)%N.
Definition digit_val (c : byte) : N := (bN c - 48)%N.
Definition digit_of (n : N) : byte := byte_of (48 + n)%N.

(** Greedy split: longest prefix whose bytes satisfy [p]. *)
Fixpoint span (p : byte -> bool) (s : bytes) : bytes * bytes :=
  match s with
  | [] => ([], [])
  | c :: r => if p c then let (a, b) := span p r in (c :: a, b) else ([], s)
  end.

(** Decimal text of a number, as Rust's [Display] for unsigned integers prints it. *)
Fixpoint dec_fuel (k : nat) (n : N) (acc : bytes) : bytes :=
  match k with
  | O => acc
  | S k' =>
      let acc' := digit_of (n mod 10) :: acc in
      if (n <? 10)%N then acc' else dec_fuel k' (n / 10)%N acc'
  end.
Definition dec (n : N) : bytes := dec_fuel (S (N.size_nat n)) n [].
(** Decimal text of a signed integer. *)
Definition decZ (z : Z) : bytes :=
  match z with
  | Zneg p => "-"%byte :: dec (Npos p)
  | _ => dec (Z.to_N z)
  end.

(** Value of a string of decimal digits. *)
Fixpoint undec_from (acc : N) (s : bytes) : N :=
  match s with [] => acc | c :: r => undec_from (acc * 10 + digit_val c)%N r end.
Definition undec (s : bytes) : N := undec_from 0 s.

Definition u64_max : N := 18446744073709551615%N.
(** [str::parse::<u64>] restricted to non-empty digit strings (the regex only
    captures those): fails exactly on overflow. *)
Definition parse_u64 (s : bytes) : option N :=
  let n := undec s in if (n <=? u64_max)%N then Some n else None.

(** Rust byte ranges [start..end]. *)
Definition range := (nat * nat)%type.
Definition slice (a b : nat) (s : bytes) : bytes := firstn (b - a) (skipn a s).

(** [&v[a..b]] on [Vec<u8>]: panics ([None]) unless [a <= b <= len]. *)
Definition vec_slice (s : bytes) (r : range) : option bytes :=
  if (fst r <=? snd r) && (snd r <=? length s) then Some (slice (fst r) (snd r) s) else None.

(** UTF-8 continuation bytes; [str::is_char_boundary]. *)
Definition is_cont (c : byte) : bool := (128 <=? bN c)%N && (bN c <? 192)%N.
Definition is_boundary (s : bytes) (i : nat) : bool :=
  match nth_error s i with
  | Some c => (i =? 0) || negb (is_cont c)
  | None => i =? length s
  end.
(** [&s[a..b]] on [str]: additionally panics unless both ends are char boundaries. *)
Definition str_slice (s : bytes) (r : range) : option bytes :=
  if (fst r <=? snd r) && (snd r <=? length s) && is_boundary s (fst r) && is_boundary s (snd r)
  then Some (slice (fst r) (snd r) s) else None.

(** UTF-8 encoding of a code point (Rust's [char::encode_utf8]). *)
Definition utf8_encode (n : N) : bytes :=
  if (n <? 128)%N then [byte_of n]
  else if (n <? 2048)%N then
    [byte_of (192 + n / 64); byte_of (128 + n mod 64)]%N
  else if (n <? 65536)%N then
    [byte_of (224 + n / 4096); byte_of (128 + (n / 64) mod 64); byte_of (128 + n mod 64)]%N
  else
    [byte_of (240 + n / 262144); byte_of (128 + (n / 4096) mod 64);
     byte_of (128 + (n / 64) mod 64); byte_of (128 + n mod 64)]%N.
