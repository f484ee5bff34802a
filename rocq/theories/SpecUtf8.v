(** Characters and their UTF-8 encoding (RFC 3629), independent of the validity check. *)
From Verif Require Export Utf8.

(** [utf8_char n u]: [u] is the UTF-8 encoding of the scalar value [n] (RFC 3629, section 3): the bits
    of [n] in groups of six, most significant first. *)
Inductive utf8_char : N -> bytes -> Prop :=
| u8_1 a : (bN a < 128)%N -> utf8_char (bN a) [a]
| u8_2 n a b x y : n = (x * 64 + y)%N -> (128 <= n < 2048)%N -> (y < 64)%N -> bN a = (192 + x)%N -> bN b = (128 + y)%N ->
    utf8_char n [a; b]
| u8_3 n a b c x y z : n = ((x * 64 + y) * 64 + z)%N -> (2048 <= n < 65536)%N -> ~ (55296 <= n <= 57343)%N ->
    (y < 64)%N -> (z < 64)%N -> bN a = (224 + x)%N -> bN b = (128 + y)%N -> bN c = (128 + z)%N -> utf8_char n [a; b; c]
| u8_4 n a b c d x y z t : n = (((x * 64 + y) * 64 + z) * 64 + t)%N -> (65536 <= n <= 1114111)%N ->
    (y < 64)%N -> (z < 64)%N -> (t < 64)%N ->
    bN a = (240 + x)%N -> bN b = (128 + y)%N -> bN c = (128 + z)%N -> bN d = (128 + t)%N -> utf8_char n [a; b; c; d].

(** A sequence of characters. *)
Definition characters (s : bytes) : Prop := exists l, Forall (fun u => exists n, utf8_char n u) l /\ s = concat l.
(** [whole_part d x y v]: [v] is the part of [d] from byte [x] to byte [y], and cuts through no character. *)
Definition whole_part (d : bytes) (x y : nat) (v : bytes) : Prop :=
  exists p q, d = p ++ v ++ q /\ length p = x /\ x + length v = y /\ characters p /\ characters v /\ characters q.
