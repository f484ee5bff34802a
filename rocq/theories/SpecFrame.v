(** Websocket frames byte by byte (RFC 6455, 5.2 and 5.3), unfragmented, as tungstenite writes them. *)
From Verif Require Export Pipe.
From Coq Require Export Strings.Byte.

Definition opcode (m : wsmsg) : N :=
  match m with WText _ => 1 | WBinary _ => 2 | WClose _ => 8 | WPing _ => 9 | WPong _ => 10 end%N.
(** [k] bytes, most significant first. *)
Fixpoint big_endian (k : nat) (n : N) : bytes :=
  match k with O => [] | S k' => big_endian k' (n / 256) ++ [byte_of (n mod 256)] end.
Definition xor_byte (a b : byte) : byte :=
  match Byte.to_bits a, Byte.to_bits b with
  | (a0, (a1, (a2, (a3, (a4, (a5, (a6, a7))))))), (b0, (b1, (b2, (b3, (b4, (b5, (b6, b7))))))) =>
      Byte.of_bits (xorb a0 b0, (xorb a1 b1, (xorb a2 b2, (xorb a3 b3, (xorb a4 b4, (xorb a5 b5, (xorb a6 b6, xorb a7 b7)))))))
  end.
(** The byte at [i] is combined with that of the key at [i mod 4]. *)
Fixpoint mask_from (i : nat) (key d : bytes) : bytes :=
  match d with [] => [] | c :: d' => xor_byte c (nth (Nat.modulo i 4) key x00) :: mask_from (S i) key d' end.
(** The length: seven bits, or 126 and two bytes, or 127 and eight bytes; the shortest form. *)
Inductive length_field (mask_bit : N) (n : N) : bytes -> Prop :=
| len_7 : (n < 126)%N -> length_field mask_bit n [byte_of (mask_bit + n)]
| len_16 : (126 <= n < 65536)%N -> length_field mask_bit n (byte_of (mask_bit + 126) :: big_endian 2 n)
| len_64 : (65536 <= n < 2 ^ 63)%N -> length_field mask_bit n (byte_of (mask_bit + 127) :: big_endian 8 n).
Inductive ws_frame (m : wsmsg) : bool -> bytes -> Prop :=
| ws_frame_masked len key : length key = 4 -> length_field 128 (N.of_nat (length (payload m))) len ->
    ws_frame m true (byte_of (128 + opcode m) :: len ++ key ++ mask_from 0 key (payload m))
| ws_frame_plain len : length_field 0 (N.of_nat (length (payload m))) len ->
    ws_frame m false (byte_of (128 + opcode m) :: len ++ payload m).
(** A close frame with a payload has a code (at least two bytes). *)
Definition proper (m : wsmsg) : Prop := m <> WClose (Some []).
