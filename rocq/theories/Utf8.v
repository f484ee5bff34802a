(** UTF-8 validity, as checked by Rust's [std::str::from_utf8] (Unicode table 3-7).
    [String] and [&str] values are always valid; theorems that need it say so. *)
From Verif Require Export Bytes.

Definition in_rng (lo hi : N) (c : byte) : bool := (lo <=? bN c)%N && (bN c <=? hi)%N.

Fixpoint utf8_valid (s : bytes) : bool :=
  match s with
  | [] => true
  | a :: r =>
      if in_rng 0 127 a then utf8_valid r
      else if in_rng 194 223 a then
        match r with
        | b :: r1 => in_rng 128 191 b && utf8_valid r1
        | _ => false
        end
      else if in_rng 224 239 a then
        match r with
        | b :: c :: r2 =>
            (if a =b xe0 then in_rng 160 191 b
             else if a =b xed then in_rng 128 159 b else in_rng 128 191 b)
            && in_rng 128 191 c && utf8_valid r2
        | _ => false
        end
      else if in_rng 240 244 a then
        match r with
        | b :: c :: d :: r3 =>
            (if a =b xf0 then in_rng 144 191 b
             else if a =b xf4 then in_rng 128 143 b else in_rng 128 191 b)
            && in_rng 128 191 c && in_rng 128 191 d && utf8_valid r3
        | _ => false
        end
      else false
  end.
