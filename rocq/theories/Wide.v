(** Arguments that are 128-bit integers: reading them with [Arg::deserialize].  (Sending them is
    [SInt] in SerModel.v, which has no range.) *)
From Verif Require Export RawArg.

(** [i128] and [u128]. *)
Inductive wide := I128 | U128.
Definition wide_in (k : wide) (z : Z) : bool :=
  match k with
  | I128 => (- 2 ^ 127 <=? z)%Z && (z <? 2 ^ 127)%Z
  | U128 => (0 <=? z)%Z && (z <? 2 ^ 128)%Z
  end.
(** [Deserializer::deserialize_i128], [deserialize_u128] (external): skip whitespace, a minus sign
    (an error for [u128]), digits without a superfluous zero ([scan_integer128]), [str::parse].  Also
    returns what follows: a fraction or an exponent is not looked at. *)
Definition take_wide (k : wide) (s : bytes) : option (Z * bytes) :=
  let s1 := skip_ws s in
  let '(neg, s2) := match s1 with
                    | c :: r => if c =b "-" then (true, r) else (false, s1)
                    | [] => (false, [])
                    end in
  match k, neg with
  | U128, true => None
  | _, _ =>
      match scan_int s2 with
      | Some (i, rest) =>
          let z := (if neg then - Z.of_N (undec i) else Z.of_N (undec i))%Z in
          if wide_in k z then Some (z, rest) else None
      | None => None
      end
  end.
(** args/mod.rs:75-85 [Arg::deserialize] for [i128] and [u128].  With attachments
    (deserialize_attachments.rs:30-37): forwarded in both directions (174-175, 225, 229); nothing checks
    the end of the text, which [serde_json::from_str] does. *)
Definition arg_wide (k : wide) (g : arg_t) : res aerror Z :=
  match take_wide k (g_text g), g_attachments g with
  | Some (z, rest), [] =>
      match skip_ws rest with [] => Ok z | _ => Err (AJsonDeError (g_text g)) end
  | Some (z, _), _ => Ok z
  | None, _ => Err (AJsonDeError (g_text g))
  end.
