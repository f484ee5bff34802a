(** 128-bit integers (C83). *)
From Verif Require Export Wide SpecRawArg.

(** The integers of a type. *)
Definition wide_range (k : wide) (z : Z) : Prop :=
  match k with I128 => - 2 ^ 127 <= z < 2 ^ 127 | U128 => 0 <= z < 2 ^ 128 end%Z.
(** [integer_part k r z]: the value is a number whose integer part is [z] (a [u128] has no minus sign);
    [whole_number]: it has no fraction and no exponent. *)
Definition integer_part (k : wide) (r : raw) (z : Z) : Prop :=
  exists neg n f e, r = RNum (NumLit neg (dec n) f e) /\ (k = U128 -> neg = false) /\
    z = (if neg then - Z.of_N n else Z.of_N n)%Z.
Definition whole_number (r : raw) : Prop := exists neg i, r = RNum (NumLit neg i None None).

(** What is sent: values, texts, and integers of either type. *)
Definition wide_usable (bin : bool) (i : item) : Prop :=
  match i with IVal (SInt z) => wide_range I128 z \/ wide_range U128 z | _ => item_usable bin i end.
(** What is read of it. *)
Definition wide_shown (bin : bool) (i : item) (g : arg_t) : Prop :=
  match i with
  | IVal (SInt z) => forall k, (wide_range k z -> arg_wide k g = Ok z) /\ (~ wide_range k z -> exists e, arg_wide k g = Err e)
  | _ => item_shown bin i g
  end.

(** C83, the full statement (false of the code): an argument is read as an integer exactly if it is
    that integer. *)
Definition C83_full : Prop := forall m t l g r k z,
  sub_deref_str m = Some t -> Forall emsg_ok l -> argument_of m l g -> jvalue r (g_text g) ->
  (arg_wide k g = Ok z <-> integer_part k r z /\ whole_number r /\ wide_range k z).
