(** Adjacently tagged enums in both modes (C86). *)
From Verif Require Export SpecMode.

(** [y] is where the content of an adjacently tagged enum is read without a buffer: the second of two
    elements, or a member named [cont] after one named [tag]. *)
Definition content_follows (tag cont : bytes) (r y : raw) : Prop :=
  match r with
  | RArr l => exists x, l = [x; y]
  | RObj l => exists l1 k x l2 k' l3, l = l1 ++ (k, x) :: l2 ++ (k', y) :: l3 /\ unescape k = Some tag /\ unescape k' = Some cont
  | _ => False
  end.
(** No variant has something special where that content has an attachment. *)
Definition nothing_special_adjacent (tag cont : bytes) (alts : list (bytes * alt)) (g : arg_t) : Prop :=
  forall r y, jvalue r (g_text g) -> content_follows tag cont r y ->
    Forall (fun na => alt_no_int_map (snd na) /\ alt_alike true false (snd na) y) alts.
