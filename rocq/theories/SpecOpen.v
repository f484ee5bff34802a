(** The Open packet of the engine protocol, independently of the reader. *)
From Verif Require Export SpecEngine SpecJson SerModel.

(** The values of the members of an object that have the name [k]. *)
Definition values_of (k : bytes) (l : list (bytes * raw)) : list raw :=
  flat_map (fun m => match unescape (fst m) with
                     | Some k' => if bytes_eqb k' k then [snd m] else []
                     | None => []
                     end) l.
(** A string with content [s]; the decimal literal of a number that fits [u64]. *)
Definition string_literal (s : bytes) (r : raw) : Prop := exists b, r = RStr b /\ unescape b = Some s.
Definition u64_literal (n : N) (r : raw) : Prop := r = RNum (NumLit false (dec n) None None) /\ (n <= u64_max)%N.

(** The text [t] is a JSON document that says [x]: an object with each of the three members exactly
    once (whatever else it has), or an array of the three values. *)
Definition describes (t : bytes) (x : open_t) : Prop :=
  exists r, jdoc r t /\
  match r with
  | RObj l =>
      (forall m, In m l -> unescape (fst m) <> None) /\
      exists s a b, values_of (bs "sid") l = [s] /\ values_of (bs "pingTimeout") l = [a] /\
        values_of (bs "pingInterval") l = [b] /\
        string_literal (o_sid x) s /\ u64_literal (o_timeout x) a /\ u64_literal (o_interval x) b
  | RArr [s; a; b] => string_literal (o_sid x) s /\ u64_literal (o_timeout x) a /\ u64_literal (o_interval x) b
  | _ => False
  end.

(** engine.rs:19-25: the derived [Serialize] of [Open]. *)
Definition open_sval (x : open_t) : sval :=
  SStruct [(bs "sid", SStr (o_sid x)); (bs "pingTimeout", SInt (Z.of_N (o_timeout x)));
           (bs "pingInterval", SInt (Z.of_N (o_interval x)))].
