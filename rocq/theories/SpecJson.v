(** The JSON grammar (RFC 8259) as an inductive relation between syntax trees and texts,
    independent of the scanner, and the meaning of serialised values. *)
From Verif Require Export Json.

(** Insignificant whitespace. *)
Definition ws (w : bytes) : Prop := Forall (fun c => In c [x20; x0a; x09; x0d]) w.
Definition digits (d : bytes) : Prop := d <> [] /\ Forall (fun c => is_digit c = true) d.
(** int = zero / ( digit1-9 *DIGIT ) *)
Definition int_part (i : bytes) : Prop :=
  i = ["0"%byte] \/ (digits i /\ hd "0"%byte i <> "0"%byte).
Definition numlit_ok (n : numlit) : Prop :=
  int_part (nl_int n) /\
  match nl_frac n with Some f => digits f | None => True end /\
  match nl_exp n with
  | Some (e, sg, d) => In e ["e"; "E"]%byte /\ In sg [[]; ["+"%byte]; ["-"%byte]] /\ digits d
  | None => True
  end.
(** Text between the quotes of a string. *)
Inductive jbody : bytes -> Prop :=
| jb_nil : jbody []
| jb_char c b : c <> x22 -> c <> x5c -> (32 <= bN c)%N -> jbody b -> jbody (c :: b)
| jb_esc e b : In e [x22; x5c; "/"; "b"; "f"; "n"; "r"; "t"]%byte -> jbody b -> jbody (x5c :: e :: b)
| jb_hex h1 h2 h3 h4 b :
    Forall (fun h => is_hex h = true) [h1; h2; h3; h4] -> jbody b ->
    jbody (x5c :: "u"%byte :: h1 :: h2 :: h3 :: h4 :: b).

(** [jvalue v t]: the text [t], without surrounding whitespace, is a JSON value with tree [v]. *)
Inductive jvalue : raw -> bytes -> Prop :=
| jv_null : jvalue RNull (bs "null")
| jv_true : jvalue (RBool true) (bs "true")
| jv_false : jvalue (RBool false) (bs "false")
| jv_num n : numlit_ok n -> jvalue (RNum n) (numlit_text n)
| jv_str b : jbody b -> jvalue (RStr b) (x22 :: b ++ [x22])
| jv_arr0 w : ws w -> jvalue (RArr []) ("["%byte :: w ++ ["]"%byte])
| jv_arr l t : jelems l t -> jvalue (RArr l) ("["%byte :: t ++ ["]"%byte])
| jv_obj0 w : ws w -> jvalue (RObj []) ("{"%byte :: w ++ ["}"%byte])
| jv_obj l t : jmembers l t -> jvalue (RObj l) ("{"%byte :: t ++ ["}"%byte])
(** Elements separated by commas, with whitespace. *)
with jelems : list raw -> bytes -> Prop :=
| je_one v t w1 w2 : ws w1 -> ws w2 -> jvalue v t -> jelems [v] (w1 ++ t ++ w2)
| je_cons v t w1 w2 l t' : ws w1 -> ws w2 -> jvalue v t -> jelems l t' ->
    jelems (v :: l) (w1 ++ t ++ w2 ++ ","%byte :: t')
with jmembers : list (bytes * raw) -> bytes -> Prop :=
| jm_one k v t w1 w2 w3 w4 : ws w1 -> ws w2 -> ws w3 -> ws w4 -> jbody k -> jvalue v t ->
    jmembers [(k, v)] (w1 ++ x22 :: k ++ x22 :: w2 ++ ":"%byte :: w3 ++ t ++ w4)
| jm_cons k v t w1 w2 w3 w4 l t' : ws w1 -> ws w2 -> ws w3 -> ws w4 -> jbody k -> jvalue v t ->
    jmembers l t' ->
    jmembers ((k, v) :: l) (w1 ++ x22 :: k ++ x22 :: w2 ++ ":"%byte :: w3 ++ t ++ w4 ++ ","%byte :: t').

Scheme jvalue_ind2 := Induction for jvalue Sort Prop
with jelems_ind2 := Induction for jelems Sort Prop
with jmembers_ind2 := Induction for jmembers Sort Prop.
Combined Scheme json_mutind from jvalue_ind2, jelems_ind2, jmembers_ind2.

(** A complete document. *)
Definition jdoc (v : raw) (s : bytes) : Prop :=
  exists w1 t w2, ws w1 /\ ws w2 /\ jvalue v t /\ s = w1 ++ t ++ w2.

(** [jarray ts s]: [s] is a JSON document that is an array, and [ts] are the verbatim texts of its
    elements, in order (without the whitespace around them). *)
Inductive jitems : list bytes -> bytes -> Prop :=
| ji_one v t w1 w2 : ws w1 -> ws w2 -> jvalue v t -> jitems [t] (w1 ++ t ++ w2)
| ji_cons v t w1 w2 l t' : ws w1 -> ws w2 -> jvalue v t -> jitems l t' ->
    jitems (t :: l) (w1 ++ t ++ w2 ++ ","%byte :: t').
Definition jarray (ts : list bytes) (s : bytes) : Prop :=
  exists wa body wb, ws wa /\ ws wb /\ s = wa ++ "["%byte :: body ++ "]"%byte :: wb /\
    ((ts = [] /\ ws body) \/ jitems ts body).
