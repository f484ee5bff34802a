(** What the text of a displayed packet says, independent of the printer: a fixed head and the
    arguments as one JSON array, on one line. *)
From Verif Require Export SpecShape.

(** [denotes r v]: the tree [r] spells the value [v], member by member. *)
Inductive denotes : raw -> value -> Prop :=
| dn_null : denotes RNull VNull
| dn_bool b : denotes (RBool b) (VBool b)
| dn_num x y : number_means x y -> denotes (RNum x) (VNum y)
| dn_str b s : string_means b s -> denotes (RStr b) (VStr s)
| dn_arr l vs : Forall2 denotes l vs -> denotes (RArr l) (VArr vs)
| dn_obj l m : Forall2 (fun a b => string_means (fst a) (fst b) /\ denotes (snd a) (snd b)) l m -> denotes (RObj l) (VObj m).
(** [spells v t]: [t] is a JSON text of the value [v]. *)
Definition spells (v : value) (t : bytes) : Prop := exists r, jvalue r t /\ denotes r v.
(** [in_decimal n ds]: [ds] are the decimal digits of [n], without leading zeros. *)
Definition in_decimal (n : N) (ds : bytes) : Prop := int_part ds /\ magnitude ds = Z.of_N n.

(** [shown d vs s]: [s] shows the kind and the id of [d] and the argument values [vs]. *)
Inductive shown : data_t -> list value -> bytes -> Prop :=
| sh_connect : shown DataConnect [] (bs "Connect")
| sh_disconnect : shown DataDisconnect [] (bs "Disconnect")
| sh_event a vs u : spells (VArr vs) u -> shown (DataEvent None a) vs (bs "Event { id: None, args: " ++ u ++ bs " }")
| sh_event_id n ds a vs u : in_decimal n ds -> spells (VArr vs) u ->
    shown (DataEvent (Some n) a) vs (bs "Event { id: Some(" ++ ds ++ bs "), args: " ++ u ++ bs " }")
| sh_ack n ds a vs u : in_decimal n ds -> spells (VArr vs) u ->
    shown (DataAck n a) vs (bs "Ack { id: " ++ ds ++ bs ", args: " ++ u ++ bs " }").
(** The values of the arguments of [d], in order. *)
Definition argument_values (d : data_t) (vs : list value) : Prop :=
  match data_args d with
  | None => vs = []
  | Some a => args_len a = length vs /\
      forall i v, nth_error vs i = Some v -> exists g, args_get a i = Ok (Some g) /\ to_json_value g = Ok v
  end.
(** No control characters: in particular a single line. *)
Definition one_line (s : bytes) : Prop := Forall (fun c => (32 <= bN c)%N) s.
(** Kind and id of the content of a packet. *)
Definition heading (d : data_t) : kind * option N :=
  match d with
  | DataConnect => (KConnect, None)
  | DataDisconnect => (KDisconnect, None)
  | DataEvent id _ => (KEvent, id)
  | DataAck n _ => (KAck, Some n)
  end.
