(** Sending on what was received, as [serde_json::Value]s. *)
From Verif Require Export SpecValue.

(** [v] was read from an argument of some packet. *)
Definition received_value (v : value) : Prop :=
  exists m t l g, sub_deref_str m = Some t /\ Forall emsg_ok l /\ characters t /\ argument_of m l g /\ to_json_value g = Ok v.
(** [reprints v v']: [v'] is [v], with each double as a literal that serde_json prints for one (which
    literal it prints for which double is not modelled). *)
Inductive reprints : value -> value -> Prop :=
| rp_null : reprints VNull VNull
| rp_bool b : reprints (VBool b) (VBool b)
| rp_pos n : reprints (VNum (NPos n)) (VNum (NPos n))
| rp_neg z : reprints (VNum (NNeg z)) (VNum (NNeg z))
| rp_double x y : float_ok y -> reprints (VNum (NFloat x)) (VNum (NFloat y))
| rp_str s : reprints (VStr s) (VStr s)
| rp_arr l l' : Forall2 reprints l l' -> reprints (VArr l) (VArr l')
| rp_obj m m' : Forall2 (fun a b => fst a = fst b /\ reprints (snd a) (snd b)) m m' -> reprints (VObj m) (VObj m').
Fixpoint levels (v : value) : nat :=
  match v with
  | VArr l => S (SpecSer.list_max (map levels l))
  | VObj m => S (SpecSer.list_max (map (fun '(_, x) => levels x) m))
  | _ => 0
  end.
(** No object has the private key of serde_json as its least (hence first written) key. *)
Fixpoint openly (v : value) : Prop :=
  match v with
  | VArr l => allP openly l
  | VObj m => match m with (k, _) :: _ => k <> raw_token | [] => True end /\ allP (fun '(_, x) => openly x) m
  | _ => True
  end.
Definition relayable (v : value) : Prop := openly v /\ levels v <= 127.
(** No key in the text of the argument is that private key. *)
Fixpoint no_private (r : raw) : Prop :=
  match r with
  | RArr l => allP no_private l
  | RObj l => allP (fun '(k, x) => ~ string_means k raw_token /\ no_private x) l
  | _ => True
  end.
(** The arguments of a packet of this kind and id. *)
Definition shows_args (p : packet) (k : kind) (id : option N) (a : args_t) : Prop :=
  match k, id with
  | KEvent, i => packet_data p = Some (DataEvent i a)
  | KAck, Some i => packet_data p = Some (DataAck i a)
  | _, _ => False
  end.
(** The packet that relays: an event, or an ack with at least one argument. *)
Definition relays (src : source) (vs : list value) : Prop :=
  fits (src_id src) /\ match src with OfEvent e _ => characters e | OfAck _ => vs <> [] end.
Definition relayed (src : source) (vs : list value) : list value :=
  match src with OfEvent e _ => VStr e :: vs | OfAck _ => vs end.

(** The full statement (false): whatever was received can be sent on. *)
Definition C65_full : Prop := forall h src vs vs' fs,
  opened h -> ~ closed h -> Forall received_value vs -> Forall2 reprints vs vs' -> relays src vs ->
  build src (bs "/") false (map value_writes vs') = Some fs ->
  exists p, arrives h fs p /\ carries p (src_kind src) (bs "/") (src_id src) (relayed src vs').
