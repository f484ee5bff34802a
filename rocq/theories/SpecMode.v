(** The same packet sent in text mode and in binary mode (C86). *)
From Verif Require Export SpecFilled SpecDeliver.

(** The first key of every object that is written is written without escapes and is not [_placeholder]
    (the name of a variant is the only key of its object). *)
Definition plain_start (k : option bytes) : Prop := match k with Some s => plain_key s | None => True end.
Fixpoint plain_first (v : sval) : Prop :=
  match v with
  | SSome x | SNewtypeStruct x => plain_first x
  | SNewtypeVariant n x => plain_key n /\ plain_first x
  | SSeq l | STuple l | STupleStruct l => allP plain_first l
  | STupleVariant n l => plain_key n /\ allP plain_first l
  | SMap l => match l with (k, _) :: _ => plain_start (key_of k) | [] => True end /\ allP (fun '(_, x) => plain_first x) l
  | SStruct l => first_plain l /\ allP (fun '(_, x) => plain_first x) l
  | SStructVariant n l => plain_key n /\ first_plain l /\ allP (fun '(_, x) => plain_first x) l
  | _ => True
  end.
(** The value is itself a byte string. *)
Fixpoint is_blob (v : sval) : Prop :=
  match v with
  | SBytes _ => True
  | SSome x | SNewtypeStruct x => is_blob x
  | SSeq l => blob_seq l = true
  | _ => False
  end.
(** What the model covers (as [deliverable], in any namespace): arguments that can be read, no sequence that
    begins with bytes and goes on with something else, ordinary first keys. *)
Definition either_mode (src : source) (ns : bytes) (args : list sval) : Prop :=
  ns_ok ns /\ fits (src_id src) /\ starts src args /\ usable (all_args src args) /\
  (N.of_nat (length (flat_map blobs (kept (all_args src args)))) <= u64_max)%N /\
  Forall (fun v => serialises v = true -> no_mixed v /\ plain_first v) (all_args src args).
(** The packet was sent twice: [pt] arrived in text mode, [pb] in binary mode. *)
Definition sent_both (src : source) (ns : bytes) (args : list sval) (pt pb : packet) : Prop :=
  (exists h fs, opened h /\ ~ closed h /\ build src ns false args = Some fs /\ arrives h fs pt) /\
  (exists h fs, opened h /\ ~ closed h /\ build src ns true args = Some fs /\ arrives h fs pb).
(** The argument number [i] of a packet, as [Args::get] hands it out. *)
Definition argument (p : packet) (i : nat) (g : arg_t) : Prop :=
  exists d a, packet_data p = Some d /\ data_args d = Some a /\ args_get a i = Ok (Some g).
(** The value it was made from. *)
Definition made_from (src : source) (args : list sval) (i : nat) (v : sval) : Prop :=
  nth_error (kept (all_args src args)) i = Some v.
(** Nothing in the argument is at a place of the type where attachments are special. *)
Definition nothing_special (t : ty) (g : arg_t) : Prop :=
  no_int_map t /\ forall r, jvalue r (g_text g) -> alike true false t r.

(** C86, the full statement (false): the mode makes no difference to what an argument is read as. *)
Definition C86_full : Prop := forall src ns args pt pb i gt gb t x,
  either_mode src ns args -> sent_both src ns args pt pb -> argument pt i gt -> argument pb i gb ->
  arg_deserialize t gt = Ok x <-> arg_deserialize t gb = Ok x.
