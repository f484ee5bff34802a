(** C84: structs with flattened fields. *)
From Verif Require Import FlattenProofs FlattenDemo.

(** C84 is false of the code: borrowed bytes in a flattened struct never receive an attachment. *)
Theorem C84_flatten_refuted : ~ C84_full.
Proof. exact C84_refuted_lemma. Qed.
Print Assumptions C84_flatten_refuted.

(** Proved part: for an object whose other members read as [Value]s, with nothing at a place of the
    flattened struct where the buffer makes a difference, flattening makes no difference. *)
Theorem C84_flatten_partial :
  forall own fs l text A vs us, jvalue (RObj l) text -> (A <> [] -> ordinary_first l) -> others_are_values A own l ->
    NoDup (map fst (own ++ fs)) -> alike (has_some A) true (TyStruct fs) (RObj l) -> length vs = length own ->
    (arg_flat own [PStruct fs] (Arg text A) = Ok (XStruct (vs ++ [XStruct us])) <->
     arg_deserialize (TyStruct (own ++ fs)) (Arg text A) = Ok (XStruct (vs ++ us))).
Proof. exact flat_inlined. Qed.
Print Assumptions C84_flatten_partial.
Example C84_partial_nonvacuous : jvalue (RObj entry) entry_text /\ ordinary_first entry /\ others_are_values att1 entry_own entry /\
  NoDup (map fst (entry_own ++ entry_file u8s)) /\ alike (has_some att1) true (TyStruct (entry_file u8s)) (RObj entry) /\
  arg_flat entry_own [PStruct (entry_file u8s)] (Arg entry_text att1) = Ok (XStruct ([XInt 7] ++ [XStruct [xyz; XNone]])).
Proof. repeat (split; [first [exact entry_json|exact entry_ordinary|exact entry_values|exact (entry_names u8s)|exact entry_file_alike]|]). exact entry_inlined. Qed.

(** Any number of flattened structs and maps: each struct is what would be read of the whole object as
    that struct; each map holds exactly the members that no field before it names, each read as its type
    would be. *)
Theorem C84_parts_partial :
  forall own ps l text A x, jvalue (RObj l) text -> (A <> [] -> ordinary_first l) -> others_are_values A own l ->
    parts_alike A l (map fst own) ps ->
    (arg_flat own ps (Arg text A) = Ok x <->
     exists vs us, x = XStruct (vs ++ us) /\ arg_deserialize (TyStruct own) (Arg text A) = Ok (XStruct vs) /\
       parts_read A text l (map fst own) ps us).
Proof. exact flat_exact. Qed.
Print Assumptions C84_parts_partial.
Example C84_parts_nonvacuous : jvalue (RObj entry) entry_text /\ ordinary_first entry /\ others_are_values att1 entry_own entry /\
  parts_alike att1 entry (map fst entry_own) entry_parts /\
  arg_flat entry_own entry_parts (Arg entry_text att1) =
    Ok (XStruct [XInt 7; XStruct [xyz; XNone]; XMap [(bs "x", XValue (VArr [VNum (NPos 1)])); (bs "y", XValue (VNum (NPos 2)))]]).
Proof. repeat (split; [first [exact entry_json|exact entry_ordinary|exact entry_values|exact entry_alike]|]). exact entry_read. Qed.

(** Only an object is read: no list, and no attachment in its place. *)
Theorem C84_only_objects :
  forall own ps r text A x, jvalue r text -> arg_flat own ps (Arg text A) = Ok x ->
    exists l, r = RObj l /\ ~ attached (has_some A) r.
Proof. exact flat_only_objects. Qed.
Print Assumptions C84_only_objects.
Example C84_only_objects_nonvacuous : exists x, arg_flat entry_own entry_parts (Arg entry_text att1) = Ok x.
Proof. eexists. exact entry_read. Qed.

(** A member that nobody asks for must still be a [Value]. *)
Theorem C84_needs_values :
  forall own ps l text rest A x, jvalue (RObj l) text -> arg_flat own ps (Arg text A) = Ok x ->
    jvalue (RObj (without (map fst own) l)) rest -> (A <> [] -> ordinary_first (without (map fst own) l)) ->
    allP (fun '(_, y) => no_token y) l ->
    exists v, arg_deserialize (TyMap TyValue) (Arg rest A) = Ok v.
Proof. exact flat_needs_values. Qed.
Print Assumptions C84_needs_values.
Example C84_needs_values_nonvacuous : (exists x, arg_flat entry_own entry_parts (Arg entry_text att1) = Ok x) /\ allP (fun '(_, y) => no_token y) entry /\
  others_are_values att1 entry_own entry.
Proof. split; [eexists; exact entry_read|]. split; [exact entry_no_token|exact entry_values]. Qed.
(** What is refused although the struct without flattened fields takes it. *)
Example C84_refusals :
  (exists v, arg_deserialize (TyStruct entry_own) (Arg (bs "[7]") []) = Ok v) /\ (forall x, arg_flat entry_own [] (Arg (bs "[7]") []) <> Ok x) /\
  (forall x, arg_flat [] [] (Arg ph0_text att1) <> Ok x) /\
  (exists v, arg_deserialize (TyStruct entry_own) (Arg (bs "{""id"":7,""z"":1e999}") []) = Ok v) /\
  (forall x, arg_flat entry_own [] (Arg (bs "{""id"":7,""z"":1e999}") []) <> Ok x).
Proof. exact flat_refusals. Qed.
