(** C88: values of structs with flattened fields, sent and read back. *)
From Verif Require Import MergeDemo.

(** The full statement is false: a flattened map declared before a struct takes the members of the struct, too. *)
Theorem C88_flattened_return_refuted : ~ C88_full.
Proof. exact C88_refuted_lemma. Qed.
Print Assumptions C88_flattened_return_refuted.

(** Members with different names: the struct comes back, in both modes, exactly if every flattened map has
    written the members that no field declared before it names, and no others. *)
Theorem C88_flattened_partial : forall bin src ns args i g own ps vs us ovs es,
  sendable bin src ns args -> became bin src ns args i (merged ovs es) g -> flat_ok own ps -> flat_encodes own ps vs us ovs es ->
  flat_keeps bin own ps vs us -> NoDup (map fst own ++ names_of (concat es)) -> (bin = true -> no_mixed (merged ovs es) /\ plain_first (merged ovs es)) ->
  (arg_flat own ps g = Ok (XStruct (vs ++ us)) <-> maps_alone ps es).
Proof. exact flat_returns. Qed.
Print Assumptions C88_flattened_partial.
Example C88_flattened_nonvacuous : sendable true load_src (bs "/") load /\
  (exists g, nth_error load_args 1 = Some g /\ became true load_src (bs "/") load 1 (merged load_ovs load_es) g) /\
  flat_ok load_own load_parts /\ flat_encodes load_own load_parts load_vs load_us load_ovs load_es /\ flat_keeps true load_own load_parts load_vs load_us /\
  NoDup (map fst load_own ++ names_of (concat load_es)) /\ (no_mixed (merged load_ovs load_es) /\ plain_first (merged load_ovs load_es)) /\ maps_alone load_parts load_es.
Proof.
  split; [exact load_sendable|]. split; [eexists; split; [reflexivity|]; apply load_became; reflexivity|].
  repeat (split; [first [exact load_flat_ok|exact load_encodes|exact load_keeps|exact load_names|exact load_first]|]). exact load_alone.
Qed.
(** A struct that does not come back. *)
Example C88_not_alone : flat_encodes [] odd_parts [] odd_us [] odd_es /\ ~ maps_alone odd_parts odd_es.
Proof. split; [exact odd_encodes|exact odd_not_alone]. Qed.

(** In particular, with flattened structs and at most one flattened map, declared last, it comes back. *)
Theorem C88_map_last_partial : forall bin src ns args i g own ps vs us ovs es,
  sendable bin src ns args -> became bin src ns args i (merged ovs es) g -> flat_ok own ps -> flat_encodes own ps vs us ovs es ->
  flat_keeps bin own ps vs us -> NoDup (map fst own ++ names_of (concat es)) -> (bin = true -> no_mixed (merged ovs es) /\ plain_first (merged ovs es)) ->
  map_at_end ps -> arg_flat own ps g = Ok (XStruct (vs ++ us)).
Proof. exact flat_last. Qed.
Print Assumptions C88_map_last_partial.
Example C88_map_last_nonvacuous : map_at_end load_parts /\ exists g, nth_error load_args 1 = Some g /\ arg_flat load_own load_parts g = Ok (XStruct (load_vs ++ load_us)).
Proof. split; [exact load_end|]. eexists. split; [reflexivity|vm_compute; reflexivity]. Qed.

(** If a flattened map has the name of a field as a key, nothing at all is read: the value is lost. *)
Theorem C88_name_clash : forall bin src ns args i g own ps vs us ovs es before t after e m e' s x,
  sendable bin src ns args -> became bin src ns args i (merged ovs es) g -> flat_ok own ps -> flat_encodes own ps vs us ovs es ->
  ps = before ++ PMap t :: after -> es = e ++ m :: e' -> length before = length e -> In s (names_of m) -> In s (map fst own ++ struct_names ps) ->
  arg_flat own ps g <> Ok x.
Proof. exact flat_clash. Qed.
Print Assumptions C88_name_clash.
Example C88_name_clash_nonvacuous : sendable true load_src (bs "/") load /\
  (exists g, nth_error load_args 3 = Some g /\ became true load_src (bs "/") load 3 (merged dup_ovs dup_es) g) /\
  (flat_ok dup_own [PMap TyBool] /\ flat_encodes dup_own [PMap TyBool] [XInt 7] [XMap [(bs "id", XBool true)]] dup_ovs dup_es) /\
  In (bs "id") (names_of (concat dup_es)) /\ In (bs "id") (map fst dup_own ++ struct_names [PMap TyBool]).
Proof.
  split; [exact load_sendable|]. split; [eexists; split; [reflexivity|]; apply load_became; reflexivity|]. split; [exact dup_case|]. split; left; reflexivity.
Qed.

(** The same for the reader alone: an object with two members of the name of a field, own or of a flattened struct, is refused. *)
Theorem C88_refuses_duplicates : forall own ps l text A x s, jvalue (RObj l) text -> NoDup (map fst own ++ struct_names ps) ->
  In s (map fst own ++ struct_names ps) -> 2 <= times_named s l -> arg_flat own ps (Arg text A) <> Ok x.
Proof. exact flat_twice. Qed.
Print Assumptions C88_refuses_duplicates.
Example C88_refuses_duplicates_nonvacuous :
  let t := bs "{""a"":1,""a"":2}" in exists l, jvalue (RObj l) t /\ 2 <= times_named (bs "a") l /\ In (bs "a") (map fst (@nil (bytes * ty)) ++ struct_names odd_parts).
Proof.
  cbv zeta. eexists. split; [apply jvalue_by_scan; vm_compute; reflexivity|]. split; [vm_compute; repeat constructor|]. left. reflexivity.
Qed.
