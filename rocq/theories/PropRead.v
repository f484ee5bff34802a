(** C21-C26, C43, C45: reading packets and their arguments. *)
From Verif Require Import ReadProofs.

(** C21 is false of the code: the "engine message" already contains the engine prefix. *)
Theorem C21_connect_disconnect_round_trip_refuted : ~ C21_full.
Proof. exact C21_refuted_lemma. Qed.
Print Assumptions C21_connect_disconnect_round_trip_refuted.

(** It is never parsed. *)
Theorem C21_connect_disconnect_rejected :
  forall k ns, In k [PKConnect; PKDisconnect] ->
    deserialize (MText (sub_from (serialize_header k None ns None))) =
      Err (SInvalidMessage (serialize_header k None ns None)).
Proof. exact connect_rejected. Qed.
Print Assumptions C21_connect_disconnect_rejected.

(** The part that holds: the same text sent as a websocket frame (not as an engine message) is
    decoded and parsed as intended, for every namespace. *)
Theorem C21_connect_disconnect_round_trip_partial :
  forall h k ns, In k [PKConnect; PKDisconnect] -> opened h -> ~ closed h -> ns_ok ns ->
    exists p, arrives h [WText (serialize_header k None ns None)] p /\
      view p = Some (PView (match k with PKConnect => KConnect | _ => KDisconnect end) ns None [] []).
Proof. exact connect_frame. Qed.
Print Assumptions C21_connect_disconnect_round_trip_partial.
Example C21_nonvacuous :
  opened [sample_open] /\ ~ closed [sample_open] /\ ns_ok (bs "/a,1") /\
  serialize_connect (bs "/a,1") = MText (sub_from (bs "40/a,1,")).
Proof.
  split; [exact (proj1 sample_opened)|]. split; [exact (proj2 sample_opened)|].
  split; [apply ns_ok_check; vm_compute; reflexivity|vm_compute; reflexivity].
Qed.

(** C22 is false of the code: an array element is only checked for JSON syntax. *)
Theorem C22_reading_never_panics_refuted : ~ C22_full.
Proof. exact C22_refuted_lemma. Qed.
Print Assumptions C22_reading_never_panics_refuted.

(** Exactly when reading an argument panics: too deep, an unpaired surrogate, a number out of
    range. *)
Theorem C22_reading_panics_exactly :
  forall m t l g, sub_deref_str m = Some t -> Forall emsg_ok l -> argument_of m l g ->
    exists r, jvalue r (g_text g) /\ (to_json_value g = Panic <-> ~ strict 127 r).
Proof. exact argument_panics_exactly. Qed.
Print Assumptions C22_reading_panics_exactly.

(** The part that holds. *)
Theorem C22_reading_never_panics_partial :
  forall m t l g r, sub_deref_str m = Some t -> Forall emsg_ok l -> argument_of m l g ->
    jvalue r (g_text g) -> strict 127 r -> to_json_value g <> Panic.
Proof. exact argument_no_panic. Qed.
Print Assumptions C22_reading_never_panics_partial.
Example C22_nonvacuous :
  argument_of (sub_from huge) [] (Arg (bs "1e999") []) /\ to_json_value (Arg (bs "1e999") []) = Panic /\
  argument_of (sub_from swapped) [MBinary (sub_from (bs "ab"))] swapped_arg /\
  strict 127 (RObj placeholder0_tree).
Proof.
  split; [exact huge_argument|]. split; [vm_compute; reflexivity|]. split; [exact swapped_argument|].
  apply st_obj.
  - intros k x l' [= <- _ _]. vm_compute. discriminate.
  - repeat apply Forall_cons; try apply Forall_nil; (split; [vm_compute; discriminate|]).
    + apply st_bool.
    + apply st_num. vm_compute. discriminate.
Qed.

(** Displaying a packet panics exactly when one of its arguments does not read as a JSON value:
    reading panics or is an error (a bad placeholder). *)
Theorem C22_display_panics_exactly :
  forall m t l p, sub_deref_str m = Some t -> Forall emsg_ok l -> received m l p ->
    (show_packet p = None <->
     exists g, (exists d a i, packet_data p = Some d /\ data_args d = Some a /\ args_get a i = Ok (Some g)) /\
       forall v, to_json_value g <> Ok v).
Proof. exact show_exact. Qed.
Print Assumptions C22_display_panics_exactly.
Example C22_display_nonvacuous :
  exists p, received (sub_from (bs "51-[""x"",{""_placeholder"":true,""num"":1}]")) [MBinary (sub_from [])] p /\
    show_packet p = None.
Proof.
  eexists. split; [right; eexists; split; [vm_compute; reflexivity|vm_compute; reflexivity]|vm_compute; reflexivity].
Qed.

(** Substitution of placeholders by [to_json_value]. *)
Theorem C23_substitution_exact :
  forall t A bl v, from_str_value t = Some v -> contents A = Some bl -> A <> [] ->
    (forall v', to_json_value (Arg t A) = Ok v' <-> filled bl v v') /\
    (forall e, to_json_value (Arg t A) = Err e <-> fails bl v e) /\
    to_json_value (Arg t A) <> Panic.
Proof. exact substitution_exact. Qed.
Print Assumptions C23_substitution_exact.
Example C23_nonvacuous :
  let t := bs "[{""_placeholder"":1,""num"":1,""x"":[]},{""a"":{""num"":0,""_placeholder"":true}},7]" in
  exists v, from_str_value t = Some v /\
    to_json_value (Arg t [sub_from (bs "a"); sub_from (bs "bc")]) =
      Ok (VArr [byte_array (bs "bc"); VObj [(bs "a", byte_array (bs "a"))]; VNum (NPos 7)]) /\
    to_json_value (Arg t [sub_from (bs "a")]) = Err (APlaceholderIndexOutOfRange 1 1).
Proof. eexists. split; [vm_compute; reflexivity|]. split; vm_compute; reflexivity. Qed.

Theorem C23_everything_else_untouched :
  forall bl v, unmarked v -> forall v', filled bl v v' <-> v' = v.
Proof. exact filled_unmarked. Qed.
Print Assumptions C23_everything_else_untouched.
Example C23_unmarked_nonvacuous : unmarked (VObj [(bs "num", VArr [VNum (NPos 0)])]).
Proof.
  apply um_obj; [intros [H|[]]; discriminate|]. apply Forall_cons; [|apply Forall_nil]. apply um_arr.
  apply Forall_cons; [apply um_num|apply Forall_nil].
Qed.

Theorem C23_no_attachments_no_substitution :
  forall t v, from_str_value t = Some v -> to_json_value (Arg t []) = Ok v.
Proof. exact no_attachments. Qed.
Print Assumptions C23_no_attachments_no_substitution.
Example C23_none_nonvacuous :
  to_json_value (Arg placeholder0 []) =
    Ok (VObj [(key_placeholder, VBool true); (key_num, VNum (NPos 0))]).
Proof. vm_compute. reflexivity. Qed.

(** C24 is false of the code: the typed reader recognises a placeholder only in the order
    [_placeholder], [num]; [to_json_value] in any order. *)
Theorem C24_readers_agree_refuted : ~ C24_full.
Proof. exact C24_refuted_lemma. Qed.
Print Assumptions C24_readers_agree_refuted.

(** The part that holds: packets without attachments, and arguments whose objects are either
    placeholders as this library writes them or have an ordinary first key, no [_placeholder] key
    and no repeated key. *)
Theorem C24_readers_agree_partial :
  forall text r A bl, jvalue r text -> contents A = Some bl -> A = [] \/ canonical r ->
    readers_agree (Arg text A).
Proof. exact readers_agree_canonical. Qed.
Print Assumptions C24_readers_agree_partial.
Example C24_nonvacuous :
  let t := bs "[{""a"":{""_placeholder"":true,""num"":0},""b"":1}]" in
  let A := [sub_from (bs "xy")] in
  let v := VArr [VObj [(bs "a", byte_array (bs "xy")); (bs "b", VNum (NPos 1))]] in
  (exists r, jvalue r t /\ canonical r) /\
  to_json_value (Arg t A) = Ok v /\ arg_deserialize TyValue (Arg t A) = Ok (XValue v).
Proof.
  cbv zeta. split; [|split; vm_compute; reflexivity].
  exists (RArr [RObj [(bs "a", RObj placeholder0_tree); (bs "b", RNum (NumLit false (bs "1") None None))]]).
  split; [apply jvalue_by_scan; vm_compute; reflexivity|].
  cbn [canonical allP]. split; [|exact I]. right. split; [split; [reflexivity|discriminate]|].
  split; [intros k x l' [= <- _ _]; discriminate|]. split; [|split; [|split; [left; vm_compute; discriminate|split; exact I]]].
  - repeat constructor; cbn; intuition discriminate.
  - intros [H|[H|[]]]; discriminate.
Qed.

(** C25 is false of the code: with attachments, the first key of every object is read borrowed, so
    a key with an escape is an error. *)
Theorem C25_unused_attachments_ignored_refuted : ~ C25_full.
Proof. exact C25_refuted_lemma. Qed.
Print Assumptions C25_unused_attachments_ignored_refuted.

(** The part that holds: every object's first key is written without escapes and is not
    [_placeholder], and the type involves no maps with integer keys (whose keys are not read when a
    packet has attachments) and no byte buffers of serde_bytes (see [C25_unused_attachments_exactly]
    for these). *)
Theorem C25_unused_attachments_ignored_partial :
  forall t text r A, jvalue r text -> ordinary r -> usual_ty t ->
    arg_deserialize t (Arg text A) = arg_deserialize t (Arg text []).
Proof. exact ignores_attachments. Qed.
Print Assumptions C25_unused_attachments_ignored_partial.
Example C25_nonvacuous :
  let t := bs "{""a"":[1,2],""b\n"":{}}" in
  exists r, jvalue r t /\ ordinary r /\ usual_ty (TyStruct [(bs "a", TySeq TyU8)]) /\
    arg_deserialize (TyStruct [(bs "a", TySeq TyU8)]) (Arg t [sub_from (bs "x")]) = Ok (XStruct [XU8s [x01; x02]]).
Proof.
  cbv zeta.
  exists (RObj [(bs "a", RArr [RNum (NumLit false (bs "1") None None); RNum (NumLit false (bs "2") None None)]); (bs "b\n", RObj [])]).
  split; [apply jvalue_by_scan; vm_compute; reflexivity|]. split; [|split; [cbn; auto|vm_compute; reflexivity]].
  cbn. repeat split; discriminate.
Qed.

(** The placeholder itself. *)
Theorem C26_placeholder_read :
  forall A bl text l k, jvalue (RObj l) text -> contents A = Some bl -> A <> [] -> placeholder_num l = Some k ->
    arg_deserialize TyBytes (Arg text A) =
      match nth_error bl (N.to_nat k) with Some b => Ok (XBytes b) | None => Err (AJsonDeError text) end /\
    arg_deserialize (TySeq TyU8) (Arg text A) =
      match nth_error bl (N.to_nat k) with Some b => Ok (XU8s b) | None => Err (AJsonDeError text) end /\
    (forall n, arg_deserialize (TyU8Array n) (Arg text A) =
      match nth_error bl (N.to_nat k) with
      | Some b => if n <=? length b then Ok (XU8Array (firstn n b)) else Err (AJsonDeError text)
      | None => Err (AJsonDeError text)
      end).
Proof. exact placeholder_read. Qed.
Print Assumptions C26_placeholder_read.
Example C26_read_nonvacuous :
  jvalue (RObj placeholder0_tree) placeholder0 /\ placeholder_num placeholder0_tree = Some 0%N /\
  arg_deserialize TyBytes (Arg placeholder0 [sub_from (bs "ab")]) = Ok (XBytes (bs "ab")).
Proof. split; [exact placeholder0_json|]. split; vm_compute; reflexivity. Qed.

(** At any depth: whatever was read as bytes, a string, a sequence of integers or a JSON value from
    a placeholder is the attachment that it designates. *)
Theorem C26_bytes_delivered :
  forall t text r A bl v t' l k g, jvalue r text -> contents A = Some bl -> A <> [] ->
    arg_deserialize t (Arg text A) = Ok v -> place t r t' (RObj l) g -> placeholder_num l = Some k ->
    match t' with
    | TyBytes | TyByteBuf => exists b, nth_error bl (N.to_nat k) = Some b /\ g v = Some (XBytes b)
    | TyString | TyStr => exists b, nth_error bl (N.to_nat k) = Some b /\ utf8_valid b = true /\ g v = Some (XStr b)
    | TySeq (TyInt lo hi) => exists b, nth_error bl (N.to_nat k) = Some b /\ g v = Some (XU8s b)
    | TyValue => exists b, nth_error bl (N.to_nat k) = Some b /\ g v = Some (XValue (byte_array b))
    | _ => True
    end.
Proof. exact bytes_delivered. Qed.
Print Assumptions C26_bytes_delivered.
Example C26_delivered_nonvacuous :
  let text := bs "{""a"":[7,{""_placeholder"":true,""num"":0}]}" in
  let t := TyMap (TyTuple [TyU8; TyBytes]) in
  exists r g, jvalue r text /\ place t r TyBytes (RObj placeholder0_tree) g /\
    arg_deserialize t (Arg text [sub_from (bs "xy")]) = Ok (XMap [(bs "a", XTuple [XInt 7; XBytes (bs "xy")])]) /\
    g (XMap [(bs "a", XTuple [XInt 7; XBytes (bs "xy")])]) = Some (XBytes (bs "xy")).
Proof.
  cbv zeta. exists (RObj [(bs "a", RArr [RNum (NumLit false (bs "7") None None); RObj placeholder0_tree])]). eexists.
  split; [apply jvalue_by_scan; vm_compute; reflexivity|]. split; [|split; [vm_compute; reflexivity|]].
  apply (pl_map (TyTuple [TyU8; TyBytes]) [] (bs "a") (bs "a") (RArr [RNum (NumLit false (bs "7") None None); RObj placeholder0_tree]) []).
  - discriminate.
  - reflexivity.
  - apply Forall_nil.
  - eapply (pl_tuple _ _ 1); [reflexivity|reflexivity|apply pl_here].
  - vm_compute. reflexivity.
Qed.

(** Reading with attachments is reading the tree with the attachments written inline as arrays of
    numbers, if placeholders stand only where the type expects sequences (or anything); a
    placeholder out of range is an error. *)
Theorem C26_as_if_inline :
  forall t text r A bl, jvalue r text -> contents A = Some bl -> A <> [] -> wrap_ok r -> suits bl t r ->
    match inline bl r with
    | Some r' => forall text', jvalue r' text' -> forall v,
        arg_deserialize t (Arg text A) = Ok v <-> arg_deserialize t (Arg text' []) = Ok v
    | None => exists e, arg_deserialize t (Arg text A) = Err e
    end.
Proof. exact as_if_inline. Qed.
Print Assumptions C26_as_if_inline.
Theorem C26_inline_has_a_text :
  forall bl r text r', jvalue r text -> inline bl r = Some r' -> exists text', jvalue r' text'.
Proof. exact inline_text. Qed.
Print Assumptions C26_inline_has_a_text.
Example C26_inline_nonvacuous :
  let r := RArr [RStr (bs "x"); RObj [(bs "a", RObj placeholder0_tree)]] in
  let t := TyTuple [TyString; TyStruct [(bs "a", TySeq TyU8)]] in
  wrap_ok r /\ suits [bs "hi"] t r /\ jvalue r (bs "[""x"",{""a"":{""_placeholder"":true,""num"":0}}]") /\
  arg_deserialize t (Arg (bs "[""x"",{""a"":{""_placeholder"":true,""num"":0}}]") [sub_from (bs "hi")]) =
  arg_deserialize t (Arg (bs "[""x"",{""a"":[104,105]}]") []).
Proof.
  cbv zeta. split; [|split; [|split; [apply jvalue_by_scan; vm_compute; reflexivity|vm_compute; reflexivity]]].
  - cbn [wrap_ok allP]. split; [exact I|]. split; [|exact I]. right. split; [split; [reflexivity|discriminate]|].
    split; [left; vm_compute; discriminate|exact I].
  - cbn [suits]. split; [intros (l & [=] & _)|]. split; [intros (l & [=] & _)|]. split; [|exact I].
    split; [intros (l & [= <-] & H); apply H; reflexivity|]. split.
    + cbn [allP]. split; [|exact I]. intros _. vm_compute. discriminate.
    + split; [|exact I]. cbn [allP]. split; [|exact I]. intros _. split; [reflexivity|exact I].
Qed.

(** C43 is false of the code: an event or ack packet must have an argument. *)
Theorem C43_ack_without_arguments_refuted : ~ C43_full.
Proof. exact C43_refuted_lemma. Qed.
Print Assumptions C43_ack_without_arguments_refuted.

(** Every ack without arguments is rejected, whatever its namespace and id. *)
Theorem C43_ack_without_arguments_rejected :
  forall m ns id b, ns_ok ns -> (id <= u64_max)%N -> sub_deref_str m = Some (argless_ack ns id b) ->
    deserialize (MText m) = Err (SMissingData (bs "ack") (argless_ack ns id b)).
Proof. exact argless_ack_rejected. Qed.
Print Assumptions C43_ack_without_arguments_rejected.
Example C43_rejected_nonvacuous : ns_ok (bs "/chat") /\ argless_ack (bs "/chat") 7 true = bs "3/chat,7[]".
Proof. split; [apply ns_ok_check; vm_compute; reflexivity|vm_compute; reflexivity]. Qed.

(** The part that holds: acks with at least one argument. *)
Theorem C43_ack_without_arguments_partial :
  forall m t w l vs, sub_deref_str m = Some t -> Forall emsg_ok l -> reads_as t w ->
    w_kind w = PKAck \/ w_kind w = PKBinaryAck ->
    forall id ts, w_id w = Some id -> (id <= u64_max)%N -> elements (w_args w) ts -> ts <> [] ->
    w_count w = (match w_kind w with PKAck => None | _ => Some (N.of_nat (length l)) end) ->
    (w_kind w = PKAck -> l = []) -> (N.of_nat (length l) <= u64_max)%N ->
    all_some (map binary_content l) = Some vs ->
    exists p, received m l p /\
      view p = Some (PView KAck (match w_ns w with Some x => x | None => bs "/" end) (Some id) ts vs).
Proof. exact ack_with_arguments. Qed.
Print Assumptions C43_ack_without_arguments_partial.
Example C43_nonvacuous :
  reads_as (bs "3/a,5[1]") (Wire PKAck None (Some (bs "/a")) (Some 5%N) (Some (bs "[1]"))) /\
  exists p, received (sub_from (bs "3/a,5[1]")) [] p /\ view p = Some (PView KAck (bs "/a") (Some 5%N) [bs "1"] []).
Proof. split; [apply reads_as_header; vm_compute; reflexivity|]. eexists. split; [left; split|]; vm_compute; reflexivity. Qed.

(** C45 is false of the code: surplus bytes of an attachment are dropped silently. *)
Theorem C45_array_length_refuted : ~ C45_full.
Proof. exact C45_refuted_lemma. Qed.
Print Assumptions C45_array_length_refuted.

(** What is read: the first n bytes, if there are that many. *)
Theorem C45_array_length_partial :
  forall A bl text l k b n, jvalue (RObj l) text -> contents A = Some bl -> A <> [] ->
    placeholder_num l = Some k -> nth_error bl (N.to_nat k) = Some b ->
    forall v, arg_deserialize (TyU8Array n) (Arg text A) = Ok v <-> n <= length b /\ v = XU8Array (firstn n b).
Proof. exact array_of_attachment. Qed.
Print Assumptions C45_array_length_partial.
Example C45_nonvacuous :
  arg_deserialize (TyU8Array 2) (Arg placeholder0 [sub_from (bs "abc")]) = Ok (XU8Array (bs "ab")) /\
  arg_deserialize (TyU8Array 4) (Arg placeholder0 [sub_from (bs "abc")]) = Err (AJsonDeError placeholder0).
Proof. split; vm_compute; reflexivity. Qed.
