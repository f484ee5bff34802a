(** C07-C15, C42, C44: building packets, and reading back what was built. *)
From Verif Require Import PlainProofs LostProofs DeepProofs WriteDemo.

(** C07. After the opening quote the reader consumes exactly the escaped text up to the closing
    quote, whatever follows. *)
Theorem C07_string_scan_stops :
  forall s r, scan_value (value_fuel (json_str s ++ r)) (json_str s ++ r) = Some (RStr (escape s), r).
Proof. exact json_str_scan. Qed.
Print Assumptions C07_string_scan_stops.
(** It stands for the same string, for both readers of arguments. *)
Theorem C07_string_reads_back :
  forall s A, to_json_value (Arg (json_str s) A) = Ok (VStr s) /\ arg_deserialize TyString (Arg (json_str s) A) = Ok (XStr s).
Proof. exact string_reads_back. Qed.
Print Assumptions C07_string_reads_back.
(** This is what the builder writes for a string. *)
Theorem C07_builder_writes :
  forall b s, serialize_arg b (SStr s) =
    (Builder (b_buffer b ++ (if b_first b then ["["%byte] else [","%byte]) ++ json_str s) (b_approach b) false, Ok tt).
Proof. exact string_written. Qed.
Print Assumptions C07_builder_writes.
Example C07_nonvacuous :
  json_str [x22; x0a; "a"%byte; xc3; xa9; x01] = x22 :: bs "\""\na" ++ [xc3; xa9] ++ bs "\u0001" ++ [x22].
Proof. vm_compute. reflexivity. Qed.

Theorem C08_text_root_round_trip :
  forall h src args fs, opened h -> ~ closed h -> fits (src_id src) -> starts src args ->
    usable (all_args src args) -> build src (bs "/") false args = Some fs ->
    (exists t, fs = [WText t]) /\
    exists p, arrives h fs p /\ carries p (src_kind src) (bs "/") (src_id src) (json_values (all_args src args)).
Proof. exact text_root. Qed.
Print Assumptions C08_text_root_round_trip.
Example C08_nonvacuous :
  build demo_event (bs "/") false demo_args =
    Some [WText (bs "4212[""news"",""a,1[\""b"",{""-3"":[1,2],""k"":null},{""V"":{""f"":-1.5e30}}]")] /\
  length (json_values (all_args demo_event demo_args)) = 4.
Proof. vm_compute. auto. Qed.

(** With arguments of any depth, in either mode: the packet arrives, and each argument that is not nested
    deeper than serde_json reads comes back, whatever the others are. *)
Theorem C08_any_depth :
  forall h src ns bin args fs, opened h -> ~ closed h -> ns_ok ns -> fits (src_id src) -> starts src args ->
    Forall (fun v => serialises v = true -> val_ok v) (all_args src args) -> (bin = true -> usable_binary (all_args src args)) ->
    build src ns bin args = Some fs ->
    (ns = bs "/" -> exists p, arrives h fs p) /\
    (forall p, arrives h fs p -> packet_namespace p = Some ns /\
      exists a gs, packet_data p = Some (match src with OfEvent _ i => DataEvent i a | OfAck i => DataAck i a end) /\
        args_iter a = Ok gs /\
        Forall2 (fun v g => nesting v < 128 -> exists x, json_of (if bin then sent v else v) = Some x /\ to_json_value g = Ok x)
          (kept (all_args src args)) gs).
Proof. exact any_depth. Qed.
Print Assumptions C08_any_depth.
Example C08_any_depth_nonvacuous :
  let args := [deep 130; SFail; SStr (bs "x")] in
  Forall (fun v => serialises v = true -> val_ok v) (all_args demo_event args) /\
  map (fun v => nesting v <? 128) (kept (all_args demo_event args)) = [true; false; true].
Proof. split; [repeat constructor|vm_compute; reflexivity]. Qed.

(** C09 is false of the code: the namespace in the header is matched greedily, up to the last comma
    that can precede the argument array. *)
Theorem C09_any_namespace_round_trip_refuted : ~ C09_full.
Proof. exact C09_refuted_lemma. Qed.
Print Assumptions C09_any_namespace_round_trip_refuted.
(** Exactly when a packet of either mode arrives, what arrives then, and what happens otherwise. *)
Theorem C09_round_trip_exact :
  forall h src ns bin args fs, opened h -> ~ closed h -> ns_ok ns -> fits (src_id src) -> starts src args ->
    usable (all_args src args) -> (bin = true -> usable_binary (all_args src args)) ->
    build src ns bin args = Some fs ->
    exists a, hd_error fs = Some (WText ("4"%byte :: wire_text (Wire (out_kind src bin)
        (if bin then Some (N.of_nat (length (tl fs))) else None) (ns_opt ns) (src_id src) (Some a)))) /\
      ((exists p, arrives h fs p) <-> ns = bs "/" \/ ~ misreadable a) /\
      (forall p, arrives h fs p -> carries p (src_kind src) ns (src_id src) (pkt_values bin (all_args src args))) /\
      (ns <> bs "/" -> misreadable a ->
         forall m, history_answers (h ++ firstn 1 fs) = history_answers h ++ [Ok (PktMessage (MText m))] ->
           deserialize (MText m) = Panic \/ exists x, deserialize (MText m) = Err (SInvalidDataJson x)).
Proof. exact arrives_exact. Qed.
Print Assumptions C09_round_trip_exact.
(** The round trip holds for arguments without sequences and without '[' in strings; missing from
    the full statement: the others. *)
Theorem C09_any_namespace_round_trip_partial :
  forall h src ns args fs, opened h -> ~ closed h -> ns_ok ns -> fits (src_id src) -> starts src args ->
    usable (all_args src args) -> Forall plain (all_args src args) -> build src ns false args = Some fs ->
    exists p, arrives h fs p /\ carries p (src_kind src) ns (src_id src) (json_values (all_args src args)).
Proof. exact plain_arrives. Qed.
Print Assumptions C09_any_namespace_round_trip_partial.
Example C09_nonvacuous :
  let src := OfEvent (bs "a,b") (Some 7%N) in
  let args := [SStr (bs "x,2]"); SMap [(SStr (bs "k"), SInt 1)]] in
  ns_ok (bs "/x,y[1") /\ usable (all_args src args) /\ Forall plain (all_args src args) /\
  build src (bs "/x,y[1") false args = Some [WText (bs "42/x,y[1,7[""a,b"",""x,2]"",{""k"":1}]")].
Proof.
  cbn zeta. split; [apply ns_ok_check; vm_compute; reflexivity|]. split; [repeat constructor; cbn; (lia || discriminate)|].
  split; [|vm_compute; reflexivity]. repeat constructor; try (apply nb_check; vm_compute; reflexivity).
Qed.

(** C10 is false of the code: an ack whose first argument fails is written without the opening
    bracket (see C14), and the namespace can supply the rest. *)
Theorem C10_no_silent_corruption_refuted : ~ C10_full.
Proof. exact C10_refuted_lemma. Qed.
Print Assumptions C10_no_silent_corruption_refuted.
(** It holds if the first argument of an ack does not fail to serialise and, in binary mode, there
    is no mixed sequence (C15) and no key _placeholder; missing from the full statement: the
    others. *)
Theorem C10_no_silent_corruption_partial :
  forall h src ns bin args fs p, opened h -> ~ closed h -> ns_ok ns -> fits (src_id src) -> first_ok src args ->
    usable (all_args src args) ->
    (bin = true -> usable_binary (all_args src args) /\
       Forall (fun v => serialises v = true -> no_mixed v) (all_args src args)) ->
    build src ns bin args = Some fs -> arrives h fs p ->
    carries p (src_kind src) ns (src_id src) (json_values (all_args src args)).
Proof. exact no_corruption_values. Qed.
Print Assumptions C10_no_silent_corruption_partial.
(** With mixed sequences: what arrives is the packet that was built, except for these. *)
Theorem C10_no_silent_corruption_mixed_partial :
  forall h src ns bin args fs p, opened h -> ~ closed h -> ns_ok ns -> fits (src_id src) -> first_ok src args ->
    usable (all_args src args) -> (bin = true -> usable_binary (all_args src args)) ->
    build src ns bin args = Some fs -> arrives h fs p ->
    carries p (src_kind src) ns (src_id src) (pkt_values bin (all_args src args)).
Proof. exact no_corruption. Qed.
Print Assumptions C10_no_silent_corruption_mixed_partial.
(** It also holds, even if the first argument of an ack fails, for every namespace without a comma
    that is followed by a number and a bracket. *)
Theorem C10_no_silent_corruption_namespace_partial :
  forall h src ns bin args fs p, opened h -> ~ closed h -> ns_ok ns -> fits (src_id src) ->
    first_ok src args \/ (forall ns' i, ~ cut_short ns ns' i) ->
    usable (all_args src args) -> (bin = true -> usable_binary (all_args src args)) ->
    build src ns bin args = Some fs -> arrives h fs p ->
    carries p (src_kind src) ns (src_id src) (pkt_values bin (all_args src args)).
Proof. exact no_corruption_ns. Qed.
Print Assumptions C10_no_silent_corruption_namespace_partial.
(** Exactly when every packet that arrives is the one that was built: the first argument does not
    fail, or nothing arrives. *)
Theorem C10_no_silent_corruption_exactly :
  forall h src ns bin args fs, opened h -> ~ closed h -> ns_ok ns -> fits (src_id src) ->
    usable (all_args src args) -> (bin = true -> usable_binary (all_args src args)) ->
    build src ns bin args = Some fs ->
    ((forall p, arrives h fs p -> carries p (src_kind src) ns (src_id src) (pkt_values bin (all_args src args))) <->
     first_ok src args \/ (forall p, ~ arrives h fs p)).
Proof. exact no_corruption_exact. Qed.
Print Assumptions C10_no_silent_corruption_exactly.
(** What arrives otherwise: an ack for another namespace, and with another id, both taken from the
    namespace it was built for. *)
Theorem C10_what_arrives_instead :
  forall h src ns bin args fs p, opened h -> ~ closed h -> ns_ok ns -> ~ first_ok src args ->
    usable (all_args src args) -> build src ns bin args = Some fs -> arrives h fs p ->
    exists ns' i a, cut_short ns ns' i /\ packet_namespace p = Some ns' /\ packet_data p = Some (DataAck i a).
Proof. exact lost_bracket. Qed.
Print Assumptions C10_what_arrives_instead.
(** The corrupted packet: namespace /a,9[7 and id 5 become /a and 9. *)
Example C10_corruption :
  build (OfAck 5) corrupt_ns false corrupt_args = Some [WText (bs "43/a,9[7,5,1]")] /\
  exists p, arrives [sample_open] [WText (bs "43/a,9[7,5,1]")] p /\
    carries p KAck (bs "/a") (Some 9%N) [VNum (NPos 7); VNum (NPos 5); VNum (NPos 1)].
Proof. exact (conj corrupt_frame corrupt_packet). Qed.
Example C10_nonvacuous :
  let src := OfAck 5 in let args := [SStr (bs "x"); SFail; SBytes (bs "ab")] in
  ns_ok (bs "/n") /\ first_ok src args /\ usable (all_args src args) /\ usable_binary (all_args src args) /\
  build src (bs "/n") true args =
    Some [WText (bs "461-/n,5[""x"",{""_placeholder"":true,""num"":0}]"); WBinary (x04 :: bs "ab")] /\
  exists p, arrives [sample_open] [WText (bs "461-/n,5[""x"",{""_placeholder"":true,""num"":0}]"); WBinary (x04 :: bs "ab")] p.
Proof.
  cbn zeta. split; [apply ns_ok_check; vm_compute; reflexivity|]. split; [reflexivity|].
  split; [repeat constructor; cbn; try lia; discriminate|].
  split; [split; [repeat constructor; cbn; try discriminate|cbn; unfold u64_max; lia]|].
  split; [vm_compute; reflexivity|].
  unfold arrives, received. do 2 eexists. exists [MBinary (Sub [x04; "a"%byte; "b"%byte] (1, 3))]. split; [vm_compute; reflexivity|].
  right. eexists. split; vm_compute; reflexivity.
Qed.
Example C10_namespace_nonvacuous :
  ns_ok (bs "/n") /\ (forall ns' i, ~ cut_short (bs "/n") ns' i) /\ cut_short corrupt_ns (bs "/a") 9 /\
  ~ first_ok (OfAck 5) corrupt_args /\ usable (all_args (OfAck 5) corrupt_args).
Proof.
  split; [apply ns_ok_check; vm_compute; reflexivity|].
  split; [apply no_comma_uncut; vm_compute; intuition discriminate|].
  split; [exists (bs "7"); vm_compute; reflexivity|].
  split; [vm_compute; discriminate|]. repeat constructor; cbn; try lia; discriminate.
Qed.

Theorem C11_binary_root_round_trip :
  forall h src args fs, opened h -> ~ closed h -> fits (src_id src) -> starts src args ->
    usable (all_args src args) -> usable_binary (all_args src args) ->
    Forall (fun v => serialises v = true -> no_mixed v) (all_args src args) ->
    build src (bs "/") true args = Some fs ->
    exists p, arrives h fs p /\ carries p (src_kind src) (bs "/") (src_id src) (json_values (all_args src args)).
Proof. exact binary_root. Qed.
Print Assumptions C11_binary_root_round_trip.
Example C11_nonvacuous :
  build demo_event (bs "/") true demo_args =
    Some [WText (bs "451-12[""news"",""a,1[\""b"",{""-3"":{""_placeholder"":true,""num"":0},""k"":null},{""V"":{""f"":-1.5e30}}]");
          WBinary (x04 :: [x01; x02])].
Proof. vm_compute. reflexivity. Qed.

Theorem C12_count_truthful :
  forall src ns args, exists t bl,
    build src ns true args = Some (WText t :: map (fun b => WBinary (x04 :: b)) bl) /\
    (exists k rest, t = "4"%byte :: type_digit k :: dec (N.of_nat (length bl)) ++ "-"%byte :: rest) /\
    (forall w, reads_as (tl t) w -> w_count w = Some (N.of_nat (length bl))) /\
    (forall h m, opened h -> ~ closed h ->
       history_answers (h ++ [WText t]) = history_answers h ++ [Ok (PktMessage (MText m))] ->
       (forall q, deserialize (MText m) = Ok (DDataNeeded q) -> partial_attachments q = Some (N.of_nat (length bl)) /\ bl <> []) /\
       (forall p, deserialize (MText m) = Ok (DPacket p) -> bl = [])).
Proof. exact count_truthful. Qed.
Print Assumptions C12_count_truthful.
Example C12_nonvacuous :
  build (OfAck 5) (bs "/") true [SFail; SBytes []; STuple [SBytes (bs "a"); SFail]; SSeq [SU8 x07]] =
    Some [WText (bs "462-5,{""_placeholder"":true,""num"":0},{""_placeholder"":true,""num"":1}]");
          WBinary [x04]; WBinary [x04; x07]].
Proof. vm_compute. reflexivity. Qed.

Theorem C13_placeholders_consecutive :
  forall src ns args, starts src args -> usable (all_args src args) -> usable_binary (all_args src args) ->
    exists a r, let bl := flat_map blobs (kept (all_args src args)) in
      build src ns true args =
        Some (WText ("4"%byte :: wire_text (Wire (out_kind src true) (Some (N.of_nat (length bl))) (ns_opt ns)
                (src_id src) (Some a)))
              :: map (fun b => WBinary (x04 :: b)) bl) /\
      jvalue r a /\ placeholders r = map N.of_nat (seq 0 (length bl)).
Proof. exact placeholders_consecutive. Qed.
Print Assumptions C13_placeholders_consecutive.
Example C13_nonvacuous :
  blobs (SMap [(SInt 1, SSeq [SU8 x01]); (SInt 2, STuple [SBytes (bs "x"); SNone; SSeq [SSeq [SU8 x02; SU8 x03]]])]) =
    [[x01]; bs "x"; [x02; x03]].
Proof. vm_compute. reflexivity. Qed.

(** C14 is false of the code: a failing first argument of an ack leaves [first] false. *)
Theorem C14_failed_argument_refuted : ~ C14_full.
Proof. exact C14_refuted_lemma. Qed.
Print Assumptions C14_failed_argument_refuted.
(** Exactly what a failing call changes, in any state. *)
Theorem C14_failed_argument_exact :
  forall b v b', serialize_arg b v = (b', Err JsonSerError) -> b' = Builder (b_buffer b) (b_approach b) false.
Proof. exact failed_arg. Qed.
Print Assumptions C14_failed_argument_exact.
(** The part that holds; missing from the full statement: the first argument of an ack. *)
Theorem C14_failed_argument_partial :
  forall src ns bin before v after b b',
    match src, before with OfAck _, [] => False | _, _ => True end ->
    fresh src ns bin = Some b -> serialize_arg (serialize_args b before) v = (b', Err JsonSerError) ->
    b' = serialize_args b before /\
    finish (serialize_args b' after) = finish (serialize_args b (before ++ after)).
Proof. exact failed_arg_both. Qed.
Print Assumptions C14_failed_argument_partial.
(** Which calls fail. *)
Theorem C14_fails_exactly :
  forall b v, (exists b', serialize_arg b v = (b', Err JsonSerError)) <-> json_of v = None.
Proof. exact serialize_arg_fails. Qed.
Print Assumptions C14_fails_exactly.
Example C14_nonvacuous :
  let v := STuple [SStr (bs "x"); SBytes (bs "blob"); SFail] in
  json_of v = None /\ wrap_ser v ([], []) <> (([], []), OErr) /\
  build (OfEvent (bs "e") None) (bs "/") true [v; SBytes (bs "y")] =
    build (OfEvent (bs "e") None) (bs "/") true [SBytes (bs "y")].
Proof. vm_compute. split; [reflexivity|]. split; [discriminate|reflexivity]. Qed.

(** C15 is false of the code: a sequence that starts with a byte but is not all bytes is written with
    an extra element 4. *)
Theorem C15_sequences_preserved_refuted : ~ C15_full.
Proof. exact C15_refuted_lemma. Qed.
Print Assumptions C15_sequences_preserved_refuted.
(** Exactly what arrives in binary mode: [sent] puts a 4 in front of every mixed sequence. *)
Theorem C15_sequences_exact :
  forall h src args fs, opened h -> ~ closed h -> fits (src_id src) -> starts src args ->
    usable (all_args src args) -> usable_binary (all_args src args) ->
    build src (bs "/") true args = Some fs ->
    exists p, arrives h fs p /\
      carries p (src_kind src) (bs "/") (src_id src) (json_values (map sent (kept (all_args src args)))).
Proof. exact binary_root_exact. Qed.
Print Assumptions C15_sequences_exact.
(** The part that holds; missing from the full statement: mixed sequences. *)
Theorem C15_sequences_preserved_partial :
  forall h src args fs, opened h -> ~ closed h -> fits (src_id src) -> starts src args ->
    usable (all_args src args) -> usable_binary (all_args src args) ->
    Forall (fun v => serialises v = true -> no_mixed v) (all_args src args) ->
    build src (bs "/") true args = Some fs ->
    exists p, arrives h fs p /\ carries p (src_kind src) (bs "/") (src_id src) (json_values (all_args src args)).
Proof. exact binary_root. Qed.
Print Assumptions C15_sequences_preserved_partial.
Example C15_nonvacuous :
  usable (all_args (OfEvent (bs "a") None) mixed_args) /\ usable_binary (all_args (OfEvent (bs "a") None) mixed_args) /\
  json_values (map sent (kept mixed_args)) = [VArr [VNum (NPos 4); VNum (NPos 1); VBool true]].
Proof. split; [apply mixed_usable|]. split; [apply mixed_usable|]. vm_compute. reflexivity. Qed.

(** C42. What [finish] and [serialize_header] convert with [from_utf8_unchecked] is valid UTF-8. *)
Theorem C42_buffer_utf8 :
  forall src ns bin args b, Forall strs_ok (all_args src args) -> utf8_valid ns = true ->
    fresh src ns bin = Some b -> utf8_valid (b_buffer (serialize_args b args)) = true.
Proof. exact buffer_utf8. Qed.
Print Assumptions C42_buffer_utf8.
Theorem C42_header_utf8 :
  forall k c ns id, utf8_valid ns = true -> utf8_valid (serialize_header k c ns id) = true.
Proof. exact header_utf8. Qed.
Print Assumptions C42_header_utf8.
Theorem C42_frames_utf8 :
  forall src ns bin args fs t, Forall strs_ok (all_args src args) -> utf8_valid ns = true ->
    build src ns bin args = Some fs -> In (WText t) fs -> utf8_valid t = true.
Proof. exact frames_utf8. Qed.
Print Assumptions C42_frames_utf8.
Example C42_nonvacuous :
  let src := OfAck 1 in
  let args := [SFail; SStr [xe2; x82; xac; x0a]; STuple [SStr [xc3; xa9]; SFail]; SChar [xf0; x9f; x98; x80]] in
  Forall strs_ok (all_args src args) /\ utf8_valid (bs "/" ++ [xc3; xa9]) = true /\
  build src (bs "/" ++ [xc3; xa9]) false args =
    Some [WText (bs "43/" ++ [xc3; xa9] ++ bs ",1,""" ++ [xe2; x82; xac] ++ bs "\n"",""" ++ [xf0; x9f; x98; x80] ++ bs """]")].
Proof. cbn zeta. split; [repeat constructor|]. vm_compute. auto. Qed.

(** C44. *)
Theorem C44_building_never_panics :
  forall src ns bin args, exists b fs, fresh src ns bin = Some b /\ finish (serialize_args b args) = Some fs /\
    (forall before v after, args = before ++ v :: after -> snd (serialize_arg (serialize_args b before) v) <> Panic).
Proof. exact building_total. Qed.
Print Assumptions C44_building_never_panics.
Example C44_nonvacuous : finish (Builder [] ANormal true) = None.
Proof. vm_compute. reflexivity. Qed.
