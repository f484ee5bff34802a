(** C79-C81: arguments carried as texts ([RawValue]). *)
From Verif Require Import RawArgProofs RawArgDemo.

(** Read as a [RawValue], an argument of a received packet is its text, byte for byte, whatever it
    contains and whatever is attached to the packet. *)
Theorem C79_raw_reading :
  forall m t l g, sub_deref_str m = Some t -> Forall emsg_ok l -> argument_of m l g ->
    arg_raw g = Ok (g_text g) /\ json_text (g_text g).
Proof. exact raw_reading. Qed.
Print Assumptions C79_raw_reading.
(** Also an argument that no [Value] can hold, where [to_json_value] panics. *)
Example C79_nonvacuous : exists g, argument_of (sub_from photo) photo_atts g /\ arg_raw g = Ok (bs "1e999") /\ to_json_value g = Panic.
Proof. exists (Arg (bs "1e999") [sub_from (bs "ab")]). split; [apply photo_argument; vm_compute; tauto|split; apply photo_readings]. Qed.

(** What a [RawValue] can hold: a JSON text without the whitespace around it. *)
Theorem C79_what_it_holds :
  forall s t, raw_from_str s = Some t <-> json_text t /\ exists w1 w2, ws w1 /\ ws w2 /\ s = w1 ++ t ++ w2.
Proof. exact raw_from_str_exact. Qed.
Print Assumptions C79_what_it_holds.
Example C79_what_it_holds_nonvacuous : raw_from_str (bs " {""a"" : 1e999} ") = Some (bs "{""a"" : 1e999}") /\ raw_from_str (bs "1 2") = None.
Proof. split; vm_compute; reflexivity. Qed.

(** C80 is false of the code: a text with a line break is sent and never arrives. *)
Theorem C80_texts_arrive_refuted : ~ C80_full.
Proof. exact C80_refuted_lemma. Qed.
Print Assumptions C80_texts_arrive_refuted.

(** Proved part: an event or ack is built from any mixture of values and texts, with or without
    attachments. Whatever arrives has the kind, namespace and id; each text is there unchanged, each
    value reads as itself, those whose serialisation failed are left out, and the attachments are the
    byte strings of the values. In the namespace "/" it arrives exactly when no text has a line break. *)
Theorem C80_texts_arrive_partial :
  forall h src ns bin items, opened h -> ~ closed h -> ns_ok ns -> fits (src_id src) ->
    item_starts src items -> items_usable bin (all_items src items) ->
    exists fs, build_items src ns bin items = Some fs /\
      (forall p, arrives h fs p -> exists gs,
         presents p (src_kind src) ns (src_id src) gs (built_blobs bin (all_items src items)) /\
         Forall2 (item_shown bin) (kept_items (all_items src items)) gs) /\
      (ns = bs "/" -> ((exists p, arrives h fs p) <-> Forall on_one_line items)).
Proof. exact mixed_arguments. Qed.
Print Assumptions C80_texts_arrive_partial.
Example C80_partial_hypotheses : item_starts mixed_event mixed /\ items_usable true (all_items mixed_event mixed) /\ fits (src_id mixed_event) /\
  Forall on_one_line mixed /\ built_blobs true (all_items mixed_event mixed) = [bs "xy"; []] /\
  length (kept_items (all_items mixed_event mixed)) = 5.
Proof. exact mixed_ok. Qed.
Example C80_partial_nonvacuous : exists fs p gs, build_items mixed_event (bs "/") true mixed = Some fs /\ arrives [sample_open] fs p /\
  presents p KEvent (bs "/") (Some 12%N) gs [bs "xy"; []] /\ Forall2 (item_shown true) (kept_items (all_items mixed_event mixed)) gs.
Proof. exact mixed_arrives. Qed.

(** C81 is false of the code: a placeholder relayed without its attachment stays a placeholder. *)
Theorem C81_relayed_texts_refuted : ~ C81_full.
Proof. exact C81_refuted_lemma. Qed.
Print Assumptions C81_relayed_texts_refuted.

(** Proved part: any of the arguments of a received packet, sent on as texts, followed by the
    attachments as byte strings in binary mode (or with no attachments, in either mode). Whatever
    arrives carries the same attachments, and each relayed argument gives every reader what the original
    gives. In the namespace "/" it arrives. *)
Theorem C81_relayed_texts_partial :
  forall m t l p d a gs bl h src ns bin some fs,
    sub_deref_str m = Some t -> Forall emsg_ok l -> received m l p -> packet_data p = Some d -> data_args d = Some a ->
    args_iter a = Ok gs -> contents (a_attachments a) = Some bl ->
    opened h -> ~ closed h -> ns_ok ns -> fits (src_id src) -> items_usable bin (all_items src []) ->
    incl some gs -> (bin = true \/ bl = []) -> item_starts src (as_texts some ++ as_bytes bl) ->
    build_items src ns bin (as_texts some ++ as_bytes bl) = Some fs ->
    (forall p', arrives h fs p' -> exists gs', presents p' (src_kind src) ns (src_id src) gs' bl /\
       Forall2 read_alike some (firstn (length some) (after_name src gs'))) /\
    (ns = bs "/" -> exists p', arrives h fs p').
Proof. exact relayed_texts. Qed.
Print Assumptions C81_relayed_texts_partial.
Example C81_partial_original : exists p d a, received (sub_from photo) photo_atts p /\ packet_data p = Some d /\ data_args d = Some a /\
  args_iter a = Ok photo_args /\ contents (a_attachments a) = Some [bs "ab"].
Proof. exact photo_received. Qed.
Example C81_partial_nonvacuous : exists fs p' gs',
  build_items (OfEvent (bs "photo") None) (bs "/") true (as_texts (tl photo_args) ++ as_bytes [bs "ab"]) = Some fs /\
  arrives [sample_open] fs p' /\ presents p' KEvent (bs "/") None gs' [bs "ab"] /\
  Forall2 read_alike (tl photo_args) (firstn 2 (tl gs')).
Proof. exact photo_relayed. Qed.
