(** C83: arguments that are 128-bit integers. *)
From Verif Require Import WideProofs WideDemo.

(** C83 is false of the code: in a packet with attachments, 12.5 is read as the integer 12. *)
Theorem C83_integers_refuted : ~ C83_full.
Proof. exact C83_refuted_lemma. Qed.
Print Assumptions C83_integers_refuted.

(** Proved part: what is read is the integer part, with its sign, exactly if it is in the range of the
    type; a fraction or an exponent is refused exactly if the packet has no attachments. Never a panic. *)
Theorem C83_integers_partial :
  forall m t l g r k z, sub_deref_str m = Some t -> Forall emsg_ok l -> argument_of m l g -> jvalue r (g_text g) ->
    (arg_wide k g = Ok z <-> integer_part k r z /\ (g_attachments g = [] -> whole_number r) /\ wide_range k z) /\
    arg_wide k g <> Panic.
Proof. exact wide_exact. Qed.
Print Assumptions C83_integers_partial.
Example C83_partial_nonvacuous : arg_wide I128 (nth 2 price_args (Arg [] [])) = Ok (- 2 ^ 127)%Z /\
  (exists e, arg_wide U128 (nth 2 price_args (Arg [] [])) = Err e) /\
  argument_of (sub_from price) photo_atts (nth 2 price_args (Arg [] [])).
Proof. exact price_readings. Qed.

(** The trip: an event or ack built from any mixture of values, texts and integers of both types, with
    or without attachments. In whatever arrives, each integer is read as itself by the types that have
    it and refused by the others; the rest is as in C80. *)
Theorem C83_integers_survive :
  forall h src ns bin items, opened h -> ~ closed h -> ns_ok ns -> fits (src_id src) ->
    item_starts src items -> Forall (wide_usable bin) (all_items src items) ->
    (bin = true -> (N.of_nat (length (flat_map item_blobs (kept_items (all_items src items)))) <= u64_max)%N) ->
    exists fs, build_items src ns bin items = Some fs /\
      (forall p, arrives h fs p -> exists gs,
         presents p (src_kind src) ns (src_id src) gs (built_blobs bin (all_items src items)) /\
         Forall2 (wide_shown bin) (kept_items (all_items src items)) gs) /\
      (ns = bs "/" -> ((exists p, arrives h fs p) <-> Forall on_one_line items)).
Proof. exact wide_arguments. Qed.
Print Assumptions C83_integers_survive.
Example C83_survive_hypotheses : item_starts extremes_event extremes /\ Forall (wide_usable true) (all_items extremes_event extremes) /\
  fits (src_id extremes_event) /\ Forall on_one_line extremes /\ kept_items (all_items extremes_event extremes) = all_items extremes_event extremes /\
  built_blobs true (all_items extremes_event extremes) = [bs "xy"].
Proof. exact extremes_ok. Qed.
Example C83_survive_nonvacuous : exists fs p gs, build_items extremes_event (bs "/") true extremes = Some fs /\ arrives [sample_open] fs p /\
  presents p KEvent (bs "/") (Some 3%N) gs [bs "xy"] /\ Forall2 (wide_shown true) (all_items extremes_event extremes) gs.
Proof. exact extremes_arrive. Qed.
