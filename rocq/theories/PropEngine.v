(** C01-C06: engine decoder and owned subslices. *)
From Verif Require Import EngineProofs.

(** C01 is false of the code: [decode_text] returns text messages in the initial state
    (engine.rs:120-127 has no state check). *)
Theorem C01_nothing_before_open_refuted : ~ C01_full.
Proof. exact C01_refuted_lemma. Qed.
Print Assumptions C01_nothing_before_open_refuted.

(** The part that holds.  Missing from the full statement: text messages. *)
Theorem C01_nothing_before_open_partial :
  forall ms i p, answer_at ms i (Ok p) -> is_open_packet p = false -> is_text_message p = false ->
    exists j, j < i /\ open_at ms j.
Proof. exact before_open_gen. Qed.
Print Assumptions C01_nothing_before_open_partial.
Example C01_nonvacuous :
  answer_at [sample_open; WText (bs "2")] 1 (Ok PktPing) /\
  is_open_packet PktPing = false /\ is_text_message PktPing = false.
Proof. vm_compute. auto. Qed.

(** Exactly when a text message is passed on: always, unless a Close came before. *)
Theorem C01_text_message_exact :
  forall ms i t r, nth_error ms i = Some (WText ("4"%byte :: t)) -> answer_at ms i r ->
    (exists s, r = Ok (PktMessage (MText s)) /\ (utf8_valid t = true -> sub_deref_str s = Some t)) <->
    ~ exists j, j < i /\ close_at ms j.
Proof. exact text_always. Qed.
Print Assumptions C01_text_message_exact.
Example C01_text_nonvacuous :
  nth_error [WText (bs "4hi")] 0 = Some (WText ("4"%byte :: bs "hi")) /\
  answer_at [WText (bs "4hi")] 0 (Ok (PktMessage (MText (sub_new (bs "4hi") (1, 3))))).
Proof. vm_compute. auto. Qed.

Theorem C02_at_most_one_open : forall ms i j, open_at ms i -> open_at ms j -> i = j.
Proof. exact one_open. Qed.
Print Assumptions C02_at_most_one_open.

Theorem C02_later_open_rejected :
  forall ms i j rest r, open_at ms i -> i < j -> nth_error ms j = Some (WText ("0"%byte :: rest)) ->
    answer_at ms j r ->
    r = Err ESecondOpen \/ (r = Err EMessageAfterClose /\ exists k, k < j /\ close_at ms k).
Proof. exact second_open. Qed.
Print Assumptions C02_later_open_rejected.
Example C02_nonvacuous :
  open_at [WPing []; sample_open; sample_open] 1 /\
  answer_at [WPing []; sample_open; sample_open] 2 (Err ESecondOpen).
Proof. split; [eexists|]; vm_compute; reflexivity. Qed.

Theorem C03_silence_after_close :
  forall ms i j r, close_at ms i -> i < j -> answer_at ms j r -> r = Err EMessageAfterClose.
Proof. exact after_close. Qed.
Print Assumptions C03_silence_after_close.
Example C03_nonvacuous :
  let ms := [sample_open; WText (bs "1"); WText (bs "42[1]")] in
  close_at ms 1 /\ answer_at ms 2 (Err EMessageAfterClose).
Proof. vm_compute. auto. Qed.

Theorem C04_errors_change_nothing :
  forall h m k e, answer_at (h ++ [m]) (length h) (Err e) ->
    history_answers (h ++ m :: k) =
    history_answers h ++ Err e :: skipn (length h) (history_answers (h ++ k)).
Proof. exact error_neutral. Qed.
Print Assumptions C04_errors_change_nothing.
Example C04_nonvacuous :
  answer_at ([sample_open] ++ [sample_open]) (length [sample_open]) (Err ESecondOpen).
Proof. vm_compute. reflexivity. Qed.

Theorem C04_decoding_never_panics : forall ms, Forall (fun r => r <> Panic) (history_answers ms).
Proof. exact decode_no_panic. Qed.
Print Assumptions C04_decoding_never_panics.

Theorem C05_text_round_trip :
  forall h t, ~ closed h -> utf8_valid t = true ->
    exists w s, encode_message t = Some w /\
      history_answers (h ++ [w]) = history_answers h ++ [Ok (PktMessage (MText s))] /\
      sub_deref_str s = Some t.
Proof. exact text_roundtrip. Qed.
Print Assumptions C05_text_round_trip.

Theorem C05_binary_round_trip :
  forall h d, opened h -> ~ closed h ->
    exists w s, encode_binary d = Some w /\
      history_answers (h ++ [w]) = history_answers h ++ [Ok (PktMessage (MBinary s))] /\
      sub_deref_vec s = Some d.
Proof. exact binary_roundtrip. Qed.
Print Assumptions C05_binary_round_trip.
Example C05_nonvacuous : opened [sample_open] /\ ~ closed [sample_open].
Proof.
  split; [exists 0; eexists; vm_compute; reflexivity|].
  intros ([|[|i]] & H); vm_compute in H; discriminate.
Qed.

Theorem C05_ping_pong_round_trip :
  forall h, opened h -> ~ closed h ->
    history_answers (h ++ [encode_ping]) = history_answers h ++ [Ok PktPing] /\
    history_answers (h ++ [encode_pong]) = history_answers h ++ [Ok PktPong].
Proof. exact ping_pong_roundtrip. Qed.
Print Assumptions C05_ping_pong_round_trip.

Theorem C05_package_message_panics_exactly :
  forall t, package_message t = None <-> ~ exists r, t = "4"%byte :: r.
Proof. exact package_message_exact. Qed.
Print Assumptions C05_package_message_panics_exactly.
Theorem C05_package_message_verbatim : forall t w, package_message t = Some w -> w = WText t.
Proof. exact package_message_content. Qed.
Print Assumptions C05_package_message_verbatim.

Theorem C05_package_binary_panics_exactly :
  forall t, package_binary t = None <-> ~ exists r, t = x04 :: r.
Proof. exact package_binary_exact. Qed.
Print Assumptions C05_package_binary_panics_exactly.
Theorem C05_package_binary_verbatim : forall t w, package_binary t = Some w -> w = WBinary t.
Proof. exact package_binary_content. Qed.
Print Assumptions C05_package_binary_verbatim.

Theorem C06_whole_buffer :
  forall b, sub_deref_vec (sub_from b) = Some b /\ sub_deref_str (sub_from b) = Some b.
Proof. exact deref_whole. Qed.
Print Assumptions C06_whole_buffer.

Theorem C06_subslices_compose :
  forall rs s v, sub_deref_vec s = Some v ->
    sub_deref_vec (fold_left sub_subslice rs s) = clamped_slices v rs.
Proof. exact subslices_vec. Qed.
Print Assumptions C06_subslices_compose.
Example C06_nonvacuous :
  sub_deref_vec (sub_new (bs "hello world") (6, 11)) = Some (bs "world") /\
  sub_deref_vec (fold_left sub_subslice [(1, 9); (1, 3)] (sub_new (bs "hello world") (6, 11)))
  = Some (bs "rl").
Proof. vm_compute. auto. Qed.

Theorem C06_subslice_of_string :
  forall s v r, sub_deref_str s = Some v ->
    sub_deref_str (sub_subslice s r) = str_slice v (fst r, Nat.min (snd r) (length v)).
Proof. exact subslice_str. Qed.
Print Assumptions C06_subslice_of_string.
Example C06_string_nonvacuous : sub_deref_str (sub_new (bs "4hello") (1, 6)) = Some (bs "hello").
Proof. vm_compute. reflexivity. Qed.

Theorem C06_mutation_stays_inside :
  forall s v f s', sub_deref_vec s = Some v -> length (f v) = length v ->
    sub_update_vec s f = Some s' ->
    sub_deref_vec s' = Some (f v) /\ length (sub_data s') = length (sub_data s) /\
    (forall i, i < fst (sub_range s) \/ snd (sub_range s) <= i ->
       nth_error (sub_data s') i = nth_error (sub_data s) i).
Proof. exact update_vec. Qed.
Print Assumptions C06_mutation_stays_inside.
Example C06_mutation_nonvacuous :
  sub_update_vec (sub_new (bs "hello") (1, 4)) (map (fun _ => "x"%byte)) = Some (sub_new (bs "hxxxo") (1, 4)).
Proof. vm_compute. reflexivity. Qed.

Theorem C06_equality_is_of_visible_bytes :
  forall s t a b, sub_deref_vec s = Some a -> sub_deref_vec t = Some b ->
    (sub_eq_vec s t = Some true <-> a = b) /\ (sub_eq_vec s t = Some false <-> a <> b).
Proof. exact sub_eq_vec_spec. Qed.
Print Assumptions C06_equality_is_of_visible_bytes.
Example C06_equality_nonvacuous :
  sub_eq_vec (sub_new (bs "4ab") (1, 3)) (sub_from (bs "ab")) = Some true.
Proof. vm_compute. reflexivity. Qed.
