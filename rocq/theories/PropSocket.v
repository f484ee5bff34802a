(** C16-C20: parsing socket.io packets. *)
From Verif Require Import SocketProofs CharRegex CharRegexProofs.

(** C16 is false of the code: ids and attachment counts are converted by
    [parse::<u64>().unwrap()] (de.rs:83, 85). *)
Theorem C16_parsing_never_panics_refuted : ~ C16_full.
Proof. exact C16_refuted_lemma. Qed.
Print Assumptions C16_parsing_never_panics_refuted.

(** Exactly when it panics: the count or the id of the header does not fit 64 bits. *)
Theorem C16_parsing_panics_exactly :
  forall m t, sub_deref_str m = Some t ->
    (deserialize (MText m) = Panic <->
     exists w, reads_as t w /\ (too_big (w_count w) \/ too_big (w_id w))).
Proof. exact panic_exact. Qed.
Print Assumptions C16_parsing_panics_exactly.
Example C16_panics_nonvacuous :
  reads_as (bs "51-/a,99999999999999999999[1]")
    (Wire PKBinaryEvent (Some 1%N) (Some (bs "/a")) (Some 99999999999999999999%N) (Some (bs "[1]"))) /\
  deserialize (MText (sub_from (bs "51-/a,99999999999999999999[1]"))) = Panic.
Proof. split; [apply reads_as_header|]; vm_compute; reflexivity. Qed.

(** The part that holds; missing from the full statement: headers with a number of 2^64 or more. *)
Theorem C16_parsing_never_panics_partial :
  forall m, emsg_ok m ->
    (forall s t w, m = MText s -> sub_deref_str s = Some t -> reads_as t w ->
       ~ too_big (w_count w) /\ ~ too_big (w_id w)) ->
    deserialize m <> Panic.
Proof. exact no_panic_partial. Qed.
Print Assumptions C16_parsing_never_panics_partial.
Example C16_nonvacuous :
  deserialize (MText (sub_from (bs "2/a,7[""x"",[1]]"))) = Err (SInvalidDataJson (bs "[1]]")) /\
  deserialize (MBinary (sub_from (bs "xyz"))) = Err (SNonAttachmentBinary (bs "xyz")).
Proof. vm_compute. auto. Qed.

(** Completing a partial packet never panics. *)
Theorem C16_completing_never_panics :
  forall m q l, deserialize m = Ok (DDataNeeded q) -> Forall emsg_ok l -> deserialize_partial q l <> Panic.
Proof. exact partial_no_panic. Qed.
Print Assumptions C16_completing_never_panics.

(** Everything the engine decoder returns can be read, so [emsg_ok] is no restriction. *)
Theorem C16_decoder_messages_readable :
  forall ms i m, (forall s, In (WText s) ms -> utf8_valid s = true) ->
    answer_at ms i (Ok (PktMessage m)) -> emsg_ok m.
Proof. exact decoder_emsg_ok. Qed.
Print Assumptions C16_decoder_messages_readable.

Theorem C17_accessors_never_panic :
  forall m t l p, sub_deref_str m = Some t -> Forall emsg_ok l -> received m l p ->
    packet_namespace p <> None /\
    exists d, packet_data p = Some d /\
      forall a, data_args d = Some a ->
        (forall i, exists o, args_get a i = Ok o /\ (o = None <-> args_len a <= i)) /\
        (exists gs, args_iter a = Ok gs) /\
        Forall (fun s => sub_deref_vec s <> None) (a_attachments a).
Proof. exact accessors_ok. Qed.
Print Assumptions C17_accessors_never_panic.
Example C17_nonvacuous :
  exists p, received (sub_from sample_binary) [MBinary (sub_from (bs "ab")); MBinary (sub_from [])] p /\
    view p = Some (PView KAck (bs "/ns") (Some 12%N)
      [bs "{""_placeholder"":true,""num"":0}"; bs """x"""] [bs "ab"; []]).
Proof. eexists. split; [right; eexists; split|]; vm_compute; reflexivity. Qed.

Theorem C18_arguments_are_array_elements :
  forall m t l p d a, sub_deref_str m = Some t -> Forall emsg_ok l -> received m l p ->
    packet_data p = Some d -> data_args d = Some a ->
    exists w ts, reads_as t w /\ elements (w_args w) ts /\
      args_len a = length ts /\ (args_is_empty a = true <-> ts = []) /\
      (forall i, args_get a i = Ok (option_map (fun x => Arg x (a_attachments a)) (nth_error ts i))) /\
      args_iter a = Ok (map (fun x => Arg x (a_attachments a)) ts) /\
      all_some (map binary_content l) = all_some (map sub_deref_vec (a_attachments a)) /\
      length (a_attachments a) = length l.
Proof. exact arguments_exactly. Qed.
Print Assumptions C18_arguments_are_array_elements.
Example C18_nonvacuous :
  exists p a, received (sub_from (bs "2[ ""a"" ,{""b"":[1,2]}, 3.50 ]")) [] p /\
    packet_data p = Some (DataEvent None a) /\ args_len a = 3 /\ args_is_empty a = false /\
    args_get a 1 = Ok (Some (Arg (bs "{""b"":[1,2]}") [])) /\ args_get a 3 = Ok None.
Proof. eexists. eexists. split; [left; split|repeat split]; vm_compute; reflexivity. Qed.

(** The pattern of the code is a pattern over characters; matched over the characters of a message (each a
    group of one to four bytes) it gives what [accepts] is proved about, which is matched over bytes. *)
Theorem C19_matched_by_characters :
  forall t, utf8_valid t = true -> ccaptures DESERIALIZE_CRE t = captures DESERIALIZE_RE t.
Proof. exact captures_same. Qed.
Print Assumptions C19_matched_by_characters.
Example C19_characters_nonvacuous :
  let t := bs "2/" ++ [xc3; xa9; xe2; x82; xac; xf0; x9f; x98; x80] ++ bs ",7[""a""]" in
  utf8_valid t = true /\ ccaptures DESERIALIZE_CRE t <> None /\
  ccaptures DESERIALIZE_CRE (bs "2/" ++ [xc3; xa9; x0a] ++ bs ",7[""a""]") = None.
Proof. vm_compute. repeat split. discriminate. Qed.

(** Exactly the well-formed texts, with exactly their attachments, become packets, and the packet
    shows exactly what the text says. *)
Theorem C19_accepted_exactly :
  forall m t l k ns id ts vs, sub_deref_str m = Some t -> Forall emsg_ok l ->
    ((exists p, received m l p /\ view p = Some (PView k ns id ts vs)) <->
     (accepts t k ns id ts (N.of_nat (length l)) /\ all_some (map binary_content l) = Some vs /\
      (k = KEvent \/ k = KAck -> complete_ok k id ts))).
Proof. exact received_exact. Qed.
Print Assumptions C19_accepted_exactly.
Example C19_accepts_nonvacuous :
  accepts (bs "2/a?b=1,34[""x"",1]") KEvent (bs "/a?b=1") (Some 34%N) [bs """x"""; bs "1"] 0.
Proof.
  apply (accepts_by_header (bs "2/a?b=1,34[""x"",1]")
    (Wire PKEvent None (Some (bs "/a?b=1")) (Some 34%N) (Some (bs "[""x"",1]"))));
    try (vm_compute; reflexivity). cbn. repeat split; auto. discriminate.
Qed.

Theorem C19_accepted_packets_well_formed :
  forall m t l p, sub_deref_str m = Some t -> Forall emsg_ok l -> received m l p ->
    exists v w, view p = Some v /\ reads_as t w /\
      v_ns v = (match w_ns w with Some x => x | None => bs "/" end) /\
      v_id v = w_id w /\ elements (w_args w) (v_args v) /\
      match v_kind v with
      | KConnect => w_kind w = PKConnect /\ w_count w = None /\ v_id v = None /\ v_args v = [] /\ v_atts v = []
      | KDisconnect => w_kind w = PKDisconnect /\ w_count w = None /\ v_id v = None /\ v_args v = [] /\ v_atts v = []
      | KEvent => (w_kind w = PKEvent \/ w_kind w = PKBinaryEvent) /\ v_args v <> [] /\
          N.of_nat (length (v_atts v)) = opt_or 0 (w_count w)
      | KAck => (w_kind w = PKAck \/ w_kind w = PKBinaryAck) /\ v_args v <> [] /\ v_id v <> None /\
          N.of_nat (length (v_atts v)) = opt_or 0 (w_count w)
      end.
Proof. exact well_formed. Qed.
Print Assumptions C19_accepted_packets_well_formed.
Example C19_nonvacuous :
  exists p, received (sub_from (bs "1/chat,")) [] p /\
    view p = Some (PView KDisconnect (bs "/chat") None [] []).
Proof. eexists. split; [left; split|]; vm_compute; reflexivity. Qed.

Theorem C20_partial_completes_exactly :
  forall m t q, sub_deref_str m = Some t -> deserialize (MText m) = Ok (DDataNeeded q) ->
    exists k ns id ts n, accepts t k ns id ts n /\ (n > 0)%N /\ partial_attachments q = Some n /\
      forall l, Forall emsg_ok l ->
        ((exists p, deserialize_partial q l = Ok p) <->
          (N.of_nat (length l) = n /\ all_some (map binary_content l) <> None /\ complete_ok k id ts)) /\
        (forall p, deserialize_partial q l = Ok p ->
          exists vs, all_some (map binary_content l) = Some vs /\ view p = Some (PView k ns id ts vs)).
Proof. exact partial_exact. Qed.
Print Assumptions C20_partial_completes_exactly.

(** A header is partial exactly when it announces attachments. *)
Theorem C20_partial_when_announced :
  forall m t k ns id ts n, sub_deref_str m = Some t -> accepts t k ns id ts n ->
    (n = 0%N /\ exists p, deserialize (MText m) = Ok (DPacket p)) \/
    ((n > 0)%N /\ exists q, deserialize (MText m) = Ok (DDataNeeded q)).
Proof. exact partial_when. Qed.
Print Assumptions C20_partial_when_announced.
Example C20_nonvacuous :
  exists q, deserialize (MText (sub_from sample_binary)) = Ok (DDataNeeded q) /\
    partial_attachments q = Some 2%N /\
    (exists p, deserialize_partial q [MBinary (sub_from (bs "ab")); MBinary (sub_from [])] = Ok p) /\
    deserialize_partial q [MBinary (sub_from (bs "ab"))] = Err (SInvalidAttachmentCount 1 2) /\
    deserialize_partial q [MBinary (sub_from (bs "ab")); MText (sub_from (bs "t"))] = Err (STextAttachment (bs "t")).
Proof. eexists. split; [vm_compute; reflexivity|]. repeat split; try eexists; vm_compute; reflexivity. Qed.
