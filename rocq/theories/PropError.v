(** C57: which error a message is rejected with. *)
From Verif Require Import ReadProofs ErrorProofs.

(** C57: the engine decoder answers a message, after any history, with an error exactly when the protocol
    has no place for it there, and the error says which: after a close, a second Open, data before the
    Open, an unreadable Open, a frame that is neither text nor binary, an unknown type (with the message). *)
Theorem C57_engine_errors : forall h m e,
  answer_at (h ++ [m]) (length h) (Err e) <-> engine_rejects h m e.
Proof. exact engine_error_exact. Qed.
Print Assumptions C57_engine_errors.
Example C57_engine_errors_nonvacuous :
  engine_rejects [] (WText (bs "2")) EMessageBeforeOpen /\
  engine_rejects [] (WText (bs "7x")) (EInvalidMessage (WText (bs "7x"))) /\
  engine_rejects [WText (bs "0[""a"",1,2]")] (WText (bs "0")) ESecondOpen /\
  engine_rejects [WText (bs "0[""a"",1,2]"); WText (bs "1")] (WText (bs "0")) EMessageAfterClose.
Proof. repeat split; apply (proj1 (engine_error_exact _ _ _)); vm_compute; reflexivity. Qed.

(** C57: the packet parser answers a text with an error exactly when the text is no packet, and the error
    says what is wrong and carries the text (or the part of it) that is. *)
Theorem C57_text_errors : forall m t e, sub_deref_str m = Some t ->
  (deserialize (MText m) = Err e <-> rejects t e).
Proof. exact parse_error_exact. Qed.
Print Assumptions C57_text_errors.
Example C57_text_errors_nonvacuous :
  rejects (bs "x") (SInvalidMessage (bs "x")) /\
  rejects (bs "2[1,]") (SInvalidDataJson (bs "[1,]")) /\
  rejects (bs "0[1]") (SInvalidExtraData (bs "connect") (bs "0[1]")) /\
  rejects (bs "3[1]") (SMissingData (bs "ack") (bs "3[1]")) /\
  rejects (bs "23-[1]") (SInvalidAttachmentCount 0 3) /\
  rejects (bs "5[1]") (SMissingData (bs "binary event") (bs "5[1]")).
Proof.
  repeat split; apply (proj1 (parse_error_exact _ _ _ (proj2 (deref_whole _)))); vm_compute; reflexivity.
Qed.

(** C57: a binary message that no packet is waiting for is rejected with its content. *)
Theorem C57_binary_errors : forall d v e, sub_deref_vec d = Some v ->
  (deserialize (MBinary d) = Err e <-> e = SNonAttachmentBinary v).
Proof. exact binary_error. Qed.
Print Assumptions C57_binary_errors.
Example C57_binary_errors_nonvacuous : sub_deref_vec (sub_from (bs "ab")) = Some (bs "ab").
Proof. vm_compute. reflexivity. Qed.

(** C57: a text has at most one error and none if it is a packet; only a number that does not fit makes it
    neither. *)
Theorem C57_one_verdict : forall t,
  (forall e e', rejects t e -> rejects t e' -> e = e') /\
  (forall e k ns id ts n, rejects t e -> ~ accepts t k ns id ts n) /\
  ((exists k ns id ts n, accepts t k ns id ts n) \/ (exists e, rejects t e) \/
   (exists w, reads_as t w /\ (too_big (w_count w) \/ too_big (w_id w)))).
Proof. exact error_exclusive. Qed.
Print Assumptions C57_one_verdict.

(** C57: the messages that follow a binary packet are rejected exactly when one of them is text (the first
    is reported), or else the packet lacks something, or else their number is not the announced one (both
    numbers are reported). *)
Theorem C57_attachment_errors : forall m t q l e, sub_deref_str m = Some t ->
  deserialize (MText m) = Ok (DDataNeeded q) -> Forall emsg_ok l ->
  (deserialize_partial q l = Err e <-> attachments_rejected t l e).
Proof. exact attachments_error_exact. Qed.
Print Assumptions C57_attachment_errors.
Example C57_attachment_errors_nonvacuous :
  exists q, deserialize (MText (sub_from (bs "52-[1]"))) = Ok (DDataNeeded q) /\
  deserialize_partial q [MBinary (sub_from (bs "a"))] = Err (SInvalidAttachmentCount 1 2) /\
  deserialize_partial q [MBinary (sub_from (bs "a")); MText (sub_from (bs "b"))] = Err (STextAttachment (bs "b")).
Proof. eexists. split; [vm_compute; reflexivity|]. split; vm_compute; reflexivity. Qed.
