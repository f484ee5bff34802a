(** Which error a message is rejected with, independently of the decoder and the parser. *)
From Verif Require Export SpecOpen SpecSocket.

(** The engine decoder, after the history [h], rejects [m] with [e]. *)
Definition engine_rejects (h : list wsmsg) (m : wsmsg) (e : eerror) : Prop :=
  (closed h /\ e = EMessageAfterClose) \/
  (~ closed h /\
   match m with
   | WPing _ | WPong _ | WClose _ => e = EWrongMessageType m
   | WText [] => e = EInvalidMessage m
   | WText (c :: t) =>
       (c = "0"%byte /\ opened h /\ e = ESecondOpen) \/
       (c = "0"%byte /\ ~ opened h /\ (forall x, ~ describes t x) /\ e = EJsonError) \/
       (In c (bs "123") /\ ~ opened h /\ e = EMessageBeforeOpen) \/
       (~ In c (bs "01234") /\ e = EInvalidMessage m)
   | WBinary d =>
       (~ opened h /\ e = EMessageBeforeOpen) \/
       (opened h /\ (forall r, d <> x04 :: r) /\ e = EInvalidMessage m)
   end).

(** The names of the packet types in errors. *)
Definition type_name (k : pkind) : bytes :=
  match k with
  | PKConnect => bs "connect" | PKDisconnect => bs "disconnect" | PKEvent => bs "event" | PKAck => bs "ack"
  | PKBinaryEvent => bs "binary event" | PKBinaryAck => bs "binary ack"
  end.
Definition is_ack (k : pkind) : Prop := k = PKAck \/ k = PKBinaryAck.
(** Something required is missing: an argument, the id of an ack, the count of a binary packet. *)
Definition lacks (w : wire) (ts : list bytes) : Prop := ts = [] \/ (is_ack (w_kind w) /\ w_id w = None).
(** What can be wrong with a packet [w] with arguments [ts] whose text is [t]. *)
Definition wrong (t : bytes) (w : wire) (ts : list bytes) (e : serror) : Prop :=
  match w_kind w with
  | PKConnect | PKDisconnect =>
      (w_count w <> None \/ w_id w <> None \/ ts <> []) /\ e = SInvalidExtraData (type_name (w_kind w)) t
  | PKEvent | PKAck =>
      (lacks w ts /\ e = SMissingData (type_name (w_kind w)) t) \/
      (~ lacks w ts /\ exists n, w_count w = Some n /\ n <> 0%N /\ e = SInvalidAttachmentCount 0 n)
  | PKBinaryEvent | PKBinaryAck =>
      (w_count w = None \/ w_count w = Some 0%N /\ lacks w ts) /\ e = SMissingData (type_name (w_kind w)) t
  end.
(** The text [t] is rejected with [e]. *)
Definition rejects (t : bytes) (e : serror) : Prop :=
  ((forall w, ~ reads_as t w) /\ e = SInvalidMessage t) \/
  exists w, reads_as t w /\ ~ too_big (w_count w) /\ ~ too_big (w_id w) /\
    ((exists a, w_args w = Some a /\ (forall ts, ~ jarray ts a) /\ e = SInvalidDataJson a) \/
     (exists ts, elements (w_args w) ts /\ wrong t w ts e)).
(** The attachments [l] for the text [t] are rejected with [e]. *)
Definition attachments_rejected (t : bytes) (l : list emsg) (e : serror) : Prop :=
  (exists l1 s x l2, l = l1 ++ MText s :: l2 /\ (forall m, In m l1 -> exists d, m = MBinary d) /\
     sub_deref_str s = Some x /\ e = STextAttachment x) \/
  ((forall m, In m l -> exists d, m = MBinary d) /\
   exists w ts, reads_as t w /\ elements (w_args w) ts /\
     ((lacks w ts /\ e = SMissingData (type_name (w_kind w)) t) \/
      (~ lacks w ts /\ exists n, w_count w = Some n /\ N.of_nat (length l) <> n /\
         e = SInvalidAttachmentCount (N.of_nat (length l)) n))).
