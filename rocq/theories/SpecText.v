(** What the text of an error shows: C73. *)
From Verif Require Export ErrorText SpecShow SpecClient.

(** What the libraries contribute has no control characters. *)
Definition tame (fm : formats) : Prop :=
  one_line (fm_json_debug fm) /\ one_line (fm_json fm) /\ (forall v, one_line (fm_value fm v)) /\ (forall f, one_line (fm_close fm f)).
(** The full statement (false): the text of the error with which a message from the server ended the
    task is a single line. *)
Definition C73_full : Prop := forall fm log s o m s' o' e, tame fm -> trace log s o -> step log s (LRead m) = Some (s', o') ->
  In (OEnd (EndErr e)) o' -> exists t, error_text fm e = Some t /\ no_newline t.
(** The text [x], sent by the server where a packet or an attachment was expected, is quoted. *)
Definition quotes_text (e : rerror) (x : bytes) : Prop := e = RSocket (SInvalidMessage x) \/ e = RSocket (STextAttachment x).
