(** The property of the Open packet, with its theorems, the assumptions of each, and a case that
    meets its hypotheses. *)
From Verif Require Import OpenProofs.

(** ** C50 *)
(** A text message of type '0' is read as an Open packet exactly if none was before and its JSON
    says so, with just the content it says. *)
Theorem C50_open_read_exactly :
  forall ms t x, answer_at (ms ++ [WText ("0"%byte :: t)]) (length ms) (Ok (PktOpen x)) <-> ~ opened ms /\ describes t x.
Proof. exact open_exact. Qed.
Print Assumptions C50_open_read_exactly.
(** A text says at most one thing. *)
Theorem C50_open_unambiguous :
  forall t x y, describes t x -> describes t y -> x = y.
Proof. exact describes_unique. Qed.
Print Assumptions C50_open_unambiguous.
(** What [Open]'s own [Serialize] writes says that value. *)
Theorem C50_open_round_trip :
  forall x, (o_timeout x <= u64_max)%N -> (o_interval x <= u64_max)%N ->
    exists t, json_ser (open_sval x) [] = (t, OOk) /\ describes t x.
Proof. exact open_round_trip. Qed.
Print Assumptions C50_open_round_trip.
Example C50_nonvacuous :
  answer_at ([WText (bs "2")] ++ [sample_open]) 1 (Ok (PktOpen (Open (bs "lv_VI97HAXpY6yYWAAAC") 5000 25000))) /\
  ~ opened [WText (bs "2")] /\
  describes (bs " {""upgrades"":[[]],""sid"":""a\n"",""pingInterval"":1,""pingTimeout"":18446744073709551615}")
    (Open [ "a"%byte; x0a ] u64_max 1).
Proof.
  split; [vm_compute; reflexivity|]. split.
  - apply state_initial. reflexivity.
  - apply parse_open_exact. vm_compute. reflexivity.
Qed.
