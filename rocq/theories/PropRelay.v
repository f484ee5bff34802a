(** C65: what was received as a [serde_json::Value] can be sent on and arrives unchanged. *)
From Verif Require Import RereadProofs.

(** C65 in full fails: a received object with the private key of serde_json behind another key is
    rewritten with that key first, which the next reader refuses. *)
Theorem C65_relay_refuted : ~ C65_full.
Proof. exact C65_refuted_lemma. Qed.
Print Assumptions C65_relay_refuted.

(** Values that do not put that key first and have at most 127 levels: sent on in an event or an ack,
    to any namespace, as text or (without keys [_placeholder]) in binary mode, they arrive at the root
    namespace, and whatever arrives carries exactly them. *)
Theorem C65_relay_partial :
  forall h src ns bin vs vs' fs, opened h -> ~ closed h -> ns_ok ns ->
    Forall received_value vs -> Forall relayable vs -> Forall2 reprints vs vs' -> relays src vs ->
    (bin = true -> Forall unmarked vs) ->
    build src ns bin (map value_writes vs') = Some fs ->
    (ns = bs "/" -> exists p, arrives h fs p) /\
    forall p, arrives h fs p -> carries p (src_kind src) ns (src_id src) (relayed src vs').
Proof. exact relay_arrives. Qed.
Print Assumptions C65_relay_partial.

(** Whatever is read from an argument in whose text the private key does not occur can be sent on. *)
Theorem C65_ordinary_values :
  forall m t l g r v, sub_deref_str m = Some t -> Forall emsg_ok l -> argument_of m l g ->
    jvalue r (g_text g) -> no_private r -> to_json_value g = Ok v -> relayable v.
Proof. exact ordinary_relayable. Qed.
Print Assumptions C65_ordinary_values.

(** An object with an escaped key, a negative number and an attachment, relayed in an ack. *)
Example C65_nonvacuous :
  let v := VObj [(bs "a", VArr [VNum (NPos 7); VNum (NPos 255)]); (bs "é", VNum (NNeg (-5)))] in
  received_value v /\ relayable v /\ unmarked v /\ reprints v v /\ relays (OfAck 3) [v] /\
  exists fs, build (OfAck 3) (bs "/") true [value_writes v] = Some fs.
Proof.
  cbv zeta. split; [|split; [|split; [|split; [|split]]]].
  - exists (sub_from (bs "51-[""x"",{""é"":-5,""a"":{""_placeholder"":true,""num"":0}}]")). eexists _, [MBinary (sub_from [x07; xff])], _.
    split; [vm_compute; reflexivity|]. split; [constructor; [vm_compute; discriminate|constructor]|]. split; [apply utf8_characters; vm_compute; reflexivity|]. split.
    + do 3 eexists. exists 1. split; [right; eexists; split; vm_compute; reflexivity|]. split; [vm_compute; reflexivity|]. split; vm_compute; reflexivity.
    + vm_compute. reflexivity.
  - split; [cbn; repeat split; discriminate|]. vm_compute. repeat constructor.
  - constructor; [intros [E|[E|[]]]; discriminate|]. repeat constructor.
  - repeat constructor.
  - split; [vm_compute; discriminate|discriminate].
  - eexists. vm_compute. reflexivity.
Qed.

(** Any received values, sent on in either mode: at the root namespace they arrive as a packet, and
    each argument of whatever arrives reads as the value itself if it is relayable and as nothing
    otherwise.  So no value is ever changed on the way. *)
Theorem C65_each_argument_exactly :
  forall h src ns bin vs vs' fs, opened h -> ~ closed h -> ns_ok ns ->
    Forall received_value vs -> Forall2 reprints vs vs' -> relays src vs ->
    build src ns bin (map value_writes vs') = Some fs ->
    (ns = bs "/" -> exists p, arrives h fs p) /\
    forall p, arrives h fs p -> packet_namespace p = Some ns /\ exists a gs, shows_args p (src_kind src) (src_id src) a /\ args_iter a = Ok gs /\
      Forall2 (fun v g => forall w, to_json_value g = Ok w <-> w = v /\ relayable v) (relayed src vs') gs.
Proof. exact relay_exact. Qed.
Print Assumptions C65_each_argument_exactly.

(** So what arrives carries all the values exactly when all are relayable. *)
Theorem C65_unchanged_exactly :
  forall h src ns bin vs vs' fs p, opened h -> ~ closed h -> ns_ok ns ->
    Forall received_value vs -> Forall2 reprints vs vs' -> relays src vs ->
    build src ns bin (map value_writes vs') = Some fs -> arrives h fs p ->
    (carries p (src_kind src) ns (src_id src) (relayed src vs') <-> Forall relayable vs).
Proof. exact relay_unchanged. Qed.
Print Assumptions C65_unchanged_exactly.

(** A value that is received but does not arrive, between two that do. *)
Example C65_exactly_nonvacuous :
  let vs := [VNull; trap; VArr [VStr (bs "x")]] in
  received_value trap /\ ~ relayable trap /\ Forall2 reprints vs vs /\ relays (OfEvent (bs "e") (Some 4%N)) vs /\
  exists fs p, build (OfEvent (bs "e") (Some 4%N)) (bs "/") false (map value_writes vs) = Some fs /\ arrives [sample_open] fs p.
Proof.
  cbv zeta. split; [exact trap_received|]. split; [intros [[H _] _]; exact (H eq_refl)|]. split; [repeat constructor|].
  split; [split; [vm_compute; discriminate|apply utf8_characters; reflexivity]|].
  eexists. eexists. split; [vm_compute; reflexivity|].
  destruct sample_opened as [Ho Hc].
  apply (arrives_received [sample_open] (bs "24[""e"",null,{""$serde_json::private::RawValue"":2,""a"":1},[""x""]]") [] _ Ho Hc).
  left. split; [vm_compute; reflexivity|reflexivity].
Qed.
