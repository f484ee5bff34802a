(** C68, C69, C70: the client and the reference implementation of the protocol. *)
From Verif Require Import JoinProofs.

(** ** C68 *)
(** The full statement is false: attachments are framed as in the third revision of the engine.io
    protocol while the request announces the fourth (the witness emits one byte string). *)
Theorem C68_peer_understands_refuted : ~ C68_full.
Proof. exact C68_refuted_lemma. Qed.
Print Assumptions C68_peer_understands_refuted.
(** In the third revision, or without attachments, a packet that serialises is understood by the peer
    as it was meant exactly if its namespace has no comma and the name of its event is not one that
    the peer reserves.  Missing from the full statement: attachments to a peer of the fourth revision,
    namespaces with commas, reserved names. *)
Theorem C68_peer_understands_partial :
  forall v src ns bin args fs, ns_ok ns -> readable_ids src -> starts src args ->
    usable (all_args src args) -> (bin = true -> usable_binary (all_args src args)) ->
    (N.of_nat (length (attachments src bin args)) < exact_max)%N -> v = Third \/ attachments src bin args = [] ->
    build src ns bin args = Some fs ->
    (peer_gets v fs (src_kind src) ns (src_id src) (pkt_values bin (all_args src args)) <->
     ~ In ","%byte ns /\ free_name src).
Proof. exact peer_exactly. Qed.
Print Assumptions C68_peer_understands_partial.
(** A peer of the fourth revision gets each byte string with one byte too many in front. *)
Theorem C68_extra_byte :
  forall src ns bin args fs, build src ns bin args = Some fs ->
    exists t, fs = WText t :: map (attachment_frame Third) (attachments src bin args) /\
              fs = WText t :: map (attachment_frame Fourth) (map (cons x04) (attachments src bin args)).
Proof. exact extra_byte. Qed.
Print Assumptions C68_extra_byte.
Example C68_nonvacuous : exists fs,
  build (OfEvent (bs "msg") (Some 7%N)) (bs "/chat") true [SStr (bs "x"); SBytes (bs "ab")] = Some fs /\
  fs = [WText (bs "451-/chat,7[""msg"",""x"",{""_placeholder"":true,""num"":0}]"); WBinary (x04 :: bs "ab")] /\
  peer_gets Third fs KEvent (bs "/chat") (Some 7%N) [VStr (bs "msg"); VStr (bs "x"); byte_array (bs "ab")].
Proof.
  eexists. split; [vm_compute; reflexivity|]. split; [reflexivity|].
  apply (C68_peer_understands_partial Third (OfEvent (bs "msg") (Some 7%N)) (bs "/chat") true [SStr (bs "x"); SBytes (bs "ab")]).
  - split; [exists (bs "chat"); reflexivity|]. vm_compute. intuition discriminate.
  - intros i [= <-]. reflexivity.
  - exact I.
  - repeat constructor.
  - intros _. split; [repeat constructor|]. vm_compute. discriminate.
  - reflexivity.
  - left. reflexivity.
  - vm_compute. reflexivity.
  - split; vm_compute; intuition discriminate.
Qed.
Example C68_reserved : build (OfEvent (bs "disconnect") None) (bs "/") false [] = Some [WText (bs "42[""disconnect""]")] /\
  ~ free_name (OfEvent (bs "disconnect") None).
Proof. split; [vm_compute; reflexivity|]. intros H. apply H. vm_compute. tauto. Qed.

(** ** C69 *)
(** The full statement is false: the answer to a request to join a namespace is refused. *)
Theorem C69_client_understands_refuted : ~ C69_full.
Proof. exact C69_refuted_lemma. Qed.
Print Assumptions C69_client_understands_refuted.
(** What the client understands of the packets of the peer, exactly: in the third revision, or without
    attachments, disconnects, and events and acks that have arguments, if they are for the default
    namespace or their text has no opening bracket after a comma.  Missing from the full statement: the
    others. *)
Theorem C69_client_understands_partial :
  forall v h p bl ts k, opened h -> ~ closed h -> sends p -> o_count p = N.of_nat (length bl) -> sio_args p ts ->
    sio_kind k (o_type p) ->
    (client_gets h (WText ("4"%byte :: sio_encode p) :: map (attachment_frame v) bl) k (o_nsp p) (o_id p) ts bl <->
     (v = Third \/ bl = []) /\ understood p ts).
Proof. exact client_exact. Qed.
Print Assumptions C69_client_understands_partial.
(** Answers to a request to join a namespace, positive or negative, are refused ... *)
Theorem C69_join_answer_refused :
  forall p, sends p -> opens_namespace (o_type p) -> rejects (sio_encode p) (SInvalidMessage (sio_encode p)).
Proof. exact connect_rejects. Qed.
Print Assumptions C69_join_answer_refused.
(** ... and end the connection. *)
Theorem C69_join_answer_ends :
  forall log s o p s' o', trace log s o -> live o -> between_packets o ->
    sends p -> opens_namespace (o_type p) -> step log s (LRead (WText ("4"%byte :: sio_encode p))) = Some (s', o') ->
    o' = [ORead (WText ("4"%byte :: sio_encode p)); OEnd (EndErr (RSocket (SInvalidMessage (sio_encode p))))] /\
    s_phase s' = PEnded (EndErr (RSocket (SInvalidMessage (sio_encode p)))).
Proof. exact connect_ends. Qed.
Print Assumptions C69_join_answer_ends.
(** An attachment in the fourth revision ends the connection, unless it happens to begin with the byte
    4. *)
Theorem C69_attachment_ends :
  forall log s o b s' o', trace log s o -> live o -> (forall r, b <> x04 :: r) ->
    step log s (LRead (attachment_frame Fourth b)) = Some (s', o') ->
    o' = [ORead (WBinary b); OEnd (EndErr (REngine (EInvalidMessage (WBinary b))))] /\
    s_phase s' = PEnded (EndErr (REngine (EInvalidMessage (WBinary b)))).
Proof. exact attachment_ends. Qed.
Print Assumptions C69_attachment_ends.
(** Whatever the peer sends that the client does not understand ends the connection, with an error of
    the parser or with a panic. *)
Theorem C69_not_understood_ends :
  forall log s o p ts s' o', trace log s o -> live o -> between_packets o ->
    sends p -> sio_args p ts -> ~ understood p ts -> step log s (LRead (WText ("4"%byte :: sio_encode p))) = Some (s', o') ->
    exists e, o' = [ORead (WText ("4"%byte :: sio_encode p)); OEnd e] /\ s_phase s' = PEnded e /\
      (e = EndPanic \/ exists x, rejects (sio_encode p) x /\ e = EndErr (RSocket x)).
Proof. exact misunderstood_ends. Qed.
Print Assumptions C69_not_understood_ends.
(** Here the text of a message makes the task panic. *)
Example C69_text_panics : sends gossip /\ sio_args gossip [bs """m"""; bs """a,99999999999999999999[b"""] /\
  ~ understood gossip [bs """m"""; bs """a,99999999999999999999[b"""] /\
  exists s o s', trace false s o /\ live o /\ between_packets o /\
    step false s (LRead (WText ("4"%byte :: sio_encode gossip))) =
      Some (s', [ORead (WText (bs "42/chat,[""m"",""a,99999999999999999999[b""]")); OEnd EndPanic]).
Proof.
  split; [exact gossip_sent|]. split; [exact gossip_args|]. split; [exact gossip_misunderstood|exact gossip_panics].
Qed.
Example C69_nonvacuous :
  sends greeting /\ sio_encode greeting = bs "51-/chat,3[""hi"",{""_placeholder"":true,""num"":0}]" /\
  sio_args greeting [bs """hi"""; bs "{""_placeholder"":true,""num"":0}"] /\
  understood greeting [bs """hi"""; bs "{""_placeholder"":true,""num"":0}"] /\
  (sends welcome /\ sio_encode welcome = bs "0{""sid"":""x""}" /\ opens_namespace (o_type welcome)) /\
  exists s o s' o', trace false s o /\ live o /\ between_packets o /\
    step false s (LRead (WText ("4"%byte :: sio_encode welcome))) = Some (s', o').
Proof.
  split; [exact greeting_sent|]. split; [vm_compute; reflexivity|]. split; [exact greeting_args|].
  split; [exact greeting_understood|]. split; [|exact welcome_read].
  split; [exact welcome_sent|]. split; [vm_compute; reflexivity|]. left. reflexivity.
Qed.

(** ** C70 *)
(** The full statement is false: events are sent for namespaces that were never joined. *)
Theorem C70_joined_before_use_refuted : ~ C70_full.
Proof. exact C70_refuted_lemma. Qed.
Print Assumptions C70_joined_before_use_refuted.
(** The client itself joins and leaves no namespace at all: a frame that does was given to the channel
    by the user. *)
Theorem C70_never_joins :
  forall log s o m ns, trace log s o -> In m (writes o) -> joins ns m \/ leaves ns m ->
    exists fs, In (OQueued ByUser fs) o /\ In m fs.
Proof. exact never_joins. Qed.
Print Assumptions C70_never_joins.
(** Every frame that is written was queued, and everything queued is an answer to a ping, an event or
    ack as its builder makes it, or frames of the user. *)
Theorem C70_written_was_queued :
  forall log s o m, trace log s o -> In m (writes o) -> exists by_ fs, In (OQueued by_ fs) o /\ In m fs.
Proof. exact written_from. Qed.
Print Assumptions C70_written_was_queued.
Theorem C70_sources_partial :
  forall log s o by_ fs, trace log s o -> In (OQueued by_ fs) o -> made by_ fs.
Proof. exact sources. Qed.
Print Assumptions C70_sources_partial.
Example C70_nonvacuous : exists s o, trace false s o /\
  writes o = [WText (bs "42/chat,[""hello"",""x""]")] /\
  joins (bs "/chat") (WText (bs "40/chat,")) /\ leaves (bs "/") (WText (bs "41")).
Proof.
  destruct (execute false init chat_run) as [[s o]|] eqn:E; [|vm_compute in E; discriminate].
  exists s, o. split; [exact (run_trace _ _ _ _ E)|]. vm_compute in E. injection E as <- <-.
  split; [vm_compute; reflexivity|]. split; repeat eexists.
Qed.
