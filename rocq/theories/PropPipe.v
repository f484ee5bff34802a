(** C94: what is begun to be written is written. *)
From Verif Require Import PipeBytes PipeEnd.

(** False of the code: while it writes a frame the task does not read.  If the server does not either,
    both wait for room that only the other could make. *)
Theorem C94_write_ends_refuted : ~ C94_full.
Proof. exact C94_refuted_lemma. Qed.
Print Assumptions C94_write_ends_refuted.

(** Exactly when a frame (or the close frame) that the client has begun cannot be written: the server
    reads only when it has written, and neither what is left of its frame nor what is left of the
    client's fits into what room there is.  If the server reads also while it writes, it always can. *)
Theorem C94_exact : forall cfg log ls n o, open_pipes cfg -> net_run cfg log ls n o -> client_writes n ->
  (can_be_written cfg log n <-> ~ neither_fits cfg n).
Proof. exact written_exactly. Qed.
Print Assumptions C94_exact.
(** Then it stays so, whatever users, the server and the network do: nothing is read any more, nothing
    written, no callback called, and no close frame sent, until the stream fails or the task is
    cancelled or dropped (closing the websocket may fail too: the run is followed until then). *)
Theorem C94_blocked_stays : forall cfg log ls n o ls' n' o', net_run cfg log ls n o -> neither_fits cfg n ->
  ~ In (NClient (LCloseFrame false)) ls' -> nexecute cfg log n ls' = Some (n', o') ->
  ((neither_fits cfg n' /\ s_phase (n_client n') = s_phase (n_client n)) \/ put_down (n_client n')) /\
  forall x, In x o' -> ~ lively x.
Proof. exact blocked_run_stays. Qed.
Print Assumptions C94_blocked_stays.
(** No size of the pipes prevents it: with a server that reads only while it does not write, a client
    that emits one event can be blocked for ever, though nobody is starved. *)
Theorem C94_any_size : forall cfg log, open_pipes cfg -> reads_while_writing cfg = false ->
  exists r k f, net_lives cfg log r /\ pipe_takes cfg r /\ server_reads_when_idle r /\ server_goes_on cfg r /\ writes_reported cfg log r /\
    callbacks_end (client_life r) /\ (forall l, l = LTake \/ l = LClosed -> fair_to log (client_life r) l) /\
    queued (seen (client_life r) k) = [[f]] /\
    forall j, k <= j -> is_connected (n_client (n_at r j)) = true /\ s_phase (n_client (n_at r j)) = PSending [f] /\
      neither_fits cfg (n_at r j) /\ writes (seen (client_life r) j) = [].
Proof. exact blocked_for_ever. Qed.
Print Assumptions C94_any_size.
Example C94_nonvacuous : open_pipes (Pipes 8 8 false) /\ exists ls n o,
  net_run (Pipes 8 8 false) false ls n o /\ client_writes n /\ neither_fits (Pipes 8 8 false) n.
Proof. exact blocked_case. Qed.

(** If the server goes on reading, every write ends, also that of the close frame: this is what
    C58 and C59 assume. *)
Theorem C94_writes_end_partial : forall cfg log r, net_lives cfg log r -> (0 < cap_up cfg)%N ->
  pipe_takes cfg r -> server_reads r -> writes_reported cfg log r ->
  lives log (client_life r) /\ writes_end (client_life r) /\ closing_ends (client_life r).
Proof. exact net_writes. Qed.
Print Assumptions C94_writes_end_partial.
(** So everything queued is written, in order and with nothing left out, or else the task leaves its
    main loop. *)
Theorem C94_queued_is_written_partial : forall cfg log r, net_lives cfg log r -> (0 < cap_up cfg)%N ->
  pipe_takes cfg r -> server_reads r -> writes_reported cfg log r ->
  callbacks_end (client_life r) -> fair_to log (client_life r) LTake ->
  forall k, exists j, k <= j /\
    (past_loop (n_client (n_at r j)) \/
     exists rest, writes (seen (client_life r) j) = concat (queued (seen (client_life r) k)) ++ rest).
Proof. exact net_queued_is_written. Qed.
Print Assumptions C94_queued_is_written_partial.
Example C94_reading_nonvacuous : exists r k, net_lives small false r /\ pipe_takes small r /\ server_reads r /\
  writes_reported small false r /\ callbacks_end (client_life r) /\ fair_to false (client_life r) LTake /\
  queued (seen (client_life r) k) = [[shouted 20]] /\ writes (seen (client_life r) k) = [shouted 20].
Proof. exact reading_life. Qed.

(** The accounts: no pipe holds more than it can; a frame counts as written only when all its bytes have
    entered the pipe, and is read only when all of them have come out; the client reads the frames of
    the server in the order in which they were begun, each once. *)
Theorem C94_bytes_accounted : forall cfg log ls n o, net_run cfg log ls n o ->
  (bytes_taken ls <= bytes_put ls <= bytes_taken ls + cap_up cfg)%N /\
  (bytes_fetched ls <= bytes_served ls <= bytes_fetched ls + cap_down cfg)%N /\
  (sizes true (writes o ++ close_frames o) <= bytes_put ls)%N /\
  (sizes false (reads o) <= bytes_fetched ls)%N /\ (bytes_served ls <= sizes false (begun ls))%N /\
  exists rest, begun ls = reads o ++ rest.
Proof. exact bytes_accounted. Qed.
Print Assumptions C94_bytes_accounted.
Example C94_bytes_nonvacuous : exists ls n o, net_run small false ls n o /\ writes o = [shouted 20] /\ length (reads o) = 1.
Proof. exact bytes_case. Qed.

(** A blocked client is released (C94_blocked_stays) when the stream fails, the executor drops the task, or the user
    calls close(), waits until its time is over, and so lets go of the task.  The first and the last
    are always possible (closing the websocket that fails leaves the client reading). *)
Theorem C94_ways_out : forall cfg log ls n o, net_run cfg log ls n o -> neither_fits cfg n ->
  ((exists n', nstep cfg log n (NClient LWriteErr) = Some (n', [OEnd EndWs]) /\ s_phase (n_client n') = PEnded EndWs) \/
   (exists n', nstep cfg log n (NClient (LCloseFrame false)) = Some (n', []) /\ s_phase (n_client n') = PReading)) /\
  (usable_client (n_client n) = true -> s_handle (n_client n) = HHeld ->
   exists n', nexecute cfg log n [NClient LCloseCall; NClient LCloseTimeout; NClient LCancel] = Some (n', [OCloseCalled; OClose CloseTimeout; OEnd EndCancelled]) /\
     s_phase (n_client n') = PEnded EndCancelled).
Proof. exact ways_out. Qed.
Print Assumptions C94_ways_out.
(** close() never succeeds on a blocked connection: it reports that the time is over (or that it was
    called before), or the failure that ended the task. *)
Theorem C94_close_fails : forall cfg log ls n o ls' n' o' r, net_run cfg log ls n o -> neither_fits cfg n ->
  ~ In (NClient (LCloseFrame false)) ls' -> nexecute cfg log n ls' = Some (n', o') -> In (OClose r) o' ->
  (r = CloseTimeout \/ r = CloseAlready) \/
  (r = CloseErr EndWs /\ s_phase (n_client n') = PEnded EndWs) \/ (r = ClosePanic /\ s_phase (n_client n') = PEnded EndAborted).
Proof. exact blocked_close. Qed.
Print Assumptions C94_close_fails.
Example C94_ways_out_nonvacuous : exists ls n o, net_run (Pipes 8 8 false) false ls n o /\ neither_fits (Pipes 8 8 false) n /\
  usable_client (n_client n) = true /\ s_handle (n_client n) = HHeld.
Proof. exact way_out_case. Qed.

(** The sizes are those of the frames of RFC 6455 ([ws_frame], byte by byte): every message has such a frame,
    with or without a mask, and it has as many bytes as the model says. *)
Theorem C94_frame_sizes : forall m masked,
  (forall t, ws_frame m masked t -> N.of_nat (length t) = frame_bytes masked m) /\
  ((N.of_nat (length (payload m)) < 2 ^ 63)%N -> exists t, ws_frame m masked t).
Proof. exact (fun m masked => conj (frame_size m masked) (frame_exists m masked)). Qed.
Print Assumptions C94_frame_sizes.
(** Bytes that are a sequence of frames are it in one way only: they tell the messages and where each
    ends. *)
Theorem C94_frames_apart : forall masked ms ts ms' ts', Forall proper ms -> Forall proper ms' ->
  Forall2 (fun m t => ws_frame m masked t) ms ts -> Forall2 (fun m t => ws_frame m masked t) ms' ts' -> concat ts = concat ts' -> ms = ms'.
Proof. exact stream_apart. Qed.
Print Assumptions C94_frames_apart.
(** What has been written has been put into the pipe byte for byte, what has been read taken out. *)
Theorem C94_written_in_bytes : forall cfg log ls n o ts rs, net_run cfg log ls n o ->
  Forall2 (fun m t => ws_frame m true t) (writes o ++ close_frames o) ts -> Forall2 (fun m t => ws_frame m false t) (reads o) rs ->
  (N.of_nat (length (concat ts)) <= bytes_put ls)%N /\ (N.of_nat (length (concat rs)) <= bytes_fetched ls)%N.
Proof. exact written_in_bytes. Qed.
Print Assumptions C94_written_in_bytes.
Example C94_frames_nonvacuous : ws_frame (WText (bs "Hello")) true [x81; x85; x37; xfa; x21; x3d; x7f; x9f; x4d; x51; x58] /\
  ws_frame (WText (bs "Hello")) false [x81; x05; x48; x65; x6c; x6c; x6f] /\
  ws_frame (WPing (bs "Hello")) false [x89; x05; x48; x65; x6c; x6c; x6f] /\
  ws_frame (WBinary (repeat x00 256)) false ([x82; x7e; x01; x00] ++ repeat x00 256).
Proof. exact rfc_hello. Qed.
