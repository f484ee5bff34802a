(** What is said about connections that hold a limited number of bytes: C94. *)
From Verif Require Export Pipe SpecFair.

(** [net_run cfg log ls n o]: the labels [ls], in this order, lead to [n], and [o] is observed. *)
Definition net_run (cfg : pipes) (log : bool) (ls : list nlabel) (n : net) (o : list obs) : Prop :=
  nexecute cfg log net_init ls = Some (n, o).
(** Both directions hold something. *)
Definition open_pipes (cfg : pipes) : Prop := (0 < cap_up cfg)%N /\ (0 < cap_down cfg)%N.
(** Bytes of frames already begun move on; nobody begins anything. *)
Definition moves_bytes (l : nlabel) : Prop :=
  match l with NPut _ | NTake _ | NServe _ | NDone => True | _ => False end.
(** The frame that the client is writing can still be written: moving bytes is enough. *)
Definition can_be_written (cfg : pipes) (log : bool) (n : net) : Prop :=
  exists ls n1 o1 n2 o2, (forall l, In l ls -> moves_bytes l) /\ nexecute cfg log n ls = Some (n1, o1) /\
    (nstep cfg log n1 (NClient LWrite) = Some (n2, o2) \/ nstep cfg log n1 (NClient (LCloseFrame true)) = Some (n2, o2)).
(** The client is writing: a frame of a packet, or the close frame. *)
Definition client_writes (n : net) : Prop :=
  (exists m rest, s_phase (n_client n) = PSending (m :: rest)) \/ s_phase (n_client n) = PClosing.
(** The full statement (false): what the client has begun to write can be written, whatever the server
    is writing itself. *)
Definition C94_full : Prop := forall cfg log ls n o, open_pipes cfg -> net_run cfg log ls n o ->
  client_writes n -> can_be_written cfg log n.

(** Neither side's frame fits: the server reads only when it has written its frame, of which more is
    left than its pipe has room for, and so it is with the client. *)
Definition neither_fits (cfg : pipes) (n : net) : Prop :=
  reads_while_writing cfg = false /\
  (exists size, outgoing (n_client n) = Some size /\ (cap_up cfg - n_up n < size - n_part n)%N) /\
  (exists m done, n_server n = Some (m, done) /\ (cap_down cfg - n_down n < frame_bytes false m - done)%N).
(** Something that only a task which goes on can do. *)
Definition lively (x : obs) : Prop :=
  match x with ORead _ | OWrite _ | OCloseFrame | OCall _ _ | OOpened _ => True | _ => False end.
(** The task was cancelled, or dropped by the executor, or its stream failed. *)
Definition put_down (s : state) : Prop :=
  exists e, s_phase s = PEnded e /\ (e = EndWs \/ e = EndCancelled \/ e = EndAborted).

(** A life of a client and its server that goes on for ever. *)
Record net_life := NetLife { n_at : nat -> net; n_does : nat -> option nlabel; n_sees : nat -> list obs }.
Definition net_lives (cfg : pipes) (log : bool) (r : net_life) : Prop :=
  n_at r 0 = net_init /\
  forall k, match n_does r k with
            | Some l => nstep cfg log (n_at r k) l = Some (n_at r (S k), n_sees r k)
            | None => n_at r (S k) = n_at r k /\ n_sees r k = []
            end.
(** What happens to the client in it. *)
Definition client_label (n : net) (l : nlabel) : option label :=
  match l with
  | NClient l => Some l
  | NRead => match n_frames n with m :: _ => Some (LRead m) | [] => None end
  | _ => None
  end.
Definition client_life (r : net_life) : life :=
  Life (fun k => n_client (n_at r k))
       (fun k => match n_does r k with Some l => client_label (n_at r k) l | None => None end)
       (n_sees r).
(** A pipe that has room takes bytes some time; the server takes out some time what there is; a frame
    that is in the pipe is some time reported as written. *)
Definition pipe_takes (cfg : pipes) (r : net_life) : Prop :=
  forall k, exists j, k <= j /\ ((exists b, n_does r j = Some (NPut b)) \/
    (forall size, outgoing (n_client (n_at r j)) = Some size -> n_part (n_at r j) = size \/ (cap_up cfg <= n_up (n_at r j))%N)).
Definition server_reads (r : net_life) : Prop :=
  forall k, exists j, k <= j /\ ((exists b, n_does r j = Some (NTake b)) \/ n_up (n_at r j) = 0%N).
Definition writes_reported (cfg : pipes) (log : bool) (r : net_life) : Prop :=
  forall k l, l = LWrite \/ l = LCloseFrame true ->
    exists j, k <= j /\ (n_does r j = Some (NClient l) \/ nstep cfg log (n_at r j) (NClient l) = None).
(** The same of a server that reads only while it is not writing; what it writes is some time written
    if its pipe has room. *)
Definition server_reads_when_idle (r : net_life) : Prop :=
  forall k, exists j, k <= j /\ ((exists b, n_does r j = Some (NTake b)) \/ n_up (n_at r j) = 0%N \/ n_server (n_at r j) <> None).
Definition server_goes_on (cfg : pipes) (r : net_life) : Prop :=
  forall k, exists j, k <= j /\ ((exists b, n_does r j = Some (NServe b)) \/ n_does r j = Some NDone \/
    (forall m done, n_server (n_at r j) = Some (m, done) -> done <> frame_bytes false m /\ (cap_down cfg <= n_down (n_at r j))%N)).

(** Bytes that have moved, counted from the labels: into and out of the pipe to the server, into and
    out of the pipe to the client. *)
Definition moved (f : nlabel -> N) (ls : list nlabel) : N := fold_right (fun l a => (f l + a)%N) 0%N ls.
Definition bytes_put : list nlabel -> N := moved (fun l => match l with NPut k => k | _ => 0%N end).
Definition bytes_taken : list nlabel -> N := moved (fun l => match l with NTake k => k | _ => 0%N end).
Definition bytes_served : list nlabel -> N := moved (fun l => match l with NServe k => k | _ => 0%N end).
Definition bytes_fetched : list nlabel -> N := moved (fun l => match l with NFetch k => k | _ => 0%N end).
(** The frames that the server has begun to write; close frames that the client has written. *)
Definition begun (ls : list nlabel) : list wsmsg := flat_map (fun l => match l with NBegin m => [m] | _ => [] end) ls.
Definition close_frames (o : list obs) : list wsmsg := flat_map (fun x => match x with OCloseFrame => [WClose None] | _ => [] end) o.
Definition sizes (masked : bool) (ms : list wsmsg) : N := fold_right (fun m a => (frame_bytes masked m + a)%N) 0%N ms.
