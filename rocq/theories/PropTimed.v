(** C91-C93: how long connecting and closing take, and what the errors of connecting tell.
    [timed log d w given parsed t0 st t o]: connecting to the URL [given] was begun at [t0] (in
    milliseconds); at [t] the stage is [st], and [o] was observed, each with its time. Futures that can go
    on do so within [d] milliseconds. *)
From Verif Require Import TimedDemo.

(** The model with time does what the one without does: all that is proved about [trace] holds. *)
Theorem C91_model_timed :
  forall log d w given parsed t0 since c s t o,
    timed log d w given parsed t0 (TConn since c s) t o -> trace log s (sys_obs o).
Proof. exact timed_trace. Qed.
Print Assumptions C91_model_timed.
(** What is assumed about time can always be met: time can go on to any moment, without the user
    giving anything up. *)
Theorem C91_time_goes_on :
  forall log d w given parsed t0 st t o t', timed log d w given parsed t0 st t o -> (t <= t')%N ->
    exists st' o2, timed log d w given parsed t0 st' t' (o ++ o2) /\
      forall a x, In (a, x) o2 -> x <> TLetGo /\ x <> TGiveUp /\ x <> TSys (OConnect CAbandoned).
Proof. exact goes_on. Qed.
Print Assumptions C91_time_goes_on.

(** ** C91 *)
(** False of the code: the time that the user's own function takes to open a stream is not limited. *)
Theorem C91_connect_in_time_refuted : ~ C91_full.
Proof. exact C91_refuted_lemma. Qed.
Print Assumptions C91_connect_in_time_refuted.
(** From the moment the stream is there, it is decided in ten seconds, whatever the server does. *)
Theorem C91_connect_in_time_partial :
  forall log d w given parsed t0 st t o a u,
    timed log d w given parsed t0 st t o -> In (a, TRequest u) o -> (a + limit + d < t)%N ->
    exists b c, In (b, TSys (OConnect c)) o /\ (a <= b <= a + limit + d)%N.
Proof. exact connect_in_time. Qed.
Print Assumptions C91_connect_in_time_partial.
(** With [from_stream] that is at once. *)
Theorem C91_from_stream_in_time :
  forall log d given parsed t0 st t o, timed log d FromStream given parsed t0 st t o -> (t0 + limit + d < t)%N ->
    exists b x, In (b, x) o /\ connect_ended x /\ (b <= t0 + limit + d)%N.
Proof. exact from_stream_in_time. Qed.
Print Assumptions C91_from_stream_in_time.
(** A time-out is never reported before; one timer, started with the handshake, counts for both. *)
Theorem C91_timeout_not_early :
  forall log d w given parsed t0 st t o b e, timed log d w given parsed t0 st t o ->
    In (b, TSys (OConnect (CFailed e))) o -> e = CHandshakeTimeout \/ e = COpenTimeout ->
    exists a u, In (a, TRequest u) o /\ (a + limit <= b)%N.
Proof. exact not_early. Qed.
Print Assumptions C91_timeout_not_early.
(** If an Open packet is read in time, connecting gives a client at once (or the user gave up). *)
Theorem C91_open_in_time :
  forall log d w given parsed t0 st t o r u a y, timed log d w given parsed t0 st t o ->
    In (r, TRequest u) o -> In (a, TSys (OOpened y)) o -> (a + d < r + limit)%N -> (a + d < t)%N ->
    exists b c, In (b, TSys (OConnect c)) o /\ (b <= a + d)%N /\ (c = CAbandoned \/ exists sid, c = CConnected sid).
Proof. exact opened_in_time. Qed.
Print Assumptions C91_open_in_time.
Example C91_nonvacuous : parsed_ok site /\ (exists st, timed false 5 ByConnect site_text (Some site) 0 st 99000 good_obs) /\
  (exists st, timed false 5 FromStream site_text (Some site) 0 st 20000 late_obs) /\ In (10003%N, TSys (OConnect (CFailed COpenTimeout))) late_obs /\
  In (60000%N, TRequest (bs "wss://me:pw@h/?EIO=4&transport=websocket")) good_obs /\
  In (69501%N, TSys (OConnect (CConnected (bs "lv_VI97HAXpY6yYWAAAC")))) good_obs.
Proof. split; [exact site_ok|]. split; [exact good_timed|]. split; [exact late_timed|]. cbn. tauto. Qed.

(** ** C92 *)
(** An awaited [close()] has returned within ten seconds, whatever the server, the task and its
    callbacks do. *)
Theorem C92_close_in_time :
  forall log d w given parsed t0 st t o a, timed log d w given parsed t0 st t o ->
    In (a, TSys OCloseCalled) o -> (a + limit + d < t)%N ->
    exists b x, In (b, x) o /\ close_ended x /\ (a <= b <= a + limit + d)%N.
Proof. exact close_in_time. Qed.
Print Assumptions C92_close_in_time.
(** It returns as soon as the task has ended. *)
Theorem C92_close_returns_at_end :
  forall log d w given parsed t0 st t o a b e, timed log d w given parsed t0 st t o ->
    In (a, TSys OCloseCalled) o -> In (b, TSys (OEnd e)) o -> (N.max a b + d < t)%N ->
    exists b' x, In (b', x) o /\ close_ended x /\ (a <= b' <= N.max a b + d)%N.
Proof. exact close_when_ended. Qed.
Print Assumptions C92_close_returns_at_end.
(** A time-out is reported only after ten seconds in which the task did not end. *)
Theorem C92_timeout_not_early :
  forall log d w given parsed t0 st t o b, timed log d w given parsed t0 st t o -> In (b, TSys (OClose CloseTimeout)) o ->
    exists a, In (a, TSys OCloseCalled) o /\ (a + limit <= b)%N /\
      forall b' e, In (b', TSys (OEnd e)) o -> (b <= N.max a b' + d)%N.
Proof. exact close_not_early. Qed.
Print Assumptions C92_timeout_not_early.
Example C92_nonvacuous :
  (exists st, timed false 5 ByConnect site_text (Some site) 0 st 99000 good_obs) /\ In (80000%N, TSys OCloseCalled) good_obs /\ In (81000%N, TSys (OEnd EndOk)) good_obs /\
  (exists st, timed false 5 FromStream site_text (Some site) 0 st 20000 deaf_obs) /\ In (1000%N, TSys OCloseCalled) deaf_obs /\ In (11000%N, TSys (OClose CloseTimeout)) deaf_obs.
Proof. split; [exact good_timed|]. split; [cbn; tauto|]. split; [cbn; tauto|]. split; [exact deaf_timed|]. cbn. tauto. Qed.

(** ** C93 *)
(** False of the code: a URL that is refused is quoted as it was given, with name and password. *)
Theorem C93_credentials_unreported_refuted : ~ C93_full.
Proof. exact C93_refuted_lemma. Qed.
Print Assumptions C93_credentials_unreported_refuted.
(** If the URL is not refused, nothing but the request depends on them: with another name and password
    the same can be observed, with the same errors. *)
Theorem C93_credentials_unreported_partial :
  forall log d w given given' u u' secure t0 st t o, parsed_ok u -> web_scheme (u_scheme u) secure -> same_but_user u u' ->
    timed log d w given (Some u) t0 st t o ->
    exists st' o', timed log d w given' (Some u') t0 st' t o' /\
      map (fun x => (fst x, unrequested (snd x))) o' = map (fun x => (fst x, unrequested (snd x))) o /\
      forall a x e, In (a, x) o -> connect_error x e -> In (a, x) o'.
Proof. exact user_unreported. Qed.
Print Assumptions C93_credentials_unreported_partial.
(** A refused URL: nothing is done (no stream is asked for), and the error has the URL and the reason. *)
Theorem C93_refused_at_once :
  forall log d w given parsed t0 st t o e, (forall u, parsed = Some u -> parsed_ok u) -> refusal parsed e ->
    timed log d w given parsed t0 st t o -> o = [(t0, TFail (LibUrl given e))].
Proof. exact refused_alone. Qed.
Print Assumptions C93_refused_at_once.
(** Only a refused URL gives such an error. *)
Theorem C93_url_error_only_if_refused :
  forall log d w given parsed t0 st t o b x e, (forall u, parsed = Some u -> parsed_ok u) ->
    timed log d w given parsed t0 st t o -> In (b, x) o -> connect_error x e -> kind_of e = KUrlRefused ->
    exists r, refusal parsed r /\ e = LibUrl given r /\ b = t0.
Proof. exact url_error_when. Qed.
Print Assumptions C93_url_error_only_if_refused.
(** What connecting does, in order: the given function is called once, with the host and port of the URL;
    its error is reported, or the request is made on its stream. *)
Theorem C93_connect_story :
  forall log d given u secure h t0 st t o, parsed_ok u -> web_scheme (u_scheme u) secure -> u_host u = Some h ->
    timed log d ByConnect given (Some u) t0 st t o ->
    exists p req rest, effective_port u p /\ from_stream_url (Some u) = Ok req /\ o = (t0, TDial h p) :: rest /\
      (rest = [] \/ (exists a, rest = [(a, TGiveUp)]) \/
       (exists a e, rest = [(a, TStream (Some e)); (a, TFail (LibConnection e))]) \/
       exists a more, rest = (a, TStream None) :: (a, TRequest req) :: more /\ Forall (fun x => afterwards (snd x)) more).
Proof. exact connect_story. Qed.
Print Assumptions C93_connect_story.
Theorem C93_from_stream_story :
  forall log d given u secure h t0 st t o, parsed_ok u -> web_scheme (u_scheme u) secure -> u_host u = Some h ->
    timed log d FromStream given (Some u) t0 st t o ->
    exists req more, from_stream_url (Some u) = Ok req /\ o = (t0, TRequest req) :: more /\ Forall (fun x => afterwards (snd x)) more.
Proof. exact from_stream_story. Qed.
Print Assumptions C93_from_stream_story.
(** What [close()] reports: every result but Ok (and a panic) is an error that has a text, and its kind
    tells which it was; the time-out is told apart from those of connecting. *)
Theorem C93_close_told :
  forall fm lf log d w given parsed t0 st t o b r, tame fm -> timed log d w given parsed t0 st t o -> In (b, TSys (OClose r)) o ->
    match close_lib_error r with
    | None => r = CloseOk \/ r = ClosePanic
    | Some e => (exists x, lib_error_text fm lf e = Some x /\
                   (kind_of e = KTimeout -> forall c, lib_error_text fm lf (conn_lib_error c) <> Some x)) /\
        match kind_of e with
        | KTimeout => r = CloseTimeout
        | KClosed => r = CloseAlready
        | KWebsocket => r = CloseErr EndWs
        | KPacket => exists y, e = LibProcessing y /\ r = CloseErr (EndErr y)
        | _ => False
        end
    end.
Proof. exact close_told. Qed.
Print Assumptions C93_close_told.
(** What connecting reports: the kind of the error tells how it failed. A time-out is reported only ten
    seconds after the request, and its text says what was waited for. *)
Theorem C93_connect_told :
  forall fm lf log d w given parsed t0 st t o b x e, timed log d w given parsed t0 st t o -> In (b, x) o -> connect_error x e ->
    match kind_of e with
    | KTimeout => (exists a u, In (a, TRequest u) o /\ (a + limit <= b)%N) /\
        ((x = TSys (OConnect (CFailed CHandshakeTimeout)) /\
          lib_error_text fm lf e = Some (bs "Connection timed out waiting for websocket handshake")) \/
         (x = TSys (OConnect (CFailed COpenTimeout)) /\
          lib_error_text fm lf e = Some (bs "Connection timed out waiting for engine.io protocol Open message")))
    | KWebsocket => x = TSys (OConnect (CFailed CWebsocket))
    | KSpawning => x = TSys (OConnect (CFailed CSpawn))
    | KUrlRefused | KDialing => x = TFail e
    | KPacket | KClosed => False
    end.
Proof. exact connect_told. Qed.
Print Assumptions C93_connect_told.
Example C93_connect_told_nonvacuous :
  (exists st, timed false 5 FromStream site_text (Some site) 0 st 20000 late_obs) /\ (exists x e, In (10003%N, x) late_obs /\ connect_error x e /\ kind_of e = KTimeout).
Proof.
  split; [exact late_timed|]. exists (TSys (OConnect (CFailed COpenTimeout))), (LibTimeout (bs "engine.io protocol Open message")).
  split; [cbn; tauto|]. split; [right; exists COpenTimeout; split; reflexivity|reflexivity].
Qed.
(** The text of an error tells its kind, *)
Theorem C93_kind_told :
  forall fm lf e e' t, lib_error_text fm lf e = Some t -> lib_error_text fm lf e' = Some t -> kind_of e = kind_of e'.
Proof. exact kinds_told. Qed.
Print Assumptions C93_kind_told.
(** at which stage [Connection::new] failed, *)
Theorem C93_stage_told :
  forall fm lf e e' t, lib_error_text fm lf (conn_lib_error e) = Some t -> lib_error_text fm lf (conn_lib_error e') = Some t -> e = e'.
Proof. exact stages_told. Qed.
Print Assumptions C93_stage_told.
(** and which URL was refused for which reason. *)
Theorem C93_url_told :
  forall fm lf g r g' r' t, plain_parse_text lf -> (forall s, r = UrlInvalidScheme s -> scheme_chars s) ->
    (forall s, r' = UrlInvalidScheme s -> scheme_chars s) ->
    lib_error_text fm lf (LibUrl g r) = Some t -> lib_error_text fm lf (LibUrl g' r') = Some t -> g = g' /\ r = r'.
Proof. exact url_told. Qed.
Print Assumptions C93_url_told.
Example C93_nonvacuous : parsed_ok (typo (bs "me:secret")) /\ refusal (Some (typo (bs "me:secret"))) (UrlInvalidScheme (bs "htps")) /\
  web_scheme (u_scheme site) true /\ u_host site = Some (bs "h") /\ tame TextProofs.plain /\ plain_parse_text some_formats /\ scheme_chars (bs "htps") /\
  lib_error_text TextProofs.plain some_formats (LibUrl (typo_text (bs "me:secret")) (UrlInvalidScheme (bs "htps"))) =
    Some (bs "Failed to parse URI htps://me:secret@h/: Invalid scheme: ""htps""").
Proof.
  destruct (typo_ok (bs "me:secret")) as [A B]. split; [exact A|]. split; [exact B|]. split; [constructor|]. split; [reflexivity|]. split; [exact plain_tame|].
  split; [split; [cbn; intuition discriminate|split; [cbn; intuition discriminate|discriminate]]|].
  split; [|reflexivity]. intros c Hc. right. left. cbn in Hc. repeat (destruct Hc as [<-|Hc]; [split; vm_compute; discriminate|]). destruct Hc.
Qed.
