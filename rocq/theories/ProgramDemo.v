(** Runs of the example programs (SpecProgram.v). *)
From Verif Require Export ProgramProofs ProgramMain ProgramAnswers ProgramMore ClientDemo SpecProgram.
From Verif Require Import ClientProofs SpecProgram.

(** Connecting, until [connect] has returned. *)
Definition program_opens : list glabel := [GTask (LHandshake None); GTask (LRead sample_open); GTask LOpenSeen].
(** socketio_test: a question from the server is answered, the own question is asked and answered,
    the connection is closed. *)
Definition test_session : list glabel := program_opens ++
  [GMain; GMain; GMain; GTask (LRead (WText (bs "427[""types"",[1,true]]"))); GBody; GBody; GBody; GBody;
   GMain; GMain; GMain; GTask LTake; GTask LWrite; GTask LTake; GTask LWrite; GTask LWrite;
   GTask (LRead (WText (bs "430[5]"))); GBody; GBody; GMain; GTask LClosed; GTask (LCloseFrame true); GTask LReadEnd; GCloseReturn; GMain].
(** ws_connect with a namespace. *)
Definition chat_session : list glabel := program_opens ++
  [GMain; GMain; GMain; GTask LTake; GTask LWrite; GTask (LRead (WText (bs "42/chat,[""x"",1]"))); GBody; GBody;
   GTask (LRead (WText (bs "42[""y""]"))); GBody; GBody; GMain; GTask LReadEnd; GCloseReturn; GMain].
(** The server sends a number that cannot be displayed; the callback panics, and so does [main]. *)
Definition bad_number : wsmsg := WText (bs "42[""x"",1e999]").
Definition crash_session : list glabel := program_opens ++
  [GMain; GMain; GTask (LRead bad_number); GBody; GCloseReturn; GMain].
(** A callback runs while the main thread sets one. *)
Definition waiting_session : list glabel := program_opens ++ [GMain; GTask (LRead (WText (bs "42[""x""]")))].

Definition after_run (p : program) (ls : list glabel) : prog := match gexecute p false prog_init ls with Some (g, _) => g | None => prog_init end.
Definition seen_by (p : program) (ls : list glabel) : list gobs := match gexecute p false prog_init ls with Some (_, o) => o | None => [] end.
Lemma ran p ls : gexecute p false prog_init ls <> None -> prog_run p false ls (after_run p ls) (seen_by p ls).
Proof. unfold prog_run, after_run, seen_by. destruct (gexecute _ _ _ _) as [[g o]|]; [reflexivity|congruence]. Qed.
Lemma test_ran : prog_run SocketioTest false test_session (after_run SocketioTest test_session) (seen_by SocketioTest test_session).
Proof. apply ran. vm_compute. discriminate. Qed.
Lemma chat_ran : prog_run (WsConnect (Some (bs "/chat"))) false chat_session (after_run (WsConnect (Some (bs "/chat"))) chat_session) (seen_by (WsConnect (Some (bs "/chat"))) chat_session).
Proof. apply ran. vm_compute. discriminate. Qed.
Lemma crash_ran : prog_run (WsConnect None) false crash_session (after_run (WsConnect None) crash_session) (seen_by (WsConnect None) crash_session).
Proof. apply ran. vm_compute. discriminate. Qed.
Lemma waiting_ran : prog_run SocketioTest false waiting_session (after_run SocketioTest waiting_session) (seen_by SocketioTest waiting_session).
Proof. apply ran. vm_compute. discriminate. Qed.
Lemma C98_refuted_lemma : ~ C98_full.
Proof.
  intros F. apply (F _ _ _ _ _ crash_ran); vm_compute; [intros X|]; repeat (destruct X as [X|X]; [discriminate X|]); auto 20.
Qed.
Definition types_message : wsmsg := WText (bs "427[""types"",[1,true]]").
Definition types_before : list glabel := program_opens ++ [GMain; GMain].
Lemma types_go : exists g o g' o' pk a, prog_run SocketioTest false types_before g o /\ callbacks_set SocketioTest (sys o) /\
  gstep SocketioTest false g (GTask (LRead types_message)) = Some (g', o') /\
  completes (sys o) types_message pk /\ packet_namespace pk = Some (bs "/") /\ packet_data pk = Some (DataEvent (Some 7%N) a) /\
  event_name pk (Ok (bs "types")) /\ goes_to SocketioTest (bs "/") (bs "types") = Some cb_types.
Proof.
  destruct (gexecute SocketioTest false prog_init types_before) as [[g o]|] eqn:E; [|vm_compute in E; discriminate].
  destruct (gstep SocketioTest false g (GTask (LRead types_message))) as [[g' o']|] eqn:S; [|vm_compute in E; injection E as <- <-; vm_compute in S; discriminate].
  assert (R : prog_run SocketioTest false (types_before ++ [GTask (LRead types_message)]) g' (o ++ o')).
  { unfold prog_run. rewrite gexecute_app, E. cbn [gexecute]. rewrite S, app_nil_r. reflexivity. }
  assert (X : exists pk a ab, sys o' = [ORead types_message; OCall pk (EventCall 1%N a ab)] /\ packet_namespace pk = Some (bs "/") /\ packet_data pk = Some (DataEvent (Some 7%N) a)).
  { vm_compute in E. injection E as <- <-. vm_compute in S. injection S as <- <-. do 3 eexists. split; [vm_compute; reflexivity|]. split; vm_compute; reflexivity. }
  destruct X as (pk & a & ab & X & Hn & Hd). exists g, o, g', o', pk, a. split; [exact E|]. split; [vm_compute in E; injection E as <- <-; vm_compute; auto 10|]. split; [exact S|].
  pose proof (prog_trace _ _ _ _ _ R) as Ht. rewrite sys_app, X in Ht. change [ORead types_message; OCall pk (EventCall 1%N a ab)] with ([ORead types_message] ++ [OCall pk (EventCall 1%N a ab)]) in Ht. rewrite app_assoc in Ht.
  destruct (event_calls_routed _ _ _ _ _ _ _ _ Ht) as (o0 & m & ns & id & name & Eo & Hc & Hn' & Hd' & He & Hr & _).
  apply app_inj_tail in Eo as [<- Em]. injection Em as <-. split; [exact Hc|]. split; [exact Hn|]. split; [exact Hd|].
  rewrite Hn in Hn'. injection Hn' as <-. apply routed_set in Hr. assert (T : tables (sys o) = [SetFallback (bs "/") cb_print; SetEvent (bs "/") (bs "types") cb_types]) by (vm_compute in E; injection E as <- <-; vm_compute; reflexivity).
  rewrite T in Hr. destruct Hr as [[Q|[Q|[]]]|[Q|[Q|[]]]]; try discriminate Q. injection Q as <-. split; [exact He|reflexivity].
Qed.
