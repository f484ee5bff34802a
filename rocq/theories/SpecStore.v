(** What the server can make a client keep: C71. *)
From Verif Require Export SpecHeld SpecFlow SpecDeliver.

(** The attachments kept until the packet they belong to is complete. *)
Definition buffered (s : state) : list emsg :=
  match r_progress (s_receiver s) with Some (_, l) => l | None => [] end.
(** No packet is waited for. *)
Definition nothing_kept (s : state) : Prop := r_progress (s_receiver s) = None.

(** What one message [m] may leave behind in the client: *)
Record leaves_behind (s s' : state) (m : wsmsg) (o' : list obs) : Prop := LeavesBehind {
  (* no callback that was not there, *)
  lb_callbacks : forall f, held (s_table s') f -> held (s_table s) f;
  (* no namespace that was not there, *)
  lb_namespaces : forall ns, In ns (map fst (s_table s')) <-> In ns (map fst (s_table s));
  lb_size : length (s_table s') = length (s_table s);
  (* no work in other threads, no ids used up, *)
  lb_inflight : s_inflight s' = s_inflight s;
  lb_ids : s_next_id s' = s_next_id s;
  (* for a ping one packet to be written, *)
  lb_queue : (task_ended s' = true /\ s_chan s' = []) \/ s_chan s' = s_chan s \/
             (o' = [ORead m; OQueued ByReceiver [WText (bs "3")]] /\ s_chan s' = s_chan s ++ [[WText (bs "3")]]);
  (* for an event that asks for an ack one builder, given to the callback called, *)
  lb_acks : s_acks s' = s_acks s \/
            (exists p f a b, o' = [ORead m; OCall p (EventCall f a (Some b))] /\ s_acks s' = s_acks s ++ [(ab_ns b, ab_id b)]);
  (* at most one attachment. *)
  lb_buffer : buffered s' = [] \/ buffered s' = buffered s \/ exists x, buffered s' = buffered s ++ [x] }.
