(** Which frames a client sends, and whether any of them joins or leaves a namespace. *)
From Verif Require Export SpecPeer SpecFlow.

(** To the peer, the frame is a packet of the type [ty] for the namespace [ns]. *)
Definition frame_for (ty : sio_type) (ns : bytes) (m : wsmsg) : Prop :=
  exists t n id d, m = WText ("4"%byte :: t) /\ sio_decode t = Some (Sio ty n ns id d).
Definition joins := frame_for SConnect.
Definition leaves := frame_for SDisconnect.
(** Where frames come from. *)
Definition made (by_ : origin) (fs : list wsmsg) : Prop :=
  match by_ with
  | ByReceiver => fs = [WText (bs "3")]
  | ByEmit ns id => exists e bin args, build (OfEvent e id) ns bin args = Some fs
  | ByAck ns id => exists bin args, build (OfAck id) ns bin args = Some fs
  | ByUser => True
  end.

(** ** Full statement of a property that turned out to be false *)
Definition C70_full : Prop := forall log s o1 ns id fs o2, trace log s (o1 ++ OQueued (ByEmit ns id) fs :: o2) ->
  exists m, In m (concat (queued o1)) /\ joins ns m.
