(** Observations used in the statements about the engine decoder and subslices. *)
From Verif Require Export Engine.

(** What a decoder in state [st] answers, message by message. *)
Fixpoint answers (st : dstate) (ms : list wsmsg) : list (res eerror epacket) :=
  match ms with
  | [] => []
  | m :: ms' => let (st', r) := decode st m in r :: answers st' ms'
  end.
(** Answers of a fresh decoder to a whole history of messages. *)
Definition history_answers (ms : list wsmsg) : list (res eerror epacket) := answers decoder_new ms.

(** The [i]-th answer of a fresh decoder fed with [ms]. *)
Definition answer_at (ms : list wsmsg) (i : nat) (r : res eerror epacket) : Prop :=
  nth_error (history_answers ms) i = Some r.

Definition open_at (ms : list wsmsg) (i : nat) : Prop := exists o, answer_at ms i (Ok (PktOpen o)).
Definition close_at (ms : list wsmsg) (i : nat) : Prop := answer_at ms i (Ok PktClose).
Definition opened (ms : list wsmsg) : Prop := exists i, open_at ms i.
Definition closed (ms : list wsmsg) : Prop := exists i, close_at ms i.

Definition is_open_packet (p : epacket) : bool := match p with PktOpen _ => true | _ => false end.
Definition is_text_message (p : epacket) : bool :=
  match p with PktMessage (MText _) => true | _ => false end.

(** Slicing with the end clamped to the length; [None] when the start lies beyond the end. *)
Definition clamped_slice (v : bytes) (r : range) : option bytes :=
  if fst r <=? Nat.min (snd r) (length v) then Some (slice (fst r) (Nat.min (snd r) (length v)) v)
  else None.
Fixpoint clamped_slices (v : bytes) (rs : list range) : option bytes :=
  match rs with
  | [] => Some v
  | r :: rs' => match clamped_slice v r with Some w => clamped_slices w rs' | None => None end
  end.

(** C01 in full: whatever a fresh decoder returns, apart from Open itself, comes after an Open. *)
Definition C01_full : Prop :=
  forall ms i p, answer_at ms i (Ok p) -> is_open_packet p = false ->
    exists j, j < i /\ open_at ms j.

(** Sample history used in the non-vacuity examples. *)
Definition sample_open : wsmsg :=
  WText (bs "0{""sid"":""lv_VI97HAXpY6yYWAAAC"",""pingInterval"":25000,""pingTimeout"":5000}").
