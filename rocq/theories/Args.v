(** Model of the reading half of socket-io-protocol/src/socket/args/mod.rs. *)
From Verif Require Export SocketDe.

(** args/mod.rs:31-41 [enum Error], reading part; [JsonError] is abstracted. *)
Inductive aerror :=
| ANoNumInPlaceholderObject (v : value)
| APlaceholderIndexOutOfRange (idx len : N)
| AJsonDeError (text : bytes).

(** args/mod.rs:44-50 [Args::len], [Args::is_empty] *)
Definition args_len (a : args_t) : nat := length (a_ranges a).
Definition args_is_empty (a : args_t) : bool := args_len a =? 0.
(** args/mod.rs:52-57 [Args::get]: [Ok None] beyond the end; [Panic] if slicing panics. *)
Definition args_get (a : args_t) (idx : nat) : res aerror (option arg_t) :=
  match nth_error (a_ranges a) idx with
  | None => Ok None
  | Some r =>
      match str_slice (a_message a) r with
      | Some t => Ok (Some (Arg t (a_attachments a)))
      | None => Panic
      end
  end.
(** args/mod.rs:59-61, 135-143 [Args::iter] / [ArgsIter::next]: [get(idx)] with increasing [idx]
    until it answers [None].  [k] is fuel; [S (args_len a)] always suffices. *)
Fixpoint args_iter_from (k : nat) (a : args_t) (idx : nat) : res aerror (list arg_t) :=
  match k with
  | O => Ok []
  | S k' =>
      match args_get a idx with
      | Ok (Some g) => rmap (cons g) (args_iter_from k' a (S idx))
      | Ok None => Ok []
      | Err e => Err e
      | Panic => Panic
      end
  end.
Definition args_iter (a : args_t) : res aerror (list arg_t) := args_iter_from (S (args_len a)) a 0.

Definition key_placeholder : bytes := bs "_placeholder".
Definition key_num : bytes := bs "num".

(** [Value::as_u64] *)
Definition as_u64 (v : value) : option N :=
  match v with VNum (NPos n) => Some n | _ => None end.

(** The [Value::Array] built from an attachment (args/mod.rs:119). *)
Definition bytes_value (b : bytes) : value := VArr (map (fun c => VNum (NPos (bN c))) b).

(** args/mod.rs:88-121 [fill_placeholders_value].  On an error the (partially filled) value is
    discarded by the only caller, so it is not returned. *)
Fixpoint fill_placeholders (buffers : list subslice_t) (v : value) {struct v} : res aerror value :=
  match v with
  | VNull | VBool _ | VNum _ | VStr _ => Ok v
  | VArr l =>
      rmap VArr ((fix go (l : list value) : res aerror (list value) :=
         match l with
         | [] => Ok []
         | x :: l' => rbind (fill_placeholders buffers x) (fun x' => rmap (cons x') (go l'))
         end) l)
  | VObj m =>
      match obj_get key_placeholder m with
      | Some _ =>
          match match obj_get key_num m with Some n => as_u64 n | None => None end with
          | None => Err (ANoNumInPlaceholderObject v)
          | Some idx =>
              if (idx <? N.of_nat (length buffers))%N then
                match nth_error buffers (N.to_nat idx) with
                | Some b =>
                    match sub_deref_vec b with
                    | Some d => Ok (bytes_value d)
                    | None => Panic
                    end
                | None => Panic (* impossible: the index is in range *)
                end
              else Err (APlaceholderIndexOutOfRange idx (N.of_nat (length buffers)))
          end
      | None =>
          rmap VObj ((fix go (l : list (bytes * value)) : res aerror (list (bytes * value)) :=
             match l with
             | [] => Ok []
             | (k, x) :: l' =>
                 rbind (fill_placeholders buffers x) (fun x' => rmap (cons (k, x')) (go l'))
             end) m)
      end
  end.

(** args/mod.rs:65-73 [Arg::to_json_value]; the [unwrap] is a panic when the strict reader
    rejects the text. *)
Definition to_json_value (g : arg_t) : res aerror value :=
  match from_str_value (g_text g) with
  | None => Panic
  | Some v =>
      match g_attachments g with
      | [] => Ok v
      | atts => fill_placeholders atts v
      end
  end.

(** args/mod.rs:160-164 [Display for Arg]: [unwrap]s [to_json_value]; [None] is a panic. *)
Definition show_arg (g : arg_t) : option bytes :=
  match to_json_value g with Ok v => Some (value_text v) | _ => None end.
(** args/mod.rs:145-158 [Display for Args] *)
Fixpoint show_arg_list (first : bool) (l : list arg_t) : option bytes :=
  match l with
  | [] => Some []
  | g :: l' =>
      match show_arg g, show_arg_list false l' with
      | Some t, Some r => Some ((if first then [] else bs ", ") ++ t ++ r)
      | _, _ => None
      end
  end.
Definition show_args (a : args_t) : option bytes :=
  match args_iter a with
  | Ok l => match show_arg_list true l with
            | Some t => Some ("["%byte :: t ++ ["]"%byte])
            | None => None
            end
  | _ => None
  end.
Definition show_opt_id (id : option N) : bytes :=
  match id with Some n => bs "Some(" ++ dec n ++ bs ")" | None => bs "None" end.
(** socket/mod.rs:104-120 [Display for Packet], [Display for Data]; [None] is a panic. *)
Definition show_packet (p : packet) : option bytes :=
  match packet_data p with
  | None => None
  | Some DataConnect => Some (bs "Connect")
  | Some DataDisconnect => Some (bs "Disconnect")
  | Some (DataEvent id a) =>
      match show_args a with
      | Some t => Some (bs "Event { id: " ++ show_opt_id id ++ bs ", args: " ++ t ++ bs " }")
      | None => None
      end
  | Some (DataAck id a) =>
      match show_args a with
      | Some t => Some (bs "Ack { id: " ++ dec id ++ bs ", args: " ++ t ++ bs " }")
      | None => None
      end
  end.
