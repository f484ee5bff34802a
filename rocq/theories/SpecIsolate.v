(** What reaches the client from outside, by namespaces (C82). *)
From Verif Require Export SpecTalk.

(** What bears on which callbacks are called: users change the table, a callback is registered for an
    answer, a packet is complete. *)
Inductive input :=
| Change (x : tableop)
| Await (ns : bytes) (id : N) (f : cb)
| Arrived (p : packet).
(** What a moment adds that is neither read nor about the table. *)
Definition aside (x : obs) : Prop :=
  match x with ORead _ | OTable _ | ORegister _ _ _ => False | _ => True end.
(** [story o l]: in the course of [o] the inputs were [l], in this order. *)
Inductive story : list obs -> list input -> Prop :=
| st_start : story [] []
| st_packet o l m p : story o l -> completes o m p -> story (o ++ [ORead m]) (l ++ [Arrived p])
| st_read o l m : story o l -> (forall p, ~ completes o m p) -> story (o ++ [ORead m]) l
| st_table o l x : story o l -> story (o ++ [OTable x]) (l ++ [Change x])
| st_register o l ns id f : story o l -> story (o ++ [ORegister ns id f]) (l ++ [Await ns id f])
| st_aside o l x : story o l -> aside x -> story (o ++ [x]) l.

(** The namespace of an input; the inputs and the calls of one namespace. *)
Definition tableop_ns (x : tableop) : bytes :=
  match x with SetEvent ns _ _ | ClearEvent ns _ | SetFallback ns _ | ClearFallback ns => ns end.
Definition input_ns (i : input) : option bytes :=
  match i with Change x => Some (tableop_ns x) | Await ns _ _ => Some ns | Arrived p => packet_namespace p end.
Definition is_ns (ns : bytes) (r : option bytes) : bool :=
  match r with Some n => bytes_eqb n ns | None => false end.
Definition inputs_in (ns : bytes) (l : list input) : list input := filter (fun i => is_ns ns (input_ns i)) l.
Definition calls_in (ns : bytes) (o : list obs) : list (packet * call) :=
  filter (fun pc => is_ns ns (packet_namespace (fst pc))) (calls o).
