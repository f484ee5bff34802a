(** Reading arguments: which JSON texts have a value, what substituting placeholders means, and
    which arguments the two readers treat alike.  Independent of the readers. *)
From Verif Require Export SpecBuild.

(** The contents of attachments. *)
Definition contents (A : list subslice_t) : option (list bytes) := all_some (map sub_deref_vec A).
(** The JSON array of the numbers of a byte string. *)
Definition byte_array (b : bytes) : value := VArr (map (fun c => VNum (NPos (bN c))) b).

(** ** Texts with a value *)
(** [strict n r]: the tree has at most [n] levels of nesting, every string and key is free of
    unpaired surrogates, and every number is in range.  (Last rule: the private key of serde_json,
    whose string is read as a JSON text of its own.) *)
Inductive strict : nat -> raw -> Prop :=
| st_null n : strict n RNull
| st_bool n b : strict n (RBool b)
| st_num n x : num_of x <> None -> strict n (RNum x)
| st_str n b : unescape b <> None -> strict n (RStr b)
| st_arr n l : Forall (strict n) l -> strict (S n) (RArr l)
| st_obj n l : (forall k x l', l = (k, x) :: l' -> unescape k <> Some raw_token) ->
    Forall (fun m => unescape (fst m) <> None /\ strict n (snd m)) l -> strict (S n) (RObj l)
| st_private n k b t r : unescape k = Some raw_token -> unescape b = Some t -> jdoc r t ->
    strict 127 r -> strict (S n) (RObj [(k, RStr b)]).

(** ** Substitution of placeholders in values *)
Definition has_pkey (m : list (bytes * value)) : Prop := In key_placeholder (map fst m).
(** [filled bl v v']: [v'] is [v] with every object that has a key [_placeholder] replaced by the
    byte array of the attachment its [num] designates. *)
Inductive filled (bl : list bytes) : value -> value -> Prop :=
| fl_null : filled bl VNull VNull
| fl_bool b : filled bl (VBool b) (VBool b)
| fl_num n : filled bl (VNum n) (VNum n)
| fl_str s : filled bl (VStr s) (VStr s)
| fl_arr l l' : Forall2 (filled bl) l l' -> filled bl (VArr l) (VArr l')
| fl_obj m m' : ~ has_pkey m ->
    Forall2 (fun a b => fst a = fst b /\ filled bl (snd a) (snd b)) m m' -> filled bl (VObj m) (VObj m')
| fl_placeholder m k b : has_pkey m -> obj_get key_num m = Some (VNum (NPos k)) ->
    nth_error bl (N.to_nat k) = Some b -> filled bl (VObj m) (byte_array b).
(** [fails bl v e]: the first placeholder of [v] that cannot be replaced is the reason [e]. *)
Inductive fails (bl : list bytes) : value -> aerror -> Prop :=
| fa_num m : has_pkey m -> (forall k, obj_get key_num m <> Some (VNum (NPos k))) ->
    fails bl (VObj m) (ANoNumInPlaceholderObject (VObj m))
| fa_range m k : has_pkey m -> obj_get key_num m = Some (VNum (NPos k)) ->
    (N.of_nat (length bl) <= k)%N ->
    fails bl (VObj m) (APlaceholderIndexOutOfRange k (N.of_nat (length bl)))
| fa_arr pre x post e : Forall (fun y => exists y', filled bl y y') pre -> fails bl x e ->
    fails bl (VArr (pre ++ x :: post)) e
| fa_obj pre k x post e : ~ has_pkey (pre ++ (k, x) :: post) ->
    Forall (fun m => exists y', filled bl (snd m) y') pre -> fails bl x e ->
    fails bl (VObj (pre ++ (k, x) :: post)) e.
(** No object with a key [_placeholder]. *)
Inductive unmarked : value -> Prop :=
| um_null : unmarked VNull
| um_bool b : unmarked (VBool b)
| um_num n : unmarked (VNum n)
| um_str s : unmarked (VStr s)
| um_arr l : Forall unmarked l -> unmarked (VArr l)
| um_obj m : ~ has_pkey m -> Forall (fun a => unmarked (snd a)) m -> unmarked (VObj m).

(** ** Objects the typed reader understands *)
(** The first key of an object is written without escapes and is not [_placeholder]. *)
Definition ordinary_first (l : list (bytes * raw)) : Prop :=
  match l with [] => True | (k, _) :: _ => no_backslash k = true /\ k <> key_placeholder end.
Fixpoint ordinary (r : raw) : Prop :=
  match r with
  | RArr l => allP ordinary l
  | RObj l => ordinary_first l /\ allP (fun '(_, x) => ordinary x) l
  | _ => True
  end.
(** The type involves no maps with integer keys and no byte buffers of serde_bytes. *)
Fixpoint usual_ty (t : ty) : Prop :=
  match t with
  | TyByteBuf | TyIntMap _ _ _ => False
  | TyOption u | TyNewtype u | TySeq u | TyMap u => usual_ty u
  | TyTuple l => allP usual_ty l
  | TyStruct fs => allP (fun '(_, u) => usual_ty u) fs
  | TyEnum es => allP (fun '(_, (_, u)) => usual_ty u) es
  | _ => True
  end.
(** No object has a key that reads [_placeholder]. *)
Fixpoint no_placeholder_key (r : raw) : Prop :=
  match r with
  | RArr l => allP no_placeholder_key l
  | RObj l => allP (fun '(k, x) => unescape k <> Some key_placeholder /\ no_placeholder_key x) l
  | _ => True
  end.
(** Every object is [{"_placeholder":true,"num":k}] or has an ordinary first key. *)
Fixpoint wrap_ok (r : raw) : Prop :=
  match r with
  | RArr l => allP wrap_ok l
  | RObj l => placeholder_num l <> None \/ (ordinary_first l /\ allP (fun '(_, x) => wrap_ok x) l)
  | _ => True
  end.
(** Every object is [{"_placeholder":true,"num":k}], or has an ordinary first key that is not
    serde_json's private key, no key [_placeholder] and no repeated key. *)
Fixpoint canonical (r : raw) : Prop :=
  match r with
  | RArr l => allP canonical l
  | RObj l =>
      placeholder_num l <> None \/
      (ordinary_first l /\ (forall k x l', l = (k, x) :: l' -> k <> raw_token) /\
       NoDup (map (fun m => unescape (fst m)) l) /\
       ~ In (Some key_placeholder) (map (fun m => unescape (fst m)) l) /\
       allP (fun '(_, x) => canonical x) l)
  | _ => True
  end.

(** ** Attachments written inline *)
Definition byte_lit (c : byte) : raw := RNum (NumLit false (dec (bN c)) None None).
(** The tree with every placeholder replaced by the array of the bytes it designates; [None]: one of
    them is out of range. *)
Fixpoint inline (bl : list bytes) (r : raw) : option raw :=
  match r with
  | RArr l => option_map RArr (all_some (map (inline bl) l))
  | RObj l =>
      match placeholder_num l with
      | Some k => option_map (fun b => RArr (map byte_lit b)) (nth_error bl (N.to_nat k))
      | None => option_map RObj (all_some (map (fun '(k, x) => option_map (pair k) (inline bl x)) l))
      end
  | _ => Some r
  end.
Definition is_placeholder (r : raw) : Prop := exists l, r = RObj l /\ placeholder_num l <> None.
(** [suits bl t r]: in [r] placeholders occur, as far as the type [t] looks, only where [t] expects
    a sequence of numbers (or anything), and parts that [t] skips contain none out of range.  Also,
    no byte buffer is written as a string with a lone surrogate, and no map with integer keys has
    members. *)
Definition is_wrapper (t : ty) : bool := match t with TyOption _ | TyNewtype _ => true | _ => false end.
Fixpoint suits (bl : list bytes) (t : ty) (r : raw) {struct t} : Prop :=
  match t with
  | TyBool | TyInt _ _ | TyF64 | TyUnit | TyValue | TyChar => True
  | TyIgnored => inline bl r <> None
  | TyString | TyStr | TyBytes => ~ is_placeholder r
  | TyOption u | TyNewtype u => suits bl u r
  | TySeq u =>
      (is_placeholder r -> is_wrapper u = false) /\
      match r with RArr l => allP (suits bl u) l | _ => True end
  | TyTuple ts =>
      ~ is_placeholder r /\
      match r with
      | RArr l =>
          (fix go (ts : list ty) (l : list raw) : Prop :=
             match ts, l with u :: ts', x :: l' => suits bl u x /\ go ts' l' | _, _ => True end) ts l
      | _ => True
      end
  | TyMap u => match r with RObj l => allP (fun '(_, x) => suits bl u x) l | _ => True end
  | TyStruct fs =>
      ~ is_placeholder r /\
      match r with
      | RArr l =>
          (fix go (fs : list (bytes * ty)) (l : list raw) : Prop :=
             match fs, l with (_, u) :: fs', x :: l' => suits bl u x /\ go fs' l' | _, _ => True end) fs l
      | RObj l =>
          allP (fun '(k, x) => (forall f, unescape k = Some f -> ~ In f (map fst fs)) -> inline bl x <> None) l /\
          (fix go (fs : list (bytes * ty)) : Prop :=
             match fs with
             | (f, u) :: fs' => allP (fun '(k, x) => unescape k = Some f -> suits bl u x) l /\ go fs'
             | [] => True
             end) fs
      | _ => True
      end
  | TyEnum vs =>
      match r with
      | RObj [(_, x)] =>
          (fix go (vs : list (bytes * (vtag * ty))) : Prop :=
             match vs with
             | (_, (tag, u)) :: vs' =>
                 match tag with
                 | VtUnit => True
                 | VtTuple => ~ is_placeholder x /\ suits bl u x
                 | _ => suits bl u x
                 end /\ go vs'
             | [] => True
             end) vs
      | _ => True
      end
  | TyByteBuf => match r with RStr b => unescape b <> None | _ => True end
  | TyIntMap _ _ _ => match r with RObj (_ :: _) => is_placeholder r | _ => True end
  end.

(** ** Full statements of properties that turned out to be false *)
(** Two readers agree on an argument: the same value, or both fail. *)
Definition readers_agree (g : arg_t) : Prop :=
  (forall v, to_json_value g = Ok v <-> arg_deserialize TyValue g = Ok (XValue v)).
(** The arguments of an accepted packet. *)
Definition argument_of (m : subslice_t) (l : list emsg) (g : arg_t) : Prop :=
  exists p d a i, received m l p /\ packet_data p = Some d /\ data_args d = Some a /\
    args_get a i = Ok (Some g).
Definition C21_full : Prop := forall ns, ns_ok ns ->
  (exists p, deserialize (serialize_connect ns) = Ok (DPacket p) /\ view p = Some (PView KConnect ns None [] [])) /\
  (exists p, deserialize (serialize_disconnect ns) = Ok (DPacket p) /\ view p = Some (PView KDisconnect ns None [] [])).
Definition C22_full : Prop := forall m t l g, sub_deref_str m = Some t -> Forall emsg_ok l ->
  argument_of m l g -> to_json_value g <> Panic.
Definition C24_full : Prop := forall m t l g, sub_deref_str m = Some t -> Forall emsg_ok l ->
  argument_of m l g -> readers_agree g.
Definition C25_full : Prop := forall t text r A, jvalue r text -> no_placeholder_key r ->
  arg_deserialize t (Arg text A) = arg_deserialize t (Arg text []).
Definition C43_full : Prop := forall ns id, ns_ok ns -> (id <= u64_max)%N ->
  forall m, sub_deref_str m = Some (wire_text (Wire PKAck None (ns_opt ns) (Some id) (Some (bs "[]")))) ->
  exists p, received m [] p /\ view p = Some (PView KAck ns (Some id) [] []).

(** ** Places in a value *)
(** [place t r t' r' get]: reading the tree [r] as type [t], the subtree [r'] is read as type [t'],
    and [get] extracts its part from the result. *)
Definition starts_ordinary (l : list (bytes * raw)) : Prop :=
  match l with (k, _) :: _ => k <> key_placeholder | [] => True end.
Definition sub_value {A} (o : option A) (g : A -> option dval) : option dval :=
  match o with Some x => g x | None => None end.
Inductive place : ty -> raw -> ty -> raw -> (dval -> option dval) -> Prop :=
| pl_here t r : place t r t r Some
| pl_option u r t' r' g : r <> RNull -> place u r t' r' g ->
    place (TyOption u) r t' r' (fun v => match v with XSome w => g w | _ => None end)
| pl_newtype u r t' r' g : place u r t' r' g ->
    place (TyNewtype u) r t' r' (fun v => match v with XNewtype w => g w | _ => None end)
| pl_seq u l i x t' r' g : nth_error l i = Some x -> place u x t' r' g ->
    place (TySeq u) (RArr l) t' r' (fun v => match v with XSeq vs => sub_value (nth_error vs i) g | _ => None end)
| pl_tuple ts l i u x t' r' g : nth_error ts i = Some u -> nth_error l i = Some x -> place u x t' r' g ->
    place (TyTuple ts) (RArr l) t' r' (fun v => match v with XTuple vs => sub_value (nth_error vs i) g | _ => None end)
| pl_map u pre k n x post t' r' g : starts_ordinary (pre ++ (k, x) :: post) -> unescape k = Some n ->
    Forall (fun m => unescape (fst m) <> Some n) post -> place u x t' r' g ->
    place (TyMap u) (RObj (pre ++ (k, x) :: post)) t' r'
      (fun v => match v with XMap m => sub_value (obj_get n m) g | _ => None end)
| pl_struct fs i n u l k x t' r' g : starts_ordinary l -> nth_error fs i = Some (n, u) -> In (k, x) l ->
    unescape k = Some n -> place u x t' r' g ->
    place (TyStruct fs) (RObj l) t' r' (fun v => match v with XStruct vs => sub_value (nth_error vs i) g | _ => None end)
| pl_variant vs k n tag u x t' r' g : unescape k = Some n ->
    (exists pre post, vs = pre ++ (n, (tag, u)) :: post /\ ~ In n (map fst pre)) ->
    tag <> VtUnit -> place u x t' r' g ->
    place (TyEnum vs) (RObj [(k, x)]) t' r' (fun v => match v with XVariant _ w => g w | _ => None end).

(** Numbers of a byte string read as [Vec<u8>], and the type [u8]. *)
Definition XU8s (b : bytes) : dval := XSeq (map (fun c => XInt (Z.of_N (bN c))) b).
Definition TyU8 : ty := TyInt 0 255.
(** [[u8; n]]. *)
Definition TyU8Array (n : nat) : ty := TyTuple (repeat TyU8 n).
Definition XU8Array (b : bytes) : dval := XTuple (map (fun c => XInt (Z.of_N (bN c))) b).
(** The text of an ack without arguments, with or without an empty array. *)
Definition argless_ack (ns : bytes) (id : N) (brackets : bool) : bytes :=
  wire_text (Wire PKAck None (ns_opt ns) (Some id) (if brackets then Some (bs "[]") else None)).
Definition C45_full : Prop := forall A bl text l k b n, jvalue (RObj l) text -> contents A = Some bl -> A <> [] ->
  placeholder_num l = Some k -> nth_error bl (N.to_nat k) = Some b ->
  ((exists v, arg_deserialize (TyU8Array n) (Arg text A) = Ok v) <-> length b = n).
