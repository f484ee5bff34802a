(** The meaning of serialised values, independent of the writers: which JSON value a Rust value
    stands for, which byte strings it contains, and which placeholders a JSON text contains. *)
From Verif Require Export SpecSocket SocketSer.

(** [allP P l]: every element of [l] satisfies [P] (usable in recursive definitions). *)
Definition allP {A} (P : A -> Prop) : list A -> Prop :=
  fix go (l : list A) : Prop := match l with [] => True | x :: l' => P x /\ go l' end.

(** The string a map key stands for; [None]: not usable as a JSON key. *)
Fixpoint key_of (v : sval) : option bytes :=
  match v with
  | SStr s | SChar s | SUnitVariant s => Some s
  | SBool b => Some (if b then bs "true" else bs "false")
  | SU8 b => Some (dec (bN b))
  | SInt z => Some (decZ z)
  | SFloat (Some t) => Some (numlit_text t)
  | SSome x | SNewtypeStruct x => key_of x
  | _ => None
  end.

(** A JSON object from members in writing order: sorted, the last of equal keys wins. *)
Definition obj_of (l : list (bytes * value)) : list (bytes * value) :=
  fold_left (fun m kv => obj_insert (fst kv) (snd kv) m) l [].
Definition pair_opt {A B} (a : option A) (b : option B) : option (A * B) :=
  match a, b with Some x, Some y => Some (x, y) | _, _ => None end.

(** The JSON value of a Rust value, according to serde's JSON conventions; [None]: it has none
    (its serialisation fails). *)
Fixpoint json_of (v : sval) : option value :=
  match v with
  | SBool b => Some (VBool b)
  | SU8 b => Some (VNum (NPos (bN b)))
  | SInt z => Some (VNum (if (z <? 0)%Z then NNeg z else NPos (Z.to_N z)))
  | SFloat (Some t) => Some (VNum (NFloat t))
  | SFloat None => Some VNull
  | SChar s | SStr s | SUnitVariant s => Some (VStr s)
  | SBytes b => Some (bytes_value b)
  | SNone | SUnit | SUnitStruct => Some VNull
  | SSome x | SNewtypeStruct x => json_of x
  | SNewtypeVariant n x => option_map (fun y => VObj [(n, y)]) (json_of x)
  | SSeq l | STuple l | STupleStruct l => option_map VArr (all_some (map json_of l))
  | STupleVariant n l => option_map (fun ys => VObj [(n, VArr ys)]) (all_some (map json_of l))
  | SMap l =>
      option_map (fun ms => VObj (obj_of ms))
        (all_some (map (fun '(k, x) => pair_opt (key_of k) (json_of x)) l))
  | SStruct l =>
      option_map (fun ms => VObj (obj_of ms))
        (all_some (map (fun '(k, x) => pair_opt (Some k) (json_of x)) l))
  | SStructVariant n l =>
      option_map (fun ms => VObj [(n, VObj (obj_of ms))])
        (all_some (map (fun '(k, x) => pair_opt (Some k) (json_of x)) l))
  | SFail => None
  end.

Definition list_max (l : list nat) : nat := fold_right Nat.max 0 l.
(** Depth of nested arrays and objects. *)
Fixpoint nesting (v : sval) : nat :=
  match v with
  | SBytes _ => 1
  | SSome x | SNewtypeStruct x => nesting x
  | SNewtypeVariant _ x => S (nesting x)
  | SSeq l | STuple l | STupleStruct l => S (list_max (map nesting l))
  | STupleVariant _ l => S (S (list_max (map nesting l)))
  | SMap l => S (list_max (map (fun '(_, x) => nesting x) l))
  | SStruct l => S (list_max (map (fun '(_, x) => nesting x) l))
  | SStructVariant _ l => S (S (list_max (map (fun '(_, x) => nesting x) l)))
  | _ => 0
  end.

(** A literal serde_json prints for a finite double: it has a fraction or an exponent and is not
    out of range when read again. *)
Definition float_ok (t : numlit) : Prop := numlit_ok t /\ num_of t = Some (NFloat t).
Fixpoint key_ok (v : sval) : Prop :=
  match v with
  | SFloat (Some t) => numlit_ok t
  | SSome x | SNewtypeStruct x => key_ok x
  | _ => True
  end.
(** The key under which serde_json smuggles raw JSON: not usable as first key. *)
Definition first_key_ok (l : list (option bytes)) : Prop :=
  match l with Some k :: _ => k <> raw_token | _ => True end.
(** Values the model covers: 64-bit integers, finite doubles, no private key. *)
Fixpoint val_ok (v : sval) : Prop :=
  match v with
  | SInt z => (- 2 ^ 63 <= z <= Z.of_N u64_max)%Z
  | SFloat (Some t) => float_ok t
  | SSome x | SNewtypeStruct x => val_ok x
  | SNewtypeVariant n x => n <> raw_token /\ val_ok x
  | SSeq l | STuple l | STupleStruct l => allP val_ok l
  | STupleVariant n l => n <> raw_token /\ allP val_ok l
  | SMap l =>
      first_key_ok (map (fun kx => key_of (fst kx)) l) /\ allP (fun '(k, x) => key_ok k /\ val_ok x) l
  | SStruct l => first_key_ok (map (fun kx => Some (fst kx)) l) /\ allP (fun '(_, x) => val_ok x) l
  | SStructVariant n l =>
      n <> raw_token /\ first_key_ok (map (fun kx => Some (fst kx)) l) /\ allP (fun '(_, x) => val_ok x) l
  | _ => True
  end.

(** All strings in a value are valid UTF-8 (as Rust guarantees) and all float texts are number
    literals. *)
Fixpoint strs_ok (v : sval) : Prop :=
  match v with
  | SFloat (Some t) => numlit_ok t
  | SChar s | SStr s | SUnitVariant s => utf8_valid s = true
  | SSome x | SNewtypeStruct x => strs_ok x
  | SNewtypeVariant n x => utf8_valid n = true /\ strs_ok x
  | SSeq l | STuple l | STupleStruct l => allP strs_ok l
  | STupleVariant n l => utf8_valid n = true /\ allP strs_ok l
  | SMap l => allP (fun '(k, x) => strs_ok k /\ strs_ok x) l
  | SStruct l => allP (fun '(k, x) => utf8_valid k = true /\ strs_ok x) l
  | SStructVariant n l => utf8_valid n = true /\ allP (fun '(k, x) => utf8_valid k = true /\ strs_ok x) l
  | _ => True
  end.

(** ** Binary mode *)
Definition is_u8 (v : sval) : bool := match v with SU8 _ => true | _ => false end.
(** The bytes of a sequence of [u8]. *)
Definition u8s (l : list sval) : bytes :=
  flat_map (fun v => match v with SU8 b => [b] | _ => [] end) l.
(** A sequence is a byte string if it has elements and all are [u8]. *)
Definition blob_seq (l : list sval) : bool :=
  match l with [] => false | _ => forallb is_u8 l end.
(** The byte strings contained in a value, in writing order. *)
Fixpoint blobs (v : sval) : list bytes :=
  match v with
  | SBytes b => [b]
  | SSome x | SNewtypeStruct x | SNewtypeVariant _ x => blobs x
  | SSeq l => if blob_seq l then [u8s l] else flat_map blobs l
  | STuple l | STupleStruct l | STupleVariant _ l => flat_map blobs l
  | SMap l => flat_map (fun '(_, x) => blobs x) l
  | SStruct l | SStructVariant _ l => flat_map (fun '(_, x) => blobs x) l
  | _ => []
  end.
(** A sequence that starts with bytes but is not a byte string (finding: such a sequence is sent
    with an extra element). *)
Definition mixed_seq (l : list sval) : bool :=
  match l with v :: _ => is_u8 v && negb (forallb is_u8 l) | [] => false end.
(** No such sequence anywhere in a value. *)
Fixpoint no_mixed (v : sval) : Prop :=
  match v with
  | SSome x | SNewtypeStruct x | SNewtypeVariant _ x => no_mixed x
  | SSeq l => mixed_seq l = false /\ allP no_mixed l
  | STuple l | STupleStruct l | STupleVariant _ l => allP no_mixed l
  | SMap l => allP (fun '(_, x) => no_mixed x) l
  | SStruct l | SStructVariant _ l => allP (fun '(_, x) => no_mixed x) l
  | _ => True
  end.
(** No object with a key [_placeholder] (finding: the reader takes it for a placeholder). *)
Fixpoint no_pkey (v : sval) : Prop :=
  match v with
  | SSome x | SNewtypeStruct x => no_pkey x
  | SNewtypeVariant n x => n <> key_placeholder /\ no_pkey x
  | SSeq l | STuple l | STupleStruct l => allP no_pkey l
  | STupleVariant n l => n <> key_placeholder /\ allP no_pkey l
  | SMap l => allP (fun '(k, x) => key_of k <> Some key_placeholder /\ no_pkey x) l
  | SStruct l => allP (fun '(k, x) => k <> key_placeholder /\ no_pkey x) l
  | SStructVariant n l => n <> key_placeholder /\ allP (fun '(k, x) => k <> key_placeholder /\ no_pkey x) l
  | _ => True
  end.
(** The value that arrives when [v] is sent in binary mode: every mixed sequence has gained the
    element 4 in front. *)
Fixpoint sent (v : sval) : sval :=
  match v with
  | SSome x => SSome (sent x)
  | SNewtypeStruct x => SNewtypeStruct (sent x)
  | SNewtypeVariant n x => SNewtypeVariant n (sent x)
  | SSeq l => SSeq (if mixed_seq l then SU8 x04 :: map sent l else map sent l)
  | STuple l => STuple (map sent l)
  | STupleStruct l => STupleStruct (map sent l)
  | STupleVariant n l => STupleVariant n (map sent l)
  | SMap l => SMap (map (fun '(k, x) => (k, sent x)) l)
  | SStruct l => SStruct (map (fun '(k, x) => (k, sent x)) l)
  | SStructVariant n l => SStructVariant n (map (fun '(k, x) => (k, sent x)) l)
  | _ => v
  end.

(** The placeholders in a JSON text, in order of occurrence: objects
    [{"_placeholder":true,"num":k}]. *)
Definition placeholder_num (l : list (bytes * raw)) : option N :=
  match l with
  | [(p, RBool true); (n, RNum x)] =>
      if bytes_eqb p key_placeholder && bytes_eqb n key_num then
        match num_of x with Some (NPos k) => Some k | _ => None end
      else None
  | _ => None
  end.
Fixpoint placeholders (r : raw) : list N :=
  match r with
  | RArr l => flat_map placeholders l
  | RObj l =>
      match placeholder_num l with
      | Some k => [k]
      | None => flat_map (fun '(_, x) => placeholders x) l
      end
  | _ => []
  end.
