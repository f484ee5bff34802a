(** Exactly which arguments a typed reader treats differently when a packet has attachments:
    independent of the readers. *)
From Verif Require Export SpecRead SpecValue.

(** ** What is read as what *)
(** [reads t r t' r']: reading the tree [r] as type [t] involves reading its subtree [r'] as type
    [t']. *)
Inductive reads : ty -> raw -> ty -> raw -> Prop :=
| rd_here t r : reads t r t r
| rd_option u r t' r' : r <> RNull -> reads u r t' r' -> reads (TyOption u) r t' r'
| rd_newtype u r t' r' : reads u r t' r' -> reads (TyNewtype u) r t' r'
| rd_seq u l x t' r' : In x l -> reads u x t' r' -> reads (TySeq u) (RArr l) t' r'
| rd_tuple ts l i u x t' r' : nth_error ts i = Some u -> nth_error l i = Some x -> reads u x t' r' ->
    reads (TyTuple ts) (RArr l) t' r'
| rd_map u l k x t' r' : In (k, x) l -> reads u x t' r' -> reads (TyMap u) (RObj l) t' r'
| rd_struct_seq fs l i n u x t' r' : nth_error fs i = Some (n, u) -> nth_error l i = Some x -> reads u x t' r' ->
    reads (TyStruct fs) (RArr l) t' r'
| rd_struct fs l n u k x t' r' : In (n, u) fs -> In (k, x) l -> unescape k = Some n -> reads u x t' r' ->
    reads (TyStruct fs) (RObj l) t' r'
| rd_variant pre n tag u post k x t' r' : unescape k = Some n -> ~ In n (map fst pre) -> tag <> VtUnit ->
    reads u x t' r' -> reads (TyEnum (pre ++ (n, (tag, u)) :: post)) (RObj [(k, x)]) t' r'
| rd_int_map lo hi u l k x t' r' : In (k, x) l -> reads u x t' r' -> reads (TyIntMap lo hi u) (RObj l) t' r'
| rd_value_arr l x t' r' : In x l -> reads TyValue x t' r' -> reads TyValue (RArr l) t' r'
| rd_value_obj l k x t' r' : In (k, x) l -> reads TyValue x t' r' -> reads TyValue (RObj l) t' r'.
(** Types whose values are read from the members of an object. *)
Definition from_members (t : ty) : Prop :=
  match t with TyMap _ | TyStruct _ | TyValue => True | _ => False end.
(** Every object that is read by its members starts with a key written without escapes. *)
Definition plain_starts (t : ty) (r : raw) : Prop :=
  forall t' k x l, reads t r t' (RObj ((k, x) :: l)) -> from_members t' -> ~ In x5c k.

(** No map with integer keys has members, and no byte buffer is written as a string with a lone
    surrogate. *)
Definition no_numeric_keys (t : ty) (r : raw) : Prop :=
  forall lo hi u l, reads t r (TyIntMap lo hi u) (RObj l) -> l = [].
Definition no_lone_surrogates (t : ty) (r : raw) : Prop :=
  forall b, reads t r TyByteBuf (RStr b) -> exists s, string_means b s.

(** ** Objects with and without the mark of a placeholder *)
(** [inside r r']: [r'] is [r] or a part of it. *)
Inductive inside : raw -> raw -> Prop :=
| in_here r : inside r r
| in_arr l x r' : In x l -> inside x r' -> inside (RArr l) r'
| in_obj l k x r' : In (k, x) l -> inside x r' -> inside (RObj l) r'.
(** One of the keys reads [_placeholder]. *)
Definition marked (l : list (bytes * raw)) : Prop := exists k x, In (k, x) l /\ unescape k = Some key_placeholder.
(** A part that is not inside a marked object. *)
Inductive outside_marks : raw -> raw -> Prop :=
| om_here r : outside_marks r r
| om_arr l x r' : In x l -> outside_marks x r' -> outside_marks (RArr l) r'
| om_obj l k x r' : ~ marked l -> In (k, x) l -> outside_marks x r' -> outside_marks (RObj l) r'.
(** In every object the keys are different, and the first is not serde_json's private key. *)
Definition different_keys (r : raw) : Prop := forall l, inside r (RObj l) ->
  NoDup (map (fun m => unescape (fst m)) l) /\ forall k x l', l = (k, x) :: l' -> unescape k <> Some raw_token.

(** The object is [{"_placeholder":<boolean>,"num":k}], written without escapes, and [k] designates
    an attachment. *)
Definition stands_for (bl : list bytes) (l : list (bytes * raw)) (b : bytes) : Prop :=
  exists f x k, l = [(key_placeholder, RBool f); (key_num, RNum x)] /\ num_of x = Some (NPos k) /\
    nth_error bl (N.to_nat k) = Some b.
(** One of its members is named [num] and designates an attachment. *)
Definition indexed (bl : list bytes) (l : list (bytes * raw)) : Prop :=
  exists k x n b, In (k, RNum x) l /\ unescape k = Some key_num /\ num_of x = Some (NPos n) /\
    nth_error bl (N.to_nat n) = Some b.
(** The first key has an escape, or it is [_placeholder] and the object stands for no attachment. *)
Definition bad_start (bl : list bytes) (l : list (bytes * raw)) : Prop :=
  exists k x l', l = (k, x) :: l' /\ (In x5c k \/ k = key_placeholder /\ forall b, ~ stands_for bl l b).
(** Stands for an attachment, or is unmarked with a first key without escapes. *)
Definition proper (bl : list bytes) (l : list (bytes * raw)) : Prop :=
  (exists b, stands_for bl l b) \/ (~ marked l /\ forall k x l', l = (k, x) :: l' -> ~ In x5c k).

Definition typed_rejects (bl : list bytes) (r : raw) : Prop := exists l, inside r (RObj l) /\ bad_start bl l.
Definition json_rejects (bl : list bytes) (r : raw) : Prop :=
  exists l, outside_marks r (RObj l) /\ marked l /\ ~ indexed bl l.
