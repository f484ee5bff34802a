(** The serde data model on the serialising side, serde_json's compact [Serializer] on it, and
    the model of socket-io-protocol/src/socket/args/serialize_attachments.rs. *)
From Verif Require Export Engine.

(** Everything a [Serialize] implementation can ask a [Serializer] to write (serde's data model).
    Integers of every width except [u8] are [SInt]; [u8] is separate because
    serialize_attachments.rs distinguishes it.  A finite float is represented by the literal
    serde_json (ryu) prints for it, a non-finite one by [None].  [SFail] is an implementation that
    returns an error.  Simplifications: length hints of sequences and maps are assumed right;
    implementations stop at the first error; [RawValue] (written verbatim) is in RawArg.v, as a whole argument. *)
Inductive sval :=
| SBool (b : bool)
| SU8 (b : byte)
| SInt (z : Z)
| SFloat (t : option numlit)
| SChar (c : bytes)                 (* its UTF-8 encoding *)
| SStr (s : bytes)
| SBytes (b : bytes)
| SNone
| SSome (v : sval)
| SUnit
| SUnitStruct
| SUnitVariant (name : bytes)
| SNewtypeStruct (v : sval)
| SNewtypeVariant (name : bytes) (v : sval)
| SSeq (l : list sval)
| STuple (l : list sval)
| STupleStruct (l : list sval)
| STupleVariant (name : bytes) (l : list sval)
| SMap (l : list (sval * sval))
| SStruct (l : list (bytes * sval))
| SStructVariant (name : bytes) (l : list (bytes * sval))
| SFail.

(** Outcome of a serialisation; the writer state is kept even on failure, because what was
    already written stays in the buffer. *)
Inductive outcome := OOk | OErr | OPanic.

Definition obind {S} (r : S * outcome) (f : S -> S * outcome) : S * outcome :=
  match r with (s, OOk) => f s | _ => r end.

Definition comma_unless (first : bool) : bytes := if first then [] else [","%byte].

Definition float_text (t : option numlit) : bytes :=
  match t with Some n => numlit_text n | None => bs "null" end.

(** serde_json's [MapKeySerializer] (external): text of a key, [None] is an error. *)
Fixpoint key_text (v : sval) : option bytes :=
  match v with
  | SStr s => Some (json_str s)
  | SChar c => Some (json_str c)
  | SUnitVariant n => Some (json_str n)
  | SBool b => Some (quote :: (if b then bs "true" else bs "false") ++ [quote])
  | SU8 b => Some (quote :: dec (bN b) ++ [quote])
  | SInt z => Some (quote :: decZ z ++ [quote])
  | SFloat (Some t) => Some (quote :: numlit_text t ++ [quote])
  | SSome v => key_text v
  | SNewtypeStruct v => key_text v
  | _ => None
  end.

(** Comma separated decimal numbers, as [serialize_seq] writes a list of [u8]. *)
Fixpoint u8_elems (first : bool) (l : bytes) : bytes :=
  match l with
  | [] => []
  | b :: l' => comma_unless first ++ dec (bN b) ++ u8_elems false l'
  end.

(** serde_json's [Serializer] with the compact formatter (external; called at
    socket/args/mod.rs:124): appends to the output, returns it with the outcome. *)
Fixpoint json_ser (v : sval) (o : bytes) {struct v} : bytes * outcome :=
  let elems := (fix elems (first : bool) (l : list sval) (o : bytes) : bytes * outcome :=
     match l with
     | [] => (o, OOk)
     | x :: l' => obind (json_ser x (o ++ comma_unless first)) (elems false l')
     end) in
  let fields := (fix fields (first : bool) (l : list (bytes * sval)) (o : bytes) : bytes * outcome :=
     match l with
     | [] => (o, OOk)
     | (k, x) :: l' =>
         obind (json_ser x (o ++ comma_unless first ++ json_str k ++ [":"%byte])) (fields false l')
     end) in
  let array l o := obind (elems true l (o ++ ["["%byte])) (fun o => (o ++ ["]"%byte], OOk)) in
  let object l o := obind (fields true l (o ++ ["{"%byte])) (fun o => (o ++ ["}"%byte], OOk)) in
  let variant (name : bytes) (body : bytes -> bytes * outcome) o :=
     obind (body (o ++ "{"%byte :: json_str name ++ [":"%byte])) (fun o => (o ++ ["}"%byte], OOk)) in
  match v with
  | SBool b => (o ++ (if b then bs "true" else bs "false"), OOk)
  | SU8 b => (o ++ dec (bN b), OOk)
  | SInt z => (o ++ decZ z, OOk)
  | SFloat t => (o ++ float_text t, OOk)
  | SChar c => (o ++ json_str c, OOk)
  | SStr s => (o ++ json_str s, OOk)
  | SBytes b => (o ++ "["%byte :: u8_elems true b ++ ["]"%byte], OOk)
  | SNone | SUnit | SUnitStruct => (o ++ bs "null", OOk)
  | SSome x => json_ser x o
  | SUnitVariant n => (o ++ json_str n, OOk)
  | SNewtypeStruct x => json_ser x o
  | SNewtypeVariant n x => variant n (json_ser x) o
  | SSeq l | STuple l | STupleStruct l => array l o
  | STupleVariant n l => variant n (array l) o
  | SMap l =>
      obind ((fix entries (first : bool) (l : list (sval * sval)) (o : bytes) : bytes * outcome :=
         match l with
         | [] => (o, OOk)
         | (k, x) :: l' =>
             match key_text k with
             | None => (o ++ comma_unless first, OErr)
             | Some t => obind (json_ser x (o ++ comma_unless first ++ t ++ [":"%byte])) (entries false l')
             end
         end) true l (o ++ ["{"%byte]))
        (fun o => (o ++ ["}"%byte], OOk))
  | SStruct l => object l o
  | SStructVariant n l => variant n (object l) o
  | SFail => (o, OErr)
  end.

(** ** serialize_attachments.rs *)

(** Writer state of the binary serialiser: JSON written so far, attachments ([buffers]). *)
Definition wst := (bytes * list wsmsg)%type.
Definition wput (b : bytes) (s : wst) : wst := (fst s ++ b, snd s).

(** serialize_attachments.rs:64-78 [struct Placeholder] and its derived [Serialize]. *)
Definition placeholder_text (idx : nat) : bytes :=
  bs "{""_placeholder"":true,""num"":" ++ dec (N.of_nat idx) ++ ["}"%byte].

(** serialize_attachments.rs:481-544 [SeqElementSerializer]: succeeds exactly on [serialize_u8]. *)
Definition elem_u8 (v : sval) : option byte := match v with SU8 b => Some b | _ => None end.

(** serialize_attachments.rs:211-216 [serialize_bytes]: attach, then write the placeholder. *)
Definition wrap_bytes (b : bytes) (s : wst) : wst * outcome :=
  match encode_binary b with
  | Some m => ((fst s ++ placeholder_text (length (snd s)), snd s ++ [m]), OOk)
  | None => (s, OPanic)
  end.
(** serialize_attachments.rs:410-425 [SeqWrapper::end] in state [Bytes]: [data] holds the header
    byte and the elements. *)
Definition wrap_seq_end (data : bytes) (s : wst) : wst * outcome :=
  match data with
  | [] => (wput (bs "[]") s, OOk)
  | _ =>
      match package_binary data with
      | Some m => ((fst s ++ placeholder_text (length (snd s)), snd s ++ [m]), OOk)
      | None => (s, OPanic)
      end
  end.
(** serialize_attachments.rs:383-387: the header byte is pushed with the first element. *)
Definition push_u8 (data : bytes) (b : byte) : bytes :=
  (match data with [] => [BINARY_HEADER] | _ => data end) ++ [b].

(** A map key through [Wrapper<MapKeySerializer>] (serialize_attachments.rs:300-302, 308-315):
    as [key_text], but byte strings and byte sequences are attached before the key serialiser
    rejects the placeholder, so the attachment list grows even though the key fails. *)
Fixpoint wrap_key (v : sval) (s : wst) : wst * outcome :=
  match v with
  | SBytes b =>
      match encode_binary b with
      | Some m => ((fst s, snd s ++ [m]), OErr)
      | None => (s, OPanic)
      end
  | SSeq l =>
      (fix go (data : bytes) (l : list sval) : wst * outcome :=
         match l with
         | [] =>
             match data with
             | [] => (s, OErr)
             | _ => match package_binary data with
                    | Some m => ((fst s, snd s ++ [m]), OErr)
                    | None => (s, OPanic)
                    end
             end
         | x :: l' =>
             match elem_u8 x with
             | Some b => go (push_u8 data b) l'
             | None => (s, OErr)
             end
         end) [] l
  | SSome x => wrap_key x s
  | SNewtypeStruct x => wrap_key x s
  | _ => match key_text v with Some t => (wput t s, OOk) | None => (s, OErr) end
  end.

(** [Wrapper<S>] as a [Serializer] (serialize_attachments.rs:149-234) and its compound wrappers
    (245-368, 372-426), over serde_json's serialiser.  Scalars are forwarded (175-199), children
    are wrapped again (201-209, 245-368), byte strings and byte sequences become attachments. *)
Fixpoint wrap_ser (v : sval) (s : wst) {struct v} : wst * outcome :=
  let elems := (fix elems (first : bool) (l : list sval) (s : wst) : wst * outcome :=
     match l with
     | [] => (s, OOk)
     | x :: l' => obind (wrap_ser x (wput (comma_unless first) s)) (elems false l')
     end) in
  let fields := (fix fields (first : bool) (l : list (bytes * sval)) (s : wst) : wst * outcome :=
     match l with
     | [] => (s, OOk)
     | (k, x) :: l' =>
         obind (wrap_ser x (wput (comma_unless first ++ json_str k ++ [":"%byte]) s)) (fields false l')
     end) in
  let array l s := obind (elems true l (wput ["["%byte] s)) (fun s => (wput ["]"%byte] s, OOk)) in
  let object l s := obind (fields true l (wput ["{"%byte] s)) (fun s => (wput ["}"%byte] s, OOk)) in
  let variant (name : bytes) (body : wst -> wst * outcome) s :=
     obind (body (wput ("{"%byte :: json_str name ++ [":"%byte]) s))
           (fun s => (wput ["}"%byte] s, OOk)) in
  match v with
  | SBool b => (wput (if b then bs "true" else bs "false") s, OOk)
  | SU8 b => (wput (dec (bN b)) s, OOk)
  | SInt z => (wput (decZ z) s, OOk)
  | SFloat t => (wput (float_text t) s, OOk)
  | SChar c => (wput (json_str c) s, OOk)
  | SStr x => (wput (json_str x) s, OOk)
  | SBytes b => wrap_bytes b s
  | SNone | SUnit | SUnitStruct => (wput (bs "null") s, OOk)
  | SSome x => wrap_ser x s
  | SUnitVariant n => (wput (json_str n) s, OOk)
  | SNewtypeStruct x => wrap_ser x s
  | SNewtypeVariant n x => variant n (wrap_ser x) s
  | SSeq l =>
      (* serialize_attachments.rs:379-426 [SeqWrapper] *)
      (fix go (data : bytes) (l : list sval) (s : wst) : wst * outcome :=
         match l with
         | [] => wrap_seq_end data s
         | x :: l' =>
             match elem_u8 x with
             | Some b => go (push_u8 data b) l' s
             | None =>
                 (* not all u8: open a real sequence, write [data] (header byte included,
                    lines 391-394), then this element, then the rest *)
                 obind (wrap_ser x (wput ("["%byte :: u8_elems true data
                                          ++ comma_unless (match data with [] => true | _ => false end)) s))
                       (fun s => obind (elems false l' s) (fun s => (wput ["]"%byte] s, OOk)))
             end
         end) [] l s
  | STuple l | STupleStruct l => array l s
  | STupleVariant n l => variant n (array l) s
  | SMap l =>
      obind ((fix entries (first : bool) (l : list (sval * sval)) (s : wst) : wst * outcome :=
         match l with
         | [] => (s, OOk)
         | (k, x) :: l' =>
             obind (wrap_key k (wput (comma_unless first) s)) (fun s =>
             obind (wrap_ser x (wput [":"%byte] s)) (entries false l'))
         end) true l (wput ["{"%byte] s))
        (fun s => (wput ["}"%byte] s, OOk))
  | SStruct l => object l s
  | SStructVariant n l => variant n (object l) s
  | SFail => (s, OErr)
  end.
