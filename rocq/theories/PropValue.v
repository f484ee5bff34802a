(** Values of received arguments: theorems, the assumptions of each, and a case that meets their
    hypotheses. *)
From Verif Require Import ReadProofs ValueProofs RangeProofs Utf8Proofs.

(** ** C55 *)
(** A received argument has the value its JSON text means, with placeholders replaced; in particular
    [to_json_value] reads strings with their escapes, numbers by their value and the last of equal
    keys. *)
Theorem C55_value_of_argument :
  forall m t l g, sub_deref_str m = Some t -> Forall emsg_ok l -> argument_of m l g ->
    exists r bl, jvalue r (g_text g) /\ contents (g_attachments g) = Some bl /\ length bl = length l /\
      forall v, to_json_value g = Ok v <->
        exists v0, means 127 r v0 /\ (l = [] /\ v = v0 \/ l <> [] /\ filled bl v0 v).
Proof. exact argument_value_exact. Qed.
Print Assumptions C55_value_of_argument.
(** A text has at most one meaning, and a value is read exactly when there is one. *)
Theorem C55_text_means :
  forall t v, from_str_value t = Some v <-> exists r, jdoc r t /\ means 127 r v.
Proof. exact from_str_means. Qed.
Print Assumptions C55_text_means.
(** Literals that are neither [u64] nor [i64] are doubles: in range if their exact value is below
    2^1024 (less 2^-51 of it), out of range (the whole argument is unreadable) if it is above (by
    2^-50 of it). *)
Theorem C55_double_range :
  forall x, numlit_ok x -> (Z.of_nat (length (nl_int x)) <= 2 ^ 30)%Z -> (Z.of_nat (length (fraction x)) <= 2 ^ 30)%Z ->
    ((scaled_num x <= (2 ^ 1024 - 2 ^ 973) * scaled_den x)%Z -> num_of x <> None) /\
    (((2 ^ 1024 + 2 ^ 974) * scaled_den x <= scaled_num x)%Z -> num_of x = None).
Proof. exact double_range. Qed.
Print Assumptions C55_double_range.
(** The text of an argument and the strings of its value are sequences of characters, if the message
    is. *)
Theorem C55_strings_valid :
  forall m t l g v, sub_deref_str m = Some t -> Forall emsg_ok l -> argument_of m l g ->
    characters t -> to_json_value g = Ok v -> characters (g_text g) /\ all_strings characters v.
Proof. exact argument_strings_valid. Qed.
Print Assumptions C55_strings_valid.
(** The test for valid UTF-8 in the model (of the messages of the websocket, of the bytes read as a
    string) accepts exactly the sequences of characters. *)
Theorem C55_valid_is_characters : forall s, utf8_valid s = true <-> characters s.
Proof. exact utf8_characters. Qed.
Print Assumptions C55_valid_is_characters.
Example C55_nonvacuous :
  let t := bs "2[""x"",{""bé😀"":[1e2,-0,18446744073709551616,-5],""a"":1,""a"":""\n/""}]" in
  exists g, argument_of (sub_from t) [] g /\ sub_deref_str (sub_from t) = Some t /\ utf8_valid t = true /\
    to_json_value g = Ok (VObj
      [(bs "a", VStr [x0a; "/"%byte]);
       (bs "bé😀", VArr [VNum (NFloat (NumLit false (bs "1") None (Some ("e"%byte, [], bs "2"))));
                         VNum (NFloat (NumLit true (bs "0") None None));
                         VNum (NFloat (NumLit false (bs "18446744073709551616") None None)); VNum (NNeg (-5))])]).
Proof.
  eexists. split.
  - do 3 eexists. exists 1. split; [left; split; vm_compute; reflexivity|]. split; [vm_compute; reflexivity|]. split; vm_compute; reflexivity.
  - split; [vm_compute; reflexivity|]. split; vm_compute; reflexivity.
Qed.
(** 1.797693134862315e308 is in range, 1.7976931348623176e308 is not; both are decided. *)
Example C55_range_nonvacuous :
  let x := NumLit false (bs "1") (Some (bs "797693134862315")) (Some ("e"%byte, [], bs "308")) in
  let y := NumLit true (bs "17976931348623176") None (Some ("E"%byte, bs "+", bs "292")) in
  (numlit_ok x /\ scaled_num x <= (2 ^ 1024 - 2 ^ 973) * scaled_den x)%Z /\
  (numlit_ok y /\ (2 ^ 1024 + 2 ^ 974) * scaled_den y <= scaled_num y)%Z.
Proof.
  assert (D : forall d, negb (length d =? 0)%nat = true -> forallb is_digit d = true -> digits d).
  { intros d H1 H2. split; [intros ->; discriminate|]. apply Forall_forall. apply forallb_forall. exact H2. }
  split; (split; [|intros X; vm_compute in X; discriminate X]).
  - split; [|split; [refine (D _ _ _); reflexivity|split; [left; reflexivity|split; [left; reflexivity|refine (D _ _ _); reflexivity]]]].
    right. split; [refine (D _ _ _); reflexivity|intros X; vm_compute in X; discriminate X].
  - split; [|split; [exact I|split; [right; left; reflexivity|split; [right; left; reflexivity|refine (D _ _ _); reflexivity]]]].
    right. split; [refine (D _ _ _); reflexivity|intros X; vm_compute in X; discriminate X].
Qed.
