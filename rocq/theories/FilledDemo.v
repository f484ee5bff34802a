(** Cases for attachments in buffers (C74-C76, C84). *)
From Verif Require Export FilledProofs FlattenDemo.

Definition xyz_raw : raw := RArr (map byte_lit (bs "xyz")).
Definition xyz_text : bytes := bs "[120,121,122]".
Lemma att1_contents : contents att1 = Some [bs "xyz"] /\ att1 <> [].
Proof. split; [vm_compute; reflexivity|discriminate]. Qed.
Lemma ph0_stands : stands_for [bs "xyz"] ph0 (bs "xyz").
Proof. exists true, (int_lit false 0), 0%N. vm_compute. auto. Qed.
Lemma ph0_spelt : spelt [bs "xyz"] (RObj ph0) xyz_raw.
Proof. apply sp_attachment. exact ph0_stands. Qed.
(** A tuple of three numbers is read out of an attachment of three bytes. *)
Definition triple : list (bytes * alt) := [(bs "Name", ANewtype TyString); (bs "Rgb", ANewtype (TyTuple [TyInt 0 255; TyInt 0 255; TyInt 0 255]))].
Lemma triple_read :
  jvalue (RObj ph0) ph0_text /\ jvalue xyz_raw xyz_text /\ no_token (RObj ph0) /\ Forall (fun na => alt_no_int_map (snd na)) triple /\
  arg_enum (Untagged triple) (Arg ph0_text att1) = Ok (XVariant (bs "Rgb") (XTuple [XInt 120; XInt 121; XInt 122])).
Proof.
  split; [apply jvalue_by_scan; vm_compute; reflexivity|]. split; [apply jvalue_by_scan; vm_compute; reflexivity|].
  split; [split; [vm_compute; discriminate|repeat split]|]. split; [repeat constructor|vm_compute; reflexivity].
Qed.
Definition file_members : list (bytes * raw) := (bs "t", RStr (bs "File")) :: file_rest.
Definition file_spelt : list (bytes * raw) := [(bs "t", RStr (bs "File")); (bs "d", xyz_raw)].
Definition file_spelt_text : bytes := bs "{""t"":""File"",""d"":" ++ xyz_text ++ bs "}".
Lemma file_case : jvalue (RObj file_members) file_text /\ not_attached (RObj file_members) /\ spelt [bs "xyz"] (RObj file_members) (RObj file_spelt) /\
  jvalue (RObj file_spelt) file_spelt_text /\
  arg_enum (Tagged (bs "t") (file_alts u8s)) (Arg file_text att1) = Ok (XVariant (bs "File") (XStruct [xyz])).
Proof.
  assert (O : ordinary_first file_members) by (split; [vm_compute; reflexivity|discriminate]).
  split; [apply jvalue_by_scan; vm_compute; reflexivity|]. split; [exact O|].
  split; [|split; [apply jvalue_by_scan; vm_compute; reflexivity|vm_compute; reflexivity]]. apply sp_obj; [exact O|].
  constructor; [split; [reflexivity|apply sp_scalar; exact I]|]. constructor; [split; [reflexivity|exact ph0_spelt]|constructor].
Qed.
Definition last_spelt : list (bytes * raw) := [(bs "c", xyz_raw); (bs "t", RStr (bs "Bin"))].
Definition last_spelt_text : bytes := bs "{""c"":" ++ xyz_text ++ bs ",""t"":""Bin""}".
Lemma last_ahead y : content_ahead (bs "t") (bs "c") (RObj ph0) y tag_last [(bs "c", y); (bs "t", RStr (bs "Bin"))].
Proof. exists [], (bs "c"), [], (bs "t"), (bs "Bin"), []. split; [reflexivity|]. split; [reflexivity|]. split; [reflexivity|]. split; [reflexivity|constructor]. Qed.
Lemma last_case : jvalue (RObj tag_last) tag_last_text /\ jvalue (RObj last_spelt) last_spelt_text /\
  arg_enum (Adjacent (bs "t") (bs "c") [(bs "Bin", ANewtype u8s)]) (Arg tag_last_text att1) = Ok (XVariant (bs "Bin") xyz).
Proof. split; [apply jvalue_by_scan; vm_compute; reflexivity|]. split; [apply jvalue_by_scan; vm_compute; reflexivity|vm_compute; reflexivity]. Qed.
Definition entry_spelt : list (bytes * raw) := [(bs "d", xyz_raw); (bs "x", RArr [RNum (int_lit false 1)]); (bs "y", RNum (int_lit false 2))].
Definition entry_spelt_text : bytes := bs "{""d"":" ++ xyz_text ++ bs ",""x"":[1],""y"":2}".
Lemma entry_case : spelt_members [bs "xyz"] (without (map fst entry_own) entry) entry_spelt /\ jvalue (RObj entry_spelt) entry_spelt_text.
Proof.
  split; [|apply jvalue_by_scan; vm_compute; reflexivity].
  replace (without (map fst entry_own) entry) with [(bs "d", RObj ph0); (bs "x", RArr [RNum (int_lit false 1)]); (bs "y", RNum (int_lit false 2))] by (vm_compute; reflexivity).
  constructor; [split; [reflexivity|exact ph0_spelt]|]. constructor; [split; [reflexivity|]; apply sp_arr; constructor; [apply sp_scalar; exact I|constructor]|].
  constructor; [split; [reflexivity|apply sp_scalar; exact I]|constructor].
Qed.
