(** The unit tests of the repository, replayed on the model (tests of the transcription, not
    proofs of properties).  [Url::parse] is not modelled, so that the test of lib.rs starts from the
    components it returns. *)
From Verif Require Import Bytes Json Subslice Engine Regex SocketDe SerModel SocketSer Args DeModel
  Callbacks Url.

(** owned_subslice/src/lib.rs:136-141 *)
Example test_slice : sub_deref_str (sub_new (bs "Hello world!") (1, 4)) = Some (bs "ell").
Proof. reflexivity. Qed.

(** engine.rs:201-206 *)
Example test_decode_close : exists e, snd (decode decoder_new (WClose None)) = Err e.
Proof. eexists. reflexivity. Qed.
(** engine.rs:208-223 *)
Definition open_msg : wsmsg :=
  WText (bs "0{""sid"":""0vtWsEAcESDOoPs8AAAA"",""upgrades"":[],""pingInterval"":25000,""pingTimeout"":5000}").
Example test_decode_open :
  snd (decode decoder_new open_msg) = Ok (PktOpen (Open (bs "0vtWsEAcESDOoPs8AAAA") 5000 25000)) /\
  snd (decode (fst (decode decoder_new open_msg)) open_msg) = Err ESecondOpen.
Proof. split; vm_compute; reflexivity. Qed.

(** socket/ser.rs:191-226 *)
Example test_connect : serialize_connect (bs "/") = MText (sub_from (bs "40")).
Proof. vm_compute. reflexivity. Qed.
Example test_disconnect : serialize_disconnect (bs "/nsp") = MText (sub_from (bs "41/nsp,")).
Proof. vm_compute. reflexivity. Qed.
Example test_ser_simple :
  option_map finish (new_event (bs "event") (bs "/") None false) = Some (Some [WText (bs "42[""event""]")]).
Proof. vm_compute. reflexivity. Qed.
Definition deadbeef : bytes := [xde; xad; xbe; xef].
Example test_simple_binary :
  finish (serialize_args (new_ack (bs "/binary") 3 true) [SSeq (map SU8 deadbeef)])
  = Some [WText (bs "461-/binary,3[{""_placeholder"":true,""num"":0}]"); WBinary (x04 :: deadbeef)].
Proof. vm_compute. reflexivity. Qed.

(** socket/de.rs:226-261 *)
Definition group (n : nat) (m : bytes) : option bytes :=
  match captures DESERIALIZE_RE m with
  | Some c => option_map (fun r => slice (fst r) (snd r) m) (cap_get n c)
  | None => None
  end.
Definition m0 := bs "0/nsp,".
Definition m1 := bs "52-[""binary"",{""_placeholder"":true,""num"":0},{""_placeholder"":true,""num"":1}]".
Definition m2 := bs "20[""types"",[0,1,2],{""key"":""value""},""hello"",4]".
Definition m3 := bs "50-/nsp,1[""binary namespaced message with ack""]".
Example test_deserialize_re :
  group 1 m0 = Some (bs "0") /\ group 5 m0 = Some (bs "/nsp") /\
  group 1 m1 = Some (bs "5") /\ group 3 m1 = Some (bs "2") /\
  group 1 m2 = Some (bs "2") /\ group 6 m2 = Some (bs "0") /\
  group 7 m2 = Some (bs "[""types"",[0,1,2],{""key"":""value""},""hello"",4]") /\
  group 1 m3 = Some (bs "5") /\ group 3 m3 = Some (bs "0") /\ group 5 m3 = Some (bs "/nsp") /\
  group 6 m3 = Some (bs "1") /\ group 7 m3 = Some (bs "[""binary namespaced message with ack""]").
Proof. vm_compute. repeat split. Qed.
(** de.rs:263-278 *)
Example test_parse_text :
  parse_text (sub_from m3)
  = Ok (Parse (sub_from m3) PKBinaryEvent (Some 0%N) (Some (3, 7)) (Some 1%N) [(10, 46)]).
Proof. vm_compute. reflexivity. Qed.
(** de.rs:280-342 *)
Example test_deserialize_connect :
  deserialize (MText (sub_from (bs "0/nsp,")))
  = Ok (DPacket (Packet (sub_from (bs "0/nsp,")) KConnect (Some (1, 5)) None [] [])).
Proof. vm_compute. reflexivity. Qed.
Example test_deserialize_disconnect :
  deserialize (MText (sub_from (bs "1/nsp,")))
  = Ok (DPacket (Packet (sub_from (bs "1/nsp,")) KDisconnect (Some (1, 5)) None [] [])).
Proof. vm_compute. reflexivity. Qed.
Definition m_event := bs "23[""test"",""hello"",{""key"":""value""}]".
Definition p_event := Packet (sub_from m_event) KEvent None (Some 3%N) [(3, 9); (10, 17); (18, 33)] [].
Example test_deserialize_event : deserialize (MText (sub_from m_event)) = Ok (DPacket p_event).
Proof. vm_compute. reflexivity. Qed.
Definition m_ack := bs "33[""test"",""hello"",{""key"":""value""}]".
Example test_deserialize_ack :
  deserialize (MText (sub_from m_ack))
  = Ok (DPacket (Packet (sub_from m_ack) KAck None (Some 3%N) [(3, 9); (10, 17); (18, 33)] [])).
Proof. vm_compute. reflexivity. Qed.
(** de.rs:344-393 *)
Definition complete (m : bytes) (l : list bytes) : res serror packet :=
  match deserialize (MText (sub_from m)) with
  | Ok (DDataNeeded q) => deserialize_partial q (map (fun b => MBinary (sub_from b)) l)
  | _ => Panic
  end.
Definition m_bin_event := bs "51-[""binary"",{""_placeholder"":true,""num"":0}]".
Example test_deserialize_binary_event :
  complete m_bin_event [deadbeef]
  = Ok (Packet (sub_from m_bin_event) KEvent None None [(4, 12); (13, 42)] [sub_from deadbeef]).
Proof. vm_compute. reflexivity. Qed.
Definition m_bin_ack := bs "61-10[""binary"",{""_placeholder"":true,""num"":0}]".
Example test_deserialize_binary_ack :
  complete m_bin_ack [deadbeef]
  = Ok (Packet (sub_from m_bin_ack) KAck None (Some 10%N) [(6, 14); (15, 44)] [sub_from deadbeef]).
Proof. vm_compute. reflexivity. Qed.

(** socket/args/mod.rs:170-248 *)
Definition arg_of (p : packet) (i : nat) : option arg_t :=
  match packet_data p with
  | Some (DataEvent _ a) | Some (DataAck _ a) => match args_get a i with Ok o => o | _ => None end
  | _ => None
  end.
Example test_text_arg_value :
  option_map to_json_value (arg_of p_event 2) = Some (Ok (VObj [(bs "key", VStr (bs "value"))])).
Proof. vm_compute. reflexivity. Qed.
Example test_text_arg_deserialize_borrowed :
  option_map (arg_deserialize (TyStruct [(bs "key", TyStr)])) (arg_of p_event 2)
  = Some (Ok (XStruct [XStr (bs "value")])).
Proof. vm_compute. reflexivity. Qed.
Example test_text_arg_deserialize_owned :
  option_map (arg_deserialize (TyStruct [(bs "key", TyString)])) (arg_of p_event 2)
  = Some (Ok (XStruct [XStr (bs "value")])).
Proof. vm_compute. reflexivity. Qed.
(** socket/args/mod.rs:250-279 *)
Example test_args_binary_ack :
  match complete (bs "61-10[""binary"",{""array"": {""_placeholder"":true,""num"":0}}]") [deadbeef] with
  | Ok p => option_map to_json_value (arg_of p 1)
  | _ => None
  end
  = Some (Ok (VObj [(bs "array", VArr [VNum (NPos 222); VNum (NPos 173); VNum (NPos 190); VNum (NPos 239)])])).
Proof. vm_compute. reflexivity. Qed.

(** deserialize_attachments.rs:472-542 *)
Definition json_placeholder := bs "{""array"": {""_placeholder"":true,""num"":0}}".
Example test_translate :
  deserialize_with
    (TyStruct [(bs "array", TyStruct [(bs "_placeholder", TyBool); (bs "num", TyInt 0 (2 ^ 64 - 1))])])
    json_placeholder [sub_from deadbeef] = None.
Proof. vm_compute. reflexivity. Qed.
Example test_borrowed :
  deserialize_with (TyStruct [(bs "array", TyBytes)]) json_placeholder [sub_from deadbeef]
  = Some (XStruct [XBytes deadbeef]).
Proof. vm_compute. reflexivity. Qed.
Definition xu8s (b : bytes) : dval := XSeq (map (fun c => XInt (Z.of_N (bN c))) b).
Example test_owned :
  deserialize_with (TyStruct [(bs "array", TySeq (TyInt 0 255))]) json_placeholder [sub_from deadbeef]
  = Some (XStruct [xu8s deadbeef]).
Proof. vm_compute. reflexivity. Qed.
Example test_passthrough :
  deserialize_with (TyStruct [(bs "array", TySeq (TyInt 0 255))]) (bs "{""array"": [222, 173, 190, 239]}") []
  = Some (XStruct [xu8s deadbeef]).
Proof. vm_compute. reflexivity. Qed.
Example test_enum_passthrough :
  deserialize_with
    (TyEnum [(bs "A", (VtNewtype, TyInt (-128) 127)); (bs "B", (VtNewtype, TyInt 0 (2 ^ 32 - 1)));
             (bs "C", (VtNewtype, TySeq (TyInt 0 255)))])
    (bs "{""B"": 23}") []
  = Some (XVariant (bs "B") (XInt 23)).
Proof. vm_compute. reflexivity. Qed.

(** serialize_attachments.rs:573-640 *)
Definition ser_json (v : sval) := wrap_ser v ([], []).
Example test_simple : ser_json (SStr (bs "test")) = ((bs """test""", []), OOk).
Proof. vm_compute. reflexivity. Qed.
Example test_simple_struct :
  ser_json (SStruct [(bs "a", SU8 x05); (bs "b", SStr (bs "test"))]) = ((bs "{""a"":5,""b"":""test""}", []), OOk).
Proof. vm_compute. reflexivity. Qed.
Definition u8s (b : bytes) : sval := SSeq (map SU8 b).
Definition attached (b : bytes) : list wsmsg := match encode_binary b with Some m => [m] | None => [] end.
Example test_bytes :
  ser_json (u8s deadbeef) = ((bs "{""_placeholder"":true,""num"":0}", attached deadbeef), OOk).
Proof. vm_compute. reflexivity. Qed.
Example test_nested_bytes :
  ser_json (SStruct [(bs "v", SSeq [SStruct [(bs "d", u8s deadbeef)]; SStruct [(bs "d", u8s [])];
                                    SStruct [(bs "d", u8s [x00; x01; x02; x03; x04; x05; x06])]])])
  = ((bs "{""v"":[{""d"":{""_placeholder"":true,""num"":0}},{""d"":[]},{""d"":{""_placeholder"":true,""num"":1}}]}",
      attached deadbeef ++ attached [x00; x01; x02; x03; x04; x05; x06]), OOk).
Proof. vm_compute. reflexivity. Qed.

(** callbacks.rs:156-177 *)
Example test_callbacks :
  let c := set_ack (set_fallback (set_event callbacks_new (bs "/") (bs "msg") 0%N) (bs "/") 1%N) (bs "/") 0 2%N in
  get_event c (bs "/") (bs "msg") = Some 0%N /\
  get_event c (bs "/") (bs "other") = Some 1%N /\
  get_event c (bs "/ns") (bs "msg") = None /\
  snd (get_and_clear_ack c (bs "/") 0) = Some 2%N /\
  snd (get_and_clear_ack (fst (get_and_clear_ack c (bs "/") 0)) (bs "/") 0) = None.
Proof. vm_compute. repeat split. Qed.

(** socket-io-client/src/lib.rs:232-241 *)
Definition plain_url (scheme host : bytes) (port : option N) : url :=
  Url scheme None (Some host) port (bs "/") None None.
Example test_parse_url :
  rmap (fun u => (url_text u, port_or_known_default u)) (parse_url (Some (plain_url (bs "https") (bs "example.com") None)))
  = Ok (bs "wss://example.com/", Some 443%N) /\
  rmap url_text (parse_url (Some (plain_url (bs "http") (bs "localhost") (Some 8000%N))))
  = Ok (bs "ws://localhost:8000/") /\
  parse_url (Some (Url (bs "localhost") None None None (bs "8000") None None))
  = Err (UrlInvalidScheme (bs "localhost")).
Proof. vm_compute. repeat split. Qed.
