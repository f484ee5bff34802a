(** C41: preparation of the URL.  [Url::parse] is not modelled; [parsed_ok] is what is assumed of its
    result. *)
From Verif Require Import UrlProofs.

(** Accepted are exactly the URLs with scheme http, https, ws or wss; the error names the scheme. *)
Theorem C41_accepted_exactly :
  forall u, parsed_ok u ->
    ((exists u', parse_url (Some u) = Ok u') <-> exists secure, web_scheme (u_scheme u) secure) /\
    ((forall secure, ~ web_scheme (u_scheme u) secure) -> parse_url (Some u) = Err (UrlInvalidScheme (u_scheme u))).
Proof. exact accepted_exactly. Qed.
Print Assumptions C41_accepted_exactly.
(** Only the scheme changes; the effective port is the same. *)
Theorem C41_only_scheme_changes :
  forall u u', parsed_ok u -> parse_url (Some u) = Ok u' ->
    exists secure, web_scheme (u_scheme u) secure /\ u_scheme u' = (if secure then bs "wss" else bs "ws") /\
      u_user u' = u_user u /\ u_host u' = u_host u /\ u_path u' = u_path u /\ u_query u' = u_query u /\
      u_fragment u' = u_fragment u /\ parsed_ok u' /\ (forall p, effective_port u' p <-> effective_port u p).
Proof. exact accepted_is. Qed.
Print Assumptions C41_only_scheme_changes.
(** The stream is opened to the host and effective port of the given URL, and the websocket request
    is for it with the two pairs added to its query. *)
Theorem C41_connects_to :
  forall u secure h, parsed_ok u -> web_scheme (u_scheme u) secure -> u_host u = Some h ->
    exists p u', effective_port u p /\
      u_scheme u' = (if secure then bs "wss" else bs "ws") /\ u_user u' = u_user u /\ u_host u' = u_host u /\
      u_port u' = u_port u /\ u_path u' = u_path u /\ u_fragment u' = u_fragment u /\
      pairs (u_query u') = pairs (u_query u) ++ [(bs "EIO", bs "4"); (bs "transport", bs "websocket")] /\
      connect_to (Some u) = Ok (h, p, url_text u') /\ from_stream_url (Some u) = Ok (url_text u').
Proof. exact connecting_exact. Qed.
Print Assumptions C41_connects_to.
(** The same for the text of the request, read as RFC 3986 says: it is the URL given, with the
    scheme and the query changed, and it can be read in no other way. *)
Theorem C41_request_text :
  forall u secure h, parsed_ok u -> url_parts u -> web_scheme (u_scheme u) secure -> u_host u = Some h ->
    exists p t u', effective_port u p /\ connect_to (Some u) = Ok (h, p, t) /\ from_stream_url (Some u) = Ok t /\
      (forall v, spelled t v <-> v = u') /\
      u_scheme u' = (if secure then bs "wss" else bs "ws") /\ u_user u' = u_user u /\ u_host u' = u_host u /\
      u_port u' = u_port u /\ u_path u' = u_path u /\ u_fragment u' = u_fragment u /\
      pairs (u_query u') = pairs (u_query u) ++ [(bs "EIO", bs "4"); (bs "transport", bs "websocket")] /\
      u_query u' = Some (query_asked (u_query u)).
Proof. exact request_spelled. Qed.
Print Assumptions C41_request_text.
(** A text is the spelling of at most one URL. *)
Theorem C41_text_unique : forall t u u', spelled t u -> spelled t u' -> u = u'.
Proof. exact spelled_unique. Qed.
Print Assumptions C41_text_unique.
Example C41_parts_nonvacuous :
  url_parts (Url (bs "https") (Some (bs "me:pw")) (Some (bs "[::1]")) (Some 8443%N) (bs "/socket.io/") (Some (bs "a=1+2&&b?")) (Some (bs "top#"))) /\
  url_parts (Url (bs "ws") None (Some (bs "example.com")) None (bs "/") None None).
Proof.
  assert (F : forall chars s, forallb (fun c => negb (existsb (Byte.eqb c) chars)) s = true -> free_of chars s).
  { intros chars s H c Hc Hx. rewrite forallb_forall in H. specialize (H c Hc).
    assert (E : existsb (Byte.eqb c) chars = true) by (apply existsb_exists; exists c; split; [exact Hx|now apply Byte.byte_dec_lb]). rewrite E in H. discriminate. }
  split; (split; [apply F; reflexivity|]); (split; [first [exact I|apply F; reflexivity]|]).
  - split; [right; exists (bs "::1"); split; [reflexivity|apply F; reflexivity]|].
    split; [split; [right; eexists; reflexivity|apply F; reflexivity]|apply F; reflexivity].
  - split; [left; split; [apply F; reflexivity|intros r; discriminate]|].
    split; [split; [right; eexists; reflexivity|apply F; reflexivity]|exact I].
Qed.
(** Refused are exactly the URLs that do not parse and those with another scheme, with the error that
    says so, whether the stream is opened or given. *)
Theorem C41_refused_exactly :
  forall parsed, (forall u, parsed = Some u -> parsed_ok u) ->
    forall e, (connect_to parsed = Err e <-> refusal parsed e) /\ (from_stream_url parsed = Err e <-> refusal parsed e).
Proof. exact refused_exactly. Qed.
Print Assumptions C41_refused_exactly.
Example C41_refused_nonvacuous :
  let u := Url (bs "ftp") None (Some (bs "h")) None (bs "/") None None in
  parsed_ok u /\ refusal (Some u) (UrlInvalidScheme (bs "ftp")) /\ refusal None UrlParse.
Proof.
  cbn zeta. split; [split; cbn; [intros X; repeat (destruct X as [X|X]; [discriminate|]); contradiction|intros X; contradiction X; reflexivity]|].
  split; [split; [intros b X; inversion X|reflexivity]|reflexivity].
Qed.
(** None of the three unwraps on the way can panic. *)
Theorem C41_never_panics :
  forall parsed, (forall u, parsed = Some u -> parsed_ok u) ->
    connect_to parsed <> Panic /\ from_stream_url parsed <> Panic /\
    (forall r, connect_to parsed = Ok r -> exists u secure, parsed = Some u /\ web_scheme (u_scheme u) secure).
Proof. exact connecting_never_panics. Qed.
Print Assumptions C41_never_panics.
(** Appending any pair to any query: a reader finds the old pairs and the new one. *)
Theorem C41_query_pairs :
  forall n v u, pairs (u_query (append_pair n v u)) = pairs (u_query u) ++ [(n, v)].
Proof. exact append_pair_pairs. Qed.
Print Assumptions C41_query_pairs.
Example C41_nonvacuous :
  let u := Url (bs "https") (Some (bs "me:pw")) (Some (bs "example.com")) (Some 8443%N) (bs "/socket.io/") (Some (bs "a=1+2&&b")) (Some (bs "top")) in
  parsed_ok u /\ pairs (u_query u) = [(bs "a", bs "1 2"); (bs "b", [])] /\
  connect_to (Some u) = Ok (bs "example.com", 8443%N,
    bs "wss://me:pw@example.com:8443/socket.io/?a=1+2&&b&EIO=4&transport=websocket#top") /\
  form_encode (bs "x y&=%") = bs "x+y%26%3D%25" /\
  connect_to (Some (Url (bs "http") None (Some (bs "h")) None (bs "/") None None)) =
    Ok (bs "h", 80%N, bs "ws://h/?EIO=4&transport=websocket").
Proof.
  cbn zeta. split.
  { split; cbn [u_scheme u_host u_port].
    - intros _. eexists _, _. vm_compute. reflexivity.
    - intros _. vm_compute. discriminate. }
  vm_compute. auto.
Qed.
