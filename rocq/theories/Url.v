(** Preparation of the URL: lib.rs:103-161 and 207-226, connection.rs:32-48.

    [Url::parse] of the crate [url] is not modelled: the functions below start from its result, a
    record of the components of a URL.  Of that crate the operations used are modelled: [set_scheme],
    [set_port], [port_or_known_default], [query_pairs_mut] with [append_pair], and the text of a URL. *)
From Verif Require Export Bytes Json.

(** The components of a [Url].  [u_user]: the text between "//" and "@", with what separates them. *)
Record url := Url {
  u_scheme : bytes;
  u_user : option bytes;
  u_host : option bytes;
  u_port : option N;           (* only when it is not the default of the scheme *)
  u_path : bytes;
  u_query : option bytes;
  u_fragment : option bytes
}.

(** lib.rs:55-63; [UrlParse]: the error of [Url::parse] *)
Inductive url_error := UrlParse | UrlInvalidScheme (s : bytes) | UrlNoHost.

(** [SchemeType::is_special], [is_file] of the crate url *)
Definition special (s : bytes) : bool :=
  existsb (bytes_eqb s) [bs "http"; bs "https"; bs "ws"; bs "wss"; bs "ftp"; bs "file"].
(** [default_port] of the crate url *)
Definition default_port (s : bytes) : option N :=
  if bytes_eqb s (bs "http") || bytes_eqb s (bs "ws") then Some 80%N
  else if bytes_eqb s (bs "https") || bytes_eqb s (bs "wss") then Some 443%N
  else if bytes_eqb s (bs "ftp") then Some 21%N else None.
Definition option_N_eqb (a b : option N) : bool :=
  match a, b with Some x, Some y => (x =? y)%N | None, None => true | _, _ => false end.

(** [Url::set_port]; the error is what callers here ignore *)
Definition set_port (port : option N) (u : url) : url :=
  match u_host u with
  | None | Some [] => u
  | Some _ =>
      if bytes_eqb (u_scheme u) (bs "file") then u
      else
        let p := if option_N_eqb port (default_port (u_scheme u)) then None else port in
        Url (u_scheme u) (u_user u) (u_host u) p (u_path u) (u_query u) (u_fragment u)
  end.
(** [Url::set_scheme] for a [s] that is a scheme; [None]: an error.  The port is set again, so that
    it disappears if it is the default of the new scheme. *)
Definition set_scheme (s : bytes) (u : url) : option url :=
  if xorb (special s) (special (u_scheme u)) then None
  else if special s && match u_host u with None => true | Some _ => false end then None
  else
    let u' := Url s (u_user u) (u_host u) (u_port u) (u_path u) (u_query u) (u_fragment u) in
    Some (set_port (u_port u) u').
(** [Url::port_or_known_default] *)
Definition port_or_known_default (u : url) : option N :=
  match u_port u with Some p => Some p | None => default_port (u_scheme u) end.

(** lib.rs:207-220 *)
Definition parse_url (parsed : option url) : res url_error url :=
  match parsed with
  | None => Err UrlParse
  | Some u =>
      let scheme :=
        if bytes_eqb (u_scheme u) (bs "http") || bytes_eqb (u_scheme u) (bs "ws") then Some (bs "ws")
        else if bytes_eqb (u_scheme u) (bs "https") || bytes_eqb (u_scheme u) (bs "wss") then Some (bs "wss")
        else None in
      match scheme with
      | None => Err (UrlInvalidScheme (u_scheme u))
      | Some s =>
          match set_scheme s u with
          | None => Panic                                           (* [unwrap], line 216 *)
          | Some u' => match u_host u' with None => Err UrlNoHost | Some _ => Ok u' end
          end
      end
  end.

(** [form_urlencoded::byte_serialize] *)
Definition unreserved (c : byte) : bool :=
  is_digit c || ((65 <=? bN c)%N && (bN c <=? 90)%N) || ((97 <=? bN c)%N && (bN c <=? 122)%N)
  || (c =b "*") || (c =b "-") || (c =b ".") || (c =b "_").
Definition hex_upper (n : N) : byte := if (n <? 10)%N then byte_of (48 + n) else byte_of (55 + n).
Definition encode_byte (c : byte) : bytes :=
  if unreserved c then [c]
  else if c =b " " then ["+"%byte]
  else ["%"%byte; hex_upper (bN c / 16); hex_upper (bN c mod 16)].
Definition form_encode (s : bytes) : bytes := flat_map encode_byte s.
(** [Url::query_pairs_mut().append_pair(name, value)]: an absent query becomes an empty one, and a
    separator is written unless the query is empty. *)
Definition append_pair (name value : bytes) (u : url) : url :=
  let q := match u_query u with Some q => q | None => [] end in
  let sep := match q with [] => [] | _ => ["&"%byte] end in
  Url (u_scheme u) (u_user u) (u_host u) (u_port u) (u_path u)
    (Some (q ++ sep ++ form_encode name ++ "="%byte :: form_encode value)) (u_fragment u).

(** lib.rs:222-226 *)
Definition add_socketio_query_params (u : url) : url :=
  append_pair (bs "transport") (bs "websocket") (append_pair (bs "EIO") (bs "4") u).

(** The text of a URL with an authority. *)
Definition opt_with (c : byte) (o : option bytes) : bytes := match o with Some s => c :: s | None => [] end.
Definition url_text (u : url) : bytes :=
  u_scheme u ++ bs "://" ++ match u_user u with Some s => s ++ ["@"%byte] | None => [] end
  ++ match u_host u with Some h => h | None => [] end
  ++ match u_port u with Some p => ":"%byte :: dec p | None => [] end
  ++ u_path u ++ opt_with "?" (u_query u) ++ opt_with "#" (u_fragment u).

(** connection.rs:43-48: the URL of the websocket request. *)
Definition request_url (sid : option bytes) (u : url) : url :=
  match sid with Some s => append_pair (bs "sid") s u | None => u end.

(** lib.rs:103-161 [Client::connect]: what is asked of the given [connect] function, and the URL of
    the websocket request (the sid is always [None], line 154). *)
Definition connect_to (parsed : option url) : res url_error (bytes * N * bytes) :=
  match parse_url parsed with
  | Err e => Err e
  | Panic => Panic
  | Ok u =>
      match u_host u, port_or_known_default u with
      | Some h, Some p => Ok (h, p, url_text (request_url None (add_socketio_query_params u)))
      | _, _ => Panic                                               (* [unwrap], lines 119, 120 *)
      end
  end.
(** lib.rs:127-140 [Client::from_stream] *)
Definition from_stream_url (parsed : option url) : res url_error bytes :=
  rmap (fun u => url_text (request_url None (add_socketio_query_params u))) (parse_url parsed).
