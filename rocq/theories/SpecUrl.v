(** What is said about the URL: C41. *)
From Verif Require Export Url.

(** What [Url::parse] guarantees: a URL with a special scheme (other than file) has a host that is not
    empty; the port is given only if it is not the default of the scheme. *)
Definition parsed_ok (u : url) : Prop :=
  (In (u_scheme u) [bs "http"; bs "https"; bs "ws"; bs "wss"] -> exists c h, u_host u = Some (c :: h)) /\
  (u_port u <> None -> u_port u <> default_port (u_scheme u)).

(** Schemes that are accepted, the secure ones, and the port they mean. *)
Inductive web_scheme : bytes -> bool -> Prop :=
| web_http : web_scheme (bs "http") false
| web_ws : web_scheme (bs "ws") false
| web_https : web_scheme (bs "https") true
| web_wss : web_scheme (bs "wss") true.
Definition secure_port (secure : bool) : N := if secure then 443%N else 80%N.
Definition effective_port (u : url) (p : N) : Prop :=
  u_port u = Some p \/ (u_port u = None /\ exists secure, web_scheme (u_scheme u) secure /\ p = secure_port secure).

(** The pairs of a query, as [form_urlencoded::parse] and every server read them: pieces between
    '&', empty ones left out; name and value separated by the first '='; '+' is a space and %XX a
    byte. *)
Fixpoint pieces (s : bytes) : list bytes :=
  match s with
  | [] => [[]]
  | c :: r =>
      if c =b "&" then [] :: pieces r
      else match pieces r with p :: ps => (c :: p) :: ps | [] => [[c]] end
  end.
Fixpoint cut_at_eq (s : bytes) : bytes * bytes :=
  match s with
  | [] => ([], [])
  | c :: r => if c =b "=" then ([], r) else let (a, b) := cut_at_eq r in (c :: a, b)
  end.
Fixpoint form_decode (s : bytes) : bytes :=
  match s with
  | [] => []
  | c :: r =>
      if c =b "+" then " "%byte :: form_decode r
      else if c =b "%" then
        match r with
        | a :: b :: r' =>
            if is_hex a && is_hex b then byte_of (hex_val a * 16 + hex_val b) :: form_decode r'
            else c :: form_decode r
        | _ => c :: form_decode r
        end
      else c :: form_decode r
  end.
Definition pair_of (piece : bytes) : bytes * bytes :=
  let (n, v) := cut_at_eq piece in (form_decode n, form_decode v).
Definition pairs (q : option bytes) : list (bytes * bytes) :=
  match q with
  | None => []
  | Some s => map pair_of (filter (fun p => match p with [] => false | _ => true end) (pieces s))
  end.

(** How a URL is spelled (RFC 3986, with an authority): [t] is the text of the URL with the parts [u]. *)
Definition free_of (chars s : bytes) : Prop := forall c, In c s -> ~ In c chars.
Definition host_form (h : bytes) : Prop :=
  (free_of (bs ":@/?#") h /\ forall r, h <> "["%byte :: r) \/
  exists x, h = "["%byte :: x ++ bs "]" /\ free_of (bs "]@/?#") x.
Definition path_form (p : bytes) : Prop := (p = [] \/ exists r, p = "/"%byte :: r) /\ free_of (bs "?#") p.
Definition url_parts (u : url) : Prop :=
  free_of (bs ":/?#") (u_scheme u) /\
  match u_user u with Some s => free_of (bs "@/?#") s | None => True end /\
  match u_host u with Some h => host_form h | None => False end /\
  path_form (u_path u) /\
  match u_query u with Some s => free_of (bs "#") s | None => True end.
Definition spelled (t : bytes) (u : url) : Prop :=
  url_parts u /\
  exists user host port query fragment,
    t = u_scheme u ++ bs "://" ++ user ++ host ++ port ++ u_path u ++ query ++ fragment /\
    match u_user u with Some s => user = s ++ bs "@" | None => user = [] end /\
    u_host u = Some host /\
    match u_port u with Some p => port = ":"%byte :: dec p | None => port = [] end /\
    match u_query u with Some s => query = "?"%byte :: s | None => query = [] end /\
    match u_fragment u with Some s => fragment = "#"%byte :: s | None => fragment = [] end.

(** The query of the request: the given one, and the two pairs as they stand in the protocol. *)
Definition query_asked (q : option bytes) : bytes :=
  match q with None | Some [] => [] | Some s => s ++ bs "&" end ++ bs "EIO=4&transport=websocket".
(** Why a URL is refused. *)
Definition refusal (parsed : option url) (e : url_error) : Prop :=
  match parsed with
  | None => e = UrlParse
  | Some u => (forall secure, ~ web_scheme (u_scheme u) secure) /\ e = UrlInvalidScheme (u_scheme u)
  end.
