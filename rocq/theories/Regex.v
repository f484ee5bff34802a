(** Model of the [regex] crate as used by socket/de.rs: leftmost-first (Perl-like, greedy)
    matching with capture groups, as a list of successes in priority order.

    The matcher works on bytes.  The crate matches [.] against whole characters; on valid UTF-8
    the two agree for this pattern (lemma [captures_same] in CharRegexProofs.v). *)
From Verif Require Export Bytes.

Inductive rx :=
| XChar (p : byte -> bool)   (* one byte of a class *)
| XSeq (a b : rx)
| XAlt (a b : rx)            (* a|b, a preferred *)
| XOpt (a : rx)              (* a?  greedy *)
| XStar (a : rx)             (* a*  greedy *)
| XGroup (n : nat) (a : rx)  (* capture group *)
| XBegin                     (* ^ *)
| XEnd                       (* $ (no multi-line flag: end of text only) *)
.

(** Matching state: position, remaining input, captures so far (latest first). *)
Record mst := MSt { m_pos : nat; m_rest : bytes; m_caps : list (nat * range) }.

Fixpoint run (r : rx) (st : mst) : list mst :=
  match r with
  | XChar p =>
      match m_rest st with
      | c :: s => if p c then [MSt (S (m_pos st)) s (m_caps st)] else []
      | [] => []
      end
  | XSeq a b => flat_map (run b) (run a st)
  | XAlt a b => run a st ++ run b st
  | XOpt a => run a st ++ [st]
  | XStar a =>
      (fix star (n : nat) (st : mst) : list mst :=
         match n with
         | O => [st]
         | S n' =>
             flat_map (fun st' => if m_pos st <? m_pos st' then star n' st' else []) (run a st)
             ++ [st]
         end) (length (m_rest st)) st
  | XGroup n a =>
      map (fun st' => MSt (m_pos st') (m_rest st') ((n, (m_pos st, m_pos st')) :: m_caps st'))
          (run a st)
  | XBegin => if m_pos st =? 0 then [st] else []
  | XEnd => match m_rest st with [] => [st] | _ => [] end
  end.

(** [Regex::captures]: leftmost start position, then first success. *)
Fixpoint search_from (r : rx) (pos : nat) (s : bytes) : option (list (nat * range)) :=
  match run r (MSt pos s []) with
  | st :: _ => Some (m_caps st)
  | [] => match s with [] => None | _ :: s' => search_from r (S pos) s' end
  end.
Definition captures (r : rx) (s : bytes) : option (list (nat * range)) := search_from r 0 s.
(** [Captures::get(n)] *)
Fixpoint cap_get (n : nat) (caps : list (nat * range)) : option range :=
  match caps with
  | [] => None
  | (k, x) :: caps' => if n =? k then Some x else cap_get n caps'
  end.

Definition chr (c : byte) : rx := XChar (fun d => d =b c).
Definition any_no_nl : byte -> bool := fun c => negb (c =b x0a).  (* . *)
Definition is_19 (c : byte) : bool := is_digit c && negb (c =b "0").
Definition one_of (s : bytes) : rx := XChar (fun c => existsb (fun d => c =b d) s).

(** A group holding 0 or a digit 1-9 followed by digits. *)
Definition rx_num (n : nat) : rx :=
  XGroup n (XAlt (chr "0") (XSeq (XChar is_19) (XStar (XChar is_digit)))).

(** socket-io-protocol/src/socket/de.rs:48
    (the blank before each closing parenthesis that follows a star is not in the source)
    [^([012356])((0|[1-9][0-9]* )-)?((/.+),)?(0|[1-9][0-9]* )?(\[.*\])?$] *)
Definition DESERIALIZE_RE : rx :=
  XSeq XBegin
  (XSeq (XGroup 1 (one_of (bs "012356")))
  (XSeq (XOpt (XGroup 2 (XSeq (rx_num 3) (chr "-"))))
  (XSeq (XOpt (XGroup 4 (XSeq (XGroup 5 (XSeq (chr "/")
                                         (XSeq (XChar any_no_nl) (XStar (XChar any_no_nl)))))
                              (chr ","))))
  (XSeq (XOpt (rx_num 6))
  (XSeq (XOpt (XGroup 7 (XSeq (chr "[") (XSeq (XStar (XChar any_no_nl)) (chr "]")))))
        XEnd))))).
