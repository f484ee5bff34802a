(** The [regex] crate matches whole characters of a [&str].  This is such a matcher: as in Regex.v,
    but a class is a predicate on the bytes of one character; positions are still byte offsets. *)
From Verif Require Export Regex Utf8.

Inductive crx :=
| CClass (p : bytes -> bool)
| CSeq (a b : crx)
| CAlt (a b : crx)
| COpt (a : crx)
| CStar (a : crx)
| CGroup (n : nat) (a : crx)
| CBegin
| CEnd.

(** The first character: its length follows from its first byte. *)
Definition char_len (c : byte) : nat :=
  if in_rng 0 127 c then 1 else if in_rng 194 223 c then 2 else if in_rng 224 239 c then 3 else 4.
Definition next_char (s : bytes) : option (bytes * bytes) :=
  match s with
  | [] => None
  | c :: _ => Some (firstn (char_len c) s, skipn (char_len c) s)
  end.

Fixpoint crun (r : crx) (st : mst) : list mst :=
  match r with
  | CClass p =>
      match next_char (m_rest st) with
      | Some (ch, s) => if p ch then [MSt (m_pos st + length ch) s (m_caps st)] else []
      | None => []
      end
  | CSeq a b => flat_map (crun b) (crun a st)
  | CAlt a b => crun a st ++ crun b st
  | COpt a => crun a st ++ [st]
  | CStar a =>
      (fix star (n : nat) (st : mst) : list mst :=
         match n with
         | O => [st]
         | S n' =>
             flat_map (fun st' => if m_pos st <? m_pos st' then star n' st' else []) (crun a st)
             ++ [st]
         end) (length (m_rest st)) st
  | CGroup n a =>
      map (fun st' => MSt (m_pos st') (m_rest st') ((n, (m_pos st, m_pos st')) :: m_caps st'))
          (crun a st)
  | CBegin => if m_pos st =? 0 then [st] else []
  | CEnd => match m_rest st with [] => [st] | _ => [] end
  end.
(** Leftmost start: character boundaries only. *)
Fixpoint csearch_from (fuel : nat) (r : crx) (pos : nat) (s : bytes) : option (list (nat * range)) :=
  match crun r (MSt pos s []) with
  | st :: _ => Some (m_caps st)
  | [] =>
      match fuel, next_char s with
      | S fuel', Some (ch, s') => csearch_from fuel' r (pos + length ch) s'
      | _, _ => None
      end
  end.
Definition ccaptures (r : crx) (s : bytes) : option (list (nat * range)) := csearch_from (length s) r 0 s.

Definition ascii (p : byte -> bool) : crx :=
  CClass (fun ch => match ch with [c] => p c | _ => false end).
Definition dot : crx := CClass (fun ch => negb (bytes_eqb ch [x0a])).
Definition cchr (c : byte) : crx := ascii (fun d => d =b c).
Definition cnum (n : nat) : crx :=
  CGroup n (CAlt (cchr "0") (CSeq (ascii is_19) (CStar (ascii is_digit)))).
(** socket-io-protocol/src/socket/de.rs:48, as in Regex.v *)
Definition DESERIALIZE_CRE : crx :=
  CSeq CBegin
  (CSeq (CGroup 1 (ascii (fun c => existsb (fun d => c =b d) (bs "012356"))))
  (CSeq (COpt (CGroup 2 (CSeq (cnum 3) (cchr "-"))))
  (CSeq (COpt (CGroup 4 (CSeq (CGroup 5 (CSeq (cchr "/") (CSeq dot (CStar dot)))) (cchr ","))))
  (CSeq (COpt (cnum 6))
  (CSeq (COpt (CGroup 7 (CSeq (cchr "[") (CSeq (CStar dot) (cchr "]")))))
        CEnd))))).
