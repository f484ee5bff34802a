(** Model of owned_subslice/src/lib.rs. *)
From Verif Require Export Bytes Utf8.

(** owned_subslice/src/lib.rs:8-14 [struct OwnedSubslice { data, range }]. *)
Record subslice_t := Sub { sub_data : bytes; sub_range : range }.

(** lib.rs:21-23 [OwnedSubslice::new]: stores both, checks nothing. *)
Definition sub_new (data : bytes) (r : range) : subslice_t := Sub data r.

(** lib.rs:25-32 [subslice]: the start is not clamped, the end is.  Simplification: positions
    are [nat], so [usize] overflow of the additions (ranges beyond 2^63) is not modelled. *)
Definition sub_subslice (s : subslice_t) (r : range) : subslice_t :=
  let start := fst (sub_range s) + fst r in
  let end_ := Nat.min (fst (sub_range s) + snd r) (snd (sub_range s)) in
  Sub (sub_data s) (start, end_).

(** lib.rs:41-43 [Deref] for [OwnedSubslice<Vec<u8>>]; [None] is a panic. *)
Definition sub_deref_vec (s : subslice_t) : option bytes := vec_slice (sub_data s) (sub_range s).
(** lib.rs:41-43 [Deref] for [OwnedSubslice<String>]; [None] is a panic. *)
Definition sub_deref_str (s : subslice_t) : option bytes := str_slice (sub_data s) (sub_range s).

(** lib.rs:55-73 [From<String>], [From<Vec<T>>]: the whole buffer. *)
Definition sub_from (data : bytes) : subslice_t := Sub data (0, length data).

(** lib.rs:50-52 [DerefMut] for [OwnedSubslice<Vec<u8>>], as "replace the visible bytes by
    [f] of them", where [f] keeps the length (a [&mut [u8]] cannot change it). *)
Definition sub_update_vec (s : subslice_t) (f : bytes -> bytes) : option subslice_t :=
  match sub_deref_vec s with
  | None => None
  | Some v =>
      let (a, b) := sub_range s in
      Some (Sub (firstn a (sub_data s) ++ f v ++ skipn b (sub_data s)) (sub_range s))
  end.

(** lib.rs:95-103 [PartialEq]: compares the dereferenced slices ([None]: panic). *)
Definition sub_eq_vec (s t : subslice_t) : option bool :=
  match sub_deref_vec s, sub_deref_vec t with
  | Some a, Some b => Some (bytes_eqb a b)
  | _, _ => None
  end.
