(** Runs with a clock where both the queue and what arrives are attended to: how soon a ping is answered. *)
From Verif Require Export SpecInbox.

(** A run as in SpecPace.v and as in SpecInbox.v at the same time: time goes on, messages arrive, and
    steps are made as both allow. *)
Inductive joint (log : bool) (d k : nat) : clock * desk -> clock * desk -> Prop :=
| jn_wait s t t' a n w o b r i h : t <= t' -> (busy s = true -> t' <= a + d) -> (occupied s i = true -> t' <= b + d) ->
    joint log d k (Clock s t a n w o, Desk s t b r i h o) (Clock s t' a n w o, Desk s t' b r i h o)
| jn_arrive c s t b r i h o m : s_phase s <> PUnborn -> ws_valid m = true ->
    joint log d k (c, Desk s t b r i h o) (c, Desk s t (if occupied s i then b else t) r (i ++ [m]) (h ++ [m]) o)
| jn_step s t a n w o b r i h l s' o' i' : step log s l = Some (s', o') -> reads_from i l i' ->
    (passes s l = true -> n < k) -> (passes_close s l = true -> w < k) -> (passes_reading i l = true -> r < k) ->
    joint log d k (Clock s t a n w o, Desk s t b r i h o)
      (Clock s' t (if by_task l || negb (busy s) then t else a)
        (if passes s l then S n else match l with LTake => 0 | _ => n end)
        (if passes_close s l then S w else w)
        (o ++ map (pair t) o'),
       Desk s' t (if by_task l || negb (occupied s i) then t else b)
        (if passes_reading i l then S r else match l with LRead _ => 0 | _ => r end)
        i' h (o ++ map (pair t) o')).
Inductive goes (log : bool) (d k : nat) (x : clock * desk) : clock * desk -> Prop :=
| go_here : goes log d k x x
| go_on y z : goes log d k x y -> joint log d k y z -> goes log d k x z.
Definition tended (log : bool) (d k : nat) (x : clock * desk) : Prop :=
  exists t, goes log d k (Clock init t t 0 0 [], Desk init t t 0 [] [] []) x.
