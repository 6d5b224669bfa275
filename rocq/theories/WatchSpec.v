(** Who is to be told about a change. *)
From Verif Require Import Base Ctype KeySpec TempSpec.
Local Open Scope nat_scope.

(** The watches, oldest first: the key watched, whether what is below it is
    watched too, the cookie it was registered with and the callback. *)
Record entry := { e_key : list bytes; e_below : bool; e_cookie : nat; e_what : nat }.
Inductive request := Watch (k : list bytes) (below : bool) (c w : nat) | Unwatch (k : list bytes) (below : bool) (c : nat).
(** Removing a watch removes the oldest one with this key, cookie and depth. *)
Fixpoint drop_first (p : entry -> bool) (r : list entry) : list entry :=
  match r with [] => [] | e :: r => if p e then r else e :: drop_first p r end.
Definition request_spec (r : list entry) (q : request) : list entry :=
  match q with
  | Watch k b c w => r ++ [{| e_key := named k; e_below := b; e_cookie := c; e_what := w |}]
  | Unwatch k b c => drop_first (fun e => same (e_key e) (named k) && Bool.eqb (e_below e) b && (e_cookie e =? c)) r
  end.
Definition watches (qs : list request) : list entry := fold_left request_spec qs [].

(** A change at [k] is told to the watches at the keys above it and at [k] itself,
    from the shortest key to the longest and for one key the oldest watch first;
    the watch of a key above must be recursive.  The callback gets the key watched
    and the rest. *)
Definition told_at (r : list entry) (k : list bytes) (n : nat) : list (nat * list bytes * list bytes) :=
  map (fun e => (e_what e, firstn n k, skipn n k))
      (filter (fun e => same (e_key e) (firstn n k) && (e_below e || (n =? length k))) r).
Definition told_above (r : list entry) (k : list bytes) : list (nat * list bytes * list bytes) :=
  flat_map (told_at r k) (seq 0 (S (length k))).
(** The removal of [k] is also told to the watches of the keys strictly below. *)
Definition told_below (r : list entry) (k : list bytes) : list (nat * list bytes * list bytes) :=
  map (fun e => (e_what e, e_key e, []))
      (filter (fun e => under k (e_key e) && negb (under (e_key e) k)) r).
(** Letter case of keys left aside. *)
Definition folded (e : nat * list bytes * list bytes) : nat * list bytes * list bytes :=
  let '(w, k, rest) := e in (w, map (map tolower) k, rest).
