(** Model of include/wvhashtable.h and utils/wvhashtable.cc: a hash table with a
    linked list per slot.  The slot lists are plain lists here; [ListModel] shows
    that WvList implements them.  Elements are pairs of an object and its
    autofree flag; [t_freed] is the trace of released objects. *)
From Verif Require Import Base.
From Coq Require Import NArith.

Section Hash.
(** Object and key types, Accessor::get_key, WvHash of a key, Comparator *)
Variables (T K : Type) (key_of : T -> K) (hash : K -> N) (eqk : K -> K -> bool).

Record table := Table { t_slots : list (list (T * bool)); t_freed : list T }.

(** utils/wvhashtable.cc:13-19: the number of slots; a shift into or beyond the
    sign bit faults *)
Fixpoint slides_loop (fuel : nat) (n : N) (slides : nat) : res nat :=
  match fuel with
  | O => NoFuel
  | S fuel => let n := N.shiftr n 1 in
              if (n =? 0)%N then Ok slides else slides_loop fuel n (S slides)
  end.
Definition numslots_of (n : N) : res nat :=
  let! slides := slides_loop 33 n 1 in
  if 31 <=? slides then Fault else Ok (2 ^ slides - 1).
(** include/wvhashtable.h:178-179 *)
Definition hash_new (n : N) : res table :=
  let! k := numslots_of n in Ok (Table (repeat [] k) []).

Definition numslots (t : table) : nat := length (t_slots t).
(** hash % numslots *)
Definition slot_of (t : table) (k : K) : res nat :=
  if numslots t =? 0 then Fault else Ok (N.to_nat (hash k mod N.of_nat (numslots t))).
Definition get_slot (t : table) (i : nat) : res (list (T * bool)) := of_opt (nth_error (t_slots t) i).
Definition put_slot (t : table) (i : nat) (s : list (T * bool)) (freed : list T) : table :=
  Table (firstn i (t_slots t) ++ s :: skipn (S i) (t_slots t)) (t_freed t ++ freed).

(** include/wvhashtable.h:187-188 *)
Definition hash_add (t : table) (d : T) (auto : bool) : res table :=
  let! i := slot_of t (key_of d) in
  let! s := get_slot t i in Ok (put_slot t i (s ++ [(d, auto)]) []).

(** utils/wvhashtable.cc:24-37: prevlink; the part of the list up to and
    including the returned link, and the part after it *)
Fixpoint prevlink (s : list (T * bool)) (k : K) : list (T * bool) * list (T * bool) :=
  match s with
  | [] => ([], [])
  | e :: r => if eqk k (key_of (fst e)) then ([], s)
              else let (a, b) := prevlink r k in (e :: a, b)
  end.

(** utils/wvhashtable.cc:40-48 and include/wvhashtable.h:193-194 *)
Definition hash_find (t : table) (k : K) : res (option T) :=
  let! i := slot_of t k in
  let! s := get_slot t i in
  Ok (match snd (prevlink s k) with [] => None | e :: _ => Some (fst e) end).

(** include/wvhashtable.h:227-232: remove; unlink_after releases the object *)
Definition hash_remove (t : table) (d : T) : res table :=
  let! i := slot_of t (key_of d) in
  let! s := get_slot t i in
  match prevlink s (key_of d) with
  | (_, []) => Ok t
  | (a, e :: b) => Ok (put_slot t i (a ++ b) (if snd e then [fst e] else []))
  end.

(** include/wvhashtable.h:215-220: set_autofree by key *)
Definition hash_set_autofree (t : table) (k : K) (auto : bool) : res table :=
  let! i := slot_of t k in
  let! s := get_slot t i in
  match prevlink s k with
  | (_, []) => Ok t
  | (a, e :: b) => Ok (put_slot t i (a ++ (fst e, auto) :: b) [])
  end.

(** include/wvhashtable.h:234-238; the slots are destroyed last to first *)
Definition hash_zap (t : table) : table :=
  Table (repeat [] (numslots t)) (t_freed t ++ map fst (filter snd (concat (rev (t_slots t))))).

(** utils/wvhashtable.cc:51-68 *)
Definition hash_count (t : table) : nat := fold_left (fun n s => n + length s) (t_slots t) 0.
Definition hash_isempty (t : table) : bool :=
  forallb (fun s => match s with [] => true | _ => false end) (t_slots t).

(** utils/wvhashtable.cc:71-98: the iterator; [rest] is the list after the
    current link of slot [tblindex] *)
Fixpoint scan (fuel : nat) (t : table) (cur : nat) : res (nat * list (T * bool)) :=
  match fuel with
  | O => NoFuel
  | S fuel =>
      if cur <? numslots t - 1 then
        let! s := get_slot t (S cur) in
        match s with [] => scan fuel t (S cur) | _ => Ok (S cur, s) end
      else Ok (cur, [])
  end.
Definition iter_next (t : table) (tblindex : nat) (rest : list (T * bool))
  : res (option (T * (nat * list (T * bool)))) :=
  match rest with
  | e :: r => Ok (Some (fst e, (tblindex, r)))
  | [] =>
      let! (i, s) := scan (S (numslots t)) t tblindex in
      match s with [] => Ok None | e :: r => Ok (Some (fst e, (i, r))) end
  end.
(** [for (i.rewind(); i.next(); ) visit(i.ptr())] *)
Fixpoint walk_loop (fuel : nat) (t : table) (i : nat) (rest : list (T * bool)) : res (list T) :=
  match fuel with
  | O => NoFuel
  | S fuel =>
      let! x := iter_next t i rest in
      match x with
      | None => Ok []
      | Some (d, (i, rest)) => let! r := walk_loop fuel t i rest in Ok (d :: r)
      end
  end.
Definition hash_walk (t : table) : res (list T) :=
  let! s := get_slot t 0 in walk_loop (S (hash_count t)) t 0 s.

Inductive hash_op := HAdd (d : T) (auto : bool) | HRemove (d : T) | HZap | HAuto (k : K) (auto : bool).
Definition hash_exec (t : table) (o : hash_op) : res table :=
  match o with
  | HAdd d a => hash_add t d a
  | HRemove d => hash_remove t d
  | HZap => Ok (hash_zap t)
  | HAuto k a => hash_set_autofree t k a
  end.
Fixpoint hash_run (t : table) (l : list hash_op) : res table :=
  match l with [] => Ok t | o :: r => let! t := hash_exec t o in hash_run t r end.
End Hash.
Arguments HAdd {T K} d auto.
Arguments HRemove {T K} d.
Arguments HZap {T K}.
Arguments HAuto {T K} k auto.
Arguments t_freed {T} t.
Arguments t_slots {T} t.
