(** Model of UniReplicateGen, uniconf/unireplicategen.cc and include/unireplicategen.h,
    over memory generators (TempModel) that may be out of order for some time: what
    isok() of each returns changes from outside, and not while a function runs.  A
    generator that is set while it is out of order is not modelled.  The
    notifications of one set() come when it is done (C28), those of replicate() when
    it is done, in the order given here. *)
From Verif Require Import Base KeyModel TempModel WatchModel RecModel CacheModel.
Local Open Scope nat_scope.

(** include/unireplicategen.h:31-43: struct Gen; [rok] is what isok() of the generator
    returns. *)
Record rep := { rgen : gen; rok : bool; was_ok : bool }.
(** include/unireplicategen.h:36-37: the constructor; 40: isok(), which remembers what
    it returns *)
Definition rep_new (g : gen) (ok : bool) : rep := {| rgen := g; rok := ok; was_ok := ok |}.
Definition seen (r : rep) : rep := {| rgen := rgen r; rok := rok r; was_ok := rok r |}.
Definition with_gen (r : rep) (g : gen) : rep := {| rgen := g; rok := rok r; was_ok := was_ok r |}.
(** uniconf/unireplicategen.cc:144-184: deltacallback of another generator, as it acts on
    one generator; its own notification is not handed on (processing_callback). *)
Definition feed1 (x : notif) (r : rep) : rep :=
  if rok r then with_gen (seen r) (fst (tset (rgen r) (fst x) (snd x))) else seen r.
(** One notification after the other *)
Definition feeds (n : list notif) (r : rep) : rep := fold_left (fun r x => feed1 x r) n r.
(** The generator that the notifications come from *)
Definition source (n : list notif) (r : rep) : rep := match n with [] => r | _ => seen r end.
(** Setting a key in one of the generators, [a] and [b] being those before and after
    it; yields the notifications of the replicating generator. *)
Definition set_in (a : list rep) (r : rep) (b : list rep) (k : key) (v : option bytes) : list rep * list notif :=
  let (g, n) := tset (rgen r) k v in
  (map (feeds n) a ++ source n (with_gen r g) :: map (feeds n) b, n).
(** uniconf/unireplicategen.cc:264-274: first_ok, which asks the generators up to the one
    it finds; yields those before it, that one and those after it. *)
Fixpoint first_ok (l : list rep) : list rep * option (rep * list rep) :=
  match l with
  | [] => ([], None)
  | r :: l => if rok r then ([], Some (seen r, l)) else let (a, o) := first_ok l in (seen r :: a, o)
  end.
(** uniconf/unireplicategen.cc:277-332: replicate("/").  First the loop for the first
    generator in order, [r]; the keys are listed with their values, and it is not
    changed by what is done. *)
Definition repl_first (r : rep) (b : list rep) : res (list rep * list notif) :=
  let! n := rkeys (rgen r) in Ok (map (feeds n) b, n).
(** Then the loop for the [i]th generator after it; the keys are listed before the
    loop: it changes no more than the value of its root. *)
Fixpoint repl_keys (i : nat) (ks : list key) (r : rep) (b : list rep) : res (rep * list rep * list notif) :=
  match ks with
  | [] => Ok (r, b, [])
  | k :: ks =>
      let! j := of_opt (nth_error b i) in
      match tget (rgen r) k with
      | Some _ => repl_keys i ks r b
      | None =>
          let (g, n) := tset (rgen r) k (tget (rgen j) k) in
          let! (r, b, m) := repl_keys i ks (with_gen r g) (map (feeds n) b) in Ok (r, b, n ++ m)
      end
  end.
Fixpoint repl_rest (todo i : nat) (r : rep) (b : list rep) : res (rep * list rep * list notif) :=
  match todo with
  | O => Ok (r, b, [])
  | S todo =>
      let! j := of_opt (nth_error b i) in
      let! (r, b, n) := (if rok j then let! ks := rkeys (rgen j) in repl_keys i (map fst ks) r b else Ok (r, b, [])) in
      let! (r, b, m) := repl_rest todo (S i) r b in Ok (r, b, n ++ m)
  end.
(** The loop asks every generator whether it is in order; if none is, there is nothing
    to do. *)
Definition replicate (l : list rep) : res (list rep * list notif) :=
  match first_ok l with
  | (a, None) => Ok (a, [])
  | (a, Some (r, b)) =>
      let! (b, n) := repl_first r (map seen b) in
      let! (r, b, m) := repl_rest (length b) 0 r b in Ok (a ++ r :: b, n ++ m)
  end.
(** uniconf/unireplicategen.cc:334-354: replicate_if_any_have_become_ok *)
Definition came_back (r : rep) : bool := negb (was_ok r) && rok r.
Definition catch_up (l : list rep) : res (list rep * list notif) :=
  if existsb came_back l then replicate (map (fun r => if came_back r then seen r else r) l) else Ok (l, []).
(** uniconf/unireplicategen.cc:56-72, 84-110: the constructor, prepend, append *)
Definition rep_make (gs : list (gen * bool)) : res (list rep * list notif) := replicate (map (fun x => rep_new (fst x) (snd x)) gs).
Definition rep_prepend (l : list rep) (g : gen) (ok : bool) : res (list rep * list notif) := replicate (rep_new g ok :: l).
Definition rep_append (l : list rep) (g : gen) (ok : bool) : res (list rep * list notif) := replicate (l ++ [rep_new g ok]).
(** uniconf/unireplicategen.cc:187-199: set *)
Definition rep_set (l : list rep) (k : key) (v : option bytes) : res (list rep * list notif) :=
  let! (l, n) := catch_up l in
  match first_ok l with
  | (a, None) => Ok (a, n)
  | (a, Some (r, b)) => let (l, m) := set_in a r b k v in Ok (l, n ++ m)
  end.
(** uniconf/unireplicategen.cc:216-243: get; the generator that was asked is still in
    order *)
Definition rep_get (l : list rep) (k : key) : res (list rep * list notif * option bytes) :=
  let! (l, n) := catch_up l in
  match first_ok l with
  | (a, None) => Ok (a, n, None)
  | (a, Some (r, b)) => Ok (a ++ r :: b, n, tget (rgen r) k)
  end.
(** uniconf/unireplicategen.cc:113-116: isok *)
Definition rep_isok (l : list rep) : list rep * bool :=
  match first_ok l with
  | (a, None) => (a, false)
  | (a, Some (r, b)) => (a ++ r :: b, true)
  end.

(** A history: calls, changes in one of the generators, generators going out of order
    and coming back. *)
Inductive revent := RSet (k : key) (v : option bytes) | RGet (k : key) | RIsok | RInner (k : key) (v : option bytes) | ROk (i : nat) (ok : bool) | RAppend (g : gen) | RPrepend (g : gen).
Inductive rstep : list rep -> revent -> list notif -> list rep -> Prop :=
| R_set l k v l' n : rep_set l k v = Ok (l', n) -> rstep l (RSet k v) n l'
| R_get l k v l' n : rep_get l k = Ok (l', n, v) -> rstep l (RGet k) n l'
| R_isok l l' b : rep_isok l = (l', b) -> rstep l RIsok [] l'
| R_inner a r b k v l' n : rok r = true -> set_in a r b k v = (l', n) -> rstep (a ++ r :: b) (RInner k v) n l'
| R_ok a r b ok : rstep (a ++ r :: b) (ROk (length a) ok) [] (a ++ {| rgen := rgen r; rok := ok; was_ok := was_ok r |} :: b)
| R_append l g l' n : rep_append l g true = Ok (l', n) -> rstep l (RAppend g) n l'
| R_prepend l g l' n : rep_prepend l g true = Ok (l', n) -> rstep l (RPrepend g) n l'.
(** In between, the hash tables of the generators may be reordered. *)
Inductive rhistory : list rep -> list revent -> list notif -> list rep -> Prop :=
| RH_end l : rhistory l [] [] l
| RH_step l e n l1 es ns l2 : rstep l e n l1 -> rhistory l1 es ns l2 -> rhistory l (e :: es) (n ++ ns) l2
| RH_shuffle a t t' d ok w b es ns l2 : shuffle t t' ->
    rhistory (a ++ {| rgen := {| root := Some t'; dirty := d |}; rok := ok; was_ok := w |} :: b) es ns l2 ->
    rhistory (a ++ {| rgen := {| root := Some t; dirty := d |}; rok := ok; was_ok := w |} :: b) es ns l2.
