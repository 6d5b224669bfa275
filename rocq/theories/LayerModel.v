(** Model of UniListGen, uniconf/unilistgen.cc, over memory generators (TempModel).
    The list of generators is given in order of priority.  A notification of one of
    them is handed on by gencallback at the end of the set that raised it (C28).
    commit(), refresh() and isok() are left out: memory generators have nothing to
    commit or refresh and are always fine. *)
From Verif Require Import Base KeyModel TempModel.
Local Open Scope nat_scope.

(** uniconf/unilistgen.cc:97-104: get, with UniConfGen::exists,
    uniconf/uniconfgen.cc:120-123 *)
Fixpoint lget (l : list gen) (k : key) : option bytes :=
  match l with
  | [] => None
  | g :: r => match tget g k with None => lget r k | Some v => Some v end
  end.
(** uniconf/unilistgen.cc:124-133: exists; 136-145: haschildren *)
Definition lexists (l : list gen) (k : key) : bool := existsb (fun g => match tget g k with Some _ => true | None => false end) l.
Definition lhaschildren (l : list gen) (k : key) : bool := existsb (fun g => thaschildren g k) l.
(** uniconf/unilistgen.cc:159-162: gencallback, for the notifications [n] of one
    generator; [l] is the list as it is then. *)
Definition gencallback (l : list gen) (n : list notif) : list notif :=
  map (fun x => (fst x, lget l (fst x))) n.
(** One generator, with those before and after it, is set. *)
Definition set_one (a : list gen) (g : gen) (b : list gen) (kv : key * option bytes) : gen * list notif :=
  let (g', n) := tset g (fst kv) (snd kv) in (g', gencallback (a ++ g' :: b) n).
(** UniTempGen::setv is setv_naive, uniconf/uniconfgen.cc:93-98 *)
Fixpoint setv_one (a : list gen) (g : gen) (b : list gen) (kvs : list (key * option bytes)) : gen * list notif :=
  match kvs with
  | [] => (g, [])
  | kv :: r => let (g1, n) := set_one a g b kv in let (g2, m) := setv_one a g1 b r in (g2, n ++ m)
  end.
(** uniconf/unilistgen.cc:107-121: set and setv; [a] are the generators the loop
    has passed. *)
Fixpoint setv_loop (a l : list gen) (kvs : list (key * option bytes)) : list gen * list notif :=
  match l with
  | [] => (a, [])
  | g :: b => let (g', n) := setv_one a g b kvs in let (l', m) := setv_loop (a ++ [g']) b kvs in (l', n ++ m)
  end.
Definition lsetv (l : list gen) (kvs : list (key * option bytes)) : list gen * list notif := setv_loop [] l kvs.
Definition lset (l : list gen) (k : key) (v : option bytes) : list gen * list notif := lsetv l [(k, v)].

(** uniconf/unilistgen.cc:168-216: IterIter: what next() finds until it returns
    false.  [d] has the names found so far. *)
Fixpoint iter_one (d : list bytes) (its : list (bytes * bytes)) : list (bytes * bytes) * list bytes :=
  match its with
  | [] => ([], d)
  | x :: r =>
      if existsb (fun s => same_seg s (fst x)) d then iter_one d r
      else let (o, d) := iter_one (d ++ [fst x]) r in (x :: o, d)
  end.
Fixpoint iter_all (d : list bytes) (its : list (list (bytes * bytes))) : list (bytes * bytes) :=
  match its with
  | [] => []
  | i :: r => let (o, d) := iter_one d i in o ++ iter_all d r
  end.
Definition liter (l : list gen) (k : key) : list (bytes * bytes) :=
  iter_all [] (flat_map (fun g => match titer g k with Some i => [i] | None => [] end) l).

(** A history: sets through the list, sets of one of the generators by someone else,
    and the hash tables being enumerated in another order. *)
Inductive levent := LSet (kvs : list (key * option bytes)) | LInner (k : key) (v : option bytes).
Inductive lhistory : list gen -> list levent -> list notif -> list gen -> Prop :=
| L_end l : lhistory l [] [] l
| L_set l kvs l1 n es ns l' : lsetv l kvs = (l1, n) -> lhistory l1 es ns l' -> lhistory l (LSet kvs :: es) (n ++ ns) l'
| L_inner a g b k v g1 n es ns l' : set_one a g b (k, v) = (g1, n) -> lhistory (a ++ g1 :: b) es ns l' ->
    lhistory (a ++ g :: b) (LInner k v :: es) (n ++ ns) l'
| L_shuffle a t t' d b es ns l' : shuffle t t' -> lhistory (a ++ {| root := Some t'; dirty := d |} :: b) es ns l' ->
    lhistory (a ++ {| root := Some t; dirty := d |} :: b) es ns l'.
