(** Model of include/wvsorter.h and utils/wvsorter.cc: iterating in order. *)
From Verif Require Import Base SortSpec.
From Coq Require Import NArith ZArith.
Local Open Scope N_scope.

(** An array of pointers, which are numbers, 0 is NULL; [None] was not written to *)
Definition arr := list (option N).
Fixpoint write (a : arr) (i : nat) (v : N) : res arr :=
  match a, i with
  | [], _ => Fault
  | _ :: a, O => Ok (Some v :: a)
  | c :: a, S i => let! a := write a i v in Ok (c :: a)
  end.
(** include/wvsorter.h:100-104: the loop that copies; what remains, and where it ends *)
Fixpoint copy (a : arr) (i : nat) (l : list N) (remaining : nat) : res (arr * nat * nat) :=
  match l, remaining with
  | [], _ | _, O => Ok (a, i, remaining)
  | p :: l, S r => let! a := write a i p in copy a (S i) l r
  end.
(** The part of the array that qsort() works on *)
Fixpoint cells (a : arr) (n : nat) : res (list N) :=
  match n, a with O, _ => Ok [] | S n, Some v :: a => let! l := cells a n in Ok (v :: l) | S _, _ => Fault end.
Definition put (a : arr) (n : nat) (l : list N) : arr := map Some l ++ skipn n a.

(** WvSorterBase::actual_compare, the static *)
Definition glob := option nat.

Section S.
Context (qsort : list N -> tree) (cmps : table).
(** qsort()'s run, given how comparisons are made *)
Fixpoint run_tree (cmp : glob -> N -> N -> res (glob * Z)) (g : glob) (t : tree) : res (glob * list N) :=
  match t with
  | Done l => Ok (g, l)
  | Ask a b k => let! (g, z) := cmp g a b in run_tree cmp g (k z)
  end.

(** bool next() and ptr(), include/wvsorter.h:36-39, 65-66, until next() is false *)
Fixpoint visit (a : arr) : res (list N) :=
  match a with
  | Some v :: a => if v =? 0 then Ok [] else let! l := visit a in Ok (v :: l)
  | _ => Fault
  end.
Definition visited (a : arr) : res (list N) := match a with _ :: a => visit a | [] => Fault end.

(** A compare function's run, given how lists are sorted *)
Fixpoint run_prog (sort : glob -> list N -> list N -> nat -> res (glob * arr)) (g : glob) (p : prog) : res (glob * Z) :=
  match p with
  | Ret z => Ok (g, z)
  | Nested l1 l2 c k => let! (g, a) := sort g l1 l2 c in let! s := visited a in run_prog sort g (k s)
  end.
(** utils/wvsorter.cc:14-18 *)
Definition magic_compare (sort : glob -> list N -> list N -> nat -> res (glob * arr)) (g : glob) (a b : N) : res (glob * Z) :=
  match g with Some c => run_prog sort g (cmps c a b) | None => Fault end.
(** include/wvsorter.h:78-121: WvSorterBase::rewind; [fuel] is how deep sorts are nested *)
Fixpoint rewind (fuel : nat) (g : glob) (l1 l2 : list N) (c : nat) : res (glob * arr) :=
  match fuel with
  | O => NoFuel
  | S fuel =>
      let n := length l1 in
      let! a := write (repeat None (n + 2)) 0 0 in
      let! (a, i, remaining) := copy a 1 l2 n in
      let n := (if Nat.eqb remaining 0 then n else n - remaining)%nat in
      let! a := write a i 0 in
      let old_compare := g in
      let! l := cells (tl a) n in
      let! (g, l) := run_tree (magic_compare (rewind fuel)) (Some c) (qsort l) in
      Ok (old_compare, hd None a :: put (tl a) n l)
  end.
End S.
