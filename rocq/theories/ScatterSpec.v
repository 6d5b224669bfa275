(** A multimap in which only the set of objects under a key matters, not their
    order: remove and set_autofree act on some object with the key.  The
    operations and [frees], [net] and [eq_ok] are those of the chained table. *)
From Verif Require Import Base HashModel HashSpec.
From Coq Require Import NArith Permutation.

Section Spec.
Variables (T K : Type) (key_of : T -> K) (eqk : K -> K -> bool).
Notation bag := (list (T * bool)) (only parsing).

Definition matches (k : K) (e : T * bool) : Prop := eqk k (key_of (fst e)) = true.

Definition mm_step (l : bag) (freed : list T) (o : hash_op T K) (l' : bag) (freed' : list T) : Prop :=
  match o with
  | HAdd d a => Permutation l' ((d, a) :: l) /\ freed' = freed
  | HRemove d =>
      (~ Exists (matches (key_of d)) l /\ l' = l /\ freed' = freed) \/
      (exists e, matches (key_of d) e /\ Permutation l (e :: l') /\ freed' = freed ++ frees T [e])
  | HZap => l' = [] /\ Permutation freed' (freed ++ frees T l)
  | HAuto k a =>
      (~ Exists (matches k) l /\ l' = l /\ freed' = freed) \/
      (exists e rest, matches k e /\ Permutation l (e :: rest) /\ Permutation l' ((fst e, a) :: rest) /\ freed' = freed)
  end.

Inductive mm_run : bag -> list T -> list (hash_op T K) -> bag -> list T -> Prop :=
| mm_nil l fr : mm_run l fr [] l fr
| mm_cons l fr o l1 fr1 ops l2 fr2 :
    mm_step l fr o l1 fr1 -> mm_run l1 fr1 ops l2 fr2 -> mm_run l fr (o :: ops) l2 fr2.

(** A correct answer to a lookup *)
Definition find_answer (k : K) (l : bag) (x : option T) : Prop :=
  match x with
  | None => ~ Exists (matches k) l
  | Some d => eqk k (key_of d) = true /\ In d (map fst l)
  end.
End Spec.

(** The number of adds in a history *)
Fixpoint adds {T K} (ops : list (hash_op T K)) : nat :=
  match ops with
  | [] => 0
  | HAdd _ _ :: r => S (adds r)
  | _ :: r => adds r
  end.
