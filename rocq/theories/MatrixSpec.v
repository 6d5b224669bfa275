(** Matrices of integers. *)
From Verif Require Import Base.
Local Open Scope Z_scope.

(** A matrix as a function, of which only [i < m], [j < n] counts. *)
Fixpoint sum (n : nat) (f : nat -> Z) : Z := match n with O => 0 | S n => sum n f + f n end.
Definition product (k : nat) (a b : nat -> nat -> Z) : nat -> nat -> Z := fun i j => sum k (fun l => a i l * b l j).

(** All partial sums can be ints. *)
Definition int_range (x : Z) : Prop := - 2 ^ 31 <= x < 2 ^ 31.
Definition fits (m k n : nat) (a b : nat -> nat -> Z) : Prop :=
  forall i j l, (i < m)%nat -> (j < n)%nat -> (l < k)%nat -> int_range (a i l * b l j) /\ int_range (sum (S l) (fun l => a i l * b l j)).
