(** What a sorted iteration is, also when comparing sorts other lists meanwhile. *)
From Verif Require Import Base.
From Coq Require Import NArith ZArith Sorted Permutation.
Local Open Scope N_scope.

(** A compare function answers, perhaps after having sorted other lists and seen the
    result; [l1] and [l2] are what the list has when it is counted and when it is copied. *)
Inductive prog := Ret (z : Z) | Nested (l1 l2 : list N) (cmp : nat) (k : list N -> prog).
(** The compare functions, by number *)
Definition table := nat -> N -> N -> prog.

Definition le (f : N -> N -> Z) (a b : N) : Prop := (f a b <= 0)%Z.
(** A compare function that orders what it is used for *)
Definition consistent (f : N -> N -> Z) : Prop := (forall a b, le f a b \/ le f b a) /\ (forall a b c, le f a b -> le f b c -> le f a c).
(** [s] is the list in order *)
Definition sorted (f : N -> N -> Z) (l1 l2 s : list N) : Prop := Permutation s (firstn (length l1) l2) /\ StronglySorted (le f) s.
(** The compare function comes to the answer [z] if all other sorts are right *)
Fixpoint computes (f : nat -> N -> N -> Z) (p : prog) (z : Z) : Prop :=
  match p with
  | Ret z' => z' = z
  | Nested l1 l2 c k => ~ In 0 l2 /\ forall s, sorted (f c) l1 l2 s -> computes f (k s) z
  end.
(** Compare functions sort only with compare functions of a lower level *)
Fixpoint below (level : nat -> nat) (n : nat) (p : prog) : Prop :=
  match p with Ret _ => True | Nested _ _ c k => (level c < n)%nat /\ forall s, below level n (k s) end.

(** A run of the C library's qsort(): it asks for comparisons, and then has the result.
    Pointers are numbers, 0 is NULL. *)
Inductive tree := Done (l : list N) | Ask (a b : N) (k : Z -> tree).
(** qsort()'s result if comparisons answer [f] *)
Fixpoint eval (f : N -> N -> Z) (t : tree) : list N := match t with Done l => l | Ask a b k => eval f (k (f a b)) end.
Fixpoint asks (l : list N) (t : tree) : Prop := match t with Done _ => True | Ask a b k => In a l /\ In b l /\ forall z, asks l (k z) end.
(** What the C standard says of qsort() *)
Definition lawful (qsort : list N -> tree) : Prop := forall l, asks l (qsort l) /\
  forall f, consistent f -> Permutation (eval f (qsort l)) l /\ StronglySorted (le f) (eval f (qsort l)).
