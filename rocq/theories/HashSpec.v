(** A multimap: the objects in the order they were added. *)
From Verif Require Import Base HashModel.
From Coq Require Import NArith Permutation.

Section Spec.
Variables (T K : Type) (key_of : T -> K) (eqk : K -> K -> bool).
Notation bag := (list (T * bool)) (only parsing).

(** Change the oldest object with key [k]; [f] gives its replacement. *)
Fixpoint at_key (k : K) (f : T * bool -> bag) (l : bag) : bag :=
  match l with
  | [] => []
  | e :: r => if eqk k (key_of (fst e)) then f e ++ r else e :: at_key k f r
  end.
Definition oldest (k : K) (l : bag) : option (T * bool) := find (fun e => eqk k (key_of (fst e))) l.
Definition frees (l : bag) : list T := map fst (filter snd l).

Definition bag_step (s : bag * list T) (o : hash_op T K) : bag * list T :=
  let (l, freed) := s in
  match o with
  | HAdd d a => (l ++ [(d, a)], freed)
  | HRemove d => (at_key (key_of d) (fun _ => []) l,
                  freed ++ frees (match oldest (key_of d) l with Some e => [e] | None => [] end))
  | HZap => ([], freed ++ frees l)
  | HAuto k a => (at_key k (fun e => [(fst e, a)]) l, freed)
  end.

(** How often an object with key [k] was added and not removed again. *)
Definition occurrences (k : K) (l : bag) : nat := length (filter (fun e => eqk k (key_of (fst e))) l).

(** How many more times a key was added than removed since the last zap, from
    the history alone; a remove of an absent key does nothing. *)
Fixpoint net (k : K) (ops : list (hash_op T K)) (c : nat) : nat :=
  match ops with
  | [] => c
  | HAdd d _ :: r => net k r (if eqk k (key_of d) then S c else c)
  | HRemove d :: r => net k r (if eqk k (key_of d) then c - 1 else c)
  | HZap :: r => net k r 0
  | HAuto _ _ :: r => net k r c
  end.

(** Comparison is an equivalence and equal keys hash alike. *)
Definition eq_ok (hash : K -> N) : Prop :=
  (forall a, eqk a a = true) /\ (forall a b, eqk a b = true -> eqk b a = true) /\
  (forall a b c, eqk a b = true -> eqk b c = true -> eqk a c = true) /\
  (forall a b, eqk a b = true -> hash a = hash b).
End Spec.
