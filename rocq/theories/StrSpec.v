(** What the string helpers should do.  Independent of the model. *)
From Verif Require Import Base Ctype.
Local Open Scope nat_scope.

(** [a] is found in [s] first between [p] and [r]. *)
Definition first_at (a s p r : bytes) : Prop := s = p ++ a ++ r /\ forall p' r', s = p' ++ a ++ r' -> length p <= length p'.
Definition absent (a s : bytes) : Prop := forall p r, s <> p ++ a ++ r.
(** Every [a], from the left, replaced *)
Inductive replaced (a b : bytes) : bytes -> bytes -> Prop :=
| R_none s : absent a s -> replaced a b s s
| R_some s p r r' : first_at a s p r -> replaced a b r r' -> replaced a b s (p ++ b ++ r').
(** [s] is [r] with each [c] repeated, once or more often, and no two in [r] adjacent. *)
Definition begins_with (c : byte) (s : bytes) : Prop := exists r, s = c :: r.
Definition ends_with (c : byte) (s : bytes) : Prop := exists r, s = r ++ [c].
Inductive stretched (c : byte) : bytes -> bytes -> Prop :=
| S_nil : stretched c [] []
| S_other x r s : x <> c -> stretched c r s -> stretched c (x :: r) (x :: s)
| S_run r s n : stretched c r s -> ~ begins_with c r -> stretched c (c :: r) (repeat c (S n) ++ s).
(** Reading a text in which a backslash stands before some characters *)
Fixpoint unbs (s : bytes) : bytes :=
  match s with
  | c :: r => if Ascii.eqb c "\" then match r with d :: r => d :: unbs r | [] => [] end else c :: unbs r
  | [] => []
  end.
