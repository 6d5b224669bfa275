(** The words of a line. *)
From Verif Require Import Base.
Local Open Scope char_scope.

Definition sep (c : byte) : Prop := c = " " \/ c = "009" \/ c = "013" \/ c = "010".
Definition word (w : bytes) : Prop := w <> [] /\ Forall (fun c => ~ sep c) w.

(** [s] is made of the words [ws], with separators between any two and perhaps around them. *)
Inductive words : bytes -> list bytes -> Prop :=
| no_words s : Forall sep s -> words s []
| last_word a w : Forall sep a -> word w -> words (a ++ w) [w]
| next_word a w c s ws : Forall sep a -> word w -> sep c -> words s ws -> words (a ++ w ++ c :: s) (w :: ws).

(** Letters are the same in either case. *)
Definition lower (c : byte) : byte :=
  let n := nat_of_ascii c in if (Nat.leb 65 n && Nat.leb n 90)%bool then ascii_of_nat (n + 32) else c.
Definition matches (case_sensitive : bool) (a b : bytes) : Prop :=
  if case_sensitive then a = b else map lower a = map lower b.
