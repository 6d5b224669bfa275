(** What texts mean as numbers. *)
From Verif Require Import Base Ctype DecSpec.
Local Open Scope nat_scope.

Definition blank (c : byte) : Prop := nat_of_ascii c = 32 \/ 9 <= nat_of_ascii c <= 13.
Definition sign (s : bytes) : Prop := s = [] \/ s = [ascii_of_nat 45] \/ s = [ascii_of_nat 43].
Definition signed (s : bytes) (n : Z) : Z := if list_eq_dec ascii_dec s [ascii_of_nat 45] then (- n)%Z else n.
(** The text begins with a number: blanks, perhaps a sign, a digit. *)
Definition numeric (v : bytes) : Prop :=
  exists b s c r, v = b ++ s ++ c :: r /\ Forall blank b /\ sign s /\ digit c.
Definition yes_words : list bytes := [B "true"; B "yes"; B "on"; B "enabled"].
Definition no_words : list bytes := [B "false"; B "no"; B "off"; B "disabled"].
Definition one_of (v : bytes) (l : list bytes) : Prop := exists w, In w l /\ map tolower v = map tolower w.
