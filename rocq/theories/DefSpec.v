(** What defaults mean.  Independent of the model. *)
From Verif Require Import Base KeySpec.
Local Open Scope nat_scope.

(** A key whose segments are those of [k], or a star that stands for one *)
Definition default_for (c k : list bytes) : Prop := Forall2 (fun p s => p = s \/ p = star) c k.
(** [c] comes before [c']: at the first segment where they differ, [c'] has a star. *)
Inductive before : list bytes -> list bytes -> Prop :=
| before_here s c c' : s <> star -> before (s :: c) (star :: c')
| before_next s c c' : before c c' -> before (s :: c) (s :: c').
(** The wildcards of a key; [i] is the place of the [n]th one from the end. *)
Definition wild (s : bytes) : bool :=
  if list_eq_dec ascii_dec s star then true else if list_eq_dec ascii_dec s dots then true else false.
Definition nth_wild (c : list bytes) (n i : nat) : Prop :=
  exists s, nth_error c i = Some s /\ wild s = true /\ S (length (filter wild (skipn (S i) c))) = n.
