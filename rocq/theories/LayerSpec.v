(** What a stack of generators should hold.  Independent of the model. *)
From Verif Require Import Base KeySpec TempSpec.
Local Open Scope nat_scope.

(** The contents of several generators, the first one that has a key deciding. *)
Fixpoint stacked (ms : list contents) : contents := fun k =>
  match ms with
  | [] => None
  | m :: r => match m k with Some v => Some v | None => stacked r k end
  end.
