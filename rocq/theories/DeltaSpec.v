(** What observers of notifications may rely on, as properties of what they see. *)
From Verif Require Import Base DeltaModel.
Local Open Scope nat_scope.

Section Delta.
Variable A : Type.

(** First in, first out: starting with [w] waiting, each dispatch is of the
    notification that has waited longest, and leaves [w'] waiting at the end.
    Clearing drops those that wait. *)
Inductive fifo : list A -> list (event A) -> list A -> Prop :=
| F_end w : fifo w [] w
| F_raise w p t w' : fifo (w ++ [p]) t w' -> fifo w (Raised p :: t) w'
| F_dispatch p w t w' : fifo w t w' -> fifo (p :: w) (Dispatched p :: t) w'
| F_clear w t w' : fifo [] t w' -> fifo w (EClear :: t) w'
| F_other w e t w' : In e [EHold; EUnhold; EFlush; EReturn] -> fifo w t w' -> fifo w (e :: t) w'.

Fixpoint raised (t : list (event A)) : list A :=
  match t with [] => [] | Raised p :: t => p :: raised t | _ :: t => raised t end.
Fixpoint dispatched (t : list (event A)) : list A :=
  match t with [] => [] | Dispatched p :: t => p :: dispatched t | _ :: t => dispatched t end.
(** Holds that have not been undone. *)
Fixpoint holds (t : list (event A)) : Z :=
  match t with [] => 0 | EHold :: t => 1 + holds t | EUnhold :: t => holds t - 1 | _ :: t => holds t end.

(** Code that undoes, in each callback, the holds made there and no others, and
    does not flush by hand: [o] lists the holds open in the code running, then in
    the callbacks and the program that led to it. *)
Inductive polite : list nat -> list (event A) -> list nat -> Prop :=
| P_end o : polite o [] o
| P_hold h o t o' : polite (S h :: o) t o' -> polite (h :: o) (EHold :: t) o'
| P_unhold h o t o' : polite (h :: o) t o' -> polite (S h :: o) (EUnhold :: t) o'
| P_raise o p t o' : polite o t o' -> polite o (Raised p :: t) o'
| P_dispatch o p t o' : polite (0 :: o) t o' -> polite o (Dispatched p :: t) o'
| P_return o t o' : polite o t o' -> polite (0 :: o) (EReturn :: t) o'
| P_clear o t o' : polite o t o' -> polite o (EClear :: t) o'.
End Delta.
Arguments fifo {A}. Arguments raised {A}. Arguments dispatched {A}. Arguments holds {A}. Arguments polite {A}.
