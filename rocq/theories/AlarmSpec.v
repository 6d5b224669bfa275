(** How much time has passed for somebody who looks at a clock now and then and
    knows that it may be set back. *)
From Verif Require Import Base TimeModel TimeSpec.
Local Open Scope Z_scope.

(** The time from [t] to the last of [ts] in microseconds, where a step back
    counts as no time. *)
Fixpoint passed (t : wvtime) (ts : list wvtime) : Z :=
  match ts with
  | [] => 0
  | u :: ts => Z.max 0 (us u - us t) + passed u ts
  end.

(** A clock of this age, after its first second. *)
Definition clock (t : wvtime) : Prop := normal t /\ 1 <= sec t <= 2 ^ 42.
