(** A timer that ticks every [p] microseconds. *)
From Verif Require Import Base TimeModel TimeSpec.
Local Open Scope Z_scope.

(** Looked at when [v] microseconds have passed, for each of the [vs]: it ticks
    if the next tick is due, one tick at a time. *)
Fixpoint ticks (p due : Z) (vs : list Z) : list bool :=
  match vs with
  | [] => []
  | v :: vs => (due <=? v) :: ticks p (if due <=? v then due + p else due) vs
  end.

(** How often it ticked. *)
Definition count (bs : list bool) : Z := Z.of_nat (length (filter (fun b => b) bs)).

(** Nobody looks more than a hundred ticks late. *)
Fixpoint in_time (p due : Z) (vs : list Z) : Prop :=
  match vs with
  | [] => True
  | v :: vs => v <= due + 100 * p /\ in_time p (if due <=? v then due + p else due) vs
  end.

(** Somebody looks at the clock at the times [ts], first at [t] when [v] had
    passed: what has passed each time, a step back counting as nothing. *)
Fixpoint elapsed (v : Z) (t : wvtime) (ts : list wvtime) : list Z :=
  match ts with
  | [] => []
  | u :: ts => let v := v + Z.max 0 (us u - us t) in v :: elapsed v u ts
  end.
