(** Who may do what, and what a round of callbacks looks like. *)
From Verif Require Import Base SlistModel.
From Coq Require Import ZArith.
Local Open Scope nat_scope.

(** What the user of the list must keep to: a new stream is at an address that is free;
    streams are added, and references released, only by someone who holds one; a stream
    that was added without autofree is held until it is taken off the list; methods are
    called on live streams. *)
Definition allowed (c : conf) (a : act) : Prop :=
  match a with
  | ANew s => hp (st c) s = None
  | AAppend s _ | APrepend s _ => held c s > 0 /\ (held c s > 1 \/ ~ In (s, false) (main (st c)) \/ a = AAppend s false \/ a = APrepend s false)
  | ARelease s => held c s > 0 /\ (held c s > 1 \/ ~ In (s, false) (main (st c)))
  | AClose s | AAddRef s => hp (st c) s <> None
  | AUnlink _ | AUnlinkIter _ | ASelect _ _ => True
  end.
Fixpoint polite (c : conf) (es : list event) : Prop :=
  match es with
  | [] => True
  | e :: es => (match e with EAct a => allowed c a | _ => True end) /\ forall c', step c e = Ok c' -> polite c' es
  end.
(** The streams on the list, and those found ready *)
Definition listed (c : conf) : list nat := map fst (main (st c)).
Definition todo (c : conf) : list nat := map fst (sure (st c)).
Definition alive (c : conf) (s : nat) : Prop := hp (st c) s <> None.
Definition okay (c : conf) (s : nat) : bool := match hp (st c) s with Some (_, k) => k | None => false end.
(** The callbacks in a run *)
Fixpoint calls (es : list event) : list nat :=
  match es with [] => [] | ECall s :: es => s :: calls es | _ :: es => calls es end.
Definition no_select (es : list event) : Prop := forall d r, ~ In (EAct (ASelect d r)) es.
(** In order, with omissions *)
Inductive sub : list nat -> list nat -> Prop :=
| sub_nil l : sub [] l
| sub_take x a b : sub a b -> sub (x :: a) (x :: b)
| sub_skip x a b : sub a b -> sub a (x :: b).
(** Timeouts: a negative one means none *)
Definition sooner (a b : Z) : Prop := (b < 0 \/ 0 <= a <= b)%Z.
