(** Model of held notifications, uniconf/uniconfgen.cc:20-90.  The code that uses
    the generator, callbacks included, is arbitrary: it is a sequence of actions
    chosen from outside.  [stack] records the calls in progress, the innermost
    first; the user code that runs is the callback called by the innermost one
    (or the program, if there is none), until it returns.  All the callbacks on
    the list of a generator are taken as one.  Callbacks that add or delete
    callbacks are not modelled, and hold_nesting does not overflow. *)
From Verif Require Import Base.
Local Open Scope Z_scope.

Section Delta.
Variable A : Type. (* a notification: key and value *)

Inductive frame := InUnhold | InFlush | InDelta.
Record machine := { nest : Z; deltas : list A; stack : list frame }.
Inductive action := Hold | Unhold | Delta (p : A) | Clear | Flush | Return.
(** What an observer sees.  [Raised] is a call of delta(), [Dispatched] the
    beginning of the callbacks' turn. *)
Inductive event := EHold | EUnhold | Raised (p : A) | Dispatched (p : A) | EClear | EFlush | EReturn.

Definition start : machine := {| nest := 0; deltas := []; stack := [] |}.

(** uniconf/uniconfgen.cc:32-35: hold_delta *)
Definition hold (m : machine) : machine := {| nest := nest m + 1; deltas := deltas m; stack := stack m |}.
(** uniconf/uniconfgen.cc:53-67: the loop of flush_delta, up to the next callback;
    [fr] says what to do when it ends: lines 43-44, unhold_delta, or nothing *)
Definition flush_loop (m : machine) (fr : frame) : machine * list event :=
  match deltas m with
  | p :: q => ({| nest := nest m; deltas := q; stack := fr :: stack m |}, [Dispatched p])
  | [] => ({| nest := match fr with InUnhold => nest m - 1 | _ => nest m end; deltas := []; stack := stack m |}, [])
  end.
(** uniconf/uniconfgen.cc:38-44: unhold_delta; the assertion is a fault *)
Definition unhold (m : machine) : res (machine * list event) :=
  if nest m >? 0 then
    if nest m =? 1 then Ok (flush_loop m InUnhold)
    else Ok ({| nest := nest m - 1; deltas := deltas m; stack := stack m |}, [])
  else Fault.
(** uniconf/uniconfgen.cc:76-89: delta *)
Definition delta (m : machine) (p : A) : res (machine * list event) :=
  if nest m =? 0 then Ok ({| nest := nest m; deltas := deltas m; stack := InDelta :: stack m |}, [Dispatched p])
  else
    let m := hold m in
    unhold {| nest := nest m; deltas := deltas m ++ [p]; stack := stack m |}.
(** The callbacks return: the call that made them goes on. *)
Definition return_ (m : machine) : machine * list event :=
  match stack m with
  | [] => (m, [])
  | InDelta :: r => ({| nest := nest m; deltas := deltas m; stack := r |}, [EReturn])
  | fr :: r =>
      let (m', e) := flush_loop {| nest := nest m; deltas := deltas m; stack := r |} fr in (m', EReturn :: e)
  end.
(** uniconf/uniconfgen.cc:47-50: clear_delta *)
Definition clear (m : machine) : machine := {| nest := nest m; deltas := []; stack := stack m |}.

Definition act (m : machine) (a : action) : res (machine * list event) :=
  match a with
  | Hold => Ok (hold m, [EHold])
  | Unhold => let! (m', e) := unhold m in Ok (m', EUnhold :: e)
  | Delta p => let! (m', e) := delta m p in Ok (m', Raised p :: e)
  | Clear => Ok (clear m, [EClear])
  | Flush => let (m', e) := flush_loop m InFlush in Ok (m', EFlush :: e)
  | Return => Ok (return_ m)
  end.
Fixpoint run (m : machine) (l : list action) : res (machine * list event) :=
  match l with
  | [] => Ok (m, [])
  | a :: l =>
      let! (m1, e1) := act m a in
      let! (m2, e2) := run m1 l in Ok (m2, e1 ++ e2)
  end.
End Delta.
Arguments Hold {A}. Arguments Unhold {A}. Arguments Delta {A} p. Arguments Clear {A}. Arguments Flush {A}. Arguments Return {A}.
Arguments EHold {A}. Arguments EUnhold {A}. Arguments Raised {A} p. Arguments Dispatched {A} p. Arguments EClear {A}. Arguments EFlush {A}. Arguments EReturn {A}.
Arguments nest {A} m. Arguments deltas {A} m. Arguments stack {A} m. Arguments start {A}.
