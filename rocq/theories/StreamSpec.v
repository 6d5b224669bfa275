(** What a user of a stream can observe, from a history of events. *)
From Verif Require Import Base StreamModel.
Local Open Scope Z_scope.

(** The bytes the device took; the bytes write said it accepted. *)
Definition sent (tr : list event) : bytes := flat_map (fun e => match e with Sent b => b | _ => [] end) tr.
Definition accepted (tr : list event) : bytes := flat_map (fun e => match e with Wrote buf n => firstn n buf | _ => [] end) tr.
(** The bytes the device delivered; the bytes, and lines with their separators, the
    user was given. *)
Definition got (tr : list event) : bytes := flat_map (fun e => match e with Got b => b | _ => [] end) tr.
Definition delivered (tr : list event) : bytes :=
  flat_map (fun e => match e with ReadEv b => b | Line l (Some c) => l ++ [c] | Line l None => l | _ => [] end) tr.

(** Close callbacks.  While the stream is open, registering replaces the callback;
    the first close is followed at once by the call of the registered one;
    registering on a closed stream is followed at once by the call; nothing else is
    ever called. *)
Definition about_close (e : event) : bool := match e with Reg _ | Closed | Called _ => true | _ => false end.
Fixpoint obeys (open : bool) (reg : option nat) (tr : list event) : Prop :=
  match tr with
  | Reg c :: r =>
      if open then obeys true c r else
      match c with None => obeys false None r | Some i => match r with Called j :: r' => j = i /\ obeys false None r' | _ => False end end
  | Closed :: r =>
      match reg with None => obeys false None r | Some i => match r with Called j :: r' => j = i /\ obeys false None r' | _ => False end end
  | Called _ :: _ => False
  | _ :: r => obeys open reg r
  | [] => True
  end.

(** No limit was set below what was already buffered. *)
Definition sane_limits (tr : list event) : Prop :=
  Forall (fun e => match e with LimitEv n used => n = 0 \/ (Z.of_nat used <= n < 2 ^ 64) | _ => True end) tr.
(** The device never refuses a write by closing without an error. *)
Definition errors_named (l : list answer) : Prop := Forall (fun a => wfail a <> Some 0) l.
