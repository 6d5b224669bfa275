(** What several WvIPAliasers want, and which addresses are aliases for them. *)
From Verif Require Import Base.
From Coq Require Import NArith.
Local Open Scope N_scope.

(** Aliasers are numbered; addresses are numbers, 0 is 0.0.0.0. [start_edit] looks at the
    real interfaces: [real] is whether an address is one of theirs. [add] is granted by the
    kernel or not. *)
Inductive op := Start (a : nat) (real : N -> bool) | Add (a : nat) (ip : N) (granted : bool) | Finish (a : nat).

Record want := Want { real_of : nat -> N -> bool; wants : nat -> list N; live : list N }.
Definition mem (ip : N) (l : list N) : bool := existsb (N.eqb ip) l.
Definition upd {X} (f : nat -> X) (a : nat) (x : X) : nat -> X := fun b => if Nat.eqb b a then x else f b.
(** Is the address new to this aliaser, and one that needs an alias? *)
Definition fresh (w : want) (a : nat) (ip : N) : bool := (negb (ip =? 0) && negb (mem ip (wants w a)) && negb (real_of w a ip))%bool.
(** An address stays while [n] aliasers in all, or some of them, want it *)
Definition wanted (n : nat) (w : want) (ip : N) : bool := existsb (fun a => mem ip (wants w a)) (seq 0 n).
(** The answer is whether an interface is made or removed *)
Definition next (n : nat) (w : want) (o : op) : want * bool :=
  match o with
  | Start a r => (Want (upd (real_of w) a r) (upd (wants w) a []) (live w), false)
  | Add a ip _ =>
      if fresh w a ip then (Want (real_of w) (upd (wants w) a (wants w a ++ [ip])) (if mem ip (live w) then live w else live w ++ [ip]), negb (mem ip (live w)))
      else (w, false)
  | Finish _ => let l := filter (wanted n w) (live w) in (Want (real_of w) (wants w) l, negb (Nat.eqb (length l) (length (live w))))
  end.
Definition nothing : want := Want (fun _ _ => false) (fun _ => []) [].
Fixpoint expect (n : nat) (w : want) (l : list op) : want * list bool :=
  match l with [] => (w, []) | o :: l => let '(w, b) := next n w o in let '(w, r) := expect n w l in (w, b :: r) end.
(** The aliasers that there are *)
Definition uses (n : nat) (o : op) : Prop := match o with Start a _ | Add a _ _ | Finish a => (a < n)%nat end.
