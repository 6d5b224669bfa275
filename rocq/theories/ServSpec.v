(** A service manager asks its handlers in order. *)
From Verif Require Import Base.

(** The handlers that come first (the latest first), the others (the latest
    first) and those that come last (the latest last). *)
Record order := Order { firsts : list nat; middle : list nat; lasts : list nat }.
Definition all (o : order) : list nat := firsts o ++ middle o ++ lasts o.

Inductive op := Add (h : nat) | AddFirst (h : nat) | AddLast (h : nat) | Remove (h : nat).

(** A handler that is there already stays where it is. *)
Definition know (o : order) (h : nat) : bool := existsb (Nat.eqb h) (all o).
Definition without (h : nat) (l : list nat) : list nat := filter (fun x => negb (Nat.eqb h x)) l.
Definition act (o : order) (p : op) : order :=
  match p with
  | Add h => if know o h then o else Order (firsts o) (h :: middle o) (lasts o)
  | AddFirst h => if know o h then o else Order (h :: firsts o) (middle o) (lasts o)
  | AddLast h => if know o h then o else Order (firsts o) (middle o) (lasts o ++ [h])
  | Remove h => Order (without h (firsts o)) (without h (middle o)) (without h (lasts o))
  end.

(** The first answer. *)
Inductive answered {O} (ask : nat -> option O) : list nat -> option O -> Prop :=
| nobody : answered ask [] None
| this_one h hs x : ask h = Some x -> answered ask (h :: hs) (Some x)
| not_this h hs r : ask h = None -> answered ask hs r -> answered ask (h :: hs) r.

(** A static handler is a table: the first object put in stays until it is taken
    out; there is nothing to put in without an object. *)
Inductive sop := Put (u : nat) (o : option nat) | Take (u : nat).
Definition table_act (f : nat -> option nat) (p : sop) : nat -> option nat :=
  match p with
  | Put u o => fun v => if Nat.eqb v u then match f u with Some x => Some x | None => o end else f v
  | Take u => fun v => if Nat.eqb v u then None else f v
  end.
Definition table (ps : list sop) : nat -> option nat := fold_left table_act ps (fun _ => None).

(** What is listed in a category: every component once, the latest first, with the
    text it was first registered with. *)
Definition listing_act (f : nat -> list (nat * bytes)) (r : nat * nat * bytes) : nat -> list (nat * bytes) :=
  let '(c, u, t) := r in
  fun d => if Nat.eqb d c then (if existsb (Nat.eqb u) (map fst (f c)) then f c else (u, t) :: f c) else f d.
Definition listing (rs : list (nat * nat * bytes)) : nat -> list (nat * bytes) := fold_left listing_act rs (fun _ => []).
