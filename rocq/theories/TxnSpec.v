(** What a transaction over another generator shows. *)
From Verif Require Import Base Ctype KeySpec TempSpec TxnModel.
Local Open Scope nat_scope.

(** What the changes so far say about a key: nothing; that it exists, because a
    key below was set; or its value, because it was set, or it or a key above was
    removed. *)
Inductive status := Untouched | Implied | Explicit.
Definition set_status (m : list bytes -> status) (k : list bytes) (v : option bytes) : list bytes -> status := fun k' =>
  match v with
  | Some _ =>
      if same k k' then Explicit
      else if under k' k then match m k' with Untouched => Implied | s => s end
      else m k'
  | None => if under k k' then Explicit else m k'
  end.

(** The base's contents, the transaction's, and the status of each key. *)
Record snap := { sbase : contents; sview : contents; sstat : list bytes -> status }.
Definition start (b : contents) : snap := {| sbase := b; sview := b; sstat := fun _ => Untouched |}.
(** Setting in the transaction changes only its own contents; a change of the base
    shows through where the transaction has no value of its own; commit makes the
    base equal to the transaction, refresh the transaction equal to the base. *)
Definition step (s : snap) (o : op) : snap :=
  match o with
  | Set_ k v => {| sbase := sbase s; sview := set_spec (sview s) k v; sstat := set_status (sstat s) k v |}
  | BaseSet k v =>
      let b := set_key (sbase s) (k, v) in
      {| sbase := b; sstat := sstat s;
         sview := fun q =>
           match sstat s q with
           | Untouched => b q
           | Implied => Some (match b q with Some w => w | None => [] end)
           | Explicit => sview s q
           end |}
  | Commit => start (sview s)
  | Refresh => start (sbase s)
  end.
Definition steps (os : list op) : snap := fold_left step os (start nothing).
(** Keys set in the transaction have no empty segment; those of the base may end
    in a slash. *)
Definition good_op (o : op) : Prop :=
  match o with Set_ k _ => Forall plain k | BaseSet k _ => canonical k | _ => True end.
(** A set whose notification goes missing: the key exists in the transaction only
    because a key below was set, and its value changes from one that is not empty
    to another. *)
Definition unheard (s : snap) (o : op) : Prop :=
  match o with
  | Set_ k v => sstat s k = Implied /\ sview s k <> v /\ (exists x a, sview s k = Some (x :: a)) /\ exists y b, v = Some (y :: b)
  | _ => False
  end.
Fixpoint all_heard (s : snap) (os : list op) : Prop :=
  match os with [] => True | o :: os => ~ unheard s o /\ all_heard (step s o) os end.
