(** Model of the recursive iterator of UniConfGen, uniconf/uniconfgen.cc:172-261,
    over any generator, given by what its iterator() lists: [iter k] is [None] for a
    null pointer.  The generator does not change while the iterator is in use. *)
From Verif Require Import Base KeyModel TempModel WatchModel.
Local Open Scope nat_scope.

(** An iterator: the name it is at, and those still to come *)
Definition sub := (option bytes * list bytes)%type.
(** uniconf/uniconfgen.cc:174-179: the members *)
Record rstate := { itlist : list sub; current : key; sub_next : bool }.

Section Rec.
Context (iter : key -> option (list bytes)) (top : key).
(** uniconf/uniconfgen.cc:189-201: rewind *)
Definition rewind : rstate :=
  {| itlist := match iter top with Some l => [(None, l)] | None => [] end; current := []; sub_next := false |}.
(** uniconf/uniconfgen.cc:207-223: going into the subtree of where we are; append()
    of a name, uniconf/uniconfkey.cc:128-153, does what UniConfKey(path, key) does.
    Using an iterator before its first next() is a fault. *)
Definition descend (s : rstate) : res rstate :=
  if sub_next s then
    match itlist s with
    | (Some x, l) :: r =>
        match iter (kcat top (kcat (current s) [x])) with
        | Some l' => Ok {| itlist := (None, l') :: itlist s; current := kcat (current s) [x]; sub_next := false |}
        | None => Ok {| itlist := itlist s; current := current s; sub_next := false |}
        end
    | _ => Fault
    end
  else Ok s.
(** uniconf/uniconfgen.cc:225-240: the loop *)
Fixpoint climb (its : list sub) (cur : key) : rstate * bool :=
  match its with
  | [] => ({| itlist := []; current := cur; sub_next := false |}, false)
  | (_, x :: l) :: r => ({| itlist := (Some x, l) :: r; current := cur; sub_next := true |}, true)
  | (_, []) :: r => climb r (removelast cur 1)
  end.
(** uniconf/uniconfgen.cc:203-244: next *)
Definition next (s : rstate) : res (rstate * bool) :=
  let! s := descend s in Ok (climb (itlist s) (current s)).
(** uniconf/uniconfgen.cc:246-253: key *)
Definition rkey (s : rstate) : res key :=
  match itlist s with
  | [] => Ok (current s)
  | (Some x, _) :: _ => Ok (kcat (current s) [x])
  | _ => Fault
  end.
(** for (i.rewind(); i.next(); ) ... i.key() ... *)
Fixpoint run (fuel : nat) (s : rstate) : res (list key) :=
  match fuel with
  | O => NoFuel
  | S fuel =>
      let! (s, more) := next s in
      if more : bool then let! k := rkey s in let! r := run fuel s in Ok (k :: r) else Ok []
  end.
End Rec.
(** The recursive iterator of a memory generator, with the values it finds with
    get(), uniconf/uniconfgen.cc:255-258 *)
Definition tnames (g : gen) (k : key) : option (list bytes) :=
  match titer g k with Some l => Some (map fst l) | None => None end.
Definition trec (fuel : nat) (g : gen) (top : key) : res (list (key * option bytes)) :=
  let! ks := run (tnames g) top fuel (rewind (tnames g) top) in
  Ok (map (fun k => (k, tget g (kcat top k))) ks).
