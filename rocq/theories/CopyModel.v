(** Model of uniconf/uniconf.cc: copy and move, within one memory generator. *)
From Verif Require Import Base KeyModel TempModel WatchModel RecModel.

(** uniconf/uniconf.cc:68-74, 83-86 and include/uniconf.h:232-233: getme() is tget,
    setme() is tset; remove() *)
Definition setme (g : gen) (k : key) (v : option bytes) : gen := fst (tset g k v).
Definition remove (g : gen) (k : key) : gen := setme g k None.
Definition isnull {A} (v : option A) : bool := match v with None => true | Some _ => false end.

(** uniconf/uniconf.cc:103-116: copy.  The names that the iterator gives are taken at
    the start: what is at and below the source is not changed in between, if the two
    are apart *)
Definition copy_one (src dst : key) (force : bool) (g : gen) (k : key) : gen :=
  let dst2 := kcat dst k in
  if (force || isnull (tget g dst2))%bool then setme g dst2 (tget g (kcat src k)) else g.
Definition copy (fuel : nat) (g : gen) (src dst : key) (force : bool) : res gen :=
  let g := setme g dst (tget g src) in
  let! items := trec fuel g src in
  Ok (fold_left (copy_one src dst force) (map fst items) g).

(** uniconf/uniconf.cc:95-100: move *)
Definition move (fuel : nat) (g : gen) (src dst : key) : res gen :=
  let g := remove g dst in
  let! g := copy fuel g src dst true in
  Ok (remove g src).
