(** Model of UniFastRegetGen, uniconf/unifastregetgen.cc, over a memory generator
    (TempModel).  UniFilterGen hands everything on, uniconf/unifiltergen.cc. *)
From Verif Require Import Base KeyModel TempModel.
Local Open Scope nat_scope.

(** uniconf/unifastregetgen.cc:24-29: the constructor.  The tree of remembered values
    has null values. *)
Record fast := { finner : gen; ftree : tree (option bytes) }.
Definition fast_new (g : gen) : fast := {| finner := g; ftree := Node [] (tget g []) [] |}.
(** Changing the node at a key, as found by UniHashTreeBase::_find *)
Fixpoint put {V} (t : tree V) (k : key) (f : tree V -> tree V) : tree V :=
  match k with
  | [] => f t
  | s :: r =>
      if isempty (collapse [s]) then put t r f
      else match child (tch t) s with
           | Some c => Node (tkey t) (tval t) (with_child (tch t) s (Some (put c r f)))
           | None => t
           end
  end.
(** uniconf/unifastregetgen.cc:42-51: gencallback, for each of the notifications of
    the inner generator, which are handed on unchanged *)
Definition fcallback (t : tree (option bytes)) (n : notif) : tree (option bytes) :=
  match find t (fst n) with
  | Some _ => put t (fst n) (fun x => Node (tkey x) (snd n) (tch x))
  | None => t
  end.
(** set(), UniFilterGen's or of the inner generator by someone else *)
Definition fset (s : fast) (k : key) (v : option bytes) : fast * list notif :=
  let (g, n) := tset (finner s) k v in ({| finner := g; ftree := fold_left fcallback n (ftree s) |}, n).
(** uniconf/unifastregetgen.cc:54-82: get; also yields the keys the inner generator was
    asked for.  A null [t] at the assert is a fault. *)
Fixpoint fget (fuel : nat) (s : fast) (k : key) : res (fast * option bytes * list key) :=
  match fuel with
  | O => NoFuel
  | S fuel =>
      if hastrailingslash k then Ok (s, None, [])
      else match find (ftree s) k with
           | Some t => Ok (s, tval t, [])
           | None =>
               let parent := removelast k 1 in
               let! (s, _, asked) := fget fuel s parent in
               match find (ftree s) parent with
               | None => Fault
               | Some t =>
                   let value := match tval t with None => None | Some _ => tget (finner s) k end in
                   let asked := match tval t with None => asked | Some _ => asked ++ [k] end in
                   Ok ({| finner := finner s; ftree := put (ftree s) parent (fun x => Node (tkey x) (tval x) (tch x ++ [Node (hd [] (last_seg k)) value []])) |}, value, asked)
               end
           end
  end.
(** uniconf/unifastregetgen.cc:85-90: exists *)
Definition fexists (fuel : nat) (s : fast) (k : key) : res (fast * bool * list key) :=
  let! (s, v, a) := fget fuel s k in Ok (s, match v with Some _ => true | None => false end, a).
(** uniconf/unifastregetgen.cc:93-106: haschildren *)
Definition fhaschildren (s : fast) (k : key) : bool :=
  match find (ftree s) k with
  | Some t => match tval t with None => false | Some _ => thaschildren (finner s) k end
  | None => thaschildren (finner s) k
  end.

(** A history of sets and gets, and of the hash tables being reordered *)
Inductive fevent := FSet (k : key) (v : option bytes) | FGet (k : key).
Inductive fhistory : fast -> list fevent -> list notif -> fast -> Prop :=
| FH_end s : fhistory s [] [] s
| FH_set s k v s1 n es ns s' : fset s k v = (s1, n) -> fhistory s1 es ns s' -> fhistory s (FSet k v :: es) (n ++ ns) s'
| FH_get s fuel k s1 v a es ns s' : fget fuel s k = Ok (s1, v, a) -> fhistory s1 es ns s' -> fhistory s (FGet k :: es) ns s'
| FH_shuffle t t' d f es ns s' : shuffle t t' -> fhistory {| finner := {| root := Some t'; dirty := d |}; ftree := f |} es ns s' ->
    fhistory {| finner := {| root := Some t; dirty := d |}; ftree := f |} es ns s'
| FH_shuffle2 g t t' es ns s' : shuffle t t' -> fhistory {| finner := g; ftree := t' |} es ns s' -> fhistory {| finner := g; ftree := t |} es ns s'.
