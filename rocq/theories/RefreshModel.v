(** Model of UniIniGen::refresh, uniconf/uniinigen.cc:55-214, around the reading of
    the file (IniModel): whether the file is read at all, and the comparison of the
    old and the new tree that raises the notifications, with
    UniHashTreeBase::_recursivecompare, uniconf/unihashtree.cc:162-240.
    The notifications are collected in a list: refresh() holds them until it is
    done (C28).  Log messages are left out. *)
From Verif Require Import Base KeyModel TempModel IniModel.
Local Open Scope nat_scope.

(** uniconf/unihashtree.cc:141-144: keysorter; WvSorter, include/wvsorter.h, sorts
    with qsort.  The keys of the children of a node differ. *)
Definition before (a b : tree bytes) : bool := (compareto [tkey a] [tkey b] <? 0)%Z.
Fixpoint insert (x : tree bytes) (l : list (tree bytes)) : list (tree bytes) :=
  match l with
  | [] => [x]
  | y :: r => if before y x then y :: insert x r else x :: l
  end.
Definition sorted (l : list (tree bytes)) : list (tree bytes) := fold_right insert [] l.

(** uniconf/uniinigen.cc:219-251: refreshcomparator; [fa] and [fb] are the full
    keys of the two nodes. *)
Definition refreshcomparator (fa fb : key) (a b : option (tree bytes)) : res (list notif) :=
  match a, b with
  | Some a, Some b =>
      if list_eq_dec ascii_dec (tval a) (tval b) then Ok [] else Ok [(fb, Some (tval b))]
  | Some a, None => Ok (visit fa a)
  | None, Some b => Ok [(fb, Some (tval b))]
  | None, None => Fault
  end.
(** uniconf/unihashtree.cc:196-232: the loops over the sorted children *)
Section Merge.
Context (f : option (tree bytes) -> option (tree bytes) -> res (list notif)).
Fixpoint merge (la : list (tree bytes)) : list (tree bytes) -> res (list notif) :=
  fix inner (lb : list (tree bytes)) : res (list notif) :=
    match la, lb with
    | [], [] => Ok []
    | a :: ra, [] => let! n := f (Some a) None in let! m := merge ra [] in Ok (n ++ m)
    | [], b :: rb => let! n := f None (Some b) in let! m := inner rb in Ok (n ++ m)
    | a :: ra, b :: rb =>
        let order := compareto [tkey a] [tkey b] in
        if (order <? 0)%Z then let! n := f (Some a) None in let! m := merge ra lb in Ok (n ++ m)
        else if (0 <? order)%Z then let! n := f None (Some b) in let! m := inner rb in Ok (n ++ m)
        else let! n := f (Some a) (Some b) in let! m := merge ra rb in Ok (n ++ m)
    end.
End Merge.
(** uniconf/unihashtree.cc:162-240: _recursivecompare; what it returns is not used.
    The trees are finite: the fuel is their height. *)
Definition kids (t : option (tree bytes)) : list (tree bytes) :=
  match t with Some t => sorted (tch t) | None => [] end.
Definition below (f : key) (t : option (tree bytes)) : key :=
  match t with Some t => f ++ [tkey t] | None => f end.
Fixpoint recursivecompare (fuel : nat) (fa fb : key) (a b : option (tree bytes)) : res (list notif) :=
  match fuel with
  | O => NoFuel
  | S fuel =>
      let! n := refreshcomparator fa fb a b in
      let! m := merge (fun x y => recursivecompare fuel (below fa x) (below fb y) x y) (kids a) (kids b) in
      Ok (n ++ m)
  end.
Fixpoint height (t : tree bytes) : nat := match t with Node _ _ ch => S (list_max (map height ch)) end.
Definition compare (old new : tree bytes) : res (list notif) :=
  recursivecompare (Nat.max (height old) (height new)) [] [] (Some old) (Some new).

(** uniconf/uniinigen.cc:75-80: the fields of struct stat that are looked at; the
    time is in seconds. *)
Record stat := { st_ctime : Z; st_dev : Z; st_ino : Z; st_blocks : Z; st_size : Z }.
Definition stat_eqb (a b : stat) : bool :=
  ((st_ctime a =? st_ctime b) && (st_dev a =? st_dev b) && (st_ino a =? st_ino b) &&
   (st_blocks a =? st_blocks b) && (st_size a =? st_size b))%Z.
(** What refresh() finds: a file that cannot be opened or looked at (statbuf holds
    whatever was there before, [junk]), one with the sticky bit, or one that can
    be read, with its content and whether an error comes up in the end. *)
Inductive attempt :=
| Unreadable (junk : stat)
| Sticky (st : stat)
| Readable (st : stat) (content : bytes) (failed : bool).

(** The generator, with the old_st of uniconf/uniinigen.h *)
Record ini := { live : gen; old_st : stat }.
Definition no_stat : stat := {| st_ctime := 0; st_dev := 0; st_ino := 0; st_blocks := 0; st_size := 0 |}.
(** uniconf/uniinigen.cc:30-36: the constructor *)
Definition ini_new : ini := {| live := fst (tset tinit [] (Some [])); old_st := no_stat |}.
(** uniconf/uniinigen.cc:39-47: set *)
Definition ini_set (i : ini) (k : key) (v : option bytes) : ini * list notif :=
  let (g, n) := tset (live i) k v in
  match v with
  | None =>
      if isempty k then let (g, m) := tset g [] (Some []) in ({| live := g; old_st := old_st i |}, n ++ m)
      else ({| live := g; old_st := old_st i |}, n)
  | Some _ => ({| live := g; old_st := old_st i |}, n)
  end.
(** uniconf/uniinigen.cc:55-214: refresh: the state, what it returns and the
    notifications.  Calling compare() on a null pointer, which would happen if
    there was no tree, is a fault. *)
Definition ini_refresh (i : ini) (a : attempt) : res (ini * bool * list notif) :=
  match a with
  | Unreadable junk => Ok ({| live := live i; old_st := junk |}, false, [])
  | Sticky st => Ok ({| live := live i; old_st := st |}, false, [])
  | Readable st content failed =>
      if stat_eqb st (old_st i) then Ok (i, true, [])
      else
        let! newgen := load content in
        if failed : bool then Ok ({| live := live i; old_st := st |}, false, [])
        else
          let! old := of_opt (root (live i)) in
          let! new := of_opt (root newgen) in
          let! n := compare old new in
          Ok ({| live := {| root := Some new; dirty := false |}; old_st := st |}, true, n)
  end.

(** A history of changes and refreshes; the hash tables may be enumerated in another
    order at any time. *)
Inductive event := Set_ (k : key) (v : option bytes) | Refresh (a : attempt).
Inductive ini_history : ini -> list event -> list notif -> ini -> Prop :=
| I_end i : ini_history i [] [] i
| I_set i k v i1 n es ns i' : ini_set i k v = (i1, n) -> ini_history i1 es ns i' -> ini_history i (Set_ k v :: es) (n ++ ns) i'
| I_refresh i a i1 b n es ns i' : ini_refresh i a = Ok (i1, b, n) -> ini_history i1 es ns i' ->
    ini_history i (Refresh a :: es) (n ++ ns) i'
| I_shuffle i t t' es ns i' : root (live i) = Some t -> shuffle t t' ->
    ini_history {| live := {| root := Some t'; dirty := dirty (live i) |}; old_st := old_st i |} es ns i' -> ini_history i es ns i'.
