(** What a walk through a directory tree should give. *)
From Verif Require Import Base.

(** What is in a directory, in the order in which it is read: a name, the device it is
    on, and for a directory what is in it, if that may be read. *)
Inductive tree := Leaf (dev : nat) | Folder (dev : nat) (readable : bool) (kids : list (bytes * tree)).
Definition dev (t : tree) : nat := match t with Leaf d => d | Folder d _ _ => d end.
Definition is_folder (t : tree) : bool := match t with Leaf _ => false | Folder _ _ _ => true end.

Record ent := Ent { fullname : bytes; fname : bytes; relname : bytes; folder : bool }.

(** Every entry, and right after a directory that [enter]s what is below it; [top] is the
    directory's own name, [rel] the way from the start, with a slash at its end. *)
Fixpoint below (enter : nat -> bool) (full rel : bytes) (t : tree) : list ent :=
  match t with
  | Folder d true kids =>
      if enter d then
        (fix go (l : list (bytes * tree)) : list ent :=
           match l with
           | [] => []
           | (n, t) :: l => Ent (full ++ B "/" ++ n) n (rel ++ n) (is_folder t) :: below enter (full ++ B "/" ++ n) (rel ++ n ++ B "/") t ++ go l
           end) kids
      else []
  | _ => []
  end.
Definition listing (enter : nat -> bool) (full rel : bytes) (l : list (bytes * tree)) : list ent :=
  flat_map (fun x => Ent (full ++ B "/" ++ fst x) (fst x) (rel ++ fst x) (is_folder (snd x)) :: below enter (full ++ B "/" ++ fst x) (rel ++ fst x ++ B "/") (snd x)) l.

(** Names are not empty and have no slash. *)
Definition named (n : bytes) : Prop := n <> [] /\ ~ In "/"%char n.
Inductive proper : tree -> Prop :=
| P_leaf d : proper (Leaf d)
| P_folder d r kids : Forall (fun x => named (fst x) /\ proper (snd x)) kids -> proper (Folder d r kids).
Definition proper_all (l : list (bytes * tree)) : Prop := Forall (fun x => named (fst x) /\ proper (snd x)) l.

(** [t] is what is in the tree under the full name [p]. *)
Inductive is_at : bytes -> list (bytes * tree) -> bytes -> tree -> Prop :=
| At_here full l n t : In (n, t) l -> is_at full l (full ++ B "/" ++ n) t
| At_below full l n d r kids p t : In (n, Folder d r kids) l -> is_at (full ++ B "/" ++ n) kids p t -> is_at full l p t.
