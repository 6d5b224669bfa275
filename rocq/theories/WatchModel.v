(** Model of the watches of UniConfRoot: uniconf/uniconfroot.cc,
    include/uniconfroot.h.  The tree of watches is the tree of TempModel with a
    list of watches in each node; the same remarks apply, in particular the hash
    tables may enumerate the children in any order ([shuffle]).  A callback is
    known by a number, and a call of it by that number and the two arguments, the
    full key of the UniConf and the key relative to it.  Callbacks that add or
    remove watches while they run are left out, as are hold_delta and
    unhold_delta (C28). *)
From Verif Require Import Base KeyModel TempModel.
Local Open Scope nat_scope.

(** include/uniconfroot.h:19-40: UniWatchInfo *)
Record watch := { cookie : nat; recurse : bool; what : nat }.
(** include/uniconfroot.h:48-60: UniWatchInfoTree *)
Notation wtree := (tree (list watch)).
Definition wempty : wtree := Node [] [] [].
Definition essential (t : wtree) : bool :=
  match tch t, tval t with [], [] => false | _, _ => true end.
(** A call of a callback. *)
Definition event := (nat * key * key)%type.

(** uniconf/uniconfroot.cc:85-100: add_callback *)
Fixpoint add_callback (t : wtree) (k : key) (w : watch) : wtree :=
  match k with
  | [] => Node (tkey t) (tval t ++ [w]) (tch t)
  | s :: r =>
      if isempty (collapse [s]) then add_callback t r w
      else match child (tch t) s with
           | Some c => Node (tkey t) (tval t) (with_child (tch t) s (Some (add_callback c r w)))
           | None => Node (tkey t) (tval t) (tch t ++ [add_callback (Node s [] []) r w])
           end
  end.

(** uniconf/uniconfroot.cc:109-118: the loop over the watches of the node *)
Fixpoint unlink (ws : list watch) (c : nat) (rec : bool) : list watch :=
  match ws with
  | [] => []
  | w :: r => if (cookie w =? c) && Bool.eqb (recurse w) rec then r else w :: unlink r c rec
  end.
(** uniconf/uniconfroot.cc:103-122: del_callback, with prune, 169-177: going back
    up, nodes that are not essential are deleted.  [None] if there is no node. *)
Fixpoint del_node (t : wtree) (k : key) (c : nat) (rec : bool) : option wtree :=
  match k with
  | [] => Some (Node (tkey t) (unlink (tval t) c rec) (tch t))
  | s :: r =>
      if isempty (collapse [s]) then del_node t r c rec
      else match child (tch t) s with
           | None => None
           | Some n =>
               match del_node n r c rec with
               | None => None
               | Some n' => Some (Node (tkey t) (tval t) (with_child (tch t) s (if essential n' then Some n' else None)))
               end
           end
  end.
Definition del_callback (t : wtree) (k : key) (c : nat) (rec : bool) : wtree :=
  match del_node t k c rec with Some t' => t' | None => t end.

(** uniconf/uniconfroot.cc:139-150: check *)
Definition check (t : wtree) (k : key) (segleft : nat) : list event :=
  flat_map (fun w =>
    if negb (recurse w) && (0 <? segleft) then []
    else [(what w, removelast k (Z.of_nat segleft), klast k (Z.of_nat segleft))]) (tval t).
(** uniconf/uniconfkey.cc:98-125: UniConfKey(path, key) *)
Definition kcat (p k : key) : key :=
  collapse (filter (fun s => negb (isnil s)) (p ++ k) ++ if isempty k || hastrailingslash k then [[]] else []).
(** uniconf/uniconfroot.cc:153-166: deletioncheck *)
Fixpoint deletioncheck (t : wtree) (k : key) : list event :=
  match t with
  | Node _ _ ch => flat_map (fun c => let sub := kcat k [tkey c] in check c sub 0 ++ deletioncheck c sub) ch
  end.
(** uniconf/uniconfroot.cc:180-205: gen_callback; [rest] is what is left of the
    loop over the segments of [k]. *)
Fixpoint walk (t : wtree) (k rest : key) (v : option bytes) : list event :=
  match rest with
  | [] => match v with None => deletioncheck t k | Some _ => [] end
  | s :: r =>
      match findchild t s with
      | None => []
      | Some c => check c k (length r) ++ walk c k r v
      end
  end.
Definition gen_callback (t : wtree) (k : key) (v : option bytes) : list event :=
  check t k (length k) ++ walk t k k v.

(** uniconf/uniconfroot.cc:42-66: watchout; 69-82: the destructor, which fails an
    assertion if it finds a watch. *)
Fixpoint watchout (t : wtree) : bool :=
  match t with
  | Node _ _ ch => existsb (fun c => watchout c || match tval c with [] => false | _ => true end) ch
  end.
Definition destroy (t : wtree) : res unit := if watchout t then Fault else Ok tt.

(** A history of adding and removing watches. *)
Inductive wop := Add (k : key) (w : watch) | Del (k : key) (c : nat) (rec : bool).
Definition wstep (t : wtree) (o : wop) : wtree :=
  match o with Add k w => add_callback t k w | Del k c rec => del_callback t k c rec end.
Inductive whistory : wtree -> list wop -> wtree -> Prop :=
| W_end t : whistory t [] t
| W_op t o os t' : whistory (wstep t o) os t' -> whistory t (o :: os) t'
| W_shuffle t t1 os t' : shuffle t t1 -> whistory t1 os t' -> whistory t os t'.
