(** Model of UniTempGen, uniconf/unitempgen.cc, and of the tree it keeps,
    uniconf/unihashtree.cc and include/uniconftree.h.  Keys are lists of
    segments (KeyModel).  A node's key is a single segment, empty for the root.
    The tree is a template over what its nodes hold, here [A].
    The children of a node live in a WvScatterHash, seen here as a list in which
    at most one child compares equal to a key (C17); the order in which the hash
    table enumerates them is arbitrary and may change at any time ([shuffle]).
    Parent pointers are left out: fullkey() of a node is the path of node keys
    that led to it.  Keys are well-formed (C22, C23): only the last segment may
    be empty.  Notifications raised by one set() are collected in a list: set()
    holds them until it is done (C28). *)
From Coq Require Import Permutation.
From Verif Require Import Base KeyModel.
Local Open Scope nat_scope.

Inductive tree (A : Type) := Node (k : bytes) (v : A) (ch : list (tree A)).
Arguments Node {A} k v ch.
Section Tree.
Context {A : Type}.
Definition tkey (t : tree A) : bytes := let (k, _, _) := t in k.
Definition tval (t : tree A) : A := let (_, v, _) := t in v.
Definition tch (t : tree A) : list (tree A) := let (_, _, c) := t in c.

(** the lookup of a child in the hash table, by UniConfKey equality *)
Definition same_seg (a b : bytes) : bool := key_eq [a] [b].
Fixpoint child (ch : list (tree A)) (s : bytes) : option (tree A) :=
  match ch with
  | [] => None
  | c :: r => if same_seg (tkey c) s then Some c else child r s
  end.
(** uniconf/unihashtree.cc:104-110: _findchild; 87-101: _find *)
Definition findchild (t : tree A) (s : bytes) : option (tree A) :=
  if isempty (collapse [s]) then Some t else child (tch t) s.
Fixpoint find (t : tree A) (k : key) : option (tree A) :=
  match k with
  | [] => Some t
  | s :: r => match findchild t s with Some c => find c r | None => None end
  end.
(** Replacing or removing the child found for [s] *)
Fixpoint with_child (ch : list (tree A)) (s : bytes) (new : option (tree A)) : list (tree A) :=
  match ch with
  | [] => match new with Some n => [n] | None => [] end
  | c :: r => if same_seg (tkey c) s then match new with Some n => n :: r | None => r end
              else c :: with_child r s new
  end.
(** The hash tables may enumerate children in another order at any time. *)
Inductive shuffle : tree A -> tree A -> Prop :=
| Sh_here k v c c' : Permutation c c' -> shuffle (Node k v c) (Node k v c')
| Sh_below k v a x y b : shuffle x y -> shuffle (Node k v (a ++ x :: b)) (Node k v (a ++ y :: b)).
End Tree.

(** A generator: its tree and its dirty flag *)
Record gen := { root : option (tree bytes); dirty : bool }.
Definition notif := (key * option bytes)%type.

(** key.last(), include/uniconfkey.h; [klast k 1], except that the clipping at
    INT_MAX is left out: the number of segments is an int *)
Definition last_seg (k : key) : key := collapse (skipn (length k - 1) k).
(** uniconf/unitempgen.cc:38-50: get *)
Definition tget (g : gen) (k : key) : option bytes :=
  match root g with
  | Some t =>
      if negb (isempty k) && isempty (last_seg k) then None
      else match find t k with Some n => Some (tval n) | None => None end
  | None => None
  end.

(** uniconf/unihashtree.cc:147-159: _recursive_unsorted_visit in post-order, with
    notify_deleted, uniconf/unitempgen.cc:52-55 *)
Fixpoint visit (full : key) (t : tree bytes) : list notif :=
  match t with
  | Node _ _ ch => flat_map (fun c => visit (full ++ [tkey c]) c) ch ++ [(full, None)]
  end.

(** uniconf/unitempgen.cc:77-96: removing the node at a key; [None] if it is not
    there.  Yields what is left of the tree and the notifications. *)
Fixpoint del (full : key) (t : tree bytes) (k : key) : option (option (tree bytes) * list notif) :=
  match k with
  | [] => Some (None, visit full t)
  | s :: r =>
      match child (tch t) s with
      | None => None
      | Some c =>
          match del (full ++ [tkey c]) c r with
          | None => None
          | Some (c', n) => Some (Some (Node (tkey t) (tval t) (with_child (tch t) s c')), n)
          end
      end
  end.

(** uniconf/unitempgen.cc:97-141: the loop that creates or changes a node.  [k0]
    is prevkey, [rest] what is left to iterate over; [full] the full key of the
    node reached.  The flag tells whether dirty was set. *)
Fixpoint ins (full : key) (node : option (tree bytes)) (k0 : bytes) (rest : key) (v : bytes) : tree bytes * list notif * bool :=
  match node, rest with
  | None, [] => (Node k0 v [], [(full, Some v)], true)
  | None, s :: r =>
      let '(c, n, _) := ins (full ++ [s]) None s r v in
      (Node k0 [] [c], (full, Some []) :: n, true)
  | Some (Node k v0 ch), [] =>
      if list_eq_dec ascii_dec v v0 then (Node k v0 ch, [], false)
      else (Node k v ch, [(full, Some v)], true)
  | Some (Node k v0 ch), s :: r =>
      match child ch s with
      | Some c => let '(c', n, d) := ins (full ++ [tkey c]) (Some c) s r v in (Node k v0 (with_child ch s (Some c')), n, d)
      | None => let '(c', n, d) := ins (full ++ [s]) None s r v in (Node k v0 (ch ++ [c']), n, d)
      end
  end.

(** uniconf/unitempgen.cc:63-75: what set() does with a trailing slash *)
Definition strip (k0 : key) : key * bool :=
  if isempty k0 then (k0, false)
  else
    let last := last_seg k0 in
    let k := collapse (firstn (length k0 - 1) k0) in
    if isempty last then (k, true) else (k0, false).
(** uniconf/unitempgen.cc:57-144: set.  pop() hands out all the segments but the
    last one and leaves that one. *)
Definition tset (g : gen) (k0 : key) (v : option bytes) : gen * list notif :=
  let '(k, trailing) := strip k0 in
  match v with
  | None =>
      match root g with
      | None => (g, [])
      | Some t =>
          match del [] t k with
          | None => (g, [])
          | Some (t', n) => ({| root := t'; dirty := true |}, n)
          end
      end
  | Some v =>
      if trailing : bool then (g, [])
      else
        let '(t', n, d) := ins [] (root g) [] k v in
        ({| root := Some t'; dirty := dirty g || d |}, n)
  end.

(** uniconf/unitempgen.cc:153-161: haschildren *)
Definition thaschildren (g : gen) (k : key) : bool :=
  match root g with
  | Some t => match find t k with Some n => match tch n with [] => false | _ => true end | None => false end
  | None => false
  end.
(** uniconf/unitempgen.cc:164-180: iterator; [None] is a null pointer.  (For a
    node without children the code makes an iterator over a null table, which
    finds nothing.) *)
Definition titer (g : gen) (k : key) : option (list (bytes * bytes)) :=
  match root g with
  | Some t => match find t k with Some n => Some (map (fun c => (tkey c, tval c)) (tch n)) | None => None end
  | None => None
  end.

(** A history of sets, with the notifications raised. *)
Inductive history : gen -> list (key * option bytes) -> list notif -> gen -> Prop :=
| H_end g : history g [] [] g
| H_set g k v g1 n hs ns g' : tset g k v = (g1, n) -> history g1 hs ns g' ->
    history g ((k, v) :: hs) (n ++ ns) g'
| H_shuffle d t t' hs ns g' : shuffle t t' -> history {| root := Some t'; dirty := d |} hs ns g' ->
    history {| root := Some t; dirty := d |} hs ns g'.
Definition tinit : gen := {| root := None; dirty := false |}.
