(** Model of UniTransactionGen, uniconf/unitransactiongen.cc, over a base that is
    a UniTempGen (TempModel).  The tree of changes is a [tree] of [mode]s.  The
    calls of delta() by one operation are collected in order (each operation
    holds them until it is done, C28).  [pre] is the part of the key already
    walked, the rest is still to come; [seg] is its length.  The base's own
    iteration (deletion_simulator, cancel_values) is over its nodes. *)
From Coq Require Import Permutation.
From Verif Require Import Base KeyModel TempModel.
Local Open Scope nat_scope.

(** uniconf/unitransactiongen.cc:20-70: the modes and UniConfChangeTree *)
Inductive mode := NewValue (v : bytes) | NewTree (t : option (tree bytes)) | NewNode (was_null_or_empty : bool) | Blank.
Definition ctree := tree mode.

(** WvString's operator!, and exists(), uniconf/uniconfgen.cc:120-123 *)
Definition bang (v : option bytes) : bool := match v with Some (_ :: _) => false | _ => true end.
Definition isnull {A} (v : option A) : bool := match v with Some _ => false | None => true end.
Definition exists_ (g : gen) (k : key) : bool := negb (isnull (tget g k)).
Definition eq_val (a b : option bytes) : bool :=
  match a, b with
  | Some a, Some b => if list_eq_dec ascii_dec a b then true else false
  | None, None => true
  | _, _ => false
  end.
(** The node of the base at a key *)
Definition base_node (g : gen) (k : key) : option (tree bytes) :=
  match root g with Some t => find t k | None => None end.

(** uniconf/unitransactiongen.cc:216-251: get *)
Fixpoint cget (g : gen) (node : option ctree) (pre rest : key) : option bytes :=
  match node with
  | None => tget g (pre ++ rest)
  | Some (Node _ (NewTree t) _) =>
      match t with
      | Some t => match find t rest with Some n => Some (tval n) | None => None end
      | None => None
      end
  | Some (Node _ m _ as c) =>
      match rest with
      | [] =>
          match m with
          | NewValue v => Some v
          | NewNode _ => let v := tget g pre in if bang v then Some [] else v
          | _ => tget g pre
          end
      | s :: r => cget g (findchild c s) (pre ++ [s]) r
      end
  end.

(** uniconf/unitransactiongen.cc:560-582: create_value *)
Fixpoint create_value (pre : key) (k0 : bytes) (rest : key) (v : bytes) : tree bytes * list notif :=
  match rest with
  | [] => (Node k0 v [], [(pre, Some v)])
  | s :: r =>
      let (t, n) := create_value (pre ++ [s]) s r v in
      (Node k0 [] [t], (pre, Some []) :: n)
  end.
(** uniconf/unitransactiongen.cc:656-722: set_value; the part for values *)
Fixpoint set_value_at (node : tree bytes) (pre rest : key) (v : bytes) : tree bytes * list notif :=
  match rest with
  | [] =>
      if list_eq_dec ascii_dec v (tval node) then (node, [])
      else (Node (tkey node) v (tch node), [(pre, Some v)])
  | s :: r =>
      if isempty (collapse [s]) then set_value_at node (pre ++ [s]) r v
      else
        match child (tch node) s with
        | None =>
            let (t, n) := create_value (pre ++ [s]) s r v in
            (Node (tkey node) (tval node) (tch node ++ [t]), n)
        | Some c =>
            let (c', n) := set_value_at c (pre ++ [s]) r v in
            (Node (tkey node) (tval node) (with_child (tch node) s (Some c')), n)
        end
  end.
(** Deleting the node found at a key; [del] is from TempModel, find() skips empty
    segments *)
Definition set_value (node : option (tree bytes)) (pre rest : key) (v : option bytes) : option (tree bytes) * list notif :=
  match v with
  | None =>
      match node with
      | None => (None, [])
      | Some t =>
          match find t rest with
          | None => (Some t, [])
          | Some sub =>
              (match del [] t (filter (fun s => negb (isempty (collapse [s]))) rest) with Some (t', _) => t' | None => Some t end,
               visit (pre ++ rest) sub)
          end
      end
  | Some v =>
      match node with
      | None => let (t, n) := create_value pre (last pre []) rest v in (Some t, n)
      | Some t => let (t', n) := set_value_at t pre rest v in (Some t', n)
      end
  end.

(** uniconf/unitransactiongen.cc:584-594: deletion_simulator *)
Definition deletion_simulator (g : gen) (k : key) : list notif :=
  match base_node g k with Some n => visit k n | None => [(k, None)] end.
(** uniconf/unitransactiongen.cc:598-651: create_change; line 605 is in
    [set_change], which knows the whole key *)
Fixpoint create_change (g : gen) (pre : key) (k0 : bytes) (rest : key) (v : option bytes) : ctree * list notif :=
  match rest with
  | [] =>
      match v with
      | None => (Node k0 (NewTree None) [], if exists_ g pre then deletion_simulator g pre else [])
      | Some w => (Node k0 (NewValue w) [], if eq_val (tget g pre) v then [] else [(pre, v)])
      end
  | s :: r =>
      let (c, n) := create_change g (pre ++ [s]) s r v in
      match v with
      | None => (Node k0 Blank [c], n)
      | Some _ =>
          (Node k0 (NewNode (bang (tget g pre))) [c], (if isnull (tget g pre) then [(pre, Some [])] else []) ++ n)
      end
  end.

(** uniconf/unitransactiongen.cc:310-351 and 99-200: the children that iterator()
    lists.  [live] are the changes that give a child a value. *)
Definition live (m : mode) : bool :=
  match m with NewValue _ | NewNode _ | NewTree (Some _) => true | _ => false end.
Definition base_children (g : gen) (k : key) : list (tree bytes) :=
  match base_node g k with Some n => tch n | None => [] end.
(** uniconf/unitransactiongen.cc:724-734: deletion_simulator2, which goes through
    iterator(): at a node of the change tree, first the live changes, then the
    base's children without a change or with a blank one *)
Fixpoint deletion_simulator2 (g : gen) (k : key) (c : ctree) : list notif :=
  match c with
  | Node _ (NewTree t) _ =>
      flat_map (fun d => visit (k ++ [tkey d]) d) (match t with Some t => tch t | None => [] end) ++ [(k, None)]
  | Node _ _ ch =>
      flat_map (fun d => if live (tval d) then deletion_simulator2 g (k ++ [tkey d]) d else []) ch ++
      (let subs := map (fun d => Node (tkey d) (tval d, fun k => deletion_simulator2 g k d) []) ch in
       flat_map (fun b =>
         match child subs (tkey b) with
         | None => deletion_simulator g (k ++ [tkey b])
         | Some (Node _ (Blank, f) _) => f (k ++ [tkey b])
         | _ => []
         end) (base_children g k)) ++
      [(k, None)]
  end.

(** uniconf/unitransactiongen.cc:783-812: the node of the change *)
Definition change_here (g : gen) (c : ctree) (k : key) (v : option bytes) : ctree * list notif :=
  let (k0, m, ch) := c in
  match v with
  | None =>
      (Node k0 (NewTree None) [],
       if match m with Blank => exists_ g k | _ => true end then deletion_simulator2 g k c else [])
  | Some w =>
      match m with
      | NewValue w0 => if list_eq_dec ascii_dec w0 w then (c, []) else (Node k0 (NewValue w) ch, [(k, v)])
      | Blank => (Node k0 (NewValue w) ch, if eq_val (tget g k) v then [] else [(k, v)])
      | _ =>
          let cur := tget g k in
          (Node k0 (NewValue w) ch, if xorb (bang cur) (bang v) && negb (eq_val cur v) then [(k, v)] else [])
      end
  end.
(** uniconf/unitransactiongen.cc:747-782: the loop of set_change; [full] is the
    whole key *)
Fixpoint set_change_at (g : gen) (full : key) (c : ctree) (pre rest : key) (v : option bytes) : ctree * list notif :=
  match rest with
  | [] => change_here g c pre v
  | s :: r =>
      let '(k0, m, n1) :=
        match tval c, v with
        | Blank, Some _ => (tkey c, NewNode (bang (tget g pre)), if isnull (tget g pre) then [(pre, Some [])] else [])
        | m, _ => (tkey c, m, [])
        end in
      let c := Node k0 m (tch c) in
      if isempty (collapse [s]) then
        let (c', n) := set_change_at g full c (pre ++ [s]) r v in (c', n1 ++ n)
      else
        match child (tch c) s with
        | None =>
            if hastrailingslash full && negb (isnull v) then (c, n1)
            else
              let (d, n) := create_change g (pre ++ [s]) s r v in
              (Node k0 m (tch c ++ [d]), n1 ++ n)
        | Some (Node kd (NewTree t) chd) =>
            let (t', n) := set_value t (pre ++ [s]) r v in
            (Node k0 m (with_child (tch c) s (Some (Node kd (NewTree t') chd))), n1 ++ n)
        | Some d =>
            let (d', n) := set_change_at g full d (pre ++ [s]) r v in
            (Node k0 m (with_child (tch c) s (Some d')), n1 ++ n)
        end
  end.
(** uniconf/unitransactiongen.cc:730-746: set_change at the root, called by set,
    lines 253-258 *)
Definition set_change (g : gen) (c : option ctree) (k : key) (v : option bytes) : option ctree * list notif :=
  match c with
  | None =>
      if hastrailingslash k && negb (isnull v) then (None, [])
      else let (d, n) := create_change g [] [] k v in (Some d, n)
  | Some (Node k0 (NewTree t) ch) => let (t', n) := set_value t [] k v in (Some (Node k0 (NewTree t') ch), n)
  | Some c => let (c', n) := set_change_at g k c [] k v in (Some c', n)
  end.

(** uniconf/unitransactiongen.cc:310-351: iterator.  [None] is a null pointer. *)
Fixpoint citer (g : gen) (node : option ctree) (pre rest : key) : option (list (bytes * option bytes)) :=
  match node with
  | None => match titer g (pre ++ rest) with Some l => Some (map (fun x => (fst x, Some (snd x))) l) | None => None end
  | Some (Node _ (NewTree t) _) =>
      match match t with Some t => find t rest | None => None end with
      | Some n => Some (map (fun c => (tkey c, Some (tval c))) (tch n))
      | None => Some []
      end
  | Some (Node _ _ ch as c) =>
      match rest with
      | [] =>
          Some (map (fun d =>
                  (tkey d, match tval d with
                           | NewValue v => Some v
                           | NewTree (Some t) => Some (tval t)
                           | _ => let v := tget g (pre ++ [tkey d]) in if bang v then Some [] else v
                           end)) (filter (fun d => live (tval d)) ch) ++
                map (fun b => (tkey b, Some (tval b)))
                  (filter (fun b => match child ch (tkey b) with None => true | Some d => match tval d with Blank => true | _ => false end end)
                     (base_children g pre)))
      | s :: r => citer g (findchild c s) (pre ++ [s]) r
      end
  end.

(** uniconf/unitransactiongen.cc:504-552: gencallback, the base's notification *)
Fixpoint gencallback (node : option ctree) (rest : key) (k : key) (v : option bytes) : option ctree * list notif :=
  match node with
  | None => (None, [(k, v)])
  | Some (Node k0 m ch as c) =>
      match m with
      | NewTree _ => (Some c, [])
      | _ =>
          match rest with
          | [] =>
              match m with
              | NewValue _ => (Some c, [])
              | NewNode was =>
                  if was && bang v then (Some c, [])
                  else
                    (Some (Node k0 (NewNode (bang v)) ch),
                     match v with None => [(k, Some [])] | Some _ => [(k, v)] end)
              | _ => (Some c, [(k, v)])
              end
          | s :: r =>
              if isempty (collapse [s]) then gencallback node r k v
              else
                match child ch s with
                | None => (Some c, [(k, v)])
                | Some d =>
                    let (d', n) := gencallback (Some d) r k v in
                    (match d' with Some d' => Some (Node k0 m (with_child ch s (Some d'))) | None => Some c end, n)
                end
          end
      end
  end.

(** The generator: its base and its changes. *)
Record txn := { base : gen; chg : option ctree }.
(** The base dispatches the notifications of one set(). *)
Definition callback (x : option ctree * list notif) (n : notif) : option ctree * list notif :=
  let (c, out) := x in
  let (c', o) := gencallback c (fst n) (fst n) (snd n) in
  (c', out ++ o).
Definition callbacks (c : option ctree) (ns : list notif) : option ctree * list notif := fold_left callback ns (c, []).
(** base->set() *)
Definition base_set (x : txn * list notif) (k : key) (v : option bytes) : txn * list notif :=
  let (t, out) := x in
  let (g', ns) := tset (base t) k v in
  let (c', o) := callbacks (chg t) ns in
  ({| base := g'; chg := c' |}, out ++ o).

(** uniconf/unitransactiongen.cc:353-376: apply_values *)
Fixpoint apply_values (x : txn * list notif) (t : tree bytes) (k : key) : txn * list notif :=
  match t with
  | Node _ v ch =>
      let x := base_set x k (Some v) in
      let x :=
        match titer (base (fst x)) k with
        | None => x
        | Some l => fold_left (fun x j => match findchild t (fst j) with None => base_set x (k ++ [fst j]) None | Some _ => x end) l x
        end in
      fold_left (fun x d => apply_values x d (k ++ [tkey d])) ch x
  end.
(** uniconf/unitransactiongen.cc:378-416: apply_changes *)
Fixpoint apply_changes (x : txn * list notif) (c : ctree) (k : key) : txn * list notif :=
  match c with
  | Node _ (NewTree None) _ => base_set x k None
  | Node _ (NewTree (Some t)) _ => apply_values x t k
  | Node _ m ch =>
      let x :=
        match m with
        | NewValue v => base_set x k (Some v)
        | NewNode _ => if exists_ (base (fst x)) k then x else base_set x k (Some [])
        | _ => x
        end in
      fold_left (fun x d => apply_changes x d (k ++ [tkey d])) ch x
  end.

(** uniconf/unitransactiongen.cc:436-463: cancel_values, over the base's node at
    the key (whose children base->iterator() lists) *)
Fixpoint cancel_values (new : option (tree bytes)) (b : tree bytes) (k : key) : list notif :=
  match b with
  | Node _ v ch =>
      (if match new with None => true | Some t => if list_eq_dec ascii_dec (tval t) v then false else true end then [(k, Some v)] else []) ++
      match new with
      | None => []
      | Some t =>
          flat_map (fun d => match child ch (tkey d) with None => visit (k ++ [tkey d]) d | Some _ => [] end) (tch t)
      end ++
      flat_map (fun d => cancel_values (match new with Some t => child (tch t) (tkey d) | None => None end) d (k ++ [tkey d])) ch
  end.
(** uniconf/unitransactiongen.cc:467-502: cancel_changes *)
Fixpoint cancel_changes (g : gen) (c : ctree) (k : key) : list notif :=
  match c with
  | Node _ (NewTree t) _ =>
      match base_node g k with
      | None => match t with Some t => visit k t | None => [] end
      | Some b => cancel_values t b k
      end
  | Node _ m ch =>
      let v := match m with Blank => None | _ => tget g k end in
      match m, v with NewValue w, Some w' => if list_eq_dec ascii_dec w' w then [] else [(k, v)] | _, _ => [] end ++
      flat_map (fun d => cancel_changes g d (k ++ [tkey d])) ch ++
      match m with Blank => [] | _ => if isnull v then [(k, None)] else [] end
  end.

(** The operations: get, set, commit (lines 269-290) and refresh (292-308) of the
    transaction, and set() on the base from elsewhere. *)
Definition xget (t : txn) (k : key) : option bytes := cget (base t) (chg t) [] k.
Definition xiter (t : txn) (k : key) : option (list (bytes * option bytes)) := citer (base t) (chg t) [] k.
Definition xset (t : txn) (k : key) (v : option bytes) : txn * list notif :=
  let (c, n) := set_change (base t) (chg t) k v in ({| base := base t; chg := c |}, n).
Definition xcommit (t : txn) : txn * list notif :=
  match chg t with
  | None => (t, [])
  | Some c => let (t', n) := apply_changes (t, []) c [] in ({| base := base t'; chg := None |}, n)
  end.
Definition xrefresh (t : txn) : txn * list notif :=
  match chg t with
  | None => (t, [])
  | Some c => ({| base := base t; chg := None |}, cancel_changes (base t) c [])
  end.
Definition xbase_set (t : txn) (k : key) (v : option bytes) : txn * list notif := base_set (t, []) k v.
(** Changes in the order of the hash tables *)
Inductive reorder : mode -> mode -> Prop :=
| R_tree t t' : shuffle t t' -> reorder (NewTree (Some t)) (NewTree (Some t')).
Inductive cshuffle : ctree -> ctree -> Prop :=
| CS_order c c' : shuffle c c' -> cshuffle c c'
| CS_tree k m m' ch : reorder m m' -> cshuffle (Node k m ch) (Node k m' ch)
| CS_below k m a x y b : cshuffle x y -> cshuffle (Node k m (a ++ x :: b)) (Node k m (a ++ y :: b)).

(** An execution: sets in the transaction, sets in the base by others, commits and
    refreshes, with the notifications given out; the hash tables of the base and of
    the changes may be enumerated in another order at any time. *)
Inductive op := Set_ (k : key) (v : option bytes) | BaseSet (k : key) (v : option bytes) | Commit | Refresh.
Definition perform (t : txn) (o : op) : txn * list notif :=
  match o with Set_ k v => xset t k v | BaseSet k v => xbase_set t k v | Commit => xcommit t | Refresh => xrefresh t end.
Inductive run : txn -> list op -> list notif -> txn -> Prop :=
| X_end t : run t [] [] t
| X_op t o t1 n os ns t' : perform t o = (t1, n) -> run t1 os ns t' -> run t (o :: os) (n ++ ns) t'
| X_base d r r' c os ns t' : shuffle r r' -> run {| base := {| root := Some r'; dirty := d |}; chg := c |} os ns t' ->
    run {| base := {| root := Some r; dirty := d |}; chg := c |} os ns t'
| X_changes g c c' os ns t' : cshuffle c c' -> run {| base := g; chg := Some c' |} os ns t' ->
    run {| base := g; chg := Some c |} os ns t'.
Definition xinit : txn := {| base := tinit; chg := None |}.
