(** Model of UniMountGen: uniconf/unimountgen.cc, include/unimountgen.h.
    The generators that are mounted are arbitrary objects with the methods of
    IUniConfGen that the mount uses; [heap] gives the state of each, by identity,
    so that one may be mounted at several keys.  Their bulk set is the one of
    UniConfGen (uniconf/uniconfgen.cc:93-98), exists() the one at lines 120-123.
    Notifications and the holds around them are left out. *)
From Coq Require Import Permutation.
From Verif Require Import Base Ctype KeyModel.
Local Open Scope nat_scope.

(** include/unimountgen.h:23-32: UniGenMount; the list has the most recent first *)
Record mount := { mid : nat; mkey : key }.

(** uniconf/uniconfkey.cc:294-303: suborsame(key) *)
Definition issub (this k : key) : bool := match suborsame this k with Some _ => true | None => false end.
(** include/unimountgen.h:117-118: trimkey *)
Definition trimkey (found k : key) : key := removefirst k (Z.of_nat (length found)).
(** uniconf/unimountgen.cc:361-372: findmount (whichmount, 266-282, is the same) *)
Definition findmount (ms : list mount) (k : key) : option mount := List.find (fun m => issub (mkey m) k) ms.
(** uniconf/unimountgen.cc:284-295: ismountpoint *)
Definition ismountpoint (ms : list mount) (k : key) : bool := existsb (fun m => key_eq (mkey m) k) ms.
(** uniconf/unimountgen.cc:125-147: has_subkey *)
Fixpoint has_subkey (ms : list mount) (k : key) (found : option nat) : bool :=
  match ms with
  | [] => false
  | m :: r =>
      if issub k (mkey m) && key_lt k (mkey m) then true
      else if match found with Some g => mid m =? g | None => false end then false
      else has_subkey r k found
  end.
(** uniconf/unimountgen.cc:374-402: findmountunder *)
Fixpoint findunder (ms : list mount) (k : key) (found : option mount) (n : nat) : option mount * nat :=
  match ms with
  | [] => (found, n)
  | m :: r =>
      if issub (mkey m) k && match found with None => true | Some _ => false end then findunder r k (Some m) (S n)
      else if issub k (mkey m) then findunder r k found (S n)
      else findunder r k found n
  end.
Definition findmountunder (ms : list mount) (k : key) : option mount :=
  let (f, n) := findunder ms k None 0 in if n =? 1 then f else None.
(** uniconf/unimountgen.cc:304-334: iterator where nothing is mounted at or above
    the key; the names are a set (WvStringTable) and come out sorted, an order
    left open here *)
Definition str_mem (s : bytes) (l : list bytes) : bool := existsb (fun t => if list_eq_dec ascii_dec s t then true else false) l.
Definition virtual_children (ms : list mount) (k : key) : list bytes :=
  fold_left (fun t m =>
    if (length k <? length (mkey m)) && issub k (mkey m)
    then let n := printable (klast (kfirst (mkey m) (Z.of_nat (length k) + 1)) 1) in if str_mem n t then t else t ++ [n]
    else t) ms [].

Section Mounts.
Context {S : Type} (gget : S -> key -> option bytes) (gset : S -> key -> option bytes -> S)
  (grefresh : S -> S * bool) (gcommit : S -> S) (ghaschildren : S -> key -> bool).

Record mstate := { mounts : list mount; heap : nat -> S }.
Definition upd (h : nat -> S) (i : nat) (s : S) : nat -> S := fun j => if j =? i then s else h j.
Definition with_heap (st : mstate) (h : nat -> S) : mstate := {| mounts := mounts st; heap := h |}.
Definition isnull {A} (v : option A) : bool := match v with Some _ => false | None => true end.

(** uniconf/unimountgen.cc:29-43: get *)
Definition mget (st : mstate) (k : key) : option bytes :=
  match findmount (mounts st) k with
  | None => if has_subkey (mounts st) k None then Some [] else None
  | Some m => gget (heap st (mid m)) (trimkey (mkey m) k)
  end.
(** uniconf/unimountgen.cc:46-52: set *)
Definition mset (st : mstate) (k : key) (v : option bytes) : mstate :=
  match findmount (mounts st) k with
  | None => st
  | Some m => with_heap st (upd (heap st) (mid m) (gset (heap st (mid m)) (trimkey (mkey m) k) v))
  end.
(** uniconf/unimountgen.cc:55-97: setv.  The dictionary is the list of its entries
    in the order they were added, which is the order in which entries of one
    hash slot are searched; it is gone through in any order. *)
Definition pairs := list (key * option bytes).
Fixpoint add_pair (d : list (mount * pairs)) (name : bytes) (p : key * option bytes) : res (list (mount * pairs)) :=
  match d with
  | [] => Fault
  | (m, ps) :: r =>
      if list_eq_dec ascii_dec (printable (mkey m)) name then Ok ((m, ps ++ [p]) :: r)
      else let! r' := add_pair r name p in Ok ((m, ps) :: r')
  end.
Fixpoint sort_pairs (ms : list mount) (d : list (mount * pairs)) (ps : pairs) : res (list (mount * pairs)) :=
  match ps with
  | [] => Ok d
  | (k, v) :: r =>
      match findmount ms k with
      | None => sort_pairs ms d r
      | Some m => let! d' := add_pair d (printable (mkey m)) (trimkey (mkey m) k, v) in sort_pairs ms d' r
      end
  end.
Definition setv_one (h : nat -> S) (e : mount * pairs) : nat -> S :=
  fold_left (fun h p => upd h (mid (fst e)) (gset (h (mid (fst e))) (fst p) (snd p))) (snd e) h.
Inductive msetv (st : mstate) (ps : pairs) : mstate -> Prop :=
| Setv d d' : sort_pairs (mounts st) (map (fun m => (m, [])) (mounts st)) ps = Ok d -> Permutation d d' ->
    msetv st ps (with_heap st (fold_left setv_one d' (heap st))).
(** uniconf/unimountgen.cc:100-110: exists; 113-122: haschildren *)
Definition mexists (st : mstate) (k : key) : bool :=
  let found := findmount (mounts st) k in
  match found with
  | Some m => if negb (isnull (gget (heap st (mid m)) (trimkey (mkey m) k))) then true else has_subkey (mounts st) k (Some (mid m))
  | None => has_subkey (mounts st) k None
  end.
Definition mhaschildren (st : mstate) (k : key) : bool :=
  let found := findmount (mounts st) k in
  match found with
  | Some m => if ghaschildren (heap st (mid m)) (trimkey (mkey m) k) then true else has_subkey (mounts st) k (Some (mid m))
  | None => has_subkey (mounts st) k None
  end.
(** uniconf/unimountgen.cc:149-161: refresh *)
Definition mrefresh (st : mstate) : mstate * bool :=
  let (h, ok) := fold_left (fun x m => let (h, result) := x : (nat -> S) * bool in
    if result then let (s, ok) := grefresh (h (mid m)) in (upd h (mid m) s, ok) else (h, false)) (mounts st) (heap st, true) in
  (with_heap st h, ok).
(** uniconf/unimountgen.cc:164-173: commit *)
Definition mcommit (st : mstate) : mstate :=
  with_heap st (fold_left (fun h m => upd h (mid m) (gcommit (h (mid m)))) (mounts st) (heap st)).

(** uniconf/unimountgen.cc:412-437: makemount; [points] runs over the prefixes of
    the key *)
Fixpoint make_points (st : mstate) (points rest : key) : mstate :=
  match rest with
  | [] => st
  | s :: r =>
      let points := points ++ [s] in
      make_points (if isnull (mget st points) then mset st points (Some []) else st) points r
  end.
Definition makemount (st : mstate) (k : key) : mstate :=
  let st := make_points st [] k in
  match findmount (mounts st) (removelast k 1) with
  | None => st
  | Some m =>
      if isnull (gget (heap st (mid m)) (trimkey (mkey m) k))
      then with_heap st (upd (heap st) (mid m) (gset (heap st (mid m)) (trimkey (mkey m) k) (Some [])))
      else st
  end.
(** uniconf/unimountgen.cc:195-219: mountgen *)
Definition mountgen (st : mstate) (k : key) (g : nat) (refresh : bool) : mstate :=
  let st := makemount st k in
  let h := if refresh then upd (heap st) g (fst (grefresh (heap st g))) else heap st in
  let h := if isnull (gget (h g) []) then upd h g (gset (h g) [] (Some [])) else h in
  {| mounts := {| mid := g; mkey := k |} :: mounts st; heap := h |}.
(** uniconf/unimountgen.cc:222-264: unmount; the test after the search reads the
    iterator's element, which is null if the search came to the end *)
Fixpoint take_out (ms : list mount) (g : nat) : option (list mount * mount * list mount) :=
  match ms with
  | [] => None
  | m :: r => if mid m =? g then Some ([], m, r)
              else match take_out r g with Some (a, x, b) => Some (m :: a, x, b) | None => None end
  end.
Fixpoint remake (st : mstate) (k : key) (next : option nat) (ms : list mount) : mstate :=
  match ms with
  | [] => st
  | m :: r =>
      if match next with Some g => mid m =? g | None => false end then st
      else remake (if issub k (mkey m) && negb (key_eq k (mkey m)) then makemount st (mkey m) else st) k next r
  end.
Definition unmount (st : mstate) (g : nat) (commit : bool) : res mstate :=
  match take_out (mounts st) g with
  | None => Fault
  | Some (a, m, b) =>
      let h := if commit then upd (heap st) g (gcommit (heap st g)) else heap st in
      let st := {| mounts := a ++ b; heap := h |} in
      Ok (remake st (mkey m) (match b with [] => None | n :: _ => Some (mid n) end) (a ++ b))
  end.
(** uniconf/unimountgen.cc:267-271: zap *)
Fixpoint zap_loop (fuel : nat) (st : mstate) : res mstate :=
  match mounts st with
  | [] => Ok st
  | m :: _ => match fuel with O => NoFuel | Datatypes.S fuel => let! st := unmount st (mid m) false in zap_loop fuel st end
  end.
Definition zap (st : mstate) : res mstate := zap_loop (length (mounts st)) st.
End Mounts.
Arguments mstate S : clear implicits.
