(** Model of UniCacheGen, uniconf/unicachegen.cc, over a memory generator (TempModel),
    and of its refresh with the recursive iterator (RecModel).  flush_buffers() of a
    memory generator does nothing. *)
From Verif Require Import Base KeyModel TempModel WatchModel RecModel.
Local Open Scope nat_scope.

(** uniconf/unicachegen.cc:28-35; include/unicachegen.h:26-31: the members; the cache
    is a memory generator itself. *)
Record cache := { inner : gen; mine : gen; refreshed : bool }.
Definition cache_new (g : gen) : cache := {| inner := g; mine := tinit; refreshed := false |}.
(** uniconf/unicachegen.cc:91-94: deltacallback, for each of the notifications [n] of
    the inner generator; yields what the cache notifies. *)
Fixpoint deltacallbacks (g : gen) (n : list notif) : gen * list notif :=
  match n with
  | [] => (g, [])
  | (k, v) :: n => let (g, a) := tset g k v in let (g, b) := deltacallbacks g n in (g, a ++ b)
  end.
(** uniconf/unicachegen.cc:96-99: set; the same happens when someone else sets a key
    in the inner generator. *)
Definition cset (c : cache) (k : key) (v : option bytes) : cache * list notif :=
  let (i, n) := tset (inner c) k v in
  let (m, o) := deltacallbacks (mine c) n in ({| inner := i; mine := m; refreshed := refreshed c |}, o).
(** uniconf/unicachegen.cc:101-106: get *)
Definition cget (c : cache) (k : key) : option bytes := tget (mine c) k.
(** uniconf/unicachegen.cc:69-88: loadtree("").  The keys are listed before the cache
    is filled, which does not touch the inner generator. *)
Fixpoint nodes (t : tree bytes) : nat := match t with Node _ _ ch => S (list_sum (map nodes ch)) end.
Definition rkeys (g : gen) : res (list (key * option bytes)) :=
  trec (match root g with Some t => S (nodes t) | None => 1 end) g [].
Definition loadtree (g : gen) (m : gen) : res (gen * list notif) :=
  let! l := rkeys g in
  Ok (deltacallbacks m (filter (fun x => match snd x with Some (_ :: _) => true | _ => false end) l)).
(** uniconf/unicachegen.cc:51-62: refresh; refresh() of a memory generator succeeds
    and does nothing, include/uniconfgen.h:323. *)
Definition crefresh (c : cache) : res (cache * bool * list notif) :=
  if refreshed c then Ok (c, false, [])
  else let! (m, o) := loadtree (inner c) (mine c) in Ok ({| inner := inner c; mine := m; refreshed := true |}, true, o).

(** A history of sets, of refreshes and of the hash tables being reordered *)
Inductive cevent := CSet (k : key) (v : option bytes) | CRefresh.
Inductive chistory : cache -> list cevent -> list notif -> cache -> Prop :=
| CH_end c : chistory c [] [] c
| CH_set c k v c1 n es ns c' : cset c k v = (c1, n) -> chistory c1 es ns c' -> chistory c (CSet k v :: es) (n ++ ns) c'
| CH_refresh c c1 b n es ns c' : crefresh c = Ok (c1, b, n) -> chistory c1 es ns c' -> chistory c (CRefresh :: es) (n ++ ns) c'
| CH_shuffle t t' d m r es ns c' : shuffle t t' -> chistory {| inner := {| root := Some t'; dirty := d |}; mine := m; refreshed := r |} es ns c' ->
    chistory {| inner := {| root := Some t; dirty := d |}; mine := m; refreshed := r |} es ns c'
| CH_shuffle2 i t t' d r es ns c' : shuffle t t' -> chistory {| inner := i; mine := {| root := Some t'; dirty := d |}; refreshed := r |} es ns c' ->
    chistory {| inner := i; mine := {| root := Some t; dirty := d |}; refreshed := r |} es ns c'.
