(** Model of include/wvscatterhash.h and utils/wvscatterhash.cc: an open-addressing
    hash table with double hashing, tombstones and growth.  The two arrays are
    functions of the index, so that large tables can be described; only indices
    below the number of slots are ever used.  Operations that probe take
    [fuel]; a probe sequence that never meets a free slot gives [NoFuel] for
    every fuel.  Not modelled: allocation failure. *)
From Verif Require Import Base HashModel.
From Coq Require Import NArith.
Local Open Scope N_scope.

(** utils/wvscatterhash.cc:12-20 *)
Definition prime_numbers : list N :=
  [2; 5; 11; 17; 31; 67; 127; 251; 509; 1021; 2039; 4093; 8191; 16381; 32749; 65521;
   131071; 262139; 524287; 1048573; 2097143; 4194301; 8388593; 16777213;
   33554393; 67108859; 134217689; 268435399; 536870909; 1073741789; 2147483647; 4294967281].

Definition wrap32 (n : N) : N := n mod 2 ^ 32.

Section Scatter.
(** Object and key types, Accessor::get_key, WvHash of a key, Comparator *)
Variables (T K : Type) (key_of : T -> K) (hash : K -> N) (eqk : K -> K -> bool).

(** include/wvscatterhash.h:86-92, 109-110; [c_freed] is the trace of do_delete *)
Record scatter := Scatter
  { c_status : N -> N; c_data : N -> option T; c_index : nat; c_numslots : N;
    c_used : N; c_num : N; c_freed : list T }.

(** include/wvscatterhash.h:19-21 *)
Definition is_occupied (x : N) : bool := negb (N.shiftr x 1 =? 0).
Definition is_auto_free (x : N) : bool := x =? 3.
Definition is_deleted (x : N) : bool := x =? 1.
Definition status_of (auto : bool) : N := if auto then 3 else 2.

(** A fresh pair of arrays; reading past prime_numbers faults *)
Definition fresh (index : nat) (freed : list T) : res scatter :=
  let! p := of_opt (nth_error prime_numbers index) in
  Ok (Scatter (fun _ => 0) (fun _ => None) index p 0 0 freed).

(** utils/wvscatterhash.cc:25-43; a hint is an unsigned int, so 32 rounds are enough *)
Fixpoint index_loop (fuel : nat) (n : N) (index : nat) : res nat :=
  match fuel with
  | O => NoFuel
  | S fuel => let n := N.shiftr n 1 in
              if n =? 0 then Ok index else index_loop fuel n (S index)
  end.
Definition sc_new (n : N) : res scatter :=
  let! index := (if n =? 0 then Ok 0%nat else index_loop 33 n 1) in fresh index [].

(** include/wvscatterhash.h:103-107.  [attempt] is not wrapped itself: the
    product is, to the same effect. *)
Definition second_hash (s : scatter) (h : N) : N := h mod (c_numslots s - 1) + 1.
Definition curhash (s : scatter) (h h2 attempt : N) : N := wrap32 (h + attempt * h2) mod c_numslots s.

Definition set_slot (s : scatter) (i : N) (d : option T) (x : N) : scatter :=
  Scatter (fun j => if j =? i then x else c_status s j) (fun j => if j =? i then d else c_data s j)
    (c_index s) (c_numslots s) (c_used s) (c_num s) (c_freed s).
Definition set_counts (s : scatter) (used num : N) (freed : list T) : scatter :=
  Scatter (c_status s) (c_data s) (c_index s) (c_numslots s) used num freed.

(** utils/wvscatterhash.cc:96-97: the search for a slot to fill *)
Fixpoint place_loop (fuel : nat) (s : scatter) (h h2 attempt slot : N) : res N :=
  match fuel with
  | O => NoFuel
  | S fuel =>
      if is_occupied (c_status s slot)
      then place_loop fuel s h h2 (attempt + 1) (curhash s h h2 (attempt + 1))
      else Ok slot
  end.
(** utils/wvscatterhash.cc:89-106, after rebuild() *)
Definition place (fuel : nat) (s : scatter) (d : T) (h : N) (auto : bool) : res scatter :=
  let slot := h mod c_numslots s in
  let! slot := (if is_occupied (c_status s slot)
                then place_loop fuel s h (second_hash s h) 0 slot else Ok slot) in
  Ok (set_slot (set_counts s (if is_deleted (c_status s slot) then c_used s else c_used s + 1)
                             (c_num s + 1) (c_freed s))
               slot (Some d) (status_of auto)).

(** The slots 0 .. numslots-1 *)
Definition indices (p : N) : list N := map N.of_nat (seq 0 (N.to_nat p)).

(** utils/wvscatterhash.cc:72-76 *)
Fixpoint refill (add : scatter -> T -> bool -> res scatter) (old s : scatter) (l : list N) : res scatter :=
  match l with
  | [] => Ok s
  | i :: r =>
      if is_occupied (c_status old i) then
        let! d := of_opt (c_data old i) in
        let! s := add s d (is_auto_free (c_status old i)) in refill add old s r
      else refill add old s r
  end.
(** utils/wvscatterhash.cc:58-80.  The tests compare doubles: numslots * 0.45 and
    numslots * 0.4 against integers.  The exact products are at least 1/20 away
    from an integer, far more than the rounding error, except 5 * 0.4, which
    rounds to 2; so exact rational tests give the same answer. *)
Definition rebuild (add : scatter -> T -> bool -> res scatter) (s : scatter) : res scatter :=
  if 45 * c_numslots s <=? 100 * (c_used s + 1) then
    let index := if 40 * c_numslots s <=? 100 * (c_num s + 1) then S (c_index s) else c_index s in
    let! s' := fresh index (c_freed s) in
    refill add s s' (indices (c_numslots s))
  else Ok s.
(** utils/wvscatterhash.cc:82-106 *)
Fixpoint sc_add (fuel : nat) (s : scatter) (d : T) (auto : bool) : res scatter :=
  match fuel with
  | O => NoFuel
  | S f => let! s := rebuild (sc_add f) s in place fuel s d (hash (key_of d)) auto
  end.

(** utils/wvscatterhash.cc:160-178: genfind; None for null_idx *)
Definition slot_matches (s : scatter) (k : K) (slot : N) : res bool :=
  if is_occupied (c_status s slot)
  then let! d := of_opt (c_data s slot) in Ok (eqk k (key_of d)) else Ok false.
Fixpoint find_loop (fuel : nat) (s : scatter) (k : K) (h h2 attempt slot : N) : res (option N) :=
  match fuel with
  | O => NoFuel
  | S fuel =>
      if c_status s slot =? 0 then Ok None
      else let slot := curhash s h h2 (attempt + 1) in
           let! m := slot_matches s k slot in
           if m then Ok (Some slot) else find_loop fuel s k h h2 (attempt + 1) slot
  end.
Definition genfind (fuel : nat) (s : scatter) (k : K) : res (option N) :=
  let h := hash k in
  let slot := h mod c_numslots s in
  let! m := slot_matches s k slot in
  if m then Ok (Some slot) else find_loop fuel s k h (second_hash s h) 0 slot.

(** utils/wvscatterhash.cc:181-188 and include/wvscatterhash.h:142-143 *)
Definition sc_find (fuel : nat) (s : scatter) (k : K) : res (option T) :=
  let! r := genfind fuel s k in
  match r with None => Ok None | Some i => let! d := of_opt (c_data s i) in Ok (Some d) end.

(** utils/wvscatterhash.cc:109-120 *)
Definition sc_remove (fuel : nat) (s : scatter) (d : T) : res scatter :=
  let! r := genfind fuel s (key_of d) in
  match r with
  | None => Ok s
  | Some i =>
      let! x := of_opt (c_data s i) in
      let freed := if is_auto_free (c_status s i) then c_freed s ++ [x] else c_freed s in
      Ok (set_counts (set_slot s i (Some x) 1) (c_used s) (c_num s - 1) freed)
  end.

(** utils/wvscatterhash.cc:122-133 *)
Fixpoint zap_loop (s : scatter) (l : list N) : res (list T) :=
  match l with
  | [] => Ok []
  | i :: r =>
      let! rest := zap_loop s r in
      if is_auto_free (c_status s i) then let! d := of_opt (c_data s i) in Ok (d :: rest) else Ok rest
  end.
Definition sc_zap (s : scatter) : res scatter :=
  let! freed := zap_loop s (indices (c_numslots s)) in
  Ok (Scatter (fun _ => 0) (c_data s) (c_index s) (c_numslots s) 0 0 (c_freed s ++ freed)).

(** utils/wvscatterhash.cc:135-142 *)
Definition sc_set_autofree (fuel : nat) (s : scatter) (k : K) (auto : bool) : res scatter :=
  let! r := genfind fuel s k in
  match r with
  | None => Ok s
  | Some i => Ok (set_slot s i (c_data s i) (status_of auto))
  end.
(** utils/wvscatterhash.cc:144-153; asserts that the key is there *)
Definition sc_get_autofree (fuel : nat) (s : scatter) (k : K) : res bool :=
  let! r := genfind fuel s k in
  match r with None => Fault | Some i => Ok (is_auto_free (c_status s i)) end.

(** include/wvscatterhash.h:32-33, utils/wvscatterhash.cc:45-55 *)
Definition sc_count (s : scatter) : N := c_num s.
Definition sc_isempty (s : scatter) : bool := c_num s =? 0.
Definition sc_slowcount (s : scatter) : nat :=
  length (filter (fun i => is_occupied (c_status s i)) (indices (c_numslots s))).

(** include/wvscatterhash.h:51-61: next(); [index] is one more than the slot *)
Fixpoint next_loop (fuel : nat) (s : scatter) (index : N) : res (option N) :=
  match fuel with
  | O => NoFuel
  | S fuel =>
      let index := index + 1 in
      if index <=? c_numslots s then
        if is_occupied (c_status s (index - 1)) then Ok (Some index) else next_loop fuel s index
      else Ok None
  end.
(** [for (i.rewind(); i.next(); ) visit(i.ptr())] *)
Fixpoint sc_walk_loop (fuel : nat) (s : scatter) (index : N) : res (list T) :=
  match fuel with
  | O => NoFuel
  | S fuel' =>
      let! x := next_loop fuel s index in
      match x with
      | None => Ok []
      | Some index =>
          let! d := of_opt (c_data s (index - 1)) in
          let! r := sc_walk_loop fuel' s index in Ok (d :: r)
      end
  end.
Definition sc_walk (s : scatter) : res (list T) := sc_walk_loop (S (N.to_nat (c_numslots s))) s 0.

Definition sc_exec (fuel : nat) (s : scatter) (o : hash_op T K) : res scatter :=
  match o with
  | HAdd d a => sc_add fuel s d a
  | HRemove d => sc_remove fuel s d
  | HZap => sc_zap s
  | HAuto k a => sc_set_autofree fuel s k a
  end.
Fixpoint sc_run (fuel : nat) (s : scatter) (l : list (hash_op T K)) : res scatter :=
  match l with [] => Ok s | o :: r => let! s := sc_exec fuel s o in sc_run fuel s r end.
End Scatter.
Arguments c_freed {T} s.
Arguments c_numslots {T} s.
Arguments c_index {T} s.
Arguments c_status {T} s.
Arguments c_data {T} s.
Arguments c_used {T} s.
Arguments c_num {T} s.
Arguments curhash {T} s.
Arguments second_hash {T} s.
