(** What a UniConf generator that keeps its keys in memory should hold. *)
From Verif Require Import Base Ctype KeySpec.
Local Open Scope nat_scope.

(** Equality of segments up to letter case; [k'] lies at or below [k]; equality
    of keys. *)
Definition teq (a b : bytes) : bool :=
  if list_eq_dec ascii_dec (map tolower a) (map tolower b) then true else false.
Fixpoint under (k k' : list bytes) : bool :=
  match k, k' with
  | [], _ => true
  | x :: k, y :: k' => teq x y && under k k'
  | _ :: _, [] => false
  end.
Definition same (k k' : list bytes) : bool := under k k' && under k' k.

(** The contents: a value for some keys. *)
Definition contents := list bytes -> option bytes.
Definition nothing : contents := fun _ => None.
(** Setting a value creates the missing keys above as empty strings; setting null
    removes the key and everything below; nothing else changes. *)
Definition set_spec (m : contents) (k : list bytes) (v : option bytes) : contents := fun k' =>
  match v with
  | Some v =>
      if same k k' then Some v
      else if under k' k then match m k' with None => Some [] | o => o end
      else m k'
  | None => if under k k' then None else m k'
  end.
(** A key with a trailing slash: setting a value is ignored, setting null removes
    the key without the slash. *)
Definition slashed (k : list bytes) : bool := negb (forallb not_empty k).
Definition set_key (m : contents) (kv : list bytes * option bytes) : contents :=
  let (k, v) := kv in
  if slashed k then match v with Some _ => m | None => set_spec m (named k) None end
  else set_spec m k v.
Definition sets (hs : list (list bytes * option bytes)) : contents := fold_left set_key hs nothing.

(** An observer's copy: each notification overwrites one key. *)
Definition note (m : contents) (n : list bytes * option bytes) : contents :=
  fun k => if same (fst n) k then snd n else m k.
Definition replay (ns : list (list bytes * option bytes)) (m : contents) : contents := fold_left note ns m.
