(** Which mounted generator a key belongs to. *)
From Verif Require Import Base Ctype KeySpec TempSpec MountModel.
Local Open Scope nat_scope.

(** The most recent mount at or above the key, and the rest of the key below it. *)
Definition owner (ms : list mount) (k : list bytes) (m : mount) (rest : list bytes) : Prop :=
  exists newer older point, ms = newer ++ m :: older /\ Forall (fun n => under (mkey n) k = false) newer /\
    k = point ++ rest /\ same (mkey m) point = true.
Definition no_owner (ms : list mount) (k : list bytes) : Prop := Forall (fun m => under (mkey m) k = false) ms.
(** Strictly below. *)
Definition beneath (k k' : list bytes) : bool := under k k' && negb (under k' k).
Definition good_key (k : list bytes) : Prop := Forall plain k /\ short k.
Definition good_mounts (ms : list mount) : Prop := Forall (fun m => good_key (mkey m)) ms.

(** A generator that behaves as a map, in the states [ok]: every set gives a state
    in which exactly the specified keys changed. *)
Record lawful {S} (ok : S -> Prop) (gget : S -> list bytes -> option bytes) (gset : S -> list bytes -> option bytes -> S) : Prop := {
  l_ok : forall s k v, ok s -> Forall plain k -> ok (gset s k v);
  l_set : forall s k v q, ok s -> Forall plain k -> Forall plain q -> gget (gset s k v) q = set_spec (gget s) k v q;
  l_case : forall s k k', ok s -> Forall plain k -> Forall plain k' -> same k k' = true -> gget s k = gget s k' }.

(** Some mount strictly below the key that no newer mount hides. *)
Definition visible (ms : list mount) (k : list bytes) : Prop :=
  exists m, In m ms /\ beneath k (mkey m) = true /\ owner ms (mkey m) m [].
(** Mounts at plain keys, each generator at one key, every generator in order. *)
Definition good_state {S} (ok : S -> Prop) (st : mstate S) : Prop :=
  good_mounts (mounts st) /\ NoDup (map mid (mounts st)) /\ forall id, ok (heap st id).

(** What a program does with a mounting generator. *)
Inductive mop := MSet (k : list bytes) (v : option bytes) | MMount (k : list bytes) (g : nat) (refresh : bool) | MUnmount (g : nat) (commit : bool) | MRefresh | MCommit.
Definition mop_good (o : mop) : Prop := match o with MSet k _ => good_key k | MMount k _ _ => good_key k | _ => True end.
Section Reach.
Context {S : Type} (gget : S -> list bytes -> option bytes) (gset : S -> list bytes -> option bytes -> S)
  (grefresh : S -> S * bool) (gcommit : S -> S).
Inductive mstep (st : mstate S) : mop -> mstate S -> Prop :=
| St_set k v : mstep st (MSet k v) (mset gset st k v)
| St_mount k g r : ~ In g (map mid (mounts st)) -> mstep st (MMount k g r) (mountgen gget gset grefresh st k g r)
| St_unmount g c st' : unmount gget gset gcommit st g c = Ok st' -> mstep st (MUnmount g c) st'
| St_refresh st' : st' = fst (mrefresh grefresh st) -> mstep st MRefresh st'
| St_commit : mstep st MCommit (mcommit gcommit st).
Inductive reach : mstate S -> list mop -> mstate S -> Prop :=
| R_nil st : reach st [] st
| R_step st o st1 os st2 : mstep st o st1 -> reach st1 os st2 -> reach st (o :: os) st2.
End Reach.
