(** Theorems for C16. *)
From Verif Require Import Base HashModel HashSpec HashProofs.
From Coq Require Import NArith Permutation.

Section Statement.
Variables (T K : Type) (key_of : T -> K) (hash : K -> N) (eqk : K -> K -> bool).

(** For every hash function under which equal keys hash alike, every size hint
    below 2^30 and every history, the table acts as the multimap of
    [HashSpec]: find returns the oldest object left under the key, iteration
    visits each object exactly once, and exactly the removed autofree objects
    are released. *)
Theorem C16_multimap : eq_ok K eqk hash -> forall n ops, (n < 2 ^ 30)%N ->
  exists t t' l freed,
  hash_new T n = Ok t /\ hash_run T K key_of hash eqk t ops = Ok t' /\
  fold_left (bag_step T K key_of eqk) ops ([], []) = (l, freed) /\
  (forall k, hash_find T K key_of hash eqk t' k = Ok (option_map fst (oldest T K key_of eqk k l))) /\
  hash_count T t' = length l /\
  hash_isempty T t' = match l with [] => true | _ => false end /\
  (exists out, hash_walk T t' = Ok out /\ Permutation out (map fst l)) /\
  Permutation (t_freed t') freed.
Proof. exact (fun H n ops => hash_ok T K key_of hash eqk H n ops). Qed.

(** A key is found iff, since the last zap, it was added more often than it was
    removed ([net], computed from the history alone). *)
Theorem C16_found_iff_added_more : eq_ok K eqk hash -> forall n ops k, (n < 2 ^ 30)%N ->
  exists t t' x, hash_new T n = Ok t /\ hash_run T K key_of hash eqk t ops = Ok t' /\
    hash_find T K key_of hash eqk t' k = Ok x /\ (x <> None <-> 0 < net T K key_of eqk k ops 0).
Proof. exact (fun H n ops k => hash_found T K key_of hash eqk H n ops k). Qed.
End Statement.
Print Assumptions C16_multimap.
Print Assumptions C16_found_iff_added_more.

(** A size hint of 2^30 or more overflows the slot count. *)
Theorem C16_huge_hint_refuted : forall T : Type, hash_new T (2 ^ 30) = Fault.
Proof. intros. vm_compute. reflexivity. Qed.
Print Assumptions C16_huge_hint_refuted.

(** Strings with a hash function that only looks at the length. *)
Definition ex_hash (k : nat) : N := N.of_nat (k mod 2).
Definition ex_key (d : nat * nat) : nat := fst d.
Definition ex_ops : list (hash_op (nat * nat) nat) :=
  [HAdd (1, 10) true; HAdd (3, 11) true; HAdd (1, 12) false; HRemove (1, 0); HAdd (2, 13) false; HAuto 2 true; HRemove (5, 0)].
Example C16_ex : eq_ok nat Nat.eqb ex_hash /\
  exists t t', hash_new (nat * nat) 3 = Ok t /\ numslots _ t = 3 /\
    hash_run _ _ ex_key ex_hash Nat.eqb t ex_ops = Ok t' /\
    hash_find _ _ ex_key ex_hash Nat.eqb t' 1 = Ok (Some (1, 12)) /\
    hash_find _ _ ex_key ex_hash Nat.eqb t' 5 = Ok None /\
    hash_walk _ t' = Ok [(2, 13); (3, 11); (1, 12)] /\ t_freed t' = [(1, 10)] /\
    net _ _ ex_key Nat.eqb 1 ex_ops 0 = 1.
Proof.
  split.
  - repeat split; intros *; rewrite ?Nat.eqb_eq; congruence.
  - eexists _, _. repeat (split; [vm_compute; reflexivity|]). vm_compute. reflexivity.
Qed.
