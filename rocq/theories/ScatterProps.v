(** Theorems for C17. *)
From Verif Require Import Base HashModel HashSpec ScatterModel ScatterSpec ScatterProofs.
From Coq Require Import NArith Permutation.
Local Open Scope N_scope.

Section Statement.
Variables (T K : Type) (key_of : T -> K) (hash : K -> N) (eqk : K -> K -> bool).
Notation run := (sc_run T K key_of hash eqk).
Notation find := (sc_find T K key_of hash eqk).

(** For every 32-bit hash function under which equal keys hash alike, every size
    hint and every history, however often the table is rebuilt: if the probe
    loops end, the table acts as a multimap.  A key is found iff it was added
    more often than removed since the last zap, iteration yields each object
    once, the counts agree, and exactly the removed autofree objects were
    released. *)
Theorem C17_multimap : eq_ok K eqk hash -> (forall k, hash k < 2 ^ 32) ->
  forall fuel n s ops s', sc_new T n = Ok s -> run fuel s ops = Ok s' ->
  exists l, mm_run T K key_of eqk [] [] ops l (c_freed s') /\
  (forall fuel k x, find fuel s' k = Ok x ->
     find_answer T K key_of eqk k l x /\ (x <> None <-> (0 < net T K key_of eqk k ops 0)%nat)) /\
  (forall fuel k b, sc_get_autofree T K key_of hash eqk fuel s' k = Ok b ->
     exists d, eqk k (key_of d) = true /\ In (d, b) l) /\
  sc_count T s' = N.of_nat (length l) /\ sc_slowcount T s' = length l /\
  (sc_isempty T s' = true <-> l = []) /\
  exists out, sc_walk T s' = Ok out /\ Permutation out (map fst l).
Proof. exact (multimap T K key_of hash eqk). Qed.

(** Every operation ends, and none faults, while the table was created with a
    hint below 2^15 and never holds more than 26207 objects when another is
    added: the loops need at most 65522 rounds. *)
Theorem C17_terminates : eq_ok K eqk hash -> (forall k, hash k < 2 ^ 32) ->
  forall fuel n ops, n < 2 ^ 15 -> 65522 <= N.of_nat fuel ->
  (forall pre d a post l fr, ops = pre ++ HAdd d a :: post -> mm_run T K key_of eqk [] [] pre l fr ->
     N.of_nat (length l) <= 26207) ->
  exists s s', sc_new T n = Ok s /\ run fuel s ops = Ok s' /\ forall k, exists x, find fuel s' k = Ok x.
Proof. exact (total T K key_of hash eqk). Qed.

(** In particular for every history of at most 26208 adds. *)
Theorem C17_terminates_adds : eq_ok K eqk hash -> (forall k, hash k < 2 ^ 32) ->
  forall fuel n ops, n < 2 ^ 15 -> 65522 <= N.of_nat fuel -> N.of_nat (adds ops) <= 26208 ->
  exists s s', sc_new T n = Ok s /\ run fuel s ops = Ok s' /\ forall k, exists x, find fuel s' k = Ok x.
Proof. exact (total_adds T K key_of hash eqk). Qed.
End Statement.
Print Assumptions C17_multimap.
Print Assumptions C17_terminates.
Print Assumptions C17_terminates_adds.

(** Without that bound an add may never return: in a table created for 2^24
    objects, 128 objects with the hash 2^25-1 fill the whole probe sequence,
    because the product attempt*hash2 wraps at 2^32; the 129th add loops for
    ever although the table is almost empty. *)
Definition hang_hash (_ : nat) : N := 33554431.
Definition hang_state : res (scatter nat) :=
  let! s := sc_new nat 16777216 in
  sc_run nat nat (fun d => d) hang_hash Nat.eqb 150 s (map (fun d => HAdd d false) (seq 0 128)).
Definition hang_check (r : res (scatter nat)) : bool :=
  match r with
  | Ok s => (second_hash s 33554431 =? 2 ^ 25) && (100 * (c_used s + 1) <? 45 * c_numslots s) &&
      (c_num s =? 128) && (c_numslots s =? 67108859) &&
      forallb (fun a => is_occupied (c_status s (curhash s 33554431 (2 ^ 25) a))) (indices 128)
  | _ => false
  end.
Lemma hang_check_ok r : hang_check r = true -> exists s, r = Ok s /\ c_num s = 128 /\ c_numslots s = 67108859 /\
  forall fuel, sc_add nat nat (fun d => d) hang_hash fuel s 600%nat false = NoFuel.
Proof.
  intros H. unfold hang_check in H. destruct r as [s| |]; try discriminate.
  apply andb_prop in H. destruct H as [H H5]. apply andb_prop in H. destruct H as [H H4].
  apply andb_prop in H. destruct H as [H H3]. apply andb_prop in H. destruct H as [H1 H2].
  apply N.eqb_eq in H1, H3, H4. apply N.ltb_lt in H2.
  exists s. split; [reflexivity|]. split; [exact H3|]. split; [exact H4|].
  apply add_never; [reflexivity|exact H1|exact H2|]. apply all_busy. exact H5.
Qed.
Theorem C17_add_loops_refuted : eq_ok nat Nat.eqb hang_hash /\ exists s, hang_state = Ok s /\
  c_num s = 128 /\ c_numslots s = 67108859 /\
  forall fuel, sc_add nat nat (fun d => d) hang_hash fuel s 600%nat false = NoFuel.
Proof.
  split; [repeat split; intros *; rewrite ?Nat.eqb_eq; congruence|].
  apply hang_check_ok. vm_compute. reflexivity.
Qed.
Print Assumptions C17_add_loops_refuted.

(** A hint of 2^31 reads past the table of primes. *)
Theorem C17_huge_hint_refuted : forall T, sc_new T (2 ^ 31) = Fault.
Proof. intros. vm_compute. reflexivity. Qed.
Print Assumptions C17_huge_hint_refuted.

(** Colliding keys, a tombstone reused, two rebuilds and a growth *)
Definition ex_hash (k : nat) : N := N.of_nat (k mod 3).
Definition ex_ops : list (hash_op (nat * nat) nat) :=
  [HAdd (1, 10) true; HAdd (4, 11) true; HAdd (1, 12) false; HRemove (1, 0); HAdd (7, 13) false;
   HAuto 7 true; HRemove (5, 0); HAdd (2, 14) true; HAdd (3, 15) false; HRemove (4, 0)]%nat.
Example C17_ex : eq_ok nat Nat.eqb ex_hash /\ (forall k, ex_hash k < 2 ^ 32) /\ N.of_nat (adds ex_ops) <= 26208 /\
  exists s s', sc_new (nat * nat) 0 = Ok s /\ c_numslots s = 2 /\
    sc_run _ _ fst ex_hash Nat.eqb 100 s ex_ops = Ok s' /\ c_numslots s' = 17 /\
    sc_find _ _ fst ex_hash Nat.eqb 100 s' 7%nat = Ok (Some (7, 13))%nat /\
    sc_find _ _ fst ex_hash Nat.eqb 100 s' 4%nat = Ok None /\
    sc_walk _ s' = Ok [(3, 15); (7, 13); (2, 14); (1, 12)]%nat /\ c_freed s' = [(1, 10); (4, 11)]%nat.
Proof.
  split; [repeat split; intros *; rewrite ?Nat.eqb_eq; congruence|].
  split; [intros k; unfold ex_hash; pose proof (Nat.mod_upper_bound k 3 ltac:(lia)); change (2 ^ 32) with 4294967296; lia|].
  split; [vm_compute; discriminate|].
  eexists _, _. split; [vm_compute; reflexivity|]. repeat (split; [vm_compute; reflexivity|]). vm_compute. reflexivity.
Qed.
