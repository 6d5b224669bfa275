(** C101: iterating in order. *)
From Verif Require Import Base BaseFacts SortSpec SortModel SortProofs.
From Coq Require Import NArith ZArith Sorted Permutation Lia.
Local Open Scope N_scope.

(** Whatever qsort() the C library has, and whatever other lists the compare functions
    sort meanwhile, with their own compare functions: the iteration yields the list's
    elements in order, no memory outside the array is touched although the list may have
    changed since it was counted, and an outer sort is not disturbed. *)
Theorem C101_sorted qsort cmps f fuel g l1 l2 c : lawful qsort -> (forall c, consistent (f c)) -> (forall c a b, a <> 0 -> b <> 0 -> computes f (cmps c a b) (f c a b)) -> ~ In 0 l2 ->
  (exists a s, rewind qsort cmps fuel g l1 l2 c = Ok (g, a) /\ visited a = Ok s /\ sorted (f c) l1 l2 s) \/ rewind qsort cmps fuel g l1 l2 c = NoFuel.
Proof. intros W K H N. exact (all_good qsort cmps f W K H fuel g l1 l2 c N). Qed.
(** It ends, unless compare functions sort with each other in a circle. *)
Theorem C101_ends qsort cmps f level g l1 l2 c : lawful qsort -> (forall c, consistent (f c)) -> (forall c a b, a <> 0 -> b <> 0 -> computes f (cmps c a b) (f c a b)) -> ~ In 0 l2 ->
  (forall c a b, below level (level c) (cmps c a b)) ->
  exists a s, rewind qsort cmps (S (level c)) g l1 l2 c = Ok (g, a) /\ visited a = Ok s /\ sorted (f c) l1 l2 s.
Proof.
  intros W K H N D. destruct (C101_sorted qsort cmps f (S (level c)) g l1 l2 c W K H N) as [X|X]; [exact X|]. exfalso. apply (ends qsort cmps f W K H level D (S (level c)) g l1 l2 c) in X; [exact X|lia|exact N].
Qed.
(** If the list does not change: all its elements. *)
Theorem C101_all (f : N -> N -> Z) l s : sorted f l l s -> Permutation s l.
Proof. intros (P & _). rewrite firstn_all in P. exact P. Qed.

(** Two compare functions: 0 compares numbers, 1 sorts the two numbers by 0 to find out,
    and then wants the larger first. *)
Definition two : table := fun c a b => match c with O => Ret (Z.of_N a - Z.of_N b) | S _ => Nested [a; b] [a; b] 0 (fun s => match s with x :: _ => Ret (if x =? b then (-1)%Z else 1%Z) | [] => Ret 0%Z end) end.
Definition two_f (c : nat) (a b : N) : Z := match c with O => (Z.of_N a - Z.of_N b)%Z | S _ => if b <=? a then (-1)%Z else 1%Z end.
Lemma two_ok : (forall c, consistent (two_f c)) /\ (forall c a b, a <> 0 -> b <> 0 -> computes two_f (two c a b) (two_f c a b)) /\ (forall c a b, below (fun c => c) c (two c a b)).
Proof.
  split; [|split].
  - intros c. unfold consistent, le, two_f. destruct c; (split; [intros a b|intros a b d]); [lia|lia| |]; destruct (N.leb_spec b a); try lia; [destruct (N.leb_spec a b); lia|destruct (N.leb_spec d b), (N.leb_spec d a); lia].
  - intros [|c] a b Ha Hb; [reflexivity|]. cbn [two computes]. split; [intros [X|[X|[]]]; congruence|]. intros s (P & S). cbn [length firstn] in P.
    destruct s as [|x s]; [apply Permutation_nil_cons in P as []|]. cbn [computes two_f]. apply StronglySorted_inv in S as (_ & F).
    assert (I : In x [a; b]) by (eapply Permutation_in; [exact P|left; reflexivity]).
    assert (M : forall y, In y [a; b] -> x <= y). { intros y Iy. apply (Permutation_in _ (Permutation_sym P)) in Iy as [->|Iy]; [lia|]. rewrite Forall_forall in F. specialize (F y Iy). unfold le, two_f in F. lia. }
    pose proof (M a (or_introl eq_refl)). pose proof (M b (or_intror (or_introl eq_refl))). destruct (N.eqb_spec x b), (N.leb_spec b a); try reflexivity; destruct I as [I|[I|[]]]; lia.
  - intros [|c] a b; cbn [two below]; [exact I|]. split; [lia|]. intros [|x s]; exact I.
Qed.
Example C101_ex : exists a, rewind qins two 2 (Some 7%nat) [1; 2; 3; 4] [3; 9; 4; 6] 1 = Ok (Some 7%nat, a) /\ visited a = Ok [9; 6; 4; 3].
Proof. eexists. split; vm_compute; reflexivity. Qed.
Example C101_ex_changed : (exists a, rewind qins two 2 None [1; 2; 3; 4] [3; 9] 1 = Ok (None, a) /\ visited a = Ok [9; 3]) /\
  (exists a, rewind qins two 2 None [1; 2] [3; 9; 8] 0 = Ok (None, a) /\ visited a = Ok [3; 9]).
Proof. split; eexists; split; vm_compute; reflexivity. Qed.
Example C101_meets : lawful qins /\ exists a s, rewind qins two 2 None [5; 6] [5; 6] 1 = Ok (None, a) /\ visited a = Ok s /\ sorted (two_f 1) [5; 6] [5; 6] s.
Proof.
  split; [exact qins_lawful|]. destruct two_ok as (K & H & D). apply (C101_ends qins two two_f (fun c => c) None [5; 6] [5; 6] 1 qins_lawful K H); [|exact D]. intros [X|[X|[]]]; discriminate.
Qed.

(** A list that has a null pointer in it is cut off there. *)
Theorem C101_null_refuted : exists a, rewind qins two 1 None [5; 0; 7] [5; 0; 7] 0 = Ok (None, a) /\ visited a = Ok [].
Proof. eexists. split; vm_compute; reflexivity. Qed.

Print Assumptions C101_sorted.
Print Assumptions C101_ends.
Print Assumptions C101_all.
Print Assumptions C101_null_refuted.
