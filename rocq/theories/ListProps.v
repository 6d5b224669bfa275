(** C15: linked lists. *)
From Verif Require Import Base ListModel ListSpec ListProofs.

(** Any sequence of operations on a new list has the effect of the list
    functions of [ListSpec]; every observer agrees (last() reads the tail
    pointer), and exactly the autofree objects that were removed are released,
    in order. *)
Theorem C15_list : forall ops l freed,
  list_ops_ok ([], []) ops -> fold_left list_spec ops ([], []) = (l, freed) ->
  exists w, list_run list_new ops = Ok w /\ list_observes w l /\ l_freed w = freed.
Proof. exact list_ok_all. Qed.
Print Assumptions C15_list.

(** find_next, documented as the way to locate further matches after find,
    never moves forward: from the second element of 7,8,7 it goes back to the
    first match. *)
Theorem C15_find_next_refuted : exists w i0 i1 i2,
  list_run list_new [LAppend 7 false; LAppend 8 false; LAppend 7 false] = Ok w /\
  i_find w 7 = Ok i0 /\ i_find_next w i0 7 = Ok i0 /\
  i_next w i0 = Ok i1 /\ i_find_next w i1 7 = Ok i2 /\ it_link i2 = it_link i0.
Proof.
  eexists _, _, _, _. repeat (split; [vm_compute; reflexivity|]). vm_compute. reflexivity.
Qed.
Print Assumptions C15_find_next_refuted.

(** unlink() on an iterator that was only rewound dereferences NULL. *)
Theorem C15_unlink_rewound_refuted : exists w, list_run list_new [LAppend 7 false] = Ok w /\
  i_unlink w i_rewind true = Fault.
Proof. eexists. split; [vm_compute; reflexivity|]. vm_compute. reflexivity. Qed.
Print Assumptions C15_unlink_rewound_refuted.

Definition ex_ops : list list_op :=
  [LAppend 1 true; LAppend 2 false; LPrepend 3 true; LReverse; LInsert 2 2 true; LAppend 4 false;
   LUnlink 2; LAppend 5 true; LSweep Nat.even true; LPurge (fun d => d =? 1) true; LUnlinkFirst].
Example C15_ex : list_ops_ok ([], []) ex_ops /\
  fold_left list_spec ex_ops ([], []) = ([(5, true)], [2; 1; 3]) /\
  exists w, list_run list_new ex_ops = Ok w /\ l_walk w = Ok [5] /\ l_last w = Ok 5.
Proof.
  split; [cbn; repeat split; lia|]. split; [reflexivity|].
  eexists. split; [vm_compute; reflexivity|]. split; vm_compute; reflexivity.
Qed.
