(** C14: the shared circle. *)
From Verif Require Import Base MagicModel MagicSpec MagicProofs.

(** Under every schedule of the accesses of a writer and a reader nothing faults
    and what the callers see is explained by one queue of at most [cap] bytes. *)
Theorem C14_linear : forall cap l, 0 < cap -> Forall (fun a => allowed (a_who a) (a_call a)) l ->
  exists y st q, magic_run cap l = Ok y /\ accepts cap (y_log y) st q /\ length q <= cap.
Proof. exact magic_ok. Qed.
Print Assumptions C14_linear.

(** In particular, without skip, the bytes received are a prefix of the bytes
    accepted and at most [cap] are pending. *)
Theorem C14_prefix : forall cap l, 0 < cap -> Forall (fun a => allowed (a_who a) (a_call a)) l -> no_skip l ->
  exists y pending, magic_run cap l = Ok y /\ accepted (y_log y) = received (y_log y) ++ pending /\
    length pending <= cap.
Proof. exact magic_stream. Qed.
Print Assumptions C14_prefix.

(** One writer is necessary: two processes calling put lose bytes. *)
Theorem C14_one_writer_needed : exists l y, magic_run 4 l = Ok y /\
  Forall (fun a => match a_call a with CPut _ => True | _ => False end) l /\
  accepted (y_log y) = B "ab" /\ s_tail (y_sh y) = 1 /\ s_head (y_sh y) = 0.
Proof.
  exists (concat (repeat [Act true 0 (CPut (B "a")); Act false 0 (CPut (B "b"))] 9)).
  eexists. split; [vm_compute; reflexivity|]. split; [repeat constructor|]. split; [|split]; reflexivity.
Qed.
Print Assumptions C14_one_writer_needed.

(** ** Concrete case: both processes in flight at once, around the end of the ring *)
Definition alternate (n : nat) : list act :=
  concat (map (fun i => [Act true i (CPut (B "xyz")); Act false (i + 1) (CGet 2)]) (seq 0 n)).
Example C14_ex : Forall (fun a => allowed (a_who a) (a_call a)) (alternate 60) /\ no_skip (alternate 60) /\
  exists y, magic_run 4 (alternate 60) = Ok y /\
  received (y_log y) = B "xyzxxy" /\ accepted (y_log y) = B "xyzxxyxy".
Proof.
  split; [|split]; [repeat constructor|repeat constructor|].
  eexists. split; [vm_compute; reflexivity|]. split; vm_compute; reflexivity.
Qed.
