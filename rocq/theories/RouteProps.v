(** C104: routes. *)
From Verif Require Import Base BaseFacts RouteSpec RouteModel RouteProofs.
From Coq Require Import NArith ZArith Lia.
Local Open Scope N_scope.

(** After set_kernel, the kernel has the routes of the list, and of the others those that
    were there with the metric 99, for manual override. *)
Theorem C104_sync old new r : within r (kernel old (set_kernel old new)) <-> within r new \/ (within r old /\ metric r = 99%Z).
Proof. apply sync. Qed.
(** A route that is to stay is there all the time: after each of the commands. *)
Theorem C104_uninterrupted old new r p q : within r old -> within r new \/ metric r = 99%Z -> set_kernel old new = p ++ q -> within r (kernel old p).
Proof.
  intros W N E. apply stays; [exact W|]. intros d I S. assert (J : In (Del d) (set_kernel old new)) by (rewrite E; apply in_or_app; left; exact I). apply dels in J as (_ & M & X). destruct N as [N|N]; [apply X; eapply within_same; [apply same_sym, S|exact N]|apply M; rewrite (metric_same _ _ S); exact N].
Qed.
(** Once done, there is nothing to do. *)
Theorem C104_again old new : set_kernel (kernel old (set_kernel old new)) new = [].
Proof.
  apply nothing_to_do; intros r I; [|apply sync; left; apply within_in, I]. apply within_in in I. apply sync in I as [I|(_ & M)]; auto.
Qed.
(** Each line's route is read, whatever the other lines say, but for the source address. *)
Theorem C104_lines_partial num addr net lines s : map nosrc (policy num addr net lines s) = map nosrc (flat_map (each num addr net) lines).
Proof. apply policy_lines. Qed.
(** With it, if each line has one. *)
Theorem C104_src_partial num addr net lines s : (forall l, In l lines -> exists w, w <> [] /\ value (B "src") (before_local (pairs (tl l))) = Some w) -> policy num addr net lines s = flat_map (each num addr net) lines.
Proof. apply policy_src. Qed.
(** find: the first route that includes the address, if any does. *)
Theorem C104_find l a : match find l a with
  | Some r => exists p q, l = p ++ r :: q /\ N.land a (netmask r) = network r /\ forall x, In x p -> N.land a (netmask x) <> network x
  | None => forall x, In x l -> N.land a (netmask x) <> network x end.
Proof.
  unfold find. induction l as [|x l IH]; [intros x []|]. cbn [List.find]. unfold includes at 1. destruct (N.eqb_spec (N.land a (netmask x)) (network x)) as [E|E]; [exists [], l; split; [reflexivity|]; split; [exact E|intros y []]|].
  destruct (List.find _ l) as [r|]; [destruct IH as (p & q & -> & H & K); exists (x :: p), q; split; [reflexivity|]; split; [exact H|]; intros y [<-|I]; auto|intros y [<-|I]; auto].
Qed.

Definition n0 (w : word) : Z := Z.of_nat (length w).
Definition a0 (w : word) : N := N.of_nat (length w).
Definition t0 (w : word) : N * N := (a0 w, 7).
Definition line1 := [B "10.0.0.0/8"; B "via"; B "1.2.3.4"; B "dev"; B "eth0"; B "table"; B "5"; B "src"; B "9.9.9.9"].
Definition line2 := [B "default"; B "dev"; B "eth1"; B "table"; B "6"].
(** A line without a source address gets that of a line before it. *)
Theorem C104_src_refuted : map src (policy n0 a0 t0 [line1; line2] []) = [Some (B "9.9.9.9"); Some (B "9.9.9.9")] /\ map src (flat_map (each n0 a0 t0) [line1; line2]) = [Some (B "9.9.9.9"); None].
Proof. split; vm_compute; reflexivity. Qed.
(** A flag without a value, such as onlink, makes the words after it unreadable. *)
Theorem C104_flag_refuted : policy n0 a0 t0 [[B "10.0.0.0/8"; B "via"; B "1.2.3.4"; B "dev"; B "eth0"; B "onlink"; B "table"; B "5"]] [] = [].
Proof. vm_compute. reflexivity. Qed.
(** If only the source address is to change, nothing is done. *)
Definition r1 := Route (B "eth0") 10 255 1 0 (B "5") None.
Definition r1s := Route (B "eth0") 10 255 1 0 (B "5") (Some (B "9.9.9.9")).
Theorem C104_change_src_refuted : set_kernel [r1] [r1s] = [] /\ src r1 <> src r1s.
Proof. split; [vm_compute; reflexivity|discriminate]. Qed.

Definition r2 := Route (B "eth1") 20 255 2 99 (B "5") None.
Definition r3 := Route (B "eth2") 30 255 3 1 (B "default") None.
Definition r4 := Route (B "eth2") 0 0 4 1 (B "default") None.
Example C104_ex : set_kernel [r1; r2; r3] [r4; r1s] = [Del r3; Add r4] /\ kernel [r1; r2; r3] [Del r3; Add r4] = [r1; r2; r4] /\ find [r1; r3; r4] 30 = Some r3 /\
  get_kernel n0 a0 a0 t0 [[B "eth0"; B "a"; B "b"; B "c"; B "0"; B "0"; B "7"; B "d"; B "0"; B "0"; B "0"]; [B "x"]] [line2] = [Route (B "eth0") 1 1 1 1 (B "default") None; Route (B "eth1") 3 7 0 0 (B "6") None].
Proof. repeat split; vm_compute; reflexivity. Qed.
Example C104_meets : within r1 [r1; r2; r3] /\ within r1 [r4; r1s] /\ metric r2 = 99%Z /\ (forall l, In l [line1] -> exists w, w <> [] /\ value (B "src") (before_local (pairs (tl l))) = Some w) /\ policy n0 a0 t0 [line1] (B "x") <> [].
Proof.
  split; [exists r1; split; [left; reflexivity|repeat split]|]. split; [exists r1s; split; [right; left; reflexivity|repeat split]|]. split; [reflexivity|]. split; [intros l [<-|[]]; exists (B "9.9.9.9"); split; [discriminate|vm_compute; reflexivity]|vm_compute; discriminate].
Qed.

Print Assumptions C104_sync.
Print Assumptions C104_uninterrupted.
Print Assumptions C104_again.
Print Assumptions C104_lines_partial.
Print Assumptions C104_src_partial.
Print Assumptions C104_find.
Print Assumptions C104_src_refuted.
Print Assumptions C104_flag_refuted.
Print Assumptions C104_change_src_refuted.
