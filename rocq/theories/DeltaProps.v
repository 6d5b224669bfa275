(** C28: held notifications. *)
From Verif Require Import Base DeltaModel DeltaSpec DeltaProofs.
Local Open Scope Z_scope.

(** Whatever the program and the callbacks do, notifications are dispatched first
    in first out, and when nothing is held none is waiting. *)
Theorem C28_in_order A (l : list (action A)) m t : run A start l = Ok (m, t) ->
  exists waiting, fifo [] t waiting /\ (nest m = 0 -> waiting = []).
Proof.
  intros H. destruct (run_fifo A l start m t (Inv_start A) H) as [I F]. exists (deltas m). split; [exact F|]. intros N. apply I. lia.
Qed.
(** Exactly once: if none is cleared, those raised are those dispatched followed by
    those that wait. *)
Theorem C28_exactly_once A (l : list (action A)) m t : run A start l = Ok (m, t) -> ~ In EClear t ->
  exists waiting, raised t = dispatched t ++ waiting /\ (nest m = 0 -> waiting = []).
Proof.
  intros H N. destruct (C28_in_order A l m t H) as (w & F & W). exists w. split; [|exact W]. apply (fifo_count A [] t w F N).
Qed.
(** Nothing is dispatched while there is a hold not yet undone, provided callbacks
    undo their own holds before they return. *)
Theorem C28_held_partial A (l : list (action A)) m t o : run A start l = Ok (m, t) -> polite [0%nat] t o ->
  forall before p after, t = before ++ Dispatched p :: after -> holds before = 0.
Proof.
  intros H P. destruct (run_polite A l start m t [0%nat] o (Rel_start A) H P) as [_ D]. intros x p y E. specialize (D x p y E). cbn in D. exact D.
Qed.
(** Once the program has undone all its holds nothing waits. *)
Theorem C28_released A (l : list (action A)) m t : run A start l = Ok (m, t) -> polite [0%nat] t [0%nat] -> fifo [] t [].
Proof.
  intros H P. destruct (run_polite A l start m t [0%nat] [0%nat] (Rel_start A) H P) as [((k & Sh) & h & E & N) _].
  destruct (run_fifo A l start m t (Inv_start A) H) as [I F]. injection E as <- E. destruct (stack m) as [|fr r] eqn:Es; [|discriminate].
  unfold flushing in N. rewrite Es in N. cbn in N. rewrite (I ltac:(lia)) in F. exact F.
Qed.
(** The assertion in unhold_delta holds for such code. *)
Theorem C28_no_fault A (l : list (action A)) m t h o a : run A start l = Ok (m, t) -> polite [0%nat] t (h :: o) ->
  a <> Unhold \/ (0 < h)%nat -> exists m' e, act A m a = Ok (m', e).
Proof.
  intros H P Ha. destruct (run_polite A l start m t [0%nat] (h :: o) (Rel_start A) H P) as [(_ & h' & E & N) _]. injection E as <- _.
  assert (F : 0 <= flushing A m) by (unfold flushing; destruct (stack m) as [|[] r]; lia).
  destruct a as [| |p| | |]; cbn [act].
  - eauto.
  - destruct Ha as [Ha|Ha]; [congruence|]. unfold unhold. destruct (Z.gtb_spec (nest m) 0); [|lia]. destruct (nest m =? 1); [destruct (flush_loop A m InUnhold)|]; cbn [bind]; eauto.
  - unfold delta. destruct (Z.eqb_spec (nest m) 0); [cbn [bind]; eauto|]. unfold unhold, hold. cbn [nest deltas stack].
    destruct (Z.gtb_spec (nest m + 1) 0); [|lia]. destruct (Z.eqb_spec (nest m + 1) 1); [lia|]. cbn [bind]. eauto.
  - eauto.
  - destruct (flush_loop A m InFlush) as [m1 e1]. eauto.
  - destruct (return_ A m) as [m1 e1]. eauto.
Qed.
(** A callback that holds notifications past its own end is not respected: the
    next waiting one is dispatched all the same. *)
Theorem C28_hold_in_callback_refuted : exists (l : list (action nat)) m before p after,
  run nat start l = Ok (m, before ++ Dispatched p :: after) /\ holds before = 1.
Proof.
  exists [Hold; Delta 1%nat; Delta 2%nat; Unhold; Hold; Return]. exists {| nest := 2; deltas := []; stack := [InUnhold] |}.
  exists [EHold; Raised 1%nat; Raised 2%nat; EUnhold; Dispatched 1%nat; EHold; EReturn], 2%nat, []. split; vm_compute; reflexivity.
Qed.

(** A program that raises a notification, and holds two more; the callback of the
    first of these raises a fourth one. *)
Definition ex_acts : list (action nat) :=
  [Delta 0; Return; Hold; Hold; Delta 1; Unhold; Delta 2; Unhold; Hold; Delta 3; Unhold; Return; Return; Return]%nat.
Definition ex_trace : list (event nat) :=
  [Raised 0; Dispatched 0; EReturn; EHold; EHold; Raised 1; EUnhold; Raised 2; EUnhold; Dispatched 1; EHold; Raised 3; EUnhold; EReturn;
   Dispatched 2; EReturn; Dispatched 3; EReturn]%nat.
Example C28_ex : run nat start ex_acts = Ok (start, ex_trace) /\ polite [0%nat] ex_trace [0%nat] /\ dispatched ex_trace = [0; 1; 2; 3]%nat /\ raised ex_trace = [0; 1; 2; 3]%nat.
Proof.
  split; [vm_compute; reflexivity|]. split; [|split; reflexivity].
  apply P_raise, P_dispatch, P_return, P_hold, P_hold, P_raise, P_unhold, P_raise, P_unhold, P_dispatch, P_hold, P_raise, P_unhold, P_return, P_dispatch, P_return, P_dispatch, P_return, P_end.
Qed.

Print Assumptions C28_in_order.
Print Assumptions C28_exactly_once.
Print Assumptions C28_held_partial.
Print Assumptions C28_released.
Print Assumptions C28_no_fault.
Print Assumptions C28_hold_in_callback_refuted.
