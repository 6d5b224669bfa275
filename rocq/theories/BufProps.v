(** C11, C12, C13: byte buffers. *)
From Verif Require Import Base BufModel BufSpec BufProofs.

(** C11: from an empty circular buffer of any capacity, any sequence of
    operations, each done iff its documented precondition holds, never faults and
    is a run of the abstract queue with history. *)
Theorem C11_circular_queue : forall size ops, 0 < size -> exists c es h q,
  client CircStore (circ_new size) ops = Ok (c, es) /\ map op_of es = ops /\
  buf_run (fun _ q => size - length q) [] [] es h q /\
  observes CircStore c (size - length q) h q.
Proof. exact circ_client. Qed.
Print Assumptions C11_circular_queue.

(** The same for a fixed in-place buffer, whose room also shrinks by the history. *)
Theorem C11_inplace_queue : forall size ops, exists s es h q,
  client InPlaceStore (inpl_new size) ops = Ok (s, es) /\ map op_of es = ops /\
  buf_run (fun h q => size - (length h + length q)) [] [] es h q /\
  observes InPlaceStore s (size - (length h + length q)) h q.
Proof. exact inplace_client. Qed.
Print Assumptions C11_inplace_queue.

(** The documented "optgettable() != 0 if used() != 0" fails for a circular
    buffer after peeking at a history that fills the buffer. *)
Theorem C11_optgettable_refuted : exists c es,
  client CircStore (circ_new 4)
    [OPut (B "abc"); OGet 3; OPut (B "defg"); OGet 1; OGet 3; OPeek (-4) 4; OPut (B "x")] = Ok (c, es) /\
  Forall (fun e => match e with Done _ _ => True | Skipped _ => False end) es /\
  bused CircStore c = 1 /\ boptget CircStore c = 0.
Proof. eexists _, _. split; [vm_compute; reflexivity|]. split; [repeat constructor|]. split; reflexivity. Qed.
Print Assumptions C11_optgettable_refuted.

(** A zero-sized circular buffer divides by zero at once. *)
Theorem C11_zero_size_refuted : get_read CircStore (circ_new 0) 0 = Fault.
Proof. reflexivity. Qed.
Print Assumptions C11_zero_size_refuted.

(** C12: the same for a growing buffer with any growth parameters.  Missing:
    peeks and copies at negative offsets, and peeks longer than optpeekable() at
    positive offsets; both are refuted below. *)
Theorem C12_dynbuf_queue_partial : forall p ops, 0 < p_gran p -> 0 < p_unlimited p -> Forall forward ops ->
  exists t es h q, client (DynStoreP p) dyn_new ops = Ok (t, es) /\ map op_of es = ops /\
    buf_run (fun _ _ => p_unlimited p) [] [] es h q /\ holds (DynStoreP p) t q /\
    observes (DynStoreP p) t (p_unlimited p) h q.
Proof.
  intros p ops H1 H2 Hf. exact (dyn_client p ops H1 H2 Hf).
Qed.
Print Assumptions C12_dynbuf_queue_partial.

(** peek at the read position works for every length, whatever sub-buffers the
    bytes are in, and changes nothing. *)
Theorem C12_peek_start : forall p t n, reach (KDyn p) t -> n <= bused (DynStoreP p) t ->
  exists q t', holds (DynStoreP p) t q /\ peek_read (DynStoreP p) t 0 n = Ok (t', firstn n q) /\
    holds (DynStoreP p) t' q.
Proof. exact dyn_peek0. Qed.
Print Assumptions C12_peek_start.

(** Any buffer of the three kinds that has been through any operations and
    merges goes on behaving like a queue, and optgettable() is sound. *)
Theorem C12_any_history : forall k t, reach k t -> exists h q, holds (store_of k) t q /\
  observes (store_of k) t (room_of k h q) h q /\
  boptget (store_of k) t <= length q /\ (0 < length q -> 0 < boptget (store_of k) t) /\
  forall ops, Forall forward ops -> exists t' es h' q', client (store_of k) t ops = Ok (t', es) /\
    map op_of es = ops /\ buf_run (room_of k) h q es h' q' /\ holds (store_of k) t' q' /\
    observes (store_of k) t' (room_of k h' q') h' q'.
Proof. exact reach_queue. Qed.
Print Assumptions C12_any_history.

Definition small : dparams := DParams 1 4 4 100.

(** A peek at a positive offset within peekable() that spans sub-buffers hands
    out a window that runs past the valid bytes of the sub-buffer. *)
Theorem C12_peek_offset_refuted : exists t es,
  client (DynStoreP small) dyn_new [OPut (B "abcd"); OPut (B "efgh")] = Ok (t, es) /\
  bpeekable (DynStoreP small) t 3 = 5 /\ peek_read (DynStoreP small) t 3 4 = Fault.
Proof.
  eexists _, _. split; [vm_compute; reflexivity|]. split; vm_compute; reflexivity.
Qed.
Print Assumptions C12_peek_offset_refuted.

(** After a peek into the history, getting everything that was put can hit an
    assertion, although used() says the bytes are there. *)
Theorem C12_history_peek_refuted : exists t es,
  client (DynStoreP small) dyn_new
    [OPut (B "abc"); OGet 3; OPut (B "defg"); OGet 1; OGet 3; OPeek (-4) 4; OPut (B "uvwxyz")] = Ok (t, es) /\
  Forall (fun e => match e with Done _ _ => True | Skipped _ => False end) es /\
  bused (DynStoreP small) t = 6 /\ get_read (DynStoreP small) t 6 = Fault.
Proof.
  eexists _, _. split; [vm_compute; reflexivity|]. split; [repeat constructor|].
  split; vm_compute; reflexivity.
Qed.
Print Assumptions C12_history_peek_refuted.

(** C13: merging n bytes between two used buffers of any kinds moves exactly the
    first n bytes. *)
Theorem C13_merge : forall ka kb a b n qa qb, reach ka a -> reach kb b ->
  holds (store_of ka) a qa -> holds (store_of kb) b qb ->
  n <= bused (store_of kb) b -> n <= bfree (store_of ka) a ->
  exists a' b', merge ka kb a b n = Ok (a', b') /\ holds (store_of ka) a' (qa ++ firstn n qb) /\
    holds (store_of kb) b' (skipn n qb).
Proof. exact merge_holds. Qed.
Print Assumptions C13_merge.

(** With a source whose history has been peeked at, merge hits an assertion. *)
Theorem C13_history_peek_refuted : exists c es,
  client CircStore (circ_new 4)
    [OPut (B "abc"); OGet 3; OPut (B "defg"); OGet 1; OGet 3; OPeek (-4) 4; OPut (B "x")] = Ok (c, es) /\
  bused CircStore c = 1 /\ merge (KCirc 4) (KCirc 4) (circ_new 4) c 1 = Fault.
Proof. eexists _, _. split; [vm_compute; reflexivity|]. split; vm_compute; reflexivity. Qed.
Print Assumptions C13_history_peek_refuted.

(** ** Concrete cases *)
Example C11_ex : exists c h, client CircStore (circ_new 4)
    [OPut (B "abc"); OGet 2; OPut (B "def"); OPeek 0 4; OUnalloc 1; OGet 3; OUnget 1; OCopy (-1) 2; OPut (B "vwxyz")]
  = Ok (c, h) /\ nth_error h 7 = Some (Done (OCopy (-1) 2) (B "de")) /\
  nth_error h 3 = Some (Done (OPeek 0 4) (B "cdef")) /\ nth_error h 8 = Some (Skipped (OPut (B "vwxyz"))).
Proof. eexists _, _. split; [vm_compute; reflexivity|]. split; [|split]; reflexivity. Qed.

Example C12_ex : exists t es, client (DynStoreP small) dyn_new
    [OPut (B "abcdefghij"); OGet 1; OPeek 0 3; OGet 6; OUnget 2; OPoke 1 (B "XY"); OMove 5]
  = Ok (t, es) /\ last (map (fun e => match e with Done _ out => out | _ => [] end) es) [] = B "fXYij".
Proof. eexists _, _. split; [vm_compute; reflexivity|]. reflexivity. Qed.

Definition ex_run (k : kind) (ops : list buf_op) : bT (store_of k) :=
  match client (store_of k) (start k) ops with Ok (t, _) => t | _ => start k end.

(** Hypotheses of C13 are met by buffers with contents in several sub-buffers. *)
Example C13_ex : reach (KDyn small) (ex_run (KDyn small) [OPut (B "abcdefghij")]) /\
  holds (DynStoreP small) (ex_run (KDyn small) [OPut (B "abcdefghij")]) (B "abcdefghij") /\
  exists a' b', merge (KCirc 8) (KDyn small) (circ_new 8) (ex_run (KDyn small) [OPut (B "abcdefghij")]) 7 = Ok (a', b') /\
    holds CircStore a' (B "abcdefg") /\ holds (DynStoreP small) b' (B "hij").
Proof.
  split; [|split].
  - eapply (reach_op (KDyn small) dyn_new (OPut (B "abcdefghij"))).
    + apply (reach_new (KDyn small)). cbn. lia.
    + exact I.
    + reflexivity.
    + vm_compute. reflexivity.
  - split; [reflexivity|]. eexists. vm_compute. reflexivity.
  - eexists _, _. split; [vm_compute; reflexivity|]. split; (split; [reflexivity|]; eexists; vm_compute; reflexivity).
Qed.
