(** C19: copies of a WvString are independent values. *)
From Verif Require Import Base CowModel CowSpec CowProofs.
Local Open Scope nat_scope.

(** Any sequence of constructions, copies, assignments, edits, appends and
    destructions that is meaningful on independent values runs without touching
    freed memory or leaving a buffer, and every variable reads as its own value.
    Not covered: a C string lying just after the target's buffer ([far]), and
    programs that both use offset() and assign a string a pointer into itself. *)
Theorem C19_independent_partial : forall k ops e,
  Forall c_string ops -> Forall far ops ->
  (Forall (fun o => uses_offset o = false) ops \/ Forall (fun o => own_tail o = false) ops) ->
  meanings (repeat None k) ops = Some e ->
  exists s, run (init k) ops = Ok s /\ forall x v, get e x = Some v -> text s x = Ok v.
Proof. exact cow_ok. Qed.

(** When all the variables have been destroyed, so have all the buffers. *)
Theorem C19_no_leak_partial : forall k ops e,
  Forall c_string ops -> Forall far ops ->
  (Forall (fun o => uses_offset o = false) ops \/ Forall (fun o => own_tail o = false) ops) ->
  meanings (repeat None k) ops = Some e -> (forall x, get e x = None) ->
  exists s, run (init k) ops = Ok s /\ forall b c, b <> nullbuf -> nth_error (hp s) b = Some c -> alive c = false.
Proof. exact cow_no_leak. Qed.

Ltac all_ops := repeat first [apply Forall_nil | apply Forall_cons]; cbn; try exact I; try reflexivity; unfold nul_free; cbn; intuition discriminate.

(** WvString a("abcdef"), b(a.offset(2)); destroy a; b = b.cstr() + 1: b reads "f". *)
Definition offset_program : list op := [NewC 0 (Some (B "abcdef")); NewOffset 1 0 2; Destroy 0; AssignIn 1 1 1 None].
Theorem C19_offset_tail_refuted : exists k ops e s,
  Forall c_string ops /\ Forall far ops /\ meanings (repeat None k) ops = Some e /\ run (init k) ops = Ok s /\
  get e 1 = Some (Some (B "def")) /\ text s 1 = Ok (Some (B "f")).
Proof.
  exists 2, offset_program.
  destruct (run (init 2) offset_program) as [s| |] eqn:E; try (vm_compute in E; discriminate).
  exists [None; Some (Some (B "def"))], s.
  split; [all_ops|]. split; [all_ops|]. split; [vm_compute; reflexivity|].
  split; [reflexivity|]. split; [reflexivity|]. vm_compute in E. injection E as <-. vm_compute. reflexivity.
Qed.

(** A C string that happens to lie right after the target's buffer (20 bytes
    after its text, for malloc's 16-byte grain) is moved into it without
    checking that it fits. *)
Theorem C19_adjacent_refuted : exists s d,
  nul_free s /\ run (init 1) [NewC 0 (Some (B "12345678")); AssignC 0 (Some s) (Some d)] = Fault.
Proof. exists (B "a longer string than that one"), 20. split; [unfold nul_free; cbn; intuition discriminate|vm_compute; reflexivity]. Qed.

Example C19_ex :
  let ops := [NewC 0 (Some (B "hello world")); NewCopy 1 0; Poke 1 0 (ascii_of_nat 74); NewOffset 2 0 6; New 3; Assign 3 2;
              Append 3 3; Destroy 0; AssignIn 1 3 2 None; Fill 2 8 (B "xyz"); Poke 3 4 nul; AssignC 2 None None] in
  Forall c_string ops /\ Forall far ops /\ Forall (fun o => own_tail o = false) ops /\
  meanings (repeat None 4) ops = Some [None; Some (Some (B "rldworld")); Some None; Some (Some (B "worl"))].
Proof.
  split; [all_ops|]. split; [all_ops|]. split; [all_ops|]. vm_compute. reflexivity.
Qed.
Example C19_leak_ex :
  let ops := [NewC 0 (Some (B "abc")); NewCopy 1 0; AssignIn 0 0 1 None; AssignIn 0 0 1 None; Destroy 1; Append 0 0; Destroy 0] in
  Forall (fun o => uses_offset o = false) ops /\ meanings (repeat None 2) ops = Some [None; None].
Proof. split; [all_ops|]. vm_compute. reflexivity. Qed.

Print Assumptions C19_independent_partial.
Print Assumptions C19_no_leak_partial.
Print Assumptions C19_offset_tail_refuted.
Print Assumptions C19_adjacent_refuted.
