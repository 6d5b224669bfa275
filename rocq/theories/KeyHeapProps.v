(** C23: editing UniConf keys. *)
From Verif Require Import Base KeyModel KeySpec KeyHeapModel KeyHeapSpec KeyHeapProofs.
Local Open Scope nat_scope.

(** Every program that is meaningful on plain values runs inside the segment
    vectors, never touches a deleted one, and every variable reads as its own
    value, whatever storage is shared.  Not covered (see [ameaning]): appending to
    a key that is the end or middle of another one or that something was popped
    from; prepending to any part of a key; giving a key to itself; appending to a
    key with a trailing slash. *)
Theorem C23_values_partial : forall n ops e,
  Forall kc_string ops -> arun (repeat None n) ops = Some e ->
  exists s, krun (kinit n) ops = Ok s /\ forall x a, aget e x = Some a -> kview s x = Ok (val a).
Proof. exact krun_values. Qed.

(** The keys so made are well formed, so C22, C24 and C25 apply to them. *)
Theorem C23_canonical_partial : forall n ops e,
  Forall kc_string ops -> arun (repeat None n) ops = Some e ->
  forall x a, aget e x = Some a -> canonical (val a).
Proof. exact krun_canonical. Qed.

(** When all the keys are gone, so is all the storage (but the shared empty one). *)
Theorem C23_no_leak_partial : forall n ops e,
  Forall kc_string ops -> arun (repeat None n) ops = Some e -> (forall x, aget e x = None) ->
  exists s, krun (kinit n) ops = Ok s /\
    forall b st, nth_error (khp s) b = Some st -> b <> EMPTY_store -> live st = false.
Proof. exact krun_freed. Qed.

(** The programs left out do go wrong. *)
(** UniConfKey k(UniConfKey("a/b/c/d").removefirst(2)); k.append("e"): writes past
    the vector. *)
Theorem C23_append_to_rest_refuted : exists ops, krun (kinit 3) ops = Fault /\
  ops = [KParse 1 (B "a/b/c/d"); KRange 0 1 2 4; KDestroy 1; KParse 2 (B "e"); KAppend 0 2].
Proof. eexists. split; [|reflexivity]. vm_compute. reflexivity. Qed.
(** UniConfKey k(UniConfKey("a/b/c/d").removelast(2)); k.prepend("x"): likewise. *)
Theorem C23_prepend_to_front_refuted : exists ops, krun (kinit 3) ops = Fault /\
  ops = [KParse 1 (B "a/b/c/d"); KRange 0 1 0 2; KDestroy 1; KParse 2 (B "x"); KPrepend 0 2].
Proof. eexists. split; [|reflexivity]. vm_compute. reflexivity. Qed.
(** UniConfKey k("a/b/c/d"); k.pop(1); k.prepend("x"): likewise. *)
Theorem C23_prepend_after_pop_refuted : exists ops, krun (kinit 3) ops = Fault /\
  ops = [KParse 0 (B "a/b/c/d"); KPop 1 0 1; KDestroy 1; KParse 2 (B "x"); KPrepend 0 2].
Proof. eexists. split; [|reflexivity]. vm_compute. reflexivity. Qed.
(** UniConfKey k("a/b/c/d"); k.append(k): the loop chases its own end. *)
Theorem C23_append_self_refuted : exists ops, krun (kinit 1) ops = Fault /\
  ops = [KParse 0 (B "a/b/c/d"); KAppend 0 0].
Proof. eexists. split; [|reflexivity]. vm_compute. reflexivity. Qed.
(** UniConfKey k("a"); k = k: the store is deleted and used again. *)
Theorem C23_assign_self_refuted : exists ops, krun (kinit 1) ops = Fault /\
  ops = [KParse 0 (B "a"); KAssign 0 0].
Proof. eexists. split; [|reflexivity]. vm_compute. reflexivity. Qed.
(** UniConfKey k("a/"); k.append("b"): k has an empty segment in the middle and
    prints as a//b, while UniConfKey(k, "b") is a/b. *)
Theorem C23_append_slash_refuted : exists ops s k, krun (kinit 2) ops = Ok s /\ kview s 0 = Ok k /\
  printable k = B "a//b" /\ parse (Some (printable k)) = Ok [B "a"; B "b"] /\
  ops = [KParse 0 (B "a/"); KParse 1 (B "b"); KAppend 0 1].
Proof. do 3 eexists. repeat split; vm_compute; reflexivity. Qed.

(** A program of the covered kind: copies share storage, then go separate ways. *)
Definition sharing_program : list kop :=
  [KParse 0 (B "/home//user/"); KCopy 1 0; KParse 2 (B "cfg/ini/"); KConcat 3 1 2; KRange 4 3 1 3; KPop 5 3 2;
   KPrepend 1 2; KAssign 0 2; KDestroy 2; KEmpty 2; KAppend 2 4;
   KRange 6 1 0 3; KAppend 6 2].
Example C23_ex : exists e s, Forall kc_string sharing_program /\ arun (repeat None 7) sharing_program = Some e /\
  krun (kinit 7) sharing_program = Ok s /\
  map (kview s) (seq 0 7) =
    [Ok [B "cfg"; B "ini"; []]; Ok [B "cfg"; B "ini"; B "home"; B "user"; []]; Ok [B "user"; B "cfg"];
     Ok [B "cfg"; B "ini"; []]; Ok [B "user"; B "cfg"]; Ok [B "home"; B "user"];
     Ok [B "cfg"; B "ini"; B "home"; B "user"; B "cfg"]] /\
  map (option_map val) e =
    [Some [B "cfg"; B "ini"; []]; Some [B "cfg"; B "ini"; B "home"; B "user"; []]; Some [B "user"; B "cfg"];
     Some [B "cfg"; B "ini"; []]; Some [B "user"; B "cfg"]; Some [B "home"; B "user"];
     Some [B "cfg"; B "ini"; B "home"; B "user"; B "cfg"]].
Proof.
  do 2 eexists. split.
  { repeat first [apply Forall_nil | apply Forall_cons]; cbn; try exact I; unfold nul_free; cbn; intuition discriminate. }
  split; [vm_compute; reflexivity|]. split; [vm_compute; reflexivity|]. split; vm_compute; reflexivity.
Qed.
Definition freeing_program : list kop :=
  [KParse 0 (B "a/b/c"); KPop 1 0 1; KCopy 2 1; KDestroy 0; KConcat 0 1 2; KDestroy 1; KDestroy 2; KDestroy 0].
Example C23_leak_ex : exists e s, Forall kc_string freeing_program /\ arun (repeat None 3) freeing_program = Some e /\
  (forall x, aget e x = None) /\ krun (kinit 3) freeing_program = Ok s /\ map live (khp s) = [true; false; false].
Proof.
  do 2 eexists. split.
  { repeat first [apply Forall_nil | apply Forall_cons]; cbn; try exact I; unfold nul_free; cbn; intuition discriminate. }
  split; [vm_compute; reflexivity|]. split; [intros [|[|[|[|x]]]]; reflexivity|]. split; vm_compute; reflexivity.
Qed.

Print Assumptions C23_values_partial.
Print Assumptions C23_canonical_partial.
Print Assumptions C23_no_leak_partial.
