(** Proofs about times. *)
From Verif Require Import Base TimeModel TimeSpec.
Local Open Scope Z_scope.

Lemma i64_ok z : - 2 ^ 63 <= z < 2 ^ 63 -> i64 z = Ok z.
Proof. intros H. unfold i64. replace (_ && _)%bool with true; [reflexivity|]. symmetry. apply andb_true_iff. split; [apply Z.leb_le|apply Z.ltb_lt]; lia. Qed.
Lemma i64_inv z y : i64 z = Ok y -> y = z /\ - 2 ^ 63 <= z < 2 ^ 63.
Proof. unfold i64. destruct (_ && _)%bool eqn:E; [|discriminate]. intros H. injection H as <-. apply andb_true_iff in E. lia. Qed.
Lemma quot_rem a b : b <> 0 -> a = b * Z.quot a b + Z.rem a b.
Proof. apply Z.quot_rem. Qed.

Ltac qr a b := let q := fresh "q" in let r := fresh "r" in pose proof (Z.quot_rem a b ltac:(lia)); pose proof (Z.rem_bound_abs a b ltac:(lia)); 
  pose proof (Z.rem_nonneg a b ltac:(lia)); pose proof (Z.rem_nonpos a b ltac:(lia)); set (q := Z.quot a b) in *; set (r := Z.rem a b) in *.

Lemma normalize_ok t : - 2 ^ 62 <= sec t <= 2 ^ 62 -> - 2 ^ 62 <= usec t <= 2 ^ 62 ->
  exists t', normalize t = Ok t' /\ normal t' /\
    us t' = us t - (if (usec t <? 0) && (Z.rem (usec t) 1000000 =? 0) then 1000000 else 0).
Proof.
  intros S U. unfold normalize, normal, us. qr (usec t) 1000000. destruct (Z.ltb_spec (usec t) 0).
  - rewrite i64_ok by lia. cbn [bind]. rewrite i64_ok by lia. cbn [bind]. destruct (Z.ltb_spec r 0).
    + rewrite i64_ok by lia. cbn [bind]. eexists. split; [reflexivity|]. cbn [sec usec andb]. destruct (Z.eqb_spec r 0); lia.
    + rewrite i64_ok by lia. cbn [bind]. eexists. split; [reflexivity|]. cbn [sec usec andb]. destruct (Z.eqb_spec r 0); lia.
  - cbn [bind]. rewrite i64_ok by lia. cbn [bind]. destruct (Z.ltb_spec r 0); [lia|]. rewrite i64_ok by lia. cbn [bind]. eexists. split; [reflexivity|]. cbn [sec usec andb]. lia.
Qed.

Lemma normal_eq a b : normal a -> normal b -> us a = us b -> a = b.
Proof. destruct a as [s u], b as [s' u']. unfold normal, us. cbn. intros. assert (s = s') by lia. subst. f_equal. lia. Qed.

Lemma to_ll_ok t : sane t -> normal t -> to_ll t = Ok (us t).
Proof. unfold sane, normal, to_ll. intros. rewrite i64_ok by lia. cbn [bind]. rewrite i64_ok by lia. reflexivity. Qed.
