(** C43: time arithmetic. *)
From Verif Require Import Base TimeModel TimeSpec TimeProofs.
Local Open Scope Z_scope.

(** A time as a number of microseconds. *)
Theorem C43_microseconds t : sane t -> normal t -> to_ll t = Ok (us t).
Proof. apply to_ll_ok. Qed.
Theorem C43_from_microseconds z : - 2 ^ 63 <= z < 2 ^ 63 -> us (of_ll z) = z /\ (z >= 0 -> normal (of_ll z)) /\ (- 2 ^ 62 <= z -> to_ll (of_ll z) = Ok z).
Proof.
  intros H. unfold us, normal, of_ll. cbn [sec usec]. qr z 1000000. split; [lia|]. split; [lia|]. intros. unfold to_ll. cbn [sec usec]. fold q r. rewrite i64_ok by lia. cbn [bind]. rewrite i64_ok by lia. f_equal. lia.
Qed.
(** Comparing times compares the moments. *)
Theorem C43_order a b : sane a -> normal a -> sane b -> normal b -> time_lt a b = Ok (us a <? us b).
Proof. intros. unfold time_lt. rewrite !to_ll_ok by assumption. reflexivity. Qed.
(** Two normal times for the same moment are the same. *)
Theorem C43_unique a b : normal a -> normal b -> us a = us b -> a = b.
Proof. apply normal_eq. Qed.

Theorem C43_msecadd a m : normal a -> - 2 ^ 61 <= sec a <= 2 ^ 61 -> - 2 ^ 63 <= m < 2 ^ 63 ->
  exists b, msecadd a m = Ok b /\ normal b /\ us b = us a + 1000 * m.
Proof.
  intros N S M. unfold msecadd. qr m 1000. unfold normal in N. rewrite i64_ok by lia. cbn [bind]. rewrite i64_ok by lia. cbn [bind].
  destruct (normalize_ok {| sec := sec a + q; usec := usec a + r * 1000 |}) as (b & E & Nb & Ub); cbn [sec usec] in *; [lia|lia|]. exists b. split; [exact E|]. split; [exact Nb|]. rewrite Ub. unfold us. cbn [sec usec].
  destruct (Z.ltb_spec (usec a + r * 1000) 0) as [L|L]; cbn [andb]; [|lia]. destruct (Z.eqb_spec (Z.rem (usec a + r * 1000) 1000000) 0) as [E0|E0]; [|lia].
  exfalso. pose proof (Z.quot_rem (usec a + r * 1000) 1000000 ltac:(lia)) as Q. rewrite E0 in Q. lia.
Qed.
Theorem C43_tvdiff a b : normal a -> normal b -> - 2 ^ 60 <= sec a <= 2 ^ 60 -> - 2 ^ 60 <= sec b <= 2 ^ 60 ->
  exists c, tvdiff a b = Ok c /\ normal c /\ us c = us a - us b.
Proof.
  intros Na Nb Sa Sb. unfold tvdiff, normal in *. rewrite i64_ok by lia. cbn [bind]. destruct (Z.ltb_spec (usec a) (usec b)).
  - rewrite i64_ok by lia. cbn [bind]. rewrite i64_ok by lia. cbn [bind]. rewrite i64_ok by lia. cbn [bind].
    match goal with |- context [normalize ?t] => destruct (normalize_ok t) as (c & E & Nc & Uc); cbn [sec usec] in *; [lia|lia|] end. exists c. split; [exact E|]. split; [exact Nc|]. rewrite Uc. unfold us. cbn [sec usec].
    destruct (Z.ltb_spec (usec a + 1000000 - usec b) 0); cbn [andb]; lia.
  - cbn [bind]. rewrite i64_ok by lia. cbn [bind].
    match goal with |- context [normalize ?t] => destruct (normalize_ok t) as (c & E & Nc & Uc); cbn [sec usec] in *; [lia|lia|] end. exists c. split; [exact E|]. split; [exact Nc|]. rewrite Uc. unfold us. cbn [sec usec].
    destruct (Z.ltb_spec (usec a - usec b) 0); cbn [andb]; lia.
Qed.
(** Adding what was subtracted, and subtracting what was added. *)
Theorem C43_add_diff a m : normal a -> - 2 ^ 58 <= sec a <= 2 ^ 58 -> - 2 ^ 58 <= m <= 2 ^ 58 ->
  exists b d, msecadd a m = Ok b /\ tvdiff b a = Ok d /\ us d = 1000 * m.
Proof.
  intros N S M. destruct (C43_msecadd a m N ltac:(lia) ltac:(lia)) as (b & E & Nb & Ub). unfold normal in *. destruct (C43_tvdiff b a Nb N) as (d & Ed & _ & Ud); [unfold us in Ub; lia|lia|]. exists b, d. split; [exact E|]. split; [exact Ed|]. lia.
Qed.
(** The difference in milliseconds is the exact one up to less than a millisecond,
    capped to an int; exact for whole milliseconds. *)
Theorem C43_msecdiff_partial a b : normal a -> normal b -> - 2 ^ 52 <= sec a <= 2 ^ 52 -> - 2 ^ 52 <= sec b <= 2 ^ 52 ->
  exists m e, msecdiff a b = Ok m /\ m = Z.max int_min (Z.min int_max e) /\ Z.abs (1000 * e - (us a - us b)) < 1000 /\
    (((usec a <= usec b /\ sec a <= sec b) \/ (usec b <= usec a /\ sec b <= sec a)) -> e = Z.quot (us a - us b) 1000).
Proof.
  intros Na Nb Sa Sb. unfold msecdiff, normal, int_max, int_min in *. qr (usec a - usec b) 1000. rewrite i64_ok by lia. cbn [bind]. rewrite i64_ok by lia. cbn [bind]. fold q. rewrite i64_ok by lia. cbn [bind]. rewrite i64_ok by lia. cbn [bind].
  eexists. exists ((sec a - sec b) * 1000 + q). split; [reflexivity|]. split; [|split].
  - destruct (Z.ltb_spec (2 ^ 31 - 1) ((sec a - sec b) * 1000 + q)); [lia|]. destruct (Z.ltb_spec ((sec a - sec b) * 1000 + q) (- 2 ^ 31)); lia.
  - unfold us. lia.
  - intros HH. unfold us. destruct HH as [HH|HH].
    + assert (X : 0 <= - (sec a * 1000000 + usec a - (sec b * 1000000 + usec b))) by lia. rewrite <- (Z.opp_involutive (sec a * 1000000 + usec a - (sec b * 1000000 + usec b))), Z.quot_opp_l by lia.
      rewrite Z.quot_div_nonneg by lia. rewrite <- (Z.div_unique (- (sec a * 1000000 + usec a - (sec b * 1000000 + usec b))) 1000 (- ((sec a - sec b) * 1000 + q)) (- r)); [lia| |]; lia.
    + rewrite Z.quot_div_nonneg by lia. apply (Z.div_unique _ _ _ r); lia.
Qed.
(** The header promises chopping, but the fraction can be rounded up. *)
Theorem C43_msecdiff_refuted : exists a b, normal a /\ normal b /\ msecdiff a b = Ok 1000 /\ Z.quot (us a - us b) 1000 = 999.
Proof. exists {| sec := 1; usec := 0 |}, {| sec := 0; usec := 500 |}. unfold normal. cbn. repeat split; lia. Qed.

(** Normalizing keeps the moment, unless the microseconds are a negative whole
    number of seconds: then it is a second too early. *)
Theorem C43_normalize_partial t : - 2 ^ 62 <= sec t <= 2 ^ 62 -> - 2 ^ 62 <= usec t <= 2 ^ 62 ->
  exists t', normalize t = Ok t' /\ normal t' /\
    ((forall n, 0 < n -> usec t <> - n * 1000000) -> us t' = us t) /\
    (forall n, 0 < n -> usec t = - n * 1000000 -> us t' = us t - 1000000).
Proof.
  intros S U. destruct (normalize_ok t S U) as (t' & E & N & H). exists t'. split; [exact E|]. split; [exact N|]. rewrite H. split.
  - intros Q. destruct (Z.ltb_spec (usec t) 0); cbn [andb]; [|lia]. destruct (Z.eqb_spec (Z.rem (usec t) 1000000) 0) as [E0|]; [|lia]. exfalso. pose proof (Z.quot_rem (usec t) 1000000 ltac:(lia)) as X. rewrite E0 in X. apply (Q (- Z.quot (usec t) 1000000)); lia.
  - intros n Pn Q. rewrite Q at 1. destruct (Z.ltb_spec (- n * 1000000) 0); [|lia]. cbn [andb]. rewrite Q. rewrite Z.rem_mul by lia. reflexivity.
Qed.
Theorem C43_normalize_refuted : exists t u, us t = us u /\ normalize t <> normalize u.
Proof. exists {| sec := 1; usec := - 1000000 |}, {| sec := 0; usec := 0 |}. split; [reflexivity|vm_compute; discriminate]. Qed.

(** The stepped time, moved only forward, never goes back and ends at the latest
    reading; the last reading decides after a plain sync. *)
Theorem C43_forward l cur : sane cur -> normal cur -> Forall (fun t => sane t /\ normal t) l ->
  exists c, do_steps cur (map SyncForward l) = Ok c /\ In c (cur :: l) /\ forall t, In t (cur :: l) -> us t <= us c.
Proof.
  revert cur. induction l as [|t l IH]; intros cur S N F; cbn [map do_steps].
  - exists cur. split; [reflexivity|]. split; [left; reflexivity|]. intros t [->|[]]. lia.
  - destruct (Forall_inv F) as [St Nt]. cbn [do_step]. rewrite C43_order by assumption. cbn [bind]. destruct (Z.ltb_spec (us cur) (us t)).
    + destruct (IH t St Nt (Forall_inv_tail F)) as (c & E & I & M). exists c. split; [exact E|]. split; [right; exact I|]. intros x [<-|X]; [|apply M, X]. pose proof (M t (or_introl eq_refl)). lia.
    + destruct (IH cur S N (Forall_inv_tail F)) as (c & E & I & M). exists c. split; [exact E|]. split; [destruct I as [I|I]; [left|right; right]; exact I|]. pose proof (M cur (or_introl eq_refl)). intros x [<-|[<-|X]]; [assumption|lia|apply M; right; exact X].
Qed.
Theorem C43_sync cur l now : (exists c, do_steps cur l = Ok c) -> do_steps cur (l ++ [Sync now]) = Ok now /\ do_steps cur (l ++ [SetTime now]) = Ok now.
Proof.
  revert cur. induction l as [|s l IH]; intros cur [c H]; [split; reflexivity|]. cbn [app do_steps] in *. destruct (do_step cur s) as [c'| |]; try discriminate. cbn [bind] in *. apply IH. exists c. exact H.
Qed.
Example ex_add : msecadd {| sec := 10; usec := 500 |} (-1) = Ok {| sec := 9; usec := 999500 |}. Proof. reflexivity. Qed.
Example ex_diff : tvdiff {| sec := 10; usec := 500 |} {| sec := 9; usec := 999500 |} = Ok {| sec := 0; usec := 1000 |}. Proof. reflexivity. Qed.
Example ex_far : msecdiff {| sec := 2 ^ 40; usec := 0 |} {| sec := 0; usec := 0 |} = Ok int_max. Proof. reflexivity. Qed.
Example ex_forward : do_steps {| sec := 5; usec := 0 |} (map SyncForward [{| sec := 4; usec := 9 |}; {| sec := 5; usec := 1 |}; {| sec := 5; usec := 0 |}]) = Ok {| sec := 5; usec := 1 |}. Proof. reflexivity. Qed.
Print Assumptions C43_msecadd.
Print Assumptions C43_msecdiff_partial.
Print Assumptions C43_normalize_partial.
