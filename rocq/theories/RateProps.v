(** C83: changing the rate of a stream of samples (WvRateAdjust). *)
From Verif Require Import Base TimeModel TimeSpec TimeProofs RateSpec RateModel RateProofs.
Local Open Scope Z_scope.

(** The rate that the output has to have: the one asked for, or what the other
    one measures. *)
Definition wanted (m : option rate) (r : rate) : Z * Z :=
  match m with Some m => (irate_n m, irate_d m) | None => (orate_n r, orate_d r) end.

(** A call in ordinary conditions: whole samples, a clock that was not set back
    and at most eleven seconds after the beginning of the measurement, rates up
    to 100 kHz, and no debts. *)
Definition calm (now : wvtime) (m : option rate) (n : nat) (input : bytes) (r : rate) : Prop :=
  (0 < n)%nat /\ 0 < sampsize r /\ Z.of_nat (length input) = Z.of_nat n * sampsize r /\ 2 * Z.of_nat n * sampsize r < 2 ^ 32 /\
  normal now /\ sane now /\ normal (epoch r) /\ 0 < sec (epoch r) <= 2 ^ 43 /\
  0 <= us now - us (epoch r) <= 11000000 /\
  0 < irate_n r /\ irate_n r + 10 * Z.of_nat n <= 10000000 /\
  0 < fst (wanted m r) <= 10000000 /\ 0 < snd (wanted m r) <= 101 /\
  0 <= bucket r < 1010000000.

(** Such a call succeeds.  It puts out whole samples of the input, in their
    order, each some number of times; nothing that was in the output buffer is
    changed and nothing uninitialised is left.  After [j] samples exactly
    floor((bucket + j * plus) / minus) have come out, where plus / minus is the
    quotient of the two rates. *)
Theorem C83_call : forall now m n input pre r, calm now m n input r ->
  exists ks samples r', concat samples = input /\ length samples = n /\ length ks = n /\
    Forall (fun s => Z.of_nat (length s) = sampsize r) samples /\
    encode now m input (map Some pre) r = Ok (r', map Some (pre ++ stretched ks samples)) /\
    let plus := orate_n r' * irate_d r' in
    let minus := irate_n r' * orate_d r' in
    (orate_n r', orate_d r') = wanted m r /\ 0 < minus /\
    (forall j, (0 < j <= n)%nat -> out_after j ks = (bucket r + Z.of_nat j * plus) / minus) /\
    bucket r' = (bucket r + Z.of_nat n * plus) mod minus /\
    0 < irate_n r' <= 10000000 /\ 1 <= irate_d r' <= 100 /\ 0 <= bucket r' < 1010000000 /\
    sampsize r' = sampsize r.
Proof.
  intros now m n input pre r (N & SP & L & BIG & N1 & S1 & N2 & S2 & W & I1 & I2 & O1 & O2 & BK).
  unfold normal, sane, us in *.
  set (on := fst (wanted m r)) in *. set (od := snd (wanted m r)) in *.
  assert (MS : exists ms, msecdiff now (epoch r) = Ok ms /\ 0 <= ms <= 11000).
  { unfold msecdiff. assert (Q : -1000 < Z.quot (usec now - usec (epoch r)) 1000 < 1000) by (Z.to_euclidean_division_equations; lia).
    rewrite !i64_ok by lia. cbn [bind]. rewrite i64_ok by lia. cbn [bind]. rewrite i64_ok by lia. cbn [bind].
    assert (RR : 0 <= (sec now - sec (epoch r)) * 1000 + Z.quot (usec now - usec (epoch r)) 1000 <= 11000).
    { Z.to_euclidean_division_equations; lia. }
    eexists. split; [reflexivity|]. unfold int_max, int_min.
    destruct (Z.ltb_spec (2 ^ 31 - 1) ((sec now - sec (epoch r)) * 1000 + Z.quot (usec now - usec (epoch r)) 1000)); [lia|].
    destruct (Z.ltb_spec ((sec now - sec (epoch r)) * 1000 + Z.quot (usec now - usec (epoch r)) 1000) (- 2 ^ 31)); lia. }
  destruct MS as (ms & MS & MB).
  assert (A : exists r1, adjust now (Z.of_nat n) m r = Ok r1 /\ orate_n r1 = on /\ orate_d r1 = od /\
     0 < irate_n r1 <= irate_n r + 10 * Z.of_nat n /\ 1 <= irate_d r1 <= 100).
  { unfold adjust. destruct (Z.eqb_spec (sec (epoch r)) 0); [lia|]. rewrite MS.
    rewrite uns_id by lia. rewrite to_int_id by lia. fold (wanted m r). rewrite (surjective_pairing (wanted m r)). fold on od. cbn [bind].
    rewrite Z.quot_div_nonneg by lia. assert (D : 0 <= ms / 100 <= 110) by (Z.to_euclidean_division_equations; lia).
    set (d := if ms / 100 =? 0 then 1 else ms / 100). assert (DD : 1 <= d <= 110) by (unfold d; destruct (Z.eqb_spec (ms / 100) 0); lia).
    destruct (Z.ltb_spec 100 d) as [G|G].
    - rewrite i32_ok by nia. cbn [bind]. eexists. split; [reflexivity|]. cbn [orate_n orate_d irate_n irate_d].
      split; [reflexivity|]. split; [reflexivity|]. split; [|lia]. set (x := irate_n r + Z.of_nat n * 10) in *.
      assert (X : 11 <= x <= irate_n r + 10 * Z.of_nat n) by (unfold x; lia). rewrite Z.quot_div_nonneg by nia. split.
      + assert (1 <= x * (d - 10) / d); [|lia]. apply Z.div_le_lower_bound; nia.
      + assert (x * (d - 10) / d <= x); [|lia]. apply Z.div_le_upper_bound; nia.
    - eexists. split; [reflexivity|]. cbn [orate_n orate_d irate_n irate_d]. repeat split; lia. }
  destruct A as (r1 & A & A1 & A2 & A3 & A4).
  assert (P1 : 0 < on * irate_d r1 <= 1000000000) by nia.
  assert (P2 : 0 < irate_n r1 * od <= 1010000000) by nia.
  destruct (encode_ok now m input pre r r1 n (orate_n r1 * irate_d r1) (irate_n r1 * orate_d r1) N SP L A eq_refl eq_refl)
    as (ks & samples & r' & C1 & C2 & C3 & C4 & C5 & C6 & C7 & C8 & C9 & C10 & C11 & C12 & C13);
    [rewrite A2; lia|rewrite A1; lia|rewrite A1, A2; lia|rewrite A2; lia|lia|rewrite A1; lia|exact BIG|].
  exists ks, samples, r'. do 5 (split; [assumption|]). rewrite C8, C9, C10, C11, A1, A2 in *. cbn zeta.
  split; [symmetry; apply surjective_pairing|]. split; [lia|]. split; [exact C6|]. split; [exact C7|]. split; [lia|]. split; [lia|].
  split; [|exact C13]. rewrite C7. pose proof (Z.mod_pos_bound (bucket r + Z.of_nat n * (on * irate_d r1)) (irate_n r1 * od) ltac:(lia)). lia.
Qed.
Print Assumptions C83_call.

(** The measurement never goes back more than about ten seconds if the calls
    are at most 0.9 seconds apart, so that the conditions on the time hold again
    at the next call. *)
Theorem C83_window : forall now m n input pre r r' o now', calm now m n input r ->
  encode now m input (map Some pre) r = Ok (r', o) -> normal now' -> 0 <= us now' - us now <= 900000 ->
  normal (epoch r') /\ 0 < sec (epoch r') /\ 0 <= us now' - us (epoch r') <= 11000000.
Proof.
  intros now m n input pre r r' o now' (N & SP & L & BIG & N1 & S1 & N2 & S2 & W & REST) E N3 D.
  unfold normal, sane, us in *. unfold encode in E.
  destruct (length input =? 0)%nat eqn:LI. { apply Nat.eqb_eq in LI. assert (0 < Z.of_nat n * sampsize r) by (apply Z.mul_pos_pos; lia). lia. }
  destruct (negb _); [discriminate|]. destruct (adjust _ _ _ _) as [r1| |] eqn:A; cbn [bind] in E; try discriminate.
  destruct (i32 _) as [plus| |]; cbn [bind] in E; try discriminate. destruct (i32 _) as [minus| |]; cbn [bind] in E; try discriminate.
  destruct (copy _ _ _ _ _ _) as [[b o']| |]; cbn [bind] in E; try discriminate. destruct (_ <? _); [discriminate|].
  injection E as <- _. cbn [epoch]. unfold adjust in A. destruct (match m with Some _ => _ | None => _ end) as [on od].
  destruct (Z.eqb_spec (sec (epoch r)) 0); [lia|].
  destruct (msecdiff _ _) as [ms| |] eqn:MS; cbn [bind] in A; try discriminate.
  assert (M : Z.abs (1000 * ms - (us now - us (epoch r))) < 1000).
  { unfold msecdiff in MS. assert (Q : -1000 < Z.quot (usec now - usec (epoch r)) 1000 < 1000) by (Z.to_euclidean_division_equations; lia).
    rewrite !i64_ok in MS by lia. cbn [bind] in MS. rewrite i64_ok in MS by lia. cbn [bind] in MS. rewrite i64_ok in MS by lia. cbn [bind] in MS.
    injection MS as <-. unfold int_max, int_min.
    destruct (Z.ltb_spec (2 ^ 31 - 1) ((sec now - sec (epoch r)) * 1000 + Z.quot (usec now - usec (epoch r)) 1000)); [lia|].
    destruct (Z.ltb_spec ((sec now - sec (epoch r)) * 1000 + Z.quot (usec now - usec (epoch r)) 1000) (- 2 ^ 31)); [lia|].
    unfold us. Z.to_euclidean_division_equations; lia. }
  unfold us in M. destruct (Z.ltb_spec 100 (if Z.quot ms 100 =? 0 then 1 else Z.quot ms 100)) as [G|G].
  - destruct (i32 _) as [x| |]; cbn [bind] in A; try discriminate. injection A as <-. cbn [epoch sec usec].
    assert (10000 < ms) by (destruct (Z.eqb_spec (Z.quot ms 100) 0); [lia|]; Z.to_euclidean_division_equations; lia). lia.
  - injection A as <-. cbn [epoch]. assert (ms < 10100).
    { destruct (Z.eqb_spec (Z.quot ms 100) 0); Z.to_euclidean_division_equations; lia. } lia.
Qed.
Print Assumptions C83_window.

(** How the input is cut into calls does not matter while the rates stay: two
    calls put out what one would. *)
Theorem C83_cut : forall now1 now2 m n1 n2 in1 in2 r r1 r2 o1 o2,
  calm now1 m n1 in1 r -> encode now1 m in1 [] r = Ok (r1, o1) ->
  calm now2 m n2 in2 r1 -> encode now2 m in2 o1 r1 = Ok (r2, o2) ->
  irate_n r2 = irate_n r1 -> irate_d r2 = irate_d r1 -> orate_n r2 = orate_n r1 -> orate_d r2 = orate_d r1 ->
  exists ks samples, concat samples = in1 ++ in2 /\ length samples = (n1 + n2)%nat /\ length ks = (n1 + n2)%nat /\
    o2 = map Some (stretched ks samples) /\
    forall j, (0 < j <= n1 + n2)%nat ->
      out_after j ks = (bucket r + Z.of_nat j * (orate_n r1 * irate_d r1)) / (irate_n r1 * orate_d r1).
Proof.
  intros now1 now2 m n1 n2 in1 in2 r r1 r2 o1 o2 C1 E1 C2 E2 H1 H2 H3 H4.
  destruct (C83_call now1 m n1 in1 [] r C1) as (k1 & s1 & q1 & A1 & A2 & A3 & A4 & A5 & A6 & A7 & A8 & A9 & _).
  change (map Some (@nil Ascii.ascii)) with (@nil (option Ascii.ascii)) in A5. rewrite E1 in A5. injection A5 as <- ->. cbn [app] in E2.
  destruct (C83_call now2 m n2 in2 (stretched k1 s1) r1 C2) as (k2 & s2 & q2 & B1 & B2 & B3 & B4 & B5 & B6 & B7 & B8 & B9 & _).
  rewrite E2 in B5. injection B5 as <- ->.
  exists (k1 ++ k2), (s1 ++ s2). rewrite concat_app, !app_length. split; [congruence|]. split; [lia|]. split; [lia|].
  split.
  { f_equal. clear - A2 A3. assert (L : length k1 = length s1) by congruence. clear A2 A3. revert s1 L.
    induction k1 as [|k k1 IH]; intros [|s s1] L; try discriminate; cbn [stretched app]; [reflexivity|].
    rewrite <- app_assoc. f_equal. apply IH. cbn in L. lia. }
  rewrite H1, H2, H3, H4 in B8. rewrite A9 in B8. set (plus := orate_n r1 * irate_d r1) in *. set (minus := irate_n r1 * orate_d r1) in *.
  intros j J. destruct (Nat.le_gt_cases j n1) as [Q|Q].
  - unfold out_after. rewrite firstn_app. replace (j - length k1)%nat with O by lia. rewrite firstn_O, app_nil_r. apply A8. lia.
  - unfold out_after. rewrite firstn_app, firstn_all2 by lia. rewrite list_sum_app, Nat2Z.inj_add.
    pose proof (A8 n1 ltac:(destruct C1; lia)) as X. unfold out_after in X. rewrite firstn_all2 in X by lia. rewrite X.
    fold (out_after (j - length k1) k2). rewrite B8 by lia. rewrite div_carry by exact A7. f_equal. rewrite A3. lia.
Qed.
Print Assumptions C83_cut.

(** The average is not exact while the measurement goes on: one sample every
    0.1 seconds, to come out at 11 per second, gives 13 in 1.3 seconds instead
    of 14 (the remainder is kept in units that change). *)
Definition tick (k : Z) : wvtime * bytes := ({| sec := 1000 + k / 10; usec := k mod 10 * 100000 |}, B "x").
Theorem C83_average_refuted : exists r r' o,
  create {| sec := 1000; usec := 0 |} 1 10 11 = Ok r /\
  encodes (map tick [1; 2; 3; 4; 5; 6; 7; 8; 9; 10; 11; 12; 13]) [] r = Ok (r', o) /\
  getirate r = Ok 10 /\ getirate r' = Ok 10 /\ length o = 13%nat /\ 13 * 11 / 10 = 14.
Proof. do 3 eexists. split; [reflexivity|]. split; [vm_compute; reflexivity|]. repeat split. Qed.
Print Assumptions C83_average_refuted.

(** A pause of an hour at 8000 samples a second overflows. *)
Theorem C83_pause_refuted : exists r, create {| sec := 1000; usec := 0 |} 1 8000 8000 = Ok r /\
  encode {| sec := 4600; usec := 0 |} None (B "x") [] r = Fault.
Proof. eexists. split; [reflexivity|vm_compute; reflexivity]. Qed.
Print Assumptions C83_pause_refuted.

(** A clock set back by twenty seconds for one call: its samples are lost, and
    those of the next call too, when the clock is right again. *)
Theorem C83_back_refuted : exists r r1 r2, create {| sec := 1000; usec := 0 |} 1 8000 8000 = Ok r /\
  encode {| sec := 980; usec := 0 |} None (B "abcd") [] r = Ok (r1, []) /\ getirate r1 = Ok (-421) /\
  encode {| sec := 1000; usec := 10000 |} None (B "efghijkl") [] r1 = Ok (r2, []) /\ bucket r2 < 0.
Proof. do 3 eexists. split; [reflexivity|]. split; [vm_compute; reflexivity|]. split; [vm_compute; reflexivity|]. split; [vm_compute; reflexivity|]. vm_compute. reflexivity. Qed.
Print Assumptions C83_back_refuted.

(** Samples of two bytes, three of them, from 10 to 20 per second. *)
Example C83_ex : exists r r', create {| sec := 1000; usec := 0 |} 2 10 20 = Ok r /\
  calm {| sec := 1000; usec := 300000 |} None 3 (B "aabbcc") r /\
  encode {| sec := 1000; usec := 300000 |} None (B "aabbcc") (map Some (B "old")) r = Ok (r', map Some (B "oldaaaabbbbcccc")) /\
  irate_n r' = 130 /\ irate_d r' = 13 /\ bucket r' = 0.
Proof.
  do 2 eexists. split; [reflexivity|]. split; [|split; [vm_compute; reflexivity|repeat split]].
  unfold calm, normal, sane, us. cbn. repeat split; lia.
Qed.
