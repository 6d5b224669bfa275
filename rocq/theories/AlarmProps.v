(** C85: alarms of a stream. *)
From Verif Require Import Base TimeModel TimeSpec TimeProofs TimeProps AlarmSpec AlarmModel AlarmProofs.
Local Open Scope Z_scope.

Definition look_before (s : alarms) (t : wvtime) : Prop := us (last_check s) <= us t /\ normal (last_check s) /\ sane (last_check s).

Lemma alarm_due t ms s : clock t -> 0 <= ms <= 2 ^ 42 -> look_before s t ->
  exists s', alarm t ms s = Ok s' /\ due t (ms * 1000) s' /\ last_check s' = last_check s /\ ticking s' = ticking s.
Proof.
  intros C M (L1 & L2 & L3). unfold alarm. destruct (Z.leb_spec 0 ms); [|lia].
  destruct (C43_msecadd t ms) as (b & E & N & U); [apply C|destruct C; lia|lia|]. rewrite E. cbn [bind].
  eexists. split; [reflexivity|]. split; [|split; reflexivity]. unfold due. cbn [alarm_time last_check].
  split; [exact N|]. split; [lia|]. split; [lia|]. split; [exact L1|]. split; [exact L2|]. split; [exact L3|]. split; [exact C|].
  destruct C as [C1 C2]. unfold us, normal in *. lia.
Qed.

(** An alarm for [ms] milliseconds, set at [t]; then the alarm is looked at at
    any times, the first not before [t], and later the clock may be set back at
    any time.  As long as less than [ms] milliseconds have passed, where a step
    back counts as nothing, alarm_remaining() is what is left, to within a
    millisecond. *)
Theorem C85_remaining : forall t ms s t1 ts, clock t -> 0 <= ms <= 2 ^ 42 -> look_before s t ->
  clock t1 -> us t <= us t1 -> Forall clock ts -> passed t (t1 :: ts) <= ms * 1000 ->
  exists s0 s' rs, alarm t ms s = Ok s0 /\ checks (t1 :: ts) s0 = Ok (s', rs) /\ length rs = S (length ts) /\
    forall i r, nth_error rs i = Some r ->
      0 <= r /\ (r < int_max -> Z.abs (1000 * r - (ms * 1000 - passed t (firstn (S i) (t1 :: ts)))) < 1000).
Proof.
  intros t ms s t1 ts C M L C1 LE F P. destruct (alarm_due t ms s C M L) as (s0 & A & D & LC & _).
  cbn [passed] in P. pose proof (passed_nonneg ts t1).
  destruct (remaining_left t (ms * 1000) s0 t1 D C1) as (s1 & r & R & D1 & E1 & _ & R1 & R2 & _); [lia|lia|].
  destruct (checks_left ts t1 _ s1 D1 E1 F ltac:(lia)) as (s2 & rs & S & _ & _ & _ & LR & N).
  exists s0, s2, (r :: rs). split; [exact A|]. cbn [checks]. rewrite R. cbn [bind]. rewrite S. cbn [bind]. split; [reflexivity|].
  split; [cbn; lia|]. intros [|i] r' Hn; cbn [nth_error] in Hn.
  - injection Hn as <-. split; [exact R1|]. intros Q. specialize (R2 Q). cbn [firstn passed]. lia.
  - destruct (N i r' Hn) as [N1 N2]. split; [exact N1|]. intros Q. specialize (N2 Q). cbn [firstn passed] in *. lia.
Qed.
Print Assumptions C85_remaining.

(** When all of the time has passed the next callback() is told that the alarm
    rang, and no later one, at whatever times, until another alarm is set. *)
Theorem C85_rings_once : forall t ms s t1 ts u us', clock t -> 0 <= ms <= 2 ^ 42 -> look_before s t ->
  clock t1 -> us t <= us t1 -> Forall clock ts -> passed t (t1 :: ts) <= ms * 1000 ->
  clock u -> ms * 1000 <= passed t (t1 :: ts ++ [u]) ->
  exists s0 s1 rs s2 s3, alarm t ms s = Ok s0 /\ checks (t1 :: ts) s0 = Ok (s1, rs) /\
    remaining u s1 = Ok (s2, 0) /\ callbacks (u :: us') s2 = Ok (s3, true :: repeat false (length us')).
Proof.
  intros t ms s t1 ts u us' C M L C1 LE F P CU G. destruct (alarm_due t ms s C M L) as (s0 & A & D & LC & _).
  cbn [passed] in P. pose proof (passed_nonneg ts t1).
  destruct (remaining_left t (ms * 1000) s0 t1 D C1) as (s1 & r & R & D1 & E1 & _ & R1 & R2 & _); [lia|lia|].
  destruct (checks_left ts t1 _ s1 D1 E1 F ltac:(lia)) as (s2 & rs & S & D2 & E2 & _ & LR & N).
  set (d := ms * 1000 - Z.max 0 (us t1 - us t) - passed t1 ts) in *.
  assert (PA : forall a l, passed a (l ++ [u]) = passed a l + Z.max 0 (us u - us (last l a))).
  { intros a l. revert a. induction l as [|b l IH]; intros a; cbn [passed app]; [cbn; lia|]. rewrite IH, last_cons. lia. }
  cbn [passed] in G. rewrite PA in G. fold (last ts t1) in *.
  assert (DU : d <= Z.max 0 (us u - us (last ts t1))) by lia.
  assert (X : exists s3, remaining u s2 = Ok (s3, 0) /\ sec (alarm_time s3) <> 0).
  { destruct (Z_lt_ge_dec (us u) (us (last ts t1))) as [Q|Q].
    - assert (D0 : d = 0) by (destruct D2 as (_ & _ & D2 & _); lia).
      destruct (remaining_left _ d s2 u D2 CU (fun _ => E2)) as (s3 & r3 & R3 & D3 & _ & _ & R31 & _ & R32); [lia|].
      assert (Z3 : r3 = 0) by lia. subst r3. exists s3. split; [exact R3|]. pose proof (left_pos _ _ _ D3). lia.
    - destruct (remaining_over _ d s2 u D2 CU) as (s3 & R3 & _ & A3 & _); [lia|]. exists s3. split; [exact R3|].
      rewrite A3. pose proof (left_pos _ _ _ D2). lia. }
  destruct X as (s3 & R3 & N3).
  assert (R4 : remaining u s3 = Ok (s3, 0)).
  { apply (remaining_again s2 u s3 0 CU); [pose proof (left_pos _ _ _ D2); lia|exact N3|exact R3]. }
  destruct (no_callbacks us' (Alarms zero (last_check s3) true) eq_refl) as (s4 & NC & _).
  exists s0, s2, (r :: rs), s3, s4. split; [exact A|]. split; [cbn [checks]; rewrite R; cbn [bind]; rewrite S; reflexivity|].
  split; [exact R3|]. cbn [callbacks]. unfold callback. rewrite R4. cbn [bind]. change (0 =? 0) with true. cbv iota. cbn [ticking].
  rewrite NC. reflexivity.
Qed.
Print Assumptions C85_rings_once.

(** Not too early: a callback() that is told so comes at most a millisecond
    before the time. *)
Theorem C85_not_early : forall t ms s t1 ts u, clock t -> 0 <= ms <= 2 ^ 42 -> look_before s t ->
  clock t1 -> us t <= us t1 -> Forall clock ts -> clock u -> passed t (t1 :: ts ++ [u]) <= ms * 1000 - 1000 ->
  exists s0 s1 rs s2, alarm t ms s = Ok s0 /\ checks (t1 :: ts) s0 = Ok (s1, rs) /\ callback u s1 = Ok s2 /\
    ticking s2 = false /\ alarm_time s2 <> zero.
Proof.
  intros t ms s t1 ts u C M L C1 LE F CU G. destruct (alarm_due t ms s C M L) as (s0 & A & D & LC & _).
  assert (PA : forall a l, passed a (l ++ [u]) = passed a l + Z.max 0 (us u - us (last l a))).
  { intros a l. revert a. induction l as [|b l IH]; intros a; cbn [passed app]; [cbn; lia|]. rewrite IH, last_cons. lia. }
  cbn [passed] in G. rewrite PA in G. pose proof (passed_nonneg ts t1).
  destruct (remaining_left t (ms * 1000) s0 t1 D C1) as (s1 & r & R & D1 & E1 & _ & R1 & R2 & _); [lia|lia|].
  destruct (checks_left ts t1 _ s1 D1 E1 F ltac:(lia)) as (s2 & rs & S & D2 & E2 & _ & LR & N).
  destruct (remaining_left _ _ s2 u D2 CU (fun _ => E2)) as (s3 & r3 & R3 & D3 & E3 & T3 & R31 & R32 & _); [lia|].
  exists s0, s2, (r :: rs), (Alarms (alarm_time s3) (last_check s3) false). split; [exact A|]. split; [cbn [checks]; rewrite R; cbn [bind]; rewrite S; reflexivity|].
  split; [|split; [reflexivity|]].
  - unfold callback. rewrite R3. cbn [bind]. destruct (Z.eqb_spec r3 0) as [Z|Z]; [|reflexivity]. exfalso.
    rewrite Z in R32. specialize (R32 eq_refl). lia.
  - cbn [alarm_time]. intros E. pose proof (left_pos _ _ _ D3) as P. rewrite E in P. cbn in P. lia.
Qed.
Print Assumptions C85_not_early.

(** A cancelled alarm, or none, never rings. *)
Theorem C85_cancel : forall t ms s ts, ms < 0 ->
  exists s0 s1, alarm t ms s = Ok s0 /\ callbacks ts s0 = Ok (s1, repeat false (length ts)) /\
    forall now, remaining now s0 = Ok (s0, -1).
Proof.
  intros t ms s ts M. unfold alarm. destruct (Z.leb_spec 0 ms); [lia|].
  destruct (no_callbacks ts (Alarms zero (last_check s) (ticking s)) eq_refl) as (s1 & C & _).
  exists (Alarms zero (last_check s) (ticking s)), s1. split; [reflexivity|]. split; [exact C|]. intros now. apply no_alarm. reflexivity.
Qed.
Print Assumptions C85_cancel.

(** The clock is set back between alarm() and the first look: the alarm waits
    for the clock to come again to where it was, here 501 seconds instead of one. *)
Theorem C85_late_refuted : exists s0, alarm {| sec := 1000; usec := 0 |} 1000 create = Ok s0 /\
  exists s1, remaining {| sec := 500; usec := 0 |} s0 = Ok (s1, 501000).
Proof. eexists. split; [reflexivity|]. eexists. vm_compute. reflexivity. Qed.
Print Assumptions C85_late_refuted.

(** The clock was set back since the last look, before alarm(): a minute's
    alarm rings at once. *)
Theorem C85_early_refuted : exists s s0 s1, last_check s = {| sec := 1000; usec := 0 |} /\
  alarm {| sec := 500; usec := 0 |} 60000 s = Ok s0 /\
  callback {| sec := 500; usec := 0 |} s0 = Ok s1 /\ ticking s1 = true.
Proof. exists (Alarms zero {| sec := 1000; usec := 0 |} false). do 2 eexists. split; [reflexivity|]. split; [reflexivity|]. split; [vm_compute; reflexivity|reflexivity]. Qed.
Print Assumptions C85_early_refuted.

(** Then an alarm for a short time is lost: the first look sees that it rang,
    and no later one. *)
Theorem C85_lost_refuted : exists s s0 s1, last_check s = {| sec := 1000; usec := 0 |} /\
  alarm {| sec := 500; usec := 0 |} 100 s = Ok s0 /\
  pre_select {| sec := 500; usec := 0 |} false (-1) s0 = Ok (s1, 0) /\
  forall ts, Forall (fun u => 1 <= sec u) ts -> exists s2, callbacks ts s1 = Ok (s2, repeat false (length ts)).
Proof.
  exists (Alarms zero {| sec := 1000; usec := 0 |} false). do 2 eexists. split; [reflexivity|]. split; [reflexivity|]. split; [vm_compute; reflexivity|].
  intros ts _. match goal with |- context [callbacks ts ?s] => set (q := s) end.
  assert (G : forall s, sec (alarm_time s) = 0 -> exists s2, callbacks ts s = Ok (s2, repeat false (length ts))).
  { induction ts as [|u ts IH]; intros s E; cbn [callbacks repeat length]; [eauto|].
    unfold callback, remaining. rewrite E. cbn [Z.eqb bind]. change (-1 =? 0) with false. cbv iota. cbn [ticking].
    destruct (IH (Alarms (alarm_time s) (last_check s) false) E) as (s2 & C). rewrite C. cbn [bind]. eauto. }
  apply G. reflexivity.
Qed.
Print Assumptions C85_lost_refuted.

(** The stream may make the main loop wait longer than another one asked for:
    up to ten milliseconds. *)
Theorem C85_timeout : forall now inherit timeout s s' m, pre_select now inherit timeout s = Ok (s', m) ->
  (0 <= timeout -> 0 <= m < timeout + 10 \/ m = timeout) /\
  (forall s1 rest, remaining now s = Ok (s1, rest) -> 0 <= rest -> 0 <= m <= rest + 10).
Proof.
  intros now inherit timeout s s' m P. unfold pre_select in P. destruct (remaining now s) as [[s1 rest]| |]; cbn [bind] in P; try discriminate.
  destruct (negb inherit && (rest =? 0)) eqn:E.
  - injection P as _ <-. split; [intros; lia|]. intros s2 r H. injection H as _ <-. lia.
  - injection P as _ <-. split.
    + intros T. destruct (Z.leb_spec 0 rest); cbn [andb]; [|lia]. destruct (Z.ltb_spec rest timeout); cbn [orb]; [lia|].
      destruct (Z.ltb_spec timeout 0); lia.
    + intros s2 r H R. injection H as _ <-. destruct (Z.leb_spec 0 rest); cbn [andb]; [|lia]. destruct (Z.ltb_spec rest timeout); cbn [orb]; [lia|].
      destruct (Z.ltb_spec timeout 0); lia.
Qed.
Print Assumptions C85_timeout.

(** An alarm for ten seconds; the clock is set back by 1000 seconds after four. *)
Example C85_ex : let at_ s := {| sec := s; usec := 0 |} in
  exists s0 s1 s2, alarm (at_ 5000) 10000 create = Ok s0 /\ look_before create (at_ 5000) /\
    checks [at_ 5000; at_ 5004; at_ 4004; at_ 4007] s0 = Ok (s1, [10000; 6000; 6000; 3000]) /\
    passed (at_ 5000) [at_ 5000; at_ 5004; at_ 4004; at_ 4007] = 7000000 /\
    callbacks [at_ 4009; at_ 4010; at_ 4011] s1 = Ok (s2, [false; true; false]).
Proof.
  cbn zeta. do 3 eexists. split; [vm_compute; reflexivity|]. split; [unfold look_before, normal, sane, us; cbn; lia|].
  split; [vm_compute; reflexivity|]. split; vm_compute; reflexivity.
Qed.
