(** C82: an event that happens a number of times a day (WvDailyEvent). *)
From Verif Require Import Base TimeModel TimeSpec TimeProofs DailySpec DailyModel DailyProofs.
Local Open Scope Z_scope.

(** For a number of times that divides the day, next_event() is the first
    moment of the timetable after the last event, and with skip_first not
    before not_until.  It never fails. *)
Theorem C82_next : forall off e,
  0 <= first_hour e <= 23 -> 1 <= num_per_day e <= 86400 -> 100000 < prev e -> (num_per_day e | 86400) ->
  exists t, next_event off e = Ok t /\
    first_slot off (first_hour e) (num_per_day e) (prev e) (if skip_first e then not_until e else prev e) t.
Proof. intros off e H N P D. apply next_first; [split; [exact H|]; split; [exact N|exact P]|exact D]. Qed.
Print Assumptions C82_next.

(** For any number of times it is after the last event, and at most one
    interval after it unless the first is skipped. *)
Theorem C82_within : forall off e,
  0 <= first_hour e <= 23 -> 1 <= num_per_day e <= 86400 -> 100000 < prev e ->
  exists t, next_event off e = Ok t /\ prev e < t /\
    (skip_first e = true -> not_until e <= t) /\
    (skip_first e = false -> t <= prev e + 86400 / num_per_day e).
Proof. intros off e H N P. apply (next_exists off e). split; [exact H|]. split; [exact N|exact P]. Qed.
Print Assumptions C82_within.

(** configure(): never more than once a minute, a negative number is one a
    day, and counting begins now; with skip_first nothing happens for one
    interval, or for six hours if that is less. *)
Theorem C82_minute : forall now h n skip e,
  let e' := configure now h n skip e in
  0 <= num_per_day e' <= 1440 /\
  (n < 0 -> num_per_day e' = 1) /\ (0 <= n <= 1440 -> num_per_day e' = n) /\
  first_hour e' = h /\ skip_first e' = skip /\ prev e' = now /\
  (0 < num_per_day e' -> 60 <= 86400 / num_per_day e' /\
     not_until e' = now + Z.min (86400 / num_per_day e') 21600).
Proof.
  intros now h n skip e. unfold configure, set_num_per_day, day. cbv zeta. cbn [first_hour num_per_day need_reset skip_first prev not_until].
  set (a := if 24 * 60 <? n then 24 * 60 else n).
  set (b := if a <? 0 then 1 else a).
  assert (A : a <= 1440 /\ (n <= 1440 -> a = n)) by (unfold a; destruct (Z.ltb_spec (24 * 60) n); lia).
  assert (C : 0 <= b <= 1440 /\ (n < 0 -> b = 1) /\ (0 <= n <= 1440 -> b = n)) by (unfold b; destruct (Z.ltb_spec a 0); lia).
  clearbody b. assert (E : (if 86400 <? b then 86400 else b) = b) by (destruct (Z.ltb_spec 86400 b); lia).
  rewrite E.
  split; [lia|]. split; [tauto|]. split; [tauto|]. split; [reflexivity|]. split; [reflexivity|]. split; [reflexivity|].
  intros P. split; [apply Z.div_le_lower_bound; lia|]. destruct (Z.eqb_spec b 0); [lia|].
  rewrite Z.quot_div_nonneg by lia. f_equal. change (6 * 60 * 60) with 21600.
  destruct (Z.ltb_spec 21600 (86400 / b)); lia.
Qed.
Print Assumptions C82_minute.

(** From its creation, whatever the rounds of the main loop before that
    moment, the stream does not ring, and does not change; it rings in the
    round in which the moment passes.  Missing: the moment must pass between
    the two halves of a round, and only the first event is good
    (C82_stuck_refuted, C82_again_refuted). *)
Theorem C82_first_partial : forall off now h n skip,
  0 <= h <= 23 -> 1 <= n <= 1440 -> (n | 86400) -> 100000 < now <= 2 ^ 42 ->
  let e := create now h n skip in
  exists t, first_slot off h n now (if skip then now + Z.min (86400 / n) 21600 else now) t /\
    (t <= 2 ^ 43 -> forall l, Forall (early t) l ->
      rounds off l e = Ok (e, repeat false (length l)) /\
      forall s w, 0 <= s < t -> small (sec w) -> 0 <= usec w < 1000000 -> t * 1000000 < us w ->
        exists e', rounds off (l ++ [(s, w)]) e = Ok (e', repeat false (length l) ++ [true])).
Proof.
  intros off now h n skip H N D P e.
  destruct (C82_minute now h n skip (Event 0 0 false false now 0)) as (_ & _ & M2 & M3 & M4 & M5 & M6).
  fold (create now h n skip) in *. fold e in M2, M3, M4, M5, M6. specialize (M2 ltac:(lia)). rewrite M2 in M6. destruct (M6 ltac:(lia)) as [_ M7].
  destruct (C82_next off e) as (t & T & F); [lia|lia|lia|rewrite M2; exact D|].
  rewrite M2, M3, M4, M5, M7 in F. exists t. split; [exact F|]. destruct F as (_ & F & _).
  assert (R : need_reset e = false) by reflexivity. intros S l Q.
  assert (A : rounds off l e = Ok (e, repeat false (length l))).
  { apply (rounds_quiet off e t l); try assumption; unfold small; lia. }
  split; [exact A|]. intros s w L1 L2 L3 L4.
  assert (X : round off (s, w) e = Ok (set_prev (t * 1000000) e, true)).
  { apply (round_rings off e t (s, w)); cbn [fst snd]; try assumption; unfold small; lia. }
  clear Q. revert A. assert (G : forall l e0 e1 bs, rounds off l e0 = Ok (e1, bs) -> rounds off (l ++ [(s, w)]) e0 =
    (let! (e2, b) := round off (s, w) e1 in Ok (e2, bs ++ [b]))).
  { intros l0. induction l0 as [|r l0 IH]; cbn [rounds app]; intros e0 e1 bs A.
    - injection A as <- <-. destruct (round off (s, w) e0) as [[? ?]| |]; reflexivity.
    - destruct (round off r e0) as [[e2 b]| |]; cbn [bind] in *; try discriminate.
      destruct (rounds off l0 e2) as [[e3 bs']| |] eqn:E; cbn [bind] in *; try discriminate. injection A as <- <-.
      rewrite (IH e2 e3 bs' E). destruct (round off (s, w) e3) as [[? ?]| |]; reflexivity. }
  intros A. rewrite (G l e e _ A), X. cbn [bind]. eexists. reflexivity.
Qed.
Print Assumptions C82_first_partial.

(** After the event has rung like that the next round, at whatever time,
    overflows a signed integer: "prev = next" stores microseconds as seconds,
    and the next comparison multiplies by a million again. *)
Theorem C82_again_refuted : exists off e e' w,
  e = create 1700000000 22 24 false /\
  round off (1700002799, w) e = Ok (e', true) /\ sec w = 1700002801 /\
  forall r, 0 <= fst r <= 2 ^ 43 -> round off r e' = Fault.
Proof.
  exists 0, (create 1700000000 22 24 false), (set_prev 1700002800000000 (create 1700000000 22 24 false)), {| sec := 1700002801; usec := 0 |}.
  split; [reflexivity|]. split; [vm_compute; reflexivity|]. split; [reflexivity|].
  intros r A. set (e := set_prev _ _).
  assert (E : next_event 0 e = Ok 1700002800003600) by (vm_compute; reflexivity).
  unfold round, pre_select, post_select.
  change (num_per_day e =? 0) with false. cbv iota. rewrite E. cbn [bind].
  change ((prev e <=? 100000) || (1700002800003600 <=? 100000)) with false. cbv iota.
  destruct (Z.ltb_spec (fst r) 1700002800003600); [|lia].
  assert (M : exists m, msecdiff (of_ll (fst r)) (of_ll 1700002800003600) = Ok m).
  { change (of_ll 1700002800003600) with {| sec := 1700002800; usec := 3600 |}. unfold msecdiff, of_ll. cbn [sec usec].
    assert (- 2 ^ 43 <= Z.quot (fst r) 1000000 <= 2 ^ 43) by (Z.to_euclidean_division_equations; lia).
    assert (- 1000000 <= Z.rem (fst r) 1000000 <= 1000000) by (Z.to_euclidean_division_equations; lia).
    set (x := Z.quot (fst r) 1000000) in *. set (y := Z.rem (fst r) 1000000) in *.
    assert (- 2000 <= Z.quot (y - 3600) 1000 <= 2000) by (Z.to_euclidean_division_equations; lia).
    repeat (rewrite i64_ok by lia; cbn [bind]). eexists. reflexivity. }
  destruct M as [m M]. rewrite M. cbn [bind]. rewrite E. reflexivity.
Qed.
Print Assumptions C82_again_refuted.

(** If the main loop is late, so that a round begins after the moment, the
    stream rings in that round and in every later one, at whatever times:
    nothing ever clears the flag. *)
Theorem C82_stuck_refuted : exists off e e' w,
  e = create 1700000000 22 24 false /\ sec w = 1700002800 /\
  round off (1700002800, w) e = Ok (e', true) /\
  forall l e'' bs, rounds off l e' = Ok (e'', bs) -> bs = repeat true (length l).
Proof.
  exists 0, (create 1700000000 22 24 false), (set_prev 1700002800 (set_reset true (create 1700000000 22 24 false))), {| sec := 1700002800; usec := 5 |}.
  split; [reflexivity|]. split; [reflexivity|]. split; [vm_compute; reflexivity|].
  intros l e'' bs R. eapply rounds_stuck; [|exact R]. reflexivity.
Qed.
Print Assumptions C82_stuck_refuted.

(** A number of times that does not divide the day: seven times a day from 22
    o'clock has an eighth event, six seconds before the first of the next day's
    interval, at a moment that is on no day's timetable. *)
Theorem C82_uneven_refuted : exists off e t t',
  e = create 1700000000 22 7 false /\
  next_event off e = Ok t /\ ~ slot off 22 7 t /\
  next_event off (set_prev t e) = Ok t' /\ t' = t + 6.
Proof.
  exists 0, (create 1700000000 22 7 false), 1700011536, 1700011542. split; [reflexivity|].
  split; [vm_compute; reflexivity|]. split.
  - intros (d & k & K & E). unfold slot_of in E. change (86400 / 7) with 12342 in E.
    assert (C : k = 0 \/ k = 1 \/ k = 2 \/ k = 3 \/ k = 4 \/ k = 5 \/ k = 6) by lia.
    destruct C as [->|[->|[->|[->|[->|[->| ->]]]]]]; lia.
  - split; [vm_compute; reflexivity|reflexivity].
Qed.
Print Assumptions C82_uneven_refuted.

(** The time the loop may sleep: whenever the event is more than 2000 seconds
    away the stream asks to wait for ever, whatever the others asked for, and
    an event some minutes away makes the loop spin. *)
Theorem C82_timeout_refuted :
  (forall off e now t k, need_reset e = false -> num_per_day e <> 0 -> 100000 < prev e -> 100000 < t <= 2 ^ 43 ->
     next_event off e = Ok t -> 0 <= now <= t - 2000 ->
     exists m, pre_select off now k e = Ok (e, m) /\ m < 0) /\
  (exists off e now t, e = create 1700000000 22 144 false /\ next_event off e = Ok t /\ t - now = 400 /\
     pre_select off now 100 e = Ok (e, 0)).
Proof.
  split.
  - intros off e now t k R N P T E L. unfold pre_select. destruct (Z.eqb_spec (num_per_day e) 0); [contradiction|].
    rewrite E. cbn [bind]. destruct (Z.leb_spec (prev e) 100000); [lia|]. destruct (Z.leb_spec t 100000); [lia|]. cbn [orb].
    destruct (Z.ltb_spec now t); [|lia]. destruct (msecdiff_of_ll now t) as (m & M & X & _); [unfold small; lia|unfold small; lia|].
    rewrite M. cbn [bind]. rewrite R. exists m. split; [reflexivity|]. apply X. lia.
  - exists 0, (create 1700000000 22 144 false), 1700000000, 1700000400. split; [reflexivity|]. split; [vm_compute; reflexivity|].
    split; [reflexivity|vm_compute; reflexivity].
Qed.
Print Assumptions C82_timeout_refuted.

(** No number of times, which the header says is once a day, and the code
    calls disabled: the stream is always ready. *)
Theorem C82_disabled_refuted : forall off now h skip r,
  small (sec (snd r)) -> 0 <= usec (snd r) < 1000000 -> 0 < sec (snd r) ->
  exists e', round off r (create now h 0 skip) = Ok (e', true).
Proof.
  intros off now h skip r A C D. unfold round, pre_select, post_select.
  change (num_per_day (create now h 0 skip) =? 0) with true. cbn [bind].
  unfold next_event. change (num_per_day (create now h 0 skip) =? 0) with true. cbv iota. cbn [bind].
  rewrite time_lt_sec; [|unfold small; lia|exact A|exact C]. cbn [bind].
  destruct (Z.ltb_spec (0 * 1000000) (us (snd r))) as [L|L]; [|unfold us in L; lia].
  rewrite to_ll_sec by (unfold small; lia). cbn [bind]. rewrite orb_true_r. eexists. reflexivity.
Qed.
Print Assumptions C82_disabled_refuted.

(** Twice a day from 5 o'clock, in a zone two hours ahead: set up at 22:13:20
    UTC, the next event is at 03:00 UTC, and at 15:00 UTC with skip_first. *)
Example C82_ex :
  next_event 7200 (create 1700000000 5 2 false) = Ok 1700017200 /\ next_event 7200 (create 1700000000 5 2 true) = Ok 1700060400 /\
  first_slot 7200 5 2 1700000000 1700000000 1700017200 /\ (2 | 86400) /\
  (let e := create 1700000000 5 2 false in
   rounds 7200 [(1700000005, {| sec := 1700000006; usec := 0 |}); (1700017199, {| sec := 1700017200; usec := 0 |});
                (1700017199, {| sec := 1700017200; usec := 1 |})] e =
     Ok (set_prev 1700017200000000 e, [false; false; true])) /\
  Forall (early 1700017200) [(1700000005, {| sec := 1700000006; usec := 0 |}); (1700017199, {| sec := 1700017200; usec := 0 |})].
Proof.
  assert (D : (2 | 86400)) by (exists 43200; reflexivity).
  split; [vm_compute; reflexivity|]. split; [vm_compute; reflexivity|]. split.
  - destruct (C82_next 7200 (create 1700000000 5 2 false)) as (t & T & F); [vm_compute; split; discriminate|vm_compute; split; discriminate|reflexivity|exact D|].
    assert (X : next_event 7200 (create 1700000000 5 2 false) = Ok 1700017200) by (vm_compute; reflexivity).
    rewrite X in T. injection T as <-. exact F.
  - split; [exact D|]. split; [vm_compute; reflexivity|].
    repeat constructor; vm_compute; try discriminate; reflexivity.
Qed.
