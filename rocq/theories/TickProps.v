(** C86: a WvTimeStream ticks at the average rate it was set to. *)
From Verif Require Import Base TimeModel TimeSpec TimeProofs TimeProps AlarmSpec TickSpec TickModel TickProofs.
Local Open Scope Z_scope.

(** A timer set to [ms] milliseconds at [t] and looked at at the times [ts],
    with the clock set forward or back in between.  Unless somebody looks more
    than a hundred ticks late, it ticks as the ideal timer does; there have
    never been more ticks than there should have been, and when it has nothing
    more to catch up with there have been exactly as many. *)
Theorem C86_average : forall t ms ts, clock t -> Forall clock ts -> 0 < ms <= 2 ^ 30 ->
  let p := ms * 1000 in
  in_time p p (elapsed 0 t ts) ->
  exists s0 s bs, set_timer t ms = Ok s0 /\ rounds ts s0 = Ok (s, bs) /\
    bs = ticks p p (elapsed 0 t ts) /\
    p * count bs <= passed t ts /\
    (List.last bs true = false -> count bs = passed t ts / p).
Proof.
  intros t ms ts C F M p I. destruct (set_ok t ms C M) as (s0 & S0 & ST).
  destruct (rounds_ok ms ts M t 0 p s0) as (s & R); [replace (p - 0) with (ms * 1000) by (unfold p; lia); exact ST|unfold p; lia|unfold p; lia|exact F|exact I|].
  exists s0, s, (ticks p p (elapsed 0 t ts)). split; [exact S0|]. split; [exact R|]. split; [reflexivity|].
  destruct (ticks_count p ts ltac:(unfold p; lia) t 0 p ltac:(lia)) as (A & B & D). rewrite elapsed_passed in A, B, D.
  split; [lia|]. intros H. specialize (D H). apply Z.div_unique with (r := passed t ts - p * count (ticks p p (elapsed 0 t ts))); lia.
Qed.
Print Assumptions C86_average.

(** Each single tick: the timer that has [gap] microseconds left at time [t] ticks in
    the first round after they have passed, and not before; a tick that comes
    late does not put off the ones after it. *)
Theorem C86_tick : forall s u, clock (last s) -> normal (next s) -> clock u -> 0 < ms_per_tick s <= 2 ^ 30 ->
  let p := ms_per_tick s * 1000 in let gap := us (next s) - us (last s) in
  let gap' := gap - Z.max 0 (us u - us (last s)) in
  - (100 * p) <= gap' -> gap <= p ->
  exists s', round u s = Ok (s', gap' <=? 0) /\
    us (next s') - us u = (if gap' <=? 0 then gap' + p else gap').
Proof.
  intros s u C N CU M p gap gap' G1 G2.
  assert (S : st (last s) (ms_per_tick s) gap s).
  { unfold st. split; [reflexivity|]. split; [exact C|]. split; [reflexivity|]. split; [exact N|]. unfold gap in *. split; lia. }
  unfold round. destruct (pre_ok _ _ _ _ u (-1) S ltac:(lia) CU ltac:(lia) ltac:(lia)) as (s1 & m & P & S1 & _). fold gap' in S1.
  rewrite P. cbn [bind]. rewrite (post_ok _ _ _ _ S1) by lia. cbn [bind]. destruct (Z.leb_spec gap' 0) as [Q|Q].
  - destruct (execute_ok _ _ _ _ S1 M Q G1) as (s2 & E & S2). rewrite E. cbn [bind]. eexists. split; [reflexivity|].
    destruct S2 as (_ & _ & _ & _ & U & _). unfold p. lia.
  - eexists. split; [reflexivity|]. destruct S1 as (_ & _ & _ & _ & U & _). lia.
Qed.
Print Assumptions C86_tick.

(** Looked at more than 102 ticks late it ticks once, and starts again from there:
    the ticks that were missed never come. *)
Theorem C86_reset : forall s u, clock (last s) -> normal (next s) -> clock u -> 0 < ms_per_tick s <= 2 ^ 20 ->
  let p := ms_per_tick s * 1000 in let gap := us (next s) - us (last s) in
  let gap' := gap - Z.max 0 (us u - us (last s)) in
  - 2 ^ 40 <= gap' <= - (102 * p) -> gap <= p ->
  exists s', round u s = Ok (s', true) /\ last s' = u /\ us (next s') = us u + p.
Proof.
  intros s u C N CU M p gap gap' G1 G2.
  assert (S : st (last s) (ms_per_tick s) gap s).
  { unfold st. split; [reflexivity|]. split; [exact C|]. split; [reflexivity|]. split; [exact N|]. unfold gap in *. split; lia. }
  unfold round. destruct (pre_ok _ _ _ _ u (-1) S ltac:(lia) CU ltac:(lia) ltac:(lia)) as (s1 & m & P & S1 & _). fold gap' in S1.
  rewrite P. cbn [bind]. rewrite (post_ok _ _ _ _ S1) by lia. cbn [bind]. destruct (Z.leb_spec gap' 0) as [Q|Q]; [|lia].
  destruct (execute_reset _ _ _ _ S1 M G1) as (s2 & E & S2). rewrite E. cbn [bind]. eexists. split; [reflexivity|].
  destruct S2 as (L & _ & _ & _ & U & _). split; [exact L|]. exact U.
Qed.
Print Assumptions C86_reset.

(** The main loop waits no longer than the timer has left, or than another stream
    asked for, and does not wait if a tick is due. *)
Theorem C86_timeout : forall s u timeout, clock (last s) -> normal (next s) -> clock u -> 0 < ms_per_tick s <= 2 ^ 30 ->
  let p := ms_per_tick s * 1000 in let gap := us (next s) - us (last s) in
  let gap' := gap - Z.max 0 (us u - us (last s)) in
  - (100 * p) <= gap' -> gap <= p ->
  exists s' m, pre_select u timeout s = Ok (s', m) /\
    (gap' <= 0 -> m = 0) /\
    (0 < gap' -> 0 <= timeout -> 0 <= m <= timeout) /\
    (0 < gap' -> 0 <= m /\ 1000 * m < gap' + 1000).
Proof.
  intros s u timeout C N CU M p gap gap' G1 G2.
  assert (S : st (last s) (ms_per_tick s) gap s).
  { unfold st. split; [reflexivity|]. split; [exact C|]. split; [reflexivity|]. split; [exact N|]. unfold gap in *. split; lia. }
  destruct (pre_ok _ _ _ _ u timeout S ltac:(lia) CU ltac:(lia) ltac:(lia)) as (s1 & m & P & S1 & Q1 & Q2). fold gap' in S1, Q1, Q2.
  exists s1, m. split; [exact P|]. split; [exact Q1|]. split.
  - intros H T. destruct (Q2 H) as (d & D1 & D2 & ->). destruct (Z.ltb_spec timeout 0); lia.
  - intros H. destruct (Q2 H) as (d & D1 & D2 & ->). destruct (Z.ltb_spec timeout 0); lia.
Qed.
Print Assumptions C86_timeout.

(** Set to nothing or less, it does not tick and lets the others sleep. *)
Theorem C86_disabled : forall t ms, clock t -> ms <= 0 ->
  exists s0, set_timer t ms = Ok s0 /\
    (forall ts, rounds ts s0 = Ok (s0, repeat false (length ts))) /\
    (forall u timeout, pre_select u timeout s0 = Ok (s0, timeout)).
Proof.
  intros t ms C M. unfold set_timer. destruct (Z.ltb_spec 0 ms); [lia|].
  destruct (C43_msecadd t 0) as (n & A & _); [apply C|destruct C; lia|lia|]. rewrite A. cbn [bind]. eexists. split; [reflexivity|]. split.
  - induction ts as [|u ts IH]; [reflexivity|]. cbn [rounds]. unfold round at 1, pre_select, post_select. cbn [ms_per_tick Z.eqb bind].
    rewrite IH. reflexivity.
  - reflexivity.
Qed.
Print Assumptions C86_disabled.

(** If execute() is called for another reason than the timer (the stream was
    forced, or it is readable) the next tick is put off by a whole period all
    the same: the tick due at second 1001 does not come. *)
Theorem C86_other_refuted : let at_ s u := {| sec := s; usec := u |} in
  exists s0 s1 s2, set_timer (at_ 1000 0) 1000 = Ok s0 /\
    post_select (at_ 1000 500000) s0 = Ok false /\ execute (at_ 1000 500000) false s0 = Ok s1 /\
    rounds [at_ 1001 0; at_ 1001 999999; at_ 1002 0] s1 = Ok (s2, [false; false; true]) /\
    ticks 1000000 1000000 [1000000; 1999999; 2000000] = [true; false; true].
Proof. cbn zeta. do 3 eexists. repeat (split; [vm_compute; reflexivity|]). vm_compute. reflexivity. Qed.
Print Assumptions C86_other_refuted.

(** And so a stream that is called often enough for other reasons never ticks:
    the n-th such call leaves the next tick [n] periods away, up to eleven. *)
Theorem C86_starved_refuted : forall n, let at_ k := {| sec := 1000; usec := k |} in
  exists s0, set_timer (at_ 0) 1000 = Ok s0 /\
  exists s, Nat.iter n (fun r => let! s := r in execute (at_ 1) false s) (Ok s0) = Ok s /\ post_select (at_ 1) s = Ok false.
Proof.
  intros n at_. eexists. split; [vm_compute; reflexivity|].
  assert (G : forall k, exists s, Nat.iter k (fun r => let! s := r in execute (at_ 1) false s) (Ok (Ticker (at_ 0) {| sec := 1001; usec := 0 |} 1000)) = Ok s /\
    ms_per_tick s = 1000 /\ exists x y, next s = {| sec := x; usec := y |} /\ 1001 <= x <= 1010 /\ 0 <= y <= 1).
  { induction k as [|k (s & I & E & x & y & N & X & Y)]; [eexists; split; [reflexivity|]; split; [reflexivity|]; exists 1001, 0; split; [reflexivity|]; lia|].
    cbn [Nat.iter]. unfold Nat.iter in I |- *. cbn [nat_rect]. rewrite I. cbn [bind]. destruct s as [l n0 m]. cbn [ms_per_tick next] in E, N. subst m n0.
    assert (XX : x = 1001 \/ x = 1002 \/ x = 1003 \/ x = 1004 \/ x = 1005 \/ x = 1006 \/ x = 1007 \/ x = 1008 \/ x = 1009 \/ x = 1010) by lia.
    assert (YY : y = 0 \/ y = 1) by lia.
    repeat (destruct XX as [->|XX]); subst; destruct YY as [->| ->];
      (eexists; split; [unfold execute; vm_compute; reflexivity|]; cbn [ms_per_tick next]; split; [reflexivity|]; do 2 eexists; split; [reflexivity|]; lia). }
  destruct (G n) as (s & I & E & x & y & N & X & Y). exists s. split; [exact I|]. unfold post_select. rewrite E. cbn [Z.eqb].
  rewrite time_le_ok; [|rewrite N; unfold sane; cbn; lia|rewrite N; unfold normal; cbn; lia|unfold sane, at_; cbn; lia|unfold normal, at_; cbn; lia].
  f_equal. rewrite N. unfold us, at_. cbn [sec usec]. apply Z.leb_gt. lia.
Qed.
Print Assumptions C86_starved_refuted.

(** Ten times a second; the clock is set back by 100 seconds after a quarter of
    a second, and somebody sleeps through two ticks. *)
Example C86_ex : let at_ s m := {| sec := s; usec := m * 1000 |} in
  let ts := [at_ 5000 90; at_ 5000 100; at_ 5000 250; at_ 4900 250; at_ 4900 300; at_ 4900 650; at_ 4900 650; at_ 4900 650; at_ 4900 650] in
  Forall clock ts /\ in_time 100000 100000 (elapsed 0 (at_ 5000 0) ts) /\
  exists s0 s, set_timer (at_ 5000 0) 100 = Ok s0 /\ rounds ts s0 = Ok (s, [false; true; true; false; true; true; true; true; false]) /\
    passed (at_ 5000 0) ts = 650000.
Proof.
  cbn zeta. split; [repeat constructor; unfold clock, normal; cbn; lia|]. split; [cbn; lia|].
  do 2 eexists. split; [vm_compute; reflexivity|]. split; vm_compute; reflexivity.
Qed.
