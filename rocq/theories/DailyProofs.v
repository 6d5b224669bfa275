(** Proofs about WvDailyEvent. *)
From Verif Require Import Base TimeModel TimeSpec TimeProofs DailySpec DailyModel.
Local Open Scope Z_scope.

Lemma start_bound off h x p i : 0 <= h <= 23 -> 1 <= i -> x = p + i ->
  at_hour off h (if hour_of off x <? h then p - day + 1 else x) <= x.
Proof.
  intros H I ->. unfold at_hour, hour_of, day. destruct (Z.ltb_spec (((p + i + off) mod 86400) / 3600) h) as [L|L].
  - pose proof (Z.div_mod (p - 86400 + 1 + off) 86400 ltac:(lia)). pose proof (Z.mod_pos_bound (p - 86400 + 1 + off) 86400 ltac:(lia)). lia.
  - pose proof (Z.div_mod (p + i + off) 86400 ltac:(lia)). pose proof (Z.mod_pos_bound (p + i + off) 86400 ltac:(lia)).
    assert (h * 3600 <= (p + i + off) mod 86400); [|lia].
    pose proof (Z.mul_div_le ((p + i + off) mod 86400) 3600 ltac:(lia)). lia.
Qed.

(** The next event without the test for the first. *)
Definition raw_next (off : Z) (e : event) : Z :=
  let interval := day / num_per_day e in
  let x := prev e + interval in
  let start := at_hour off (first_hour e) (if hour_of off x <? first_hour e then prev e - day + 1 else x) in
  start + (x - start) / interval * interval.

Lemma interval_pos n : 1 <= n <= day -> 1 <= day / n.
Proof. intros H. apply Z.div_le_lower_bound; unfold day in *; lia. Qed.

Definition good (e : event) : Prop := 0 <= first_hour e <= 23 /\ 1 <= num_per_day e <= day /\ 100000 < prev e.

Lemma raw_bound off e : good e -> prev e < raw_next off e <= prev e + day / num_per_day e.
Proof.
  intros (H1 & H2 & H3). unfold raw_next. set (i := day / num_per_day e). pose proof (interval_pos _ H2) as I. fold i in I.
  cbn zeta. set (x := prev e + i). set (s := at_hour _ _ _).
  assert (s <= x) by (apply start_bound with (i := i); [exact H1|exact I|reflexivity]).
  pose proof (Z.div_mod (x - s) i ltac:(lia)). pose proof (Z.mod_pos_bound (x - s) i ltac:(lia)). lia.
Qed.

Lemma next_raw off e : good e ->
  next_event off e = if skip_first e then skip_loop (Z.to_nat (not_until e - raw_next off e)) (raw_next off e) (not_until e) (day / num_per_day e)
                     else Ok (raw_next off e).
Proof.
  intros G. pose proof (raw_bound off e G) as RB. destruct G as (H1 & H2 & H3). unfold next_event.
  destruct (Z.eqb_spec (num_per_day e) 0); [lia|]. destruct (Z.eqb_spec (prev e) 0); [lia|].
  rewrite (Z.quot_div_nonneg day (num_per_day e)) by (unfold day in *; lia).
  pose proof (interval_pos _ H2) as I. cbn zeta. unfold raw_next in *. cbn zeta in *.
  set (i := day / num_per_day e) in *. set (x := prev e + i) in *.
  assert (SB : at_hour off (first_hour e) (if hour_of off x <? first_hour e then prev e - day + 1 else x) <= x)
    by (apply start_bound with (i := i); [exact H1|exact I|reflexivity]).
  set (s := at_hour _ _ _) in *. rewrite Z.quot_div_nonneg, Z.rem_mod_nonneg by lia.
  assert (E : (if (x - s) mod i =? 0 then x else s + (x - s) / i * i) = s + (x - s) / i * i).
  { destruct (Z.eqb_spec ((x - s) mod i) 0) as [Z|Z]; [|reflexivity].
    pose proof (Z.div_mod (x - s) i ltac:(lia)). lia. }
  rewrite E. destruct (Z.leb_spec (s + (x - s) / i * i) 100000); [lia|]. reflexivity.
Qed.

Lemma skip_loop_ok i until n : 0 < i -> forall next, until - next <= Z.of_nat n ->
  exists m, 0 <= m /\ skip_loop n next until i = Ok (next + m * i) /\ until <= next + m * i /\
    (m = 0 \/ next + (m - 1) * i < until).
Proof.
  intros I. induction n as [|n IH]; intros next L; cbn [skip_loop]; destruct (Z.ltb_spec next until) as [Q|Q].
  - lia.
  - exists 0. repeat split; try lia. f_equal. lia.
  - destruct (IH (next + i)) as (m & M1 & M2 & M3 & M4); [lia|]. exists (m + 1). split; [lia|]. rewrite M2.
    split; [f_equal; lia|]. split; [lia|]. right. lia.
  - exists 0. repeat split; try lia. f_equal. lia.
Qed.

(** All events are on one grid if the interval divides the day. *)
Lemma slot_grid off h n t : 1 <= n -> (n | day) -> slot off h n t <-> (day / n | t - (h * 3600 - off)).
Proof.
  intros N [i D]. unfold day in *. assert (E : 86400 / n = i) by (rewrite D; apply Z.div_mul; lia).
  assert (P : 0 < i) by lia. unfold slot, slot_of. rewrite E. split.
  - intros (d & k & K & ->). exists (d * n + k). rewrite D. ring.
  - intros [q Q]. exists (q / n), (q mod n). split; [apply Z.mod_pos_bound; lia|].
    pose proof (Z.div_mod q n ltac:(lia)). rewrite D. nia.
Qed.

Lemma raw_grid off e : good e -> (num_per_day e | day) -> (day / num_per_day e | raw_next off e - (first_hour e * 3600 - off)).
Proof.
  intros (H1 & H2 & H3) D. unfold raw_next. cbn zeta. set (i := day / num_per_day e).
  assert (DD : (i | day)) by (destruct D as [j D]; unfold i; exists (num_per_day e); rewrite D at 1; rewrite D, Z.div_mul by lia; lia).
  set (s := at_hour _ _ _).
  assert (S : (i | s - (first_hour e * 3600 - off))).
  { unfold s, at_hour. match goal with |- (_ | ?a - _) => replace (a - (first_hour e * 3600 - off)) with (a - first_hour e * 3600 + off) by lia end.
    match goal with |- (_ | ?a * day + ?b - ?o - ?c + ?d) => replace (a * day + b - o - c + d) with (a * day) by lia end.
    apply Z.divide_mul_r. exact DD. }
  replace (s + (prev e + i - s) / i * i - (first_hour e * 3600 - off)) with
    ((s - (first_hour e * 3600 - off)) + (prev e + i - s) / i * i) by lia.
  apply Z.divide_add_r; [exact S|]. exists ((prev e + i - s) / i). reflexivity.
Qed.

Lemma grid_gap i a b c : 0 < i -> (i | a - c) -> (i | b - c) -> b < a -> b <= a - i.
Proof. intros I [x X] [y Y] L. assert (y < x) by nia. nia. Qed.

Lemma next_first off e : good e -> (num_per_day e | day) ->
  exists t, next_event off e = Ok t /\
    first_slot off (first_hour e) (num_per_day e) (prev e) (if skip_first e then not_until e else prev e) t.
Proof.
  intros G D. pose proof (raw_bound off e G) as RB. pose proof (raw_grid off e G D) as RG.
  rewrite (next_raw off e G). destruct G as (H1 & H2 & H3). pose proof (interval_pos _ H2) as I.
  set (i := day / num_per_day e) in *. set (r := raw_next off e) in *. set (c := first_hour e * 3600 - off) in *.
  assert (N1 : 1 <= num_per_day e) by lia.
  assert (R1 : forall t', (i | t' - c) -> prev e < t' -> r <= t').
  { intros t' T L. destruct (Z_lt_ge_dec t' r) as [Q|Q]; [|lia]. pose proof (grid_gap i r t' c ltac:(lia) RG T Q). lia. }
  destruct (skip_first e).
  - destruct (skip_loop_ok i (not_until e) (Z.to_nat (not_until e - r)) ltac:(lia) r) as (m & M1 & M2 & M3 & M4); [lia|].
    assert (MG : (i | r + m * i - c)).
    { replace (r + m * i - c) with ((r - c) + m * i) by lia. apply Z.divide_add_r; [exact RG|exists m; reflexivity]. }
    exists (r + m * i). split; [exact M2|]. unfold first_slot.
    split; [apply slot_grid; assumption|]. split; [nia|]. split; [exact M3|].
    intros t' S L F. apply slot_grid in S; [|exact N1|exact D]. fold i c in S.
    destruct (Z_lt_ge_dec t' (r + m * i)) as [Q|Q]; [|lia].
    pose proof (grid_gap i (r + m * i) t' c ltac:(lia) MG S Q).
    destruct M4 as [->|M4]; [pose proof (R1 t' S L)|]; lia.
  - exists r. split; [reflexivity|]. unfold first_slot. split; [apply slot_grid; assumption|].
    split; [lia|]. split; [lia|]. intros t' S L _. apply slot_grid in S; [|exact N1|exact D]. apply R1; assumption.
Qed.

Lemma next_exists off e : good e -> exists t, next_event off e = Ok t /\ prev e < t /\ (skip_first e = true -> not_until e <= t) /\
  (skip_first e = false -> t <= prev e + day / num_per_day e).
Proof.
  intros G. pose proof (raw_bound off e G) as RB. rewrite (next_raw off e G). destruct G as (H1 & H2 & H3).
  pose proof (interval_pos _ H2) as I. destruct (skip_first e).
  - destruct (skip_loop_ok (day / num_per_day e) (not_until e) (Z.to_nat (not_until e - raw_next off e)) ltac:(lia) (raw_next off e)) as (m & M1 & M2 & M3 & M4); [lia|].
    eexists. split; [exact M2|]. split; [nia|]. split; [auto|discriminate].
  - eexists. split; [reflexivity|]. split; [lia|]. split; [discriminate|]. intros _. lia.
Qed.

(** Conversions that are never out of range. *)
Lemma i64_ok z : - 2 ^ 63 <= z < 2 ^ 63 -> i64 z = Ok z.
Proof.
  intros H. unfold i64. destruct (Z.leb_spec (- 2 ^ 63) z); [|lia]. destruct (Z.ltb_spec z (2 ^ 63)); [reflexivity|lia].
Qed.

Lemma msecdiff_of_ll a b : small a -> small b -> exists m, msecdiff (of_ll a) (of_ll b) = Ok m /\ (b - a >= 2000 -> m < 0) /\ (0 <= b - a < 1000 -> a / 1000000 = b / 1000000 -> m = 0).
Proof.
  intros A C. unfold small in *. unfold msecdiff, of_ll. cbn [sec usec].
  rewrite !Z.quot_div_nonneg, !Z.rem_mod_nonneg by lia.
  pose proof (Z.div_mod a 1000000 ltac:(lia)). pose proof (Z.mod_pos_bound a 1000000 ltac:(lia)).
  pose proof (Z.div_mod b 1000000 ltac:(lia)). pose proof (Z.mod_pos_bound b 1000000 ltac:(lia)).
  set (s := a / 1000000) in *. set (t := b / 1000000) in *. set (u := a mod 1000000) in *. set (v := b mod 1000000) in *.
  assert (-(2 ^ 43) <= s - t <= 2 ^ 43) by lia.
  rewrite i64_ok by lia. cbn [bind]. rewrite i64_ok by lia. cbn [bind]. rewrite i64_ok by lia. cbn [bind].
  assert (Q : -1000 < Z.quot (u - v) 1000 < 1000) by (Z.to_euclidean_division_equations; lia).
  rewrite i64_ok by lia. cbn [bind]. eexists. split; [reflexivity|]. unfold int_max, int_min. split.
  - intros L. assert (M : (s - t) * 1000 + Z.quot (u - v) 1000 < 0).
    { destruct (Z.eq_dec s t) as [E|E]; [|lia]. assert (u - v <= -2000) by lia.
      assert (Z.quot (u - v) 1000 <= -2) by (Z.to_euclidean_division_equations; lia). lia. }
    destruct (Z.ltb_spec (2 ^ 31 - 1) ((s - t) * 1000 + Z.quot (u - v) 1000)); [lia|].
    destruct (Z.ltb_spec ((s - t) * 1000 + Z.quot (u - v) 1000) (- 2 ^ 31)); lia.
  - intros L E. assert (Z.quot (u - v) 1000 = 0) by (Z.to_euclidean_division_equations; lia).
    replace ((s - t) * 1000 + Z.quot (u - v) 1000) with 0 by lia. reflexivity.
Qed.

Lemma to_ll_sec t : small t -> to_ll {| sec := t; usec := 0 |} = Ok (t * 1000000).
Proof. intros A. unfold small in A. unfold to_ll. cbn [sec usec]. rewrite i64_ok by lia. cbn [bind]. rewrite i64_ok by lia. f_equal. lia. Qed.

Lemma to_ll_us w : small (sec w) -> 0 <= usec w < 1000000 -> to_ll w = Ok (us w).
Proof. intros A C. unfold small in A. unfold to_ll, us. rewrite i64_ok by lia. cbn [bind]. rewrite i64_ok by lia. reflexivity. Qed.

Lemma time_lt_sec t w : small t -> small (sec w) -> 0 <= usec w < 1000000 ->
  time_lt {| sec := t; usec := 0 |} w = Ok (t * 1000000 <? us w).
Proof. intros A C D. unfold time_lt. rewrite (to_ll_sec t A), (to_ll_us w C D). reflexivity. Qed.

(** Nothing happens before the time. *)
Lemma pre_quiet off e t now k : need_reset e = false -> num_per_day e <> 0 -> 100000 < prev e -> 100000 < t -> small t ->
  next_event off e = Ok t -> small now -> now < t -> exists m, pre_select off now k e = Ok (e, m).
Proof.
  intros R N P T ST E SN L. unfold pre_select. destruct (Z.eqb_spec (num_per_day e) 0); [contradiction|].
  rewrite E. cbn [bind]. destruct (Z.leb_spec (prev e) 100000); [lia|]. destruct (Z.leb_spec t 100000); [lia|]. cbn [orb].
  destruct (Z.ltb_spec now t); [|lia]. destruct (msecdiff_of_ll now t SN ST) as (m & M & _). rewrite M. cbn [bind].
  rewrite R. eexists. reflexivity.
Qed.

Lemma round_quiet off e t r : need_reset e = false -> num_per_day e <> 0 -> 100000 < prev e -> 100000 < t -> small t ->
  next_event off e = Ok t -> early t r -> round off r e = Ok (e, false).
Proof.
  intros R N P T ST E (L1 & L2 & L3 & L4 & L5). unfold round.
  destruct (pre_quiet off e t (fst r) (-1) R N P T ST E L1 L4) as (m & M). rewrite M. cbn [bind].
  unfold post_select. rewrite E. cbn [bind]. rewrite (time_lt_sec t (snd r) ST L2 L3). cbn [bind].
  destruct (Z.ltb_spec (t * 1000000) (us (snd r))); [lia|]. cbn [bind]. rewrite R. reflexivity.
Qed.

Lemma rounds_quiet off e t l : need_reset e = false -> num_per_day e <> 0 -> 100000 < prev e -> 100000 < t -> small t ->
  next_event off e = Ok t -> Forall (early t) l -> rounds off l e = Ok (e, repeat false (length l)).
Proof.
  intros R N P T ST E F. induction F as [|r l A F IH]; [reflexivity|]. cbn [rounds].
  rewrite (round_quiet off e t r R N P T ST E A). cbn [bind]. rewrite IH. reflexivity.
Qed.

Lemma round_rings off e t r : need_reset e = false -> num_per_day e <> 0 -> 100000 < prev e -> 100000 < t -> small t ->
  next_event off e = Ok t -> small (fst r) -> fst r < t -> small (sec (snd r)) -> 0 <= usec (snd r) < 1000000 ->
  t * 1000000 < us (snd r) -> round off r e = Ok (set_prev (t * 1000000) e, true).
Proof.
  intros R N P T ST E L1 L4 L2 L3 L5. unfold round.
  destruct (pre_quiet off e t (fst r) (-1) R N P T ST E L1 L4) as (m & M). rewrite M. cbn [bind].
  unfold post_select. rewrite E. cbn [bind]. rewrite (time_lt_sec t (snd r) ST L2 L3). cbn [bind].
  destruct (Z.ltb_spec (t * 1000000) (us (snd r))); [|lia]. rewrite (to_ll_sec t ST). cbn [bind].
  rewrite orb_true_r. reflexivity.
Qed.

(** Once need_reset is set it stays. *)
Lemma post_stuck off e w e' b : need_reset e = true -> post_select off w e = Ok (e', b) -> b = true /\ need_reset e' = true.
Proof.
  intros R X. unfold post_select in X.
  destruct (next_event off e) as [t| |] eqn:E; cbn [bind] in X; try discriminate.
  destruct (time_lt _ _) as [b1| |]; cbn [bind] in X; try discriminate. destruct b1; cbn [bind] in X.
  - destruct (to_ll _) as [p| |]; cbn [bind] in X; try discriminate. injection X as <- <-. cbn. rewrite R. auto.
  - injection X as <- <-. rewrite R. auto.
Qed.

Lemma pre_stuck off now k e e' m : need_reset e = true -> pre_select off now k e = Ok (e', m) -> e' = e.
Proof.
  intros R X. unfold pre_select in X. destruct (num_per_day e =? 0); cbn [bind] in X; [injection X as <- _; reflexivity|].
  destruct (next_event off e) as [t| |] eqn:E; cbn [bind] in X; try discriminate.
  destruct (_ || _); cbn [bind] in X; try discriminate. destruct (now <? t).
  - destruct (msecdiff _ _) as [q| |]; cbn [bind] in X; try discriminate. injection X as <- _. reflexivity.
  - rewrite R in X. cbn [bind] in X. injection X as <- _. reflexivity.
Qed.

Lemma round_stuck off e r e' b : need_reset e = true -> round off r e = Ok (e', b) -> b = true /\ need_reset e' = true.
Proof.
  intros R H. unfold round in H. destruct (pre_select off (fst r) (-1) e) as [[e1 m]| |] eqn:E; cbn [bind] in H; try discriminate.
  apply pre_stuck in E; [|exact R]. subst e1. exact (post_stuck _ _ _ _ _ R H).
Qed.

Lemma rounds_stuck off l : forall e e' bs, need_reset e = true -> rounds off l e = Ok (e', bs) -> bs = repeat true (length l).
Proof.
  induction l as [|r l IH]; cbn [rounds]; intros e e' bs R H; [injection H as <- <-; reflexivity|].
  destruct (round off r e) as [[e1 b]| |] eqn:E; cbn [bind] in H; try discriminate.
  destruct (round_stuck off e r e1 b R E) as [-> R1].
  destruct (rounds off l e1) as [[e2 bs']| |] eqn:E2; cbn [bind] in H; try discriminate.
  injection H as <- <-. rewrite (IH e1 e2 bs' R1 E2). reflexivity.
Qed.
