(** The calendar of urlget/ftpparse.cc against the Gregorian one. *)
From Verif Require Import Base FtpModel FtpSpec.
Local Open Scope Z_scope.
Local Open Scope list_scope.

Lemma lng_ok z : - 2 ^ 63 <= z < 2 ^ 63 -> lng z = Ret z.
Proof.
  intros H. unfold lng.
  replace (- 2 ^ 63 <=? z) with true by (symmetry; apply Z.leb_le; lia).
  replace (z <? 2 ^ 63) with true by (symmetry; apply Z.ltb_lt; lia).
  reflexivity.
Qed.

Definition D (y : Z) : Z := 365 * y + (y + 3) / 4 - (y + 99) / 100 + (y + 399) / 400.

Lemma ylen_eq y : ylen y = if leap y then 366 else 365.
Proof. unfold ylen, sum, mlen. cbn. destruct (leap y); reflexivity. Qed.

Lemma sum_D n : sum ylen n = D (Z.of_nat n).
Proof.
  induction n as [|n IH]; [reflexivity|].
  cbn [sum]. rewrite IH, ylen_eq. unfold D, leap.
  rewrite Nat2Z.inj_succ. set (y := Z.of_nat n). assert (0 <= y) by lia. clearbody y.
  destruct (Z.eqb_spec (y mod 4) 0), (Z.eqb_spec (y mod 100) 0), (Z.eqb_spec (y mod 400) 0);
    cbn [andb orb negb]; Z.to_euclidean_division_equations; lia.
Qed.

Lemma sum_m y m : 0 <= m < 12 ->
  sum (mlen y) (Z.to_nat m) =
    (if m <? 2 then 31 * m else (306 * (m - 2) + 5) / 10 + 59 + (if leap y then 1 else 0)).
Proof.
  intros H.
  assert (E : m = 0 \/ m = 1 \/ m = 2 \/ m = 3 \/ m = 4 \/ m = 5 \/ m = 6 \/ m = 7 \/
              m = 8 \/ m = 9 \/ m = 10 \/ m = 11) by lia.
  repeat (destruct E as [->|E]; [unfold sum, mlen; cbn; destruct (leap y); reflexivity|]).
  subst; unfold sum, mlen; cbn; destruct (leap y); reflexivity.
Qed.

(** Days from March 1st, year 0, the way the code splits them. *)
Definition march (Y r : Z) : Z := 365 * Y + Y / 4 - Y / 100 + Y / 400 + r.

Lemma daynum_march y m d : 1 <= y -> 0 <= m < 12 ->
  daynum y m d =
  march (if 2 <=? m then y else y - 1)
        ((306 * (if 2 <=? m then m - 2 else m + 10) + 5) / 10 + (d - 1)) + 60.
Proof.
  intros Hy Hm. unfold daynum, march. rewrite sum_D, sum_m by lia.
  rewrite Z2Nat.id by lia. unfold D.
  destruct (Z.ltb_spec m 2), (Z.leb_spec 2 m); try lia.
  - assert (E : m = 0 \/ m = 1) by lia. destruct E as [-> | ->];
      [change ((306 * (0 + 10) + 5) / 10) with 306|change ((306 * (1 + 10) + 5) / 10) with 337];
      clear; Z.to_euclidean_division_equations; lia.
  - unfold leap.
    destruct (Z.eqb_spec (y mod 4) 0), (Z.eqb_spec (y mod 100) 0), (Z.eqb_spec (y mod 400) 0);
      cbn [andb orb negb]; set (q := (306 * (m - 2) + 5) / 10); clearbody q;
      Z.to_euclidean_division_equations; lia.
Qed.

(** The day of the year that begins in March. *)
Lemma march_day y m d : date y m d ->
  let r := (306 * (if 2 <=? m then m - 2 else m + 10) + 5) / 10 + (d - 1) in
  0 <= r <= 365 /\
  (r = 365 -> m = 1 /\ d = 29 /\ leap y = true).
Proof.
  intros (Hy & Hm & Hd). unfold mlen in Hd.
  assert (E : m = 0 \/ m = 1 \/ m = 2 \/ m = 3 \/ m = 4 \/ m = 5 \/ m = 6 \/ m = 7 \/
              m = 8 \/ m = 9 \/ m = 10 \/ m = 11) by lia.
  repeat match goal with H : _ \/ _ |- _ => destruct H as [->|H] end; subst;
    cbv zeta;
    match goal with |- context [(306 * ?x + 5) / 10] =>
      let e := constr:((306 * x + 5) / 10) in
      let v := eval vm_compute in e in change e with v end;
    cbn [Z.eqb Pos.eqb orb] in Hd; destruct (leap y);
    (split; [lia|intros E; first [exfalso; lia|repeat split; lia]]).
Qed.

Ltac ok := rewrite lng_ok by lia; cbn [obind].

Lemma quot_pos a b : 0 <= a -> 0 < b -> Z.quot a b = a / b.
Proof. intros. apply Z.quot_div_nonneg; lia. Qed.
Lemma rem_pos a b : 0 <= a -> 0 < b -> Z.rem a b = a mod b.
Proof. intros. apply Z.rem_mod_nonneg; lia. Qed.

(** The heart of totai(), once the month is out of the way. *)
Lemma totai_march y m d : date y m d -> y <= 10 ^ 10 ->
  totai y m d =
  Ret ((march (if 2 <=? m then y else y - 1)
        ((306 * (if 2 <=? m then m - 2 else m + 10) + 5) / 10 + (d - 1)) - 719468) * 86400).
Proof.
  intros Hd Hy. pose proof (march_day _ _ _ Hd) as Hr. destruct Hd as (H1 & Hm & Hd).
  cbv zeta in Hr.
  set (M := if 2 <=? m then m - 2 else m + 10) in *.
  set (Y := if 2 <=? m then y else y - 1) in *.
  assert (HM : 0 <= M < 12) by (unfold M; destruct (Z.leb_spec 2 m); lia).
  assert (HY : 0 <= Y <= 10 ^ 10) by (unfold Y; destruct (Z.leb_spec 2 m); lia).
  assert (Hd31 : 1 <= d <= 31).
  { unfold mlen in Hd. destruct (m =? 1); [destruct (leap y); lia|].
    destruct ((m =? 3) || (m =? 5) || (m =? 8) || (m =? 10)); lia. }
  set (r := (306 * M + 5) / 10 + (d - 1)) in *.
  assert (Hleap : r = 365 -> Y mod 4 = 3 /\ (Y mod 100 = 99 -> Y mod 400 = 399)).
  { intros E. apply (proj2 Hr) in E. destruct E as (-> & -> & L). unfold Y. cbn [Z.leb Z.compare].
    change (2 <=? 1) with false. cbv iota. unfold leap in L.
    destruct (Z.eqb_spec (y mod 4) 0), (Z.eqb_spec (y mod 100) 0), (Z.eqb_spec (y mod 400) 0);
      cbn [andb orb negb] in L; try discriminate;
      clear HM HY Hr Hd31; clear Y M r Hd Hy; Z.to_euclidean_division_equations; lia. }
  destruct Hr as [Hr _].
  unfold totai.
  replace (if 2 <=? m then do! m0 := lng (m - 2) in Ret (y, m0)
     else do! m0 := lng (m + 10) in do! y0 := lng (y - 1) in Ret (y0, m0))
    with (Ret (Y, M)).
  2: { unfold Y, M. destruct (Z.leb_spec 2 m); [ok|ok; ok]; reflexivity. }
  cbn [obind].
  do 5 ok.
  replace (Z.quot ((d - 1) * 10 + 5 + 306 * M) 10) with r.
  2: { rewrite quot_pos by lia. unfold r. clear. Z.to_euclidean_division_equations; lia. }
  clearbody r M Y. clear - HY Hr Hleap.
  cbv zeta. unfold march.
  destruct (Z.eqb_spec r 365) as [E|E].
  - destruct (Hleap E) as [L1 L2]. ok.
    assert (0 <= Y - 3) by (clear - L1 HY; Z.to_euclidean_division_equations; lia).
    assert (Eq : Y = 4 * (Y / 4) + 3) by (clear - L1 HY; Z.to_euclidean_division_equations; lia).
    rewrite (quot_pos (Y - 3) 4) by lia.
    replace ((Y - 3) / 4) with (Y / 4) by (clear - Eq L1; Z.to_euclidean_division_equations; lia).
    assert (0 <= Y / 4 <= 10 ^ 10) by (clear - HY; Z.to_euclidean_division_equations; lia).
    rewrite (rem_pos (Y / 4) 25), (quot_pos (Y / 4) 25) by lia.
    replace (Y / 4 / 25) with (Y / 100) by (rewrite Z.div_div by lia; reflexivity).
    assert (0 <= Y / 100 <= 10 ^ 10) by (clear - HY; Z.to_euclidean_division_equations; lia).
    pose proof (Z.mod_pos_bound (Y / 4) 25 ltac:(lia)).
    ok.
    destruct (Z.eqb_spec (1460 + 1461 * ((Y / 4) mod 25)) 36524) as [F|F].
    + assert (L3 : Y mod 100 = 99) by (clear - F Eq; Z.to_euclidean_division_equations; lia).
      specialize (L2 L3).
      assert (E4 : Y / 100 = 4 * (Y / 400) + 3) by (clear - L2; Z.to_euclidean_division_equations; lia).
      assert (0 <= Y / 400 <= 10 ^ 8) by (clear - HY; Z.to_euclidean_division_equations; lia).
      ok. rewrite (quot_pos (Y / 100 - 3) 4) by lia.
      replace ((Y / 100 - 3) / 4) with (Y / 400) by (clear - E4; Z.to_euclidean_division_equations; lia).
      do 5 ok. f_equal. clear - E L2 E4 Eq. Z.to_euclidean_division_equations; lia.
    + rewrite (rem_pos (Y / 100) 4) by lia.
      pose proof (Z.mod_pos_bound (Y / 100) 4 ltac:(lia)).
      ok. rewrite (quot_pos (Y / 100) 4) by lia.
      replace (Y / 100 / 4) with (Y / 400) by (rewrite Z.div_div by lia; reflexivity).
      assert (0 <= Y / 400 <= 10 ^ 8) by (clear - HY; Z.to_euclidean_division_equations; lia).
      do 5 ok. f_equal. clear - E Eq. Z.to_euclidean_division_equations; lia.
  - rewrite (rem_pos Y 4) by lia.
    pose proof (Z.mod_pos_bound Y 4 ltac:(lia)). ok. rewrite (quot_pos Y 4) by lia.
    assert (0 <= Y / 4 <= 10 ^ 10) by (clear - HY; Z.to_euclidean_division_equations; lia).
    rewrite (rem_pos (Y / 4) 25), (quot_pos (Y / 4) 25) by lia.
    replace (Y / 4 / 25) with (Y / 100) by (rewrite Z.div_div by lia; reflexivity).
    assert (0 <= Y / 100 <= 10 ^ 10) by (clear - HY; Z.to_euclidean_division_equations; lia).
    pose proof (Z.mod_pos_bound (Y / 4) 25 ltac:(lia)).
    ok.
    destruct (Z.eqb_spec (r + 365 * (Y mod 4) + 1461 * ((Y / 4) mod 25)) 36524) as [F|F].
    + exfalso. lia.
    + rewrite (rem_pos (Y / 100) 4) by lia.
      pose proof (Z.mod_pos_bound (Y / 100) 4 ltac:(lia)).
      ok. rewrite (quot_pos (Y / 100) 4) by lia.
      replace (Y / 100 / 4) with (Y / 400) by (rewrite Z.div_div by lia; reflexivity).
      assert (0 <= Y / 400 <= 10 ^ 8) by (clear - HY; Z.to_euclidean_division_equations; lia).
      do 5 ok. f_equal. clear. Z.to_euclidean_division_equations; lia.
Qed.

Lemma daynum_1970 : daynum 1970 0 1 = 719528.
Proof. rewrite daynum_march by lia. reflexivity. Qed.

(** totai() counts days as the calendar does. *)
Lemma totai_unixtime y m d : date y m d -> y <= 10 ^ 10 ->
  totai y m d = Ret (unixtime y m d).
Proof.
  intros H Hy. rewrite totai_march by auto. f_equal. unfold unixtime.
  destruct H as (H1 & H2 & H3). rewrite daynum_1970, (daynum_march y m d) by lia. ring.
Qed.

Lemma base_0 : initbase = Ret 0.
Proof. vm_compute. reflexivity. Qed.

(** yearof() undoes it. *)
Lemma yearof_march Y r s : 0 <= Y -> 0 <= r <= 365 -> 0 <= s < 86400 ->
  (r = 365 -> Y mod 4 = 3 /\ (Y mod 100 = 99 -> Y mod 400 = 399)) ->
  yearof ((march Y r - 719468) * 86400 + s) = if 306 <=? r then Y + 1 else Y.
Proof.
  intros HY Hr Hs Hl.
  set (a := Y / 400). set (b := (Y mod 400) / 100). set (c := (Y mod 100) / 4). set (e := Y mod 4).
  assert (EY : Y = 400 * a + 100 * b + 4 * c + e).
  { unfold a, b, c, e. clear. Z.to_euclidean_division_equations; lia. }
  assert (Ha : 0 <= a) by (unfold a; apply Z.div_pos; lia).
  assert (Hb : 0 <= b < 4) by (unfold b; clear - HY; Z.to_euclidean_division_equations; lia).
  assert (Hc : 0 <= c < 25) by (unfold c; clear - HY; Z.to_euclidean_division_equations; lia).
  assert (He : 0 <= e < 4) by (unfold e; clear - HY; Z.to_euclidean_division_equations; lia).
  assert (Hl' : r = 365 -> e = 3 /\ (c = 24 -> b = 3)).
  { intros E. destruct (Hl E) as [L1 L2]. split; [exact L1|]. intros Ec.
    assert (Y mod 100 = 99) as L3.
    { clear - EY Ec L1 e HY Hb Ha. fold e in L1. rewrite EY, Ec, L1.
      Z.to_euclidean_division_equations; lia. }
    specialize (L2 L3). unfold b. rewrite L2. reflexivity. }
  assert (EN : march Y r = 146097 * a + 36524 * b + 1461 * c + 365 * e + r).
  { unfold march.
    replace (Y / 4) with (100 * a + 25 * b + c) by (clear - EY He; Z.to_euclidean_division_equations; lia).
    replace (Y / 100) with (4 * a + b) by (clear - EY He Hc; Z.to_euclidean_division_equations; lia).
    replace (Y / 400) with a by reflexivity. lia. }
  rewrite EN. clear EN Hl. clearbody a b c e.
  set (N := 36524 * b + 1461 * c + 365 * e + r).
  replace (146097 * a + 36524 * b + 1461 * c + 365 * e + r) with (146097 * a + N) by (unfold N; lia).
  assert (HN : 0 <= N <= 146096) by (unfold N; lia).
  unfold yearof. cbv zeta.
  set (day := if Z.rem _ 86400 <? 0 then _ else _).
  assert (Ed : day = 146097 * a + N - 719468).
  { unfold day. clear - Hs Ha HN.
    destruct (Z.ltb_spec (Z.rem ((146097 * a + N - 719468) * 86400 + s) 86400) 0);
      Z.to_euclidean_division_equations; lia. }
  rewrite Ed. clear day Ed.
  replace (146097 * a + N - 719468 - 11017) with (146097 * (a - 5) + N) by lia.
  set (p := if Z.rem _ 146097 <? 0 then _ else _).
  assert (Ep : p = (N, a)).
  { unfold p. clear - Ha HN.
    destruct (Z.ltb_spec (Z.rem (146097 * (a - 5) + N) 146097) 0);
      f_equal; Z.to_euclidean_division_equations; lia. }
  rewrite Ep. clear p Ep.
  set (p := if N =? 146096 then _ else _).
  set (N2 := 1461 * c + 365 * e + r).
  assert (Ep : p = (4 * a + b, N2)).
  { unfold p. destruct (Z.eqb_spec N 146096) as [E|E].
    - assert (r = 365) by (unfold N in E; lia). destruct (Hl' H) as [He3 Hc3].
      assert (c = 24) by (unfold N in E; lia). specialize (Hc3 H0). subst. f_equal; unfold N2; lia.
    - rewrite quot_pos, rem_pos by lia.
      assert (0 <= N2 < 36524).
      { unfold N2, N in *. destruct (Z.eq_dec r 365) as [E'|E']; [|lia].
        destruct (Hl' E') as [He3 Hc3]. destruct (Z.eq_dec c 24); [|lia].
        specialize (Hc3 e0). lia. }
      assert (N = 36524 * b + N2) by (unfold N, N2; lia).
      f_equal; clear - H H0; Z.to_euclidean_division_equations; lia. }
  rewrite Ep. clear p Ep. clear N HN.
  assert (HN2 : 0 <= N2) by (unfold N2; lia).
  rewrite (quot_pos N2), (rem_pos N2) by lia.
  set (N3 := 365 * e + r).
  assert (HN3 : 0 <= N3 <= 1460) by (unfold N3; lia).
  replace (N2 / 1461) with c by (unfold N2; fold N3; clear - HN3 N2; Z.to_euclidean_division_equations; unfold N3 in *; lia).
  replace (N2 mod 1461) with N3 by (unfold N2; fold N3; clear - HN3 N2; Z.to_euclidean_division_equations; unfold N3 in *; lia).
  set (p := if N3 =? 1460 then _ else _).
  assert (Ep : p = (4 * (25 * (4 * a + b) + c) + e, r)).
  { unfold p. destruct (Z.eqb_spec N3 1460) as [E|E].
    - f_equal; unfold N3 in E; lia.
    - rewrite quot_pos, rem_pos by lia.
      assert (0 <= r < 365).
      { destruct (Z.eq_dec r 365) as [E'|E']; [|lia]. destruct (Hl' E'). unfold N3 in E. lia. }
      f_equal; unfold N3; clear - H; Z.to_euclidean_division_equations; lia. }
  rewrite Ep. clear p Ep. rewrite quot_pos by lia.
  replace (4 * (25 * (4 * a + b) + c) + e) with Y by lia.
  destruct (Z.leb_spec 10 ((r * 10 + 5) / 306)), (Z.leb_spec 306 r); try reflexivity;
    exfalso; Z.to_euclidean_division_equations; lia.
Qed.

Lemma yearof_date y m d s : date y m d -> 0 <= s < 86400 ->
  yearof (unixtime y m d + s) = y.
Proof.
  intros Hd Hs. pose proof (march_day _ _ _ Hd) as [Hr Hr']. destruct Hd as (H1 & Hm & Hd).
  unfold unixtime. rewrite daynum_1970, daynum_march by lia.
  set (r := (306 * (if 2 <=? m then m - 2 else m + 10) + 5) / 10 + (d - 1)) in *.
  set (Y := if 2 <=? m then y else y - 1).
  replace (86400 * (march Y r + 60 - 719528)) with ((march Y r - 719468) * 86400) by lia.
  rewrite yearof_march; auto.
  - unfold Y, r. assert (Hd31 : 1 <= d <= 31).
    { unfold mlen in Hd. destruct (m =? 1); [destruct (leap y); lia|].
      destruct ((m =? 3) || (m =? 5) || (m =? 8) || (m =? 10)); lia. }
    destruct (Z.leb_spec 2 m).
    + destruct (Z.leb_spec 306 ((306 * (m - 2) + 5) / 10 + (d - 1))); [|lia].
      exfalso. assert (E : (306 * (m - 2) + 5) / 10 + (d - 1) <= 305); [|lia].
      clear H0. unfold mlen in Hd.
      assert (E : m = 2 \/ m = 3 \/ m = 4 \/ m = 5 \/ m = 6 \/ m = 7 \/
              m = 8 \/ m = 9 \/ m = 10 \/ m = 11) by lia.
      clear r Hr Hr' Y.
      repeat match goal with H : _ \/ _ |- _ => destruct H as [->|H] end; subst;
        match goal with |- context [(306 * ?x + 5) / 10] =>
          let e := constr:((306 * x + 5) / 10) in
          let v := eval vm_compute in e in change e with v end; 
        cbn [Z.eqb Pos.eqb orb] in Hd; lia.
    + destruct (Z.leb_spec 306 ((306 * (m + 10) + 5) / 10 + (d - 1))); [lia|].
      exfalso. clear r Hr Hr' Y. Z.to_euclidean_division_equations; lia.
  - unfold Y. destruct (Z.leb_spec 2 m); lia.
  - intros E. apply Hr' in E. destruct E as (-> & -> & L). unfold Y.
    change (2 <=? 1) with false. cbv iota. unfold leap in L. clear r Hr Hr' Y.
    destruct (Z.eqb_spec (y mod 4) 0), (Z.eqb_spec (y mod 100) 0), (Z.eqb_spec (y mod 400) 0);
      cbn [andb orb negb] in L; try discriminate;
      Z.to_euclidean_division_equations; lia.
Qed.

(** ** Guessing the year *)

Lemma mlen_pos y m : 28 <= mlen y m <= 31.
Proof.
  unfold mlen. destruct (m =? 1); [destruct (leap y); lia|].
  destruct ((m =? 3) || (m =? 5) || (m =? 8) || (m =? 10)); lia.
Qed.

Lemma sum_mono f n k : (forall z, 0 <= f z) -> (n <= k)%nat -> sum f n <= sum f k.
Proof.
  intros Hf H. induction H; [lia|]. cbn [sum]. specialize (Hf (Z.of_nat m)). lia.
Qed.

(** A date lies in its year. *)
Lemma in_year y m d : date y m d ->
  daynum y 0 1 <= daynum y m d < daynum (y + 1) 0 1.
Proof.
  intros (Hy & Hm & Hd). unfold daynum.
  replace (Z.to_nat (y + 1)) with (S (Z.to_nat y)) by lia.
  change (Z.to_nat 0) with 0%nat. cbn [sum].
  rewrite Z2Nat.id by lia.
  assert (P : forall z, 0 <= mlen y z) by (intros z; pose proof (mlen_pos y z); lia).
  pose proof (sum_mono (mlen y) 0 (Z.to_nat m) P ltac:(lia)) as A. cbn [sum] in A.
  pose proof (sum_mono (mlen y) (S (Z.to_nat m)) 12 P ltac:(lia)) as C. cbn [sum] in C.
  rewrite Z2Nat.id in C by lia. unfold ylen.
  change (sum (mlen y) 12) with
    (0 + mlen y 0 + mlen y 1 + mlen y 2 + mlen y 3 + mlen y 4 + mlen y 5 + mlen y 6
     + mlen y 7 + mlen y 8 + mlen y 9 + mlen y 10 + mlen y 11).
  change (Z.of_nat 0) with 0 in C; change (Z.of_nat 1) with 1 in C;
  change (Z.of_nat 2) with 2 in C; change (Z.of_nat 3) with 3 in C;
  change (Z.of_nat 4) with 4 in C; change (Z.of_nat 5) with 5 in C;
  change (Z.of_nat 6) with 6 in C; change (Z.of_nat 7) with 7 in C;
  change (Z.of_nat 8) with 8 in C; change (Z.of_nat 9) with 9 in C;
  change (Z.of_nat 10) with 10 in C; change (Z.of_nat 11) with 11 in C.
  lia.
Qed.

Lemma newyear_step y k : 0 <= y -> 0 <= k ->
  daynum y 0 1 + 365 * k <= daynum (y + k) 0 1.
Proof.
  intros Hy Hk. revert k Hk. apply natlike_ind; [replace (y + 0) with y by lia; lia|].
  intros k Hk IH. unfold daynum in *. change (Z.to_nat 0) with 0%nat in *. cbn [sum] in *.
  replace (Z.to_nat (y + Z.succ k)) with (S (Z.to_nat (y + k))) by lia. cbn [sum].
  rewrite Z2Nat.id by lia. rewrite ylen_eq. destruct (leap (y + k)); lia.
Qed.

(** A day every year has. *)
Definition everyday (m d : Z) : Prop := 0 <= m < 12 /\ 1 <= d <= mlen 1 m.

Lemma everyday_date m d y : everyday m d -> 1 <= y -> date y m d.
Proof.
  intros (Hm & Hd) Hy. repeat split; try lia. unfold mlen in *.
  destruct (m =? 1); [change (leap 1) with false in Hd; destruct (leap y); lia|lia].
Qed.

Lemma guess_least n year now m d Y : everyday m d -> 2 <= year -> year + Z.of_nat n <= 10 ^ 6 ->
  0 <= now < 10 ^ 14 ->
  year <= Y < year + Z.of_nat n -> now - unixtime Y m d < 350 * 86400 ->
  350 * 86400 <= now - unixtime (year - 1) m d ->
  exists G, guess n year now m d = Ret (unixtime G m d) /\ year <= G <= Y /\
    now - unixtime G m d < 350 * 86400 /\ 350 * 86400 <= now - unixtime (G - 1) m d.
Proof.
  intros He. revert year. induction n as [|n IH]; intros year H2 Hmax Hnow HY Hlt Hge; [lia|].
  cbn [guess]. rewrite totai_unixtime; [|apply everyday_date; [exact He|lia]|lia]. cbn [obind].
  assert (Hb : - 10 ^ 15 < unixtime year m d < 10 ^ 15).
  { pose proof (in_year year m d (everyday_date m d year He ltac:(lia))) as I.
    unfold unixtime. rewrite daynum_1970.
    assert (0 <= daynum year 0 1).
    { rewrite daynum_march by lia. change (2 <=? 0) with false. cbv iota. unfold march.
      Z.to_euclidean_division_equations; lia. }
    assert (daynum (year + 1) 0 1 <= 366 * (year + 2)).
    { rewrite daynum_march by lia. change (2 <=? 0) with false. cbv iota. unfold march.
      Z.to_euclidean_division_equations; lia. }
    lia. }
  ok. destruct (Z.ltb_spec (now - unixtime year m d) (350 * 86400)) as [L|L].
  - exists year. repeat split; auto; lia.
  - destruct (Z.eq_dec Y year) as [->|Hne]; [lia|].
    replace year with (year + 1 - 1) in L by lia.
    destruct (IH (year + 1)) as (G & E & R & A & C); auto; try lia.
    exists G. repeat split; auto; lia.
Qed.

Lemma guesstai_ok y0 m0 d0 s c m d :
  date y0 m0 d0 -> 1970 <= y0 <= 10 ^ 5 -> 0 <= s < 86400 ->
  (c = None \/ exists y1, c = Some y1 /\ y0 - 98 <= y1 <= y0) -> everyday m d ->
  let clock := unixtime y0 m0 d0 + s in
  exists G c', guesstai clock c m d = Ret (unixtime G m d, c') /\ y0 - 1 <= G <= y0 + 1 /\
    clock - unixtime G m d < 350 * 86400 /\ 350 * 86400 <= clock - unixtime (G - 1) m d.
Proof.
  intros Hd Hy Hs Hc He clock.
  pose proof (in_year _ _ _ Hd) as I.
  pose proof (newyear_step 1970 (y0 - 1970) ltac:(lia) ltac:(lia)) as N.
  replace (1970 + (y0 - 1970)) with y0 in N by lia.
  assert (Hmax : daynum (y0 + 1) 0 1 <= 366 * (y0 + 2)).
  { rewrite daynum_march by lia. change (2 <=? 0) with false. cbv iota. unfold march.
    clear - Hy. Z.to_euclidean_division_equations; lia. }
  assert (Hclock : 0 <= clock < 10 ^ 14).
  { unfold clock, unixtime. rewrite daynum_1970 in *. lia. }
  unfold guesstai, initnow. rewrite base_0. cbn [obind].
  replace (clock - 0) with clock by lia. ok.
  set (cur := match c with Some y => y | None => yearof clock end).
  assert (Hcur : y0 - 98 <= cur <= y0).
  { unfold cur. destruct Hc as [->|(y1 & -> & Hy1)]; [|exact Hy1].
    unfold clock. rewrite yearof_date by auto. lia. }
  clearbody cur.
  assert (FUT : forall Y, Y = y0 + 1 -> clock - unixtime Y m d < 350 * 86400).
  { intros Y ->. pose proof (in_year (y0 + 1) m d (everyday_date m d (y0 + 1) He ltac:(lia))).
    unfold clock, unixtime. lia. }
  assert (PAST : forall Y, 1 <= Y <= y0 - 2 -> 350 * 86400 <= clock - unixtime Y m d).
  { intros Y HY. pose proof (in_year Y m d (everyday_date m d Y He ltac:(lia))) as J.
    pose proof (newyear_step (Y + 1) (y0 - 1 - Y) ltac:(lia) ltac:(lia)) as K.
    replace (Y + 1 + (y0 - 1 - Y)) with y0 in K by lia. unfold clock, unixtime. lia. }
  destruct (guess_least 101 (cur - 1) clock m d (y0 + 1) He) as (G & E & R & A & C);
    try lia; try (apply FUT; lia).
  - replace (cur - 1 - 1) with (cur - 2) by lia. apply PAST. lia.
  - rewrite E. cbn [obind]. exists G, (Some cur). repeat split; auto; try lia.
    destruct (Z.lt_ge_cases G (y0 - 1)); [|lia].
    specialize (PAST G ltac:(lia)). lia.
Qed.
