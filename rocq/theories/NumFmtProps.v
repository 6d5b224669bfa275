(** C68: sizes, times and grouped numbers. *)
From Verif Require Import Base BaseFacts Ctype IntFmtModel DecSpec IntFmtProofs NumFmtModel NumFmtSpec NumFmtProofs.
From Coq Require Import Lia ZArith.
Local Open Scope Z_scope.

(** The number shown is the size, rounded as asked to tenths of the first unit in which it
    is below 1000 (or 1024); smaller sizes are shown exactly. *)
Theorem C68_sizetoa (n : Z) (m : rounding) : 0 <= n -> 10 * n < 2 ^ 64 -> exists s, sizetoa n 1 m = Ok s /\
  (n < 1000 -> exists a, is_decimal n a /\ s = a ++ B " bytes") /\ (1000 <= n -> shows 1000 si_names m 1 n s).
Proof.
  intros H1 H2. unfold sizetoa. rewrite Z.mul_1_r, u64_small by lia. destruct (Z.ltb_spec n 1000); destruct (Z.leb_spec n n); try lia; cbn [andb].
  - destruct (dec64 n) as [-> D]; [lia|]. eexists. split; [reflexivity|]. split; [eauto|lia].
  - destruct (sizetoa_exact 1000 si si_names m n 1 0 (or_introl eq_refl) si_tbl ltac:(eexists; reflexivity) ltac:(auto) H H2) as (s & E & S). exists s. split; [exact E|]. split; [lia|]. intros _. rewrite Z.mul_1_r in S. exact S.
Qed.
Print Assumptions C68_sizetoa.
Theorem C68_sizeitoa (n : Z) (m : rounding) : 0 <= n -> 10 * n < 2 ^ 64 -> exists s, sizeitoa n 1 m = Ok s /\
  (n < 1024 -> exists a, is_decimal n a /\ s = a ++ B " bytes") /\ (1024 <= n -> shows 1024 iec_names m 1 n s).
Proof.
  intros H1 H2. unfold sizeitoa. rewrite Z.mul_1_r, u64_small by lia. destruct (Z.ltb_spec n 1024); destruct (Z.leb_spec n n); try lia; cbn [andb].
  - destruct (dec64 n) as [-> D]; [lia|]. eexists. split; [reflexivity|]. split; [eauto|lia].
  - destruct (sizetoa_exact 1024 iec iec_names m n 1 0 (or_intror eq_refl) iec_tbl ltac:(eexists; reflexivity) ltac:(auto) H H2) as (s & E & S). exists s. split; [exact E|]. split; [lia|]. intros _. rewrite Z.mul_1_r in S. exact S.
Qed.
Print Assumptions C68_sizeitoa.
Theorem C68_sizektoa (n : Z) (m : rounding) : 0 <= n -> 1000 * n < 2 ^ 64 -> exists s, sizektoa n m = Ok s /\
  (n < 1000 -> exists a, is_decimal n a /\ s = a ++ B " kB") /\ (1000 <= n -> shows 1000 si_names m 2 (n * 1000) s).
Proof.
  intros H1 H2. unfold sizektoa. destruct (Z.ltb_spec n 1000).
  - destruct (dec64 n) as [-> D]; [lia|]. eexists. split; [reflexivity|]. split; [eauto|lia].
  - unfold sizetoa. rewrite u64_small by lia. destruct (Z.ltb_spec (n * 1000) 1000); [lia|]. cbn [andb].
    destruct (sizetoa_exact 1000 si si_names m n 1000 1 (or_introl eq_refl) si_tbl ltac:(eexists; reflexivity) ltac:(auto) H ltac:(lia)) as (s & E & S). exists s. split; [exact E|]. split; [lia|]. intros _. exact S.
Qed.
Print Assumptions C68_sizektoa.
Theorem C68_sizekitoa (n : Z) (m : rounding) : 0 <= n -> 1024 * n < 2 ^ 64 -> exists s, sizekitoa n m = Ok s /\
  (n < 1024 -> exists a, is_decimal n a /\ s = a ++ B " KiB") /\ (1024 <= n -> shows 1024 iec_names m 2 (n * 1024) s).
Proof.
  intros H1 H2. unfold sizekitoa. destruct (Z.ltb_spec n 1024).
  - destruct (dec64 n) as [-> D]; [lia|]. eexists. split; [reflexivity|]. split; [eauto|lia].
  - unfold sizeitoa. rewrite u64_small by lia. destruct (Z.ltb_spec (n * 1024) 1024); [lia|]. cbn [andb].
    destruct (sizetoa_exact 1024 iec iec_names m n 1024 1 (or_intror eq_refl) iec_tbl ltac:(eexists; reflexivity) ltac:(auto) H ltac:(lia)) as (s & E & S). exists s. split; [exact E|]. split; [lia|]. intros _. exact S.
Qed.
Print Assumptions C68_sizekitoa.
(** No number of blocks and no block size but zero makes a size function fail. *)
Theorem C68_size_safe (n bs : Z) (m : rounding) : 0 <= n < 2 ^ 64 -> 0 < bs < 2 ^ 64 ->
  (exists s, sizetoa n bs m = Ok s) /\ (exists s, sizeitoa n bs m = Ok s) /\ (exists s, sizektoa n m = Ok s) /\ (exists s, sizekitoa n m = Ok s).
Proof.
  intros Hn Hb.
  assert (E1 : ends si) by (eexists; reflexivity). assert (E2 : ends iec) by (eexists; reflexivity).
  assert (A : forall bs, 0 < bs < 2 ^ 64 -> exists s, sizetoa n bs m = Ok s).
  { intros b H. unfold sizetoa. destruct (dec64 _ (u64_range (n * b))) as [-> _]. cbn [bind].
    destruct (Z.ltb_spec (u64 (n * b)) 1000); destruct (Z.leb_spec n (u64 (n * b))); cbn [andb]; [eexists; reflexivity|..];
      apply (sizetoa_safe 1000 si si_names m (or_introl eq_refl) si_tbl E1); auto; try (eexists; reflexivity); lia. }
  assert (C : forall bs, 0 < bs < 2 ^ 64 -> exists s, sizeitoa n bs m = Ok s).
  { intros b H. unfold sizeitoa. destruct (dec64 _ (u64_range (n * b))) as [-> _]. cbn [bind].
    destruct (Z.ltb_spec (u64 (n * b)) 1024); destruct (Z.leb_spec n (u64 (n * b))); cbn [andb]; [eexists; reflexivity|..];
      apply (sizetoa_safe 1024 iec iec_names m (or_intror eq_refl) iec_tbl E2); auto; try (eexists; reflexivity); lia. }
  split; [auto|]. split; [auto|]. destruct (dec64 n Hn) as [E _]. unfold sizektoa, sizekitoa. rewrite E. cbn [bind]. split.
  - destruct (n <? 1000); [eexists; reflexivity|]. apply A. lia.
  - destruct (n <? 1024); [eexists; reflexivity|]. apply C. lia.
Qed.
Print Assumptions C68_size_safe.
(** Finding: the test for an overflow of [size * 10] misses most overflows: 2.5 EB is shown as
    655.3 PB. *)
Theorem C68_big_refuted : sizetoa 2500000000000000000 1 ROUND_DOWN = Ok (B "655.3 PB") /\ ~ shows 1000 si_names ROUND_DOWN 1 2500000000000000000 (B "655.3 PB").
Proof.
  split; [vm_compute; reflexivity|]. intros (k & q & a & b & name & Hk & En & Da & Db & Es & R & Hq & Hm).
  destruct (Nat.le_gt_cases k 5) as [L|L].
  - assert (k = 0 \/ k = 1 \/ k = 2 \/ k = 3 \/ k = 4 \/ k = 5)%nat as C by lia. destruct C as [->|[->|[->|[->|[->| ->]]]]]; cbn in R; lia.
  - assert (k = 6 \/ k = 7 \/ k = 8 \/ 9 <= k)%nat as [->|[->|[->|C]]] by lia.
    + cbn in En. injection En as <-. apply (f_equal (fun s => nth 1 (rev s) nul)) in Es. rewrite !rev_app_distr in Es. discriminate.
    + cbn in En. injection En as <-. apply (f_equal (fun s => nth 1 (rev s) nul)) in Es. rewrite !rev_app_distr in Es. discriminate.
    + cbn in En. injection En as <-. apply (f_equal (fun s => nth 1 (rev s) nul)) in Es. rewrite !rev_app_distr in Es. discriminate.
    + assert (nth_error si_names k = None) by (apply nth_error_None; cbn; lia). congruence.
Qed.
Print Assumptions C68_big_refuted.
(** Finding: with a block size that is no power of 1000 the number is rounded before it is
    multiplied. *)
Theorem C68_blocks_refuted : sizetoa 1999 2 ROUND_DOWN = Ok (B "3.8 kB") /\ sizetoa (1999 * 2) 1 ROUND_DOWN = Ok (B "3.9 kB").
Proof. split; vm_compute; reflexivity. Qed.
Print Assumptions C68_blocks_refuted.

(** A time is given in days, hours and minutes, or in seconds if there are none. *)
Theorem C68_seconds (n : Z) : 0 <= n < 2 ^ 32 -> exists d h m s sd sh sm ss,
  n = 86400 * d + 3600 * h + 60 * m + s /\ 0 <= d /\ 0 <= h < 24 /\ 0 <= m < 60 /\ 0 <= s < 60 /\
  amount d (B "day") sd /\ amount h (B "hour") sh /\ amount m (B "minute") sm /\ amount s (B "second") ss /\
  secondstoa n = Ok (match (if 0 <? d then [sd] else []) ++ (if 0 <? h then [sh] else []) ++ (if 0 <? m then [sm] else []) with [] => ss | l => listing l end).
Proof. exact (secondstoa_ok n). Qed.
Print Assumptions C68_seconds.

(** A number in groups: without the spaces it is the decimal number, and the spaces are
    after each third digit from the right that is not the last. *)
Theorem C68_metriculate (i : Z) : - 2 ^ 63 < i < 2 ^ 63 -> i <> 0 -> exists s,
  metriculate i = Ok ((if i <? 0 then B "-" else []) ++ s) /\
  is_decimal (Z.abs i) (filter (fun c => negb (Ascii.eqb c " ")) s) /\
  (forall k c, nth_error (rev s) k = Some c -> (c = " "%char <-> (k mod 4 = 3)%nat)) /\ hd nul s <> " "%char.
Proof.
  intros H N. exists (rev (spaced 0 (digits_rev 64 (Z.abs i)))). split; [apply metric_ok; assumption|]. apply metric_spec. lia.
Qed.
Print Assumptions C68_metriculate.
(** Finding: zero is shown as nothing, and the least number overflows. *)
Theorem C68_metriculate_refuted : metriculate 0 = Ok [] /\ metriculate (- 2 ^ 63) = Fault.
Proof. split; vm_compute; reflexivity. Qed.
Print Assumptions C68_metriculate_refuted.

Example ex_sizes : sizetoa 999949 1 ROUND_DOWN = Ok (B "999.9 kB") /\ sizetoa 999949 1 ROUND_UP = Ok (B "1.0 MB") /\ sizetoa 999950 1 ROUND_DOWN_AT_POINT_FIVE = Ok (B "999.9 kB") /\
  sizetoa 999950 1 ROUND_UP_AT_POINT_FIVE = Ok (B "1.0 MB") /\ sizekitoa 123456 ROUND_UP = Ok (B "120.6 MiB") /\ sizetoa 1499 1499 ROUND_UP = Ok (B "2.3 MB").
Proof. vm_compute. repeat split; reflexivity. Qed.
Example ex_times : secondstoa 90061 = Ok (B "1 day, 1 hour and 1 minute") /\ secondstoa 86460 = Ok (B "1 day and 1 minute") /\ secondstoa 0 = Ok (B "0 seconds") /\ secondstoa 7300 = Ok (B "2 hours and 1 minute").
Proof. vm_compute. repeat split; reflexivity. Qed.
Example ex_metric : metriculate (-1234567) = Ok (B "-1 234 567") /\ metriculate 999 = Ok (B "999").
Proof. vm_compute. repeat split; reflexivity. Qed.
