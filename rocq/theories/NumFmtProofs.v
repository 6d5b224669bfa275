(** Proofs about formatted sizes, times and numbers. *)
From Verif Require Import Base BaseFacts Ctype IntFmtModel DecSpec IntFmtProofs NumFmtModel NumFmtSpec.
From Coq Require Import Lia ZArith ZifyBool ZifyNat.
Local Open Scope Z_scope.

(** ** Rounding *)
Lemma rounded_fun m n d q q' : 0 < d -> rounded m n d q -> rounded m n d q' -> q = q'.
Proof.
  intros Hd R R'. destruct (Z.lt_trichotomy q q') as [H|[H|H]]; [exfalso|exact H|exfalso].
  - assert ((q + 1) * d <= q' * d) by (apply Z.mul_le_mono_nonneg_r; lia). destruct m; unfold rounded in *; lia.
  - assert ((q' + 1) * d <= q * d) by (apply Z.mul_le_mono_nonneg_r; lia). destruct m; unfold rounded in *; lia.
Qed.
Lemma rounded_scale m n d c q : 0 < c -> rounded m n d q -> rounded m (n * c) (d * c) q.
Proof. unfold rounded; destruct m; intros; nia. Qed.
Lemma rounded_unscale m n d c q : 0 < c -> rounded m (n * c) (d * c) q -> rounded m n d q.
Proof. unfold rounded; destruct m; intros; nia. Qed.
Lemma rounded_bound m n d q : 0 < d -> 0 <= n -> rounded m n d q -> 0 <= q /\ (q - 1) * d <= n.
Proof. unfold rounded; destruct m; intros; nia. Qed.
Lemma rounder_ok m n h : 0 < h -> 0 <= n < 2 ^ 64 - 1 -> exists q, rounder m n 0 (2 * h) = Ok q /\ rounded m n (2 * h) q.
Proof.
  intros Hh Hn. unfold rounder. destruct (Z.eqb_spec (2 * h) 0); [lia|]. eexists. split; [reflexivity|].
  replace (2 * h / 2) with h by (rewrite Z.mul_comm, Z.div_mul; lia).
  pose proof (Z.div_mod n (2 * h) ltac:(lia)) as E. pose proof (Z.mod_pos_bound n (2 * h) ltac:(lia)) as M.
  assert (D : 0 <= n / (2 * h) < 2 ^ 64 - 1).
  { split; [apply Z.div_pos; lia|]. apply Z.div_lt_upper_bound; [lia|]. nia. }
  set (d := n / (2 * h)) in *. set (r := n mod (2 * h)) in *.
  assert (U : u64 (d + 1) = d + 1) by (unfold u64; apply Z.mod_small; lia). rewrite U. cbn [negb Z.eqb orb andb].
  unfold rounded; destruct m.
  - nia.
  - destruct (Z.ltb_spec h r); cbn [orb]; nia.
  - destruct (Z.leb_spec h r); nia.
  - destruct (Z.eqb_spec r 0); cbn [negb]; nia.
Qed.

(** ** The tables *)
Definition tbl (g : Z) (t : list (option bytes * Z)) (names : list bytes) : Prop :=
  forall i, 0 <= i <= 8 -> exists b, entry t i = Ok (nth_error names (Z.to_nat (i + 1)), b) /\ (i <= 5 -> b = g ^ (i + 1)) /\ (i <= 7 -> exists nm, nth_error names (Z.to_nat (i + 1)) = Some nm).
Definition ends (t : list (option bytes * Z)) : Prop := exists b, entry t 8 = Ok (None, b).
Lemma cases9 i : 0 <= i <= 8 -> i = 0 \/ i = 1 \/ i = 2 \/ i = 3 \/ i = 4 \/ i = 5 \/ i = 6 \/ i = 7 \/ i = 8.
Proof. lia. Qed.
Lemma si_tbl : tbl 1000 si si_names.
Proof. intros i H. apply cases9 in H. repeat (destruct H as [->|H]; [eexists; split; [reflexivity|split; [try reflexivity; lia|intros _; eexists; reflexivity]]|]). subst. eexists. split; [reflexivity|]. lia. Qed.
Lemma iec_tbl : tbl 1024 iec iec_names.
Proof. intros i H. apply cases9 in H. repeat (destruct H as [->|H]; [eexists; split; [reflexivity|split; [try reflexivity; lia|intros _; eexists; reflexivity]]|]). subst. eexists. split; [reflexivity|]. lia. Qed.

Lemma pow_even g k : g = 1000 \/ g = 1024 -> 0 < k -> exists h, g ^ k = 2 * h /\ 0 < h.
Proof.
  intros Hg Hk. exists (g / 2 * g ^ (k - 1)). replace k with (Z.succ (k - 1)) at 1 by lia. rewrite Z.pow_succ_r by lia.
  assert (0 < g ^ (k - 1)) by (apply Z.pow_pos_nonneg; lia). destruct Hg; subst; change (1000 / 2) with 500; change (1024 / 2) with 512; lia.
Qed.
Lemma pow6 g : g = 1000 \/ g = 1024 -> 10 ^ 18 <= g ^ 6.
Proof. intros [->| ->]; reflexivity || lia. Qed.

Section Exact.
  Variables (g : Z) (t : list (option bytes * Z)) (names : list bytes) (m : rounding) (size shift : Z).
  Hypothesis (Hg : g = 1000 \/ g = 1024) (T : tbl g t names) (Hs : g <= size) (Hb : 10 * size < 2 ^ 64) (Hsh : 0 <= shift <= 1).
  Lemma g10 : u64 (g * 10) = g * 10.
  Proof. unfold u64. apply Z.mod_small. lia. Qed.
  Lemma s10 : u64 (size * 10) = 10 * size.
  Proof. unfold u64. rewrite Z.mod_small; lia. Qed.
  Definition above (p : Z) := forall j q', 0 <= j < p -> rounded m (10 * size) (g ^ (j + 1)) q' -> 10 * g <= q'.
  Lemma prefixes_ok : forall fuel p digits, -1 <= p <= 4 -> 5 - p < Z.of_nat fuel -> above (p + 1) ->
    exists p' q, prefixes fuel m t g size 0 shift p digits = Ok (p', q) /\ 0 <= p' <= 5 /\ rounded m (10 * size) (g ^ (p' + 1)) q /\ 0 <= q < 10 * g /\ above p'.
  Proof.
    induction fuel as [|fuel IH]; intros p digits Hp Hf A; [lia|]. cbn [prefixes].
    destruct (Z.leb_spec g size); [|lia]. destruct (T (p + 1)) as (b & E & Eb & _); [lia|]. rewrite E. cbn [bind]. rewrite Eb by lia. clear E Eb b.
    destruct (pow_even g (p + 1 + 1) Hg) as (h & Eh & Hh); [lia|]. rewrite s10, g10, Eh.
    destruct (rounder_ok m (10 * size) h Hh) as (q & -> & R); [lia|]. cbn [bind].
    destruct (rounded_bound m (10 * size) (2 * h) q) as [Q1 Q2]; [lia|lia|exact R|].
    destruct (Z.ltb_spec q (g * 10)).
    - exists (p + 1), q. rewrite Eh. repeat split; auto; try lia.
    - assert (p + 1 <= 4).
      { destruct (Z.eq_dec p 4) as [->|]; [|lia]. exfalso. change (4 + 1 + 1) with 6 in Eh. pose proof (pow6 g Hg). nia. }
      destruct (T (p + 1 + shift + 1)) as (b & E & _ & En); [lia|]. rewrite E. cbn [bind]. destruct En as (nm & ->); [lia|].
      apply IH; [lia|lia|]. intros j q' Hj R'. destruct (Z.eq_dec j (p + 1)) as [->|]; [|apply (A j); [lia|exact R']].
      rewrite Eh in R'. pose proof (rounded_fun m (10 * size) (2 * h) q' q ltac:(lia) R' R). lia.
  Qed.
End Exact.

Lemma dec64 n : 0 <= n < 2 ^ 64 -> string_of_unsigned n = Ok (dec n) /\ is_decimal n (dec n).
Proof. intros H. assert (0 <= n < big) by (unfold big; lia). split; [apply unsigned_ok; assumption|apply dec_is; assumption]. Qed.
Lemma shows_of g t names m size shift p q : (g = 1000 \/ g = 1024) -> tbl g t names -> 0 <= size -> 0 <= shift <= 1 -> 0 <= p <= 5 ->
  rounded m (10 * size) (g ^ (p + 1)) q -> 0 <= q < 10 * g -> above g m size p ->
  exists s, (let! (name, _) := entry t (p + shift) in
    let! a := string_of_unsigned (q / 10) in
    let! b := string_of_unsigned (q mod 10) in
    Ok (a ++ B "." ++ b ++ B " " ++ match name with Some n => n | None => B "(nil)" end ++ B "B")) = Ok s /\
    shows g names m (Z.to_nat (1 + shift)) (size * g ^ shift) s.
Proof.
  intros Hg T Hz Hsh Hp R Hq A. destruct (T (p + shift)) as (b & -> & _ & nm & En); [lia|lia|]. cbn [bind].
  destruct (dec64 (q / 10)) as [-> D1]; [split; [apply Z.div_pos; lia|apply Z.div_lt_upper_bound; lia]|].
  destruct (dec64 (q mod 10)) as [-> D2]; [pose proof (Z.mod_pos_bound q 10); lia|]. cbn [bind]. rewrite En.
  eexists. split; [reflexivity|]. exists (Z.to_nat (p + shift + 1)), q, (dec (q / 10)), (dec (q mod 10)), nm.
  assert (G : 0 < g ^ shift) by (apply Z.pow_pos_nonneg; lia).
  assert (X : forall k, 0 <= k -> g ^ (k + shift + 1) = g ^ (k + 1) * g ^ shift) by (intros; rewrite <- Z.pow_add_r by lia; f_equal; lia).
  split; [lia|]. split; [exact En|]. split; [exact D1|]. split; [exact D2|]. split; [reflexivity|]. split; [|split; [lia|]].
  - rewrite Z2Nat.id, X by lia. rewrite Z.mul_assoc. apply rounded_scale; assumption.
  - intros j q' Hj R'. apply (A (Z.of_nat j - shift - 1)); [lia|]. eapply rounded_unscale; [exact G|].
    rewrite <- Z.mul_assoc, <- (X (Z.of_nat j - shift - 1)) by lia. replace (Z.of_nat j - shift - 1 + shift + 1) with (Z.of_nat j) by lia. exact R'.
Qed.
Lemma sizetoa_exact g t names m size bs shift : (g = 1000 \/ g = 1024) -> tbl g t names -> (exists nm, entry t 0 = Ok (nm, g)) ->
  (bs = 1 /\ shift = 0 \/ bs = g /\ shift = 1) -> g <= size -> 10 * size < 2 ^ 64 ->
  exists s, sizetoa_ size bs m t (B "B") = Ok s /\ shows g names m (Z.to_nat (1 + shift)) (size * bs) s.
Proof.
  intros Hg T (nm & E0) Hbs Hs Hb. unfold sizetoa_. destruct (Z.eqb_spec bs 0); [lia|]. rewrite E0. cbn [bind].
  assert (K : exists prev, shrink 65 g bs 0 0 = Ok (1, prev, shift) /\ (prev = 0 \/ prev = g)).
  { destruct Hbs as [[-> ->]|[-> ->]]; destruct Hg as [->| ->]; eexists; (split; [reflexivity|auto]). }
  destruct K as (prev & -> & Hprev). cbn [bind].
  replace (negb (prev =? 0) && negb (prev =? g)) with false by (destruct Hprev; subst; lia).
  unfold u64 at 1 2 3. rewrite (Z.mod_small (size * 10)) by lia. replace (size * 10 <? size) with false by lia.
  change (1 <? 1) with false.
  destruct (prefixes_ok g t names m size shift Hg T Hs Hb ltac:(lia) 10 (-1) (size * 10)) as (p & q & -> & Hp & R & Hq & A); [lia|cbn; lia|intros j q' Hj; lia|]. cbn [bind].
  destruct (shows_of g t names m size shift p q Hg T ltac:(lia) ltac:(lia) Hp R Hq A) as (s & E & S). exists s. split; [exact E|].
  replace (size * bs) with (size * g ^ shift); [exact S|]. destruct Hbs as [[-> ->]|[-> ->]]; [reflexivity|]. rewrite Z.pow_1_r. reflexivity.
Qed.

(** ** No input faults *)
Lemma u64_range z : 0 <= u64 z < 2 ^ 64.
Proof. apply Z.mod_pos_bound. lia. Qed.
Lemma u64_small z : 0 <= z < 2 ^ 64 -> u64 z = z.
Proof. apply Z.mod_small. Qed.
Lemma rounder_safe m n r d : 0 < d -> 0 <= n < 2 ^ 64 -> exists q, rounder m n r d = Ok q /\ 0 <= q < 2 ^ 64 /\ q <= n / d + 1.
Proof.
  intros Hd Hn. unfold rounder. destruct (Z.eqb_spec d 0); [lia|]. assert (D : 0 <= n / d < 2 ^ 64) by (split; [apply Z.div_pos; lia|apply Z.div_lt_upper_bound; nia]).
  assert (U : 0 <= u64 (n / d + 1) < 2 ^ 64 /\ u64 (n / d + 1) <= n / d + 1) by (split; [apply u64_range|apply Z.mod_le; lia]).
  eexists. split; [reflexivity|]. destruct m; repeat match goal with |- context[if ?b then _ else _] => destruct b end; lia.
Qed.
Lemma shrink_ok g : g = 1000 \/ g = 1024 -> forall f bs prev s, 0 < bs < g ^ Z.of_nat f -> exists bs' prev' k,
  shrink (S f) g bs prev s = Ok (bs', prev', s + k) /\ 0 <= k /\ bs' * g ^ k <= bs /\ 0 < bs' < g /\
  (k = 0 -> bs' = bs /\ prev' = prev) /\ (0 < k -> g <= prev' < g * g) /\ (k = 1 -> prev' = bs).
Proof.
  intros Hg. induction f as [|f IH]; intros bs prev s H; [change (g ^ Z.of_nat 0) with 1 in H; lia|].
  rewrite Nat2Z.inj_succ, Z.pow_succ_r in H by lia. cbn [shrink]. destruct (Z.leb_spec g bs).
  - assert (Q : 0 < bs / g < g ^ Z.of_nat f) by (split; [apply Z.div_str_pos; lia|apply Z.div_lt_upper_bound; lia]).
    destruct (IH (bs / g) bs (s + 1) Q) as (bs' & prev' & k & E & Hk & B1 & B2 & K0 & K1 & K2). cbn [shrink] in E. rewrite E.
    exists bs', prev', (k + 1). split; [do 2 f_equal; lia|]. split; [lia|]. split.
    { rewrite Z.pow_add_r, Z.pow_1_r by lia. pose proof (Z.mul_div_le bs g ltac:(lia)). nia. }
    split; [exact B2|]. split; [lia|]. split; [|intros; apply K0; lia]. intros _. destruct (Z.eq_dec k 0) as [->|]; [|apply K1; lia].
    destruct (K0 eq_refl) as [E1 ->]. split; [lia|]. rewrite E1 in B2. pose proof (Z.div_mod bs g ltac:(lia)). pose proof (Z.mod_pos_bound bs g ltac:(lia)). nia.
  - exists bs, prev, 0. rewrite Z.add_0_r. change (g ^ 0) with 1. split; [reflexivity|]. lia.
Qed.
Section Safe.
  Variables (g : Z) (t : list (option bytes * Z)) (names : list bytes) (m : rounding).
  Hypothesis (Hg : g = 1000 \/ g = 1024) (T : tbl g t names) (En8 : ends t).
  Lemma prefixes_safe size r shift : 0 <= size < 2 ^ 64 -> 0 <= shift <= 7 -> forall fuel p digits, -1 <= p <= 4 -> p + shift + 1 <= 7 -> 5 - p < Z.of_nat fuel -> 0 <= digits < 2 ^ 64 ->
    exists p' q, prefixes fuel m t g size r shift p digits = Ok (p', q) /\ p <= p' /\ p' + shift <= 7 /\ 0 <= q < 2 ^ 64 /\
      (size < g -> p' = p /\ q = digits) /\ (g <= size -> p + 1 <= p').
  Proof.
    intros Hs Hsh. induction fuel as [|fuel IH]; intros p digits Hp Hps Hf Hd; [lia|]. cbn [prefixes].
    destruct (Z.leb_spec g size); [|exists p, digits; repeat split; lia].
    destruct (T (p + 1)) as (b & E & Eb & _); [lia|]. rewrite E. cbn [bind]. rewrite Eb by lia. clear E Eb b.
    assert (P : 0 < g ^ (p + 1 + 1)) by (apply Z.pow_pos_nonneg; lia).
    destruct (rounder_safe m (u64 (size * 10)) r _ P (u64_range _)) as (q & -> & Q & Qb). cbn [bind]. rewrite (g10 g Hg).
    destruct (Z.ltb_spec q (g * 10)); [exists (p + 1), q; repeat split; lia|].
    assert (p + 1 <= 4).
    { destruct (Z.eq_dec p 4) as [->|]; [|lia]. exfalso. change (4 + 1 + 1) with 6 in *. pose proof (pow6 g Hg). pose proof (u64_range (size * 10)).
      assert (u64 (size * 10) / g ^ 6 < 20) by (apply Z.div_lt_upper_bound; lia). lia. }
    destruct (T (p + 1 + shift + 1)) as (b & E & _ & En); [lia|]. rewrite E. cbn [bind].
    destruct (Z.eq_dec (p + 1 + shift + 1) 8) as [E8|N8].
    - rewrite E8 in E. destruct En8 as (b' & E'). rewrite E in E'. assert (X : nth_error names (Z.to_nat (8 + 1)) = None) by congruence. rewrite E8, X. exists (p + 1), q. repeat split; lia.
    - destruct En as (nm & ->); [lia|]. destruct (IH (p + 1) q) as (p' & q' & -> & ? & ? & ? & ? & ?); try lia. exists p', q'. repeat split; try lia.
  Qed.
  Lemma correct_safe shift : 0 <= shift -> forall fuel p digits, -1 <= p -> p + shift <= 7 -> 8 - (p + shift) < Z.of_nat fuel -> 0 <= digits < 2 ^ 64 ->
    exists p' q, correct fuel m t g shift p digits = Ok (p', q) /\ p <= p' /\ p' + shift <= 7 /\ 0 <= q < 2 ^ 64 /\ (10 * g <= digits -> p + shift <= 6 -> p + 1 <= p').
  Proof.
    intros Hsh. induction fuel as [|fuel IH]; intros p digits Hp Hps Hf Hd; [lia|]. cbn [correct]. rewrite (g10 g Hg).
    destruct (Z.leb_spec (g * 10) digits); [|exists p, digits; repeat split; lia].
    destruct (T (p + shift + 1)) as (b & E & _ & En); [lia|]. rewrite E. cbn [bind].
    destruct (Z.eq_dec (p + shift + 1) 8) as [E8|N8].
    - rewrite E8 in E. destruct En8 as (b' & E'). rewrite E in E'. assert (X : nth_error names (Z.to_nat (8 + 1)) = None) by congruence. rewrite E8, X. exists p, digits. repeat split; lia.
    - destruct En as (nm & ->); [lia|]. destruct (rounder_safe m digits 0 g ltac:(lia) Hd) as (q & -> & Q & _). cbn [bind].
      destruct (IH (p + 1) q) as (p' & q' & -> & ? & ? & ? & ?); try lia. exists p', q'. repeat split; try lia.
  Qed.
  Lemma sizetoa_safe size bs unit : 0 <= size < 2 ^ 64 -> 0 < bs < 2 ^ 64 -> (exists nm, entry t 0 = Ok (nm, g)) ->
    ~ (u64 (size * bs) < g /\ size <= u64 (size * bs)) -> exists s, sizetoa_ size bs m t unit = Ok s.
  Proof.
    intros Hs Hbs (nm & E0) Hg0. unfold sizetoa_. destruct (Z.eqb_spec bs 0); [lia|]. rewrite E0. cbn [bind].
    assert (L : 0 < bs < g ^ Z.of_nat 64). { split; [lia|]. eapply Z.lt_le_trans; [apply Hbs|]. destruct Hg as [->| ->]; cbv; discriminate. }
    destruct (shrink_ok g Hg 64 bs 0 0 L) as (b1 & prev & k & -> & Hk & B1 & B2 & K0 & K1 & K2). clear L. cbn [bind]. rewrite Z.add_0_l.
    assert (k <= 6).
    { destruct (Z.le_gt_cases k 6); [assumption|]. exfalso. assert (g ^ 7 <= g ^ k) by (apply Z.pow_le_mono_r; clear - Hg H; lia).
      assert (2 ^ 64 <= g ^ 7) by (destruct Hg as [->| ->]; cbv; discriminate). assert (1 * g ^ k <= b1 * g ^ k) by (apply Z.mul_le_mono_nonneg_r; [apply Z.pow_nonneg; clear - Hg; lia|clear - B2; lia]). clear - Hbs B1 H0 H1 H2. lia. }
    set (X := if negb (prev =? 0) && negb (prev =? g) then (prev, k - 1) else (b1, k)).
    assert (HX : exists b2 sh, X = (b2, sh) /\ 0 < b2 /\ 0 <= sh <= 6 /\ (sh = 0 -> b2 = bs /\ bs < g * g)).
    { unfold X. destruct (Z.eqb_spec prev 0); destruct (Z.eqb_spec prev g); cbn [negb andb]; do 2 eexists; (split; [reflexivity|]).
      1,2,3: split; [lia|]; split; [lia|]; intros ->; destruct (K0 eq_refl); subst b1; split; [reflexivity|nia].
      destruct (Z.eq_dec k 0) as [->|]; [destruct (K0 eq_refl); contradiction|]. split; [lia|]. split; [lia|]. intros E. assert (E1 : k = 1) by lia. rewrite <- (K2 E1). split; [reflexivity|apply K1; lia]. }
    destruct HX as (b2 & sh & -> & Hb2 & Hsh & Hz). 
    set (Y := if u64 (size * 10) <? size then (size / g, size mod g, sh + 1) else (size, 0, sh)).
    assert (HY : exists s2 r s3, Y = (s2, r, s3) /\ 0 <= s2 < 2 ^ 64 /\ 0 <= s3 <= 7 /\ (s3 = 0 -> sh = 0 /\ s2 = size)).
    { unfold Y. destruct (u64 (size * 10) <? size); do 3 eexists; (split; [reflexivity|]); [|lia].
      split; [split; [apply Z.div_pos; lia|apply Z.div_lt_upper_bound; nia]|]. lia. }
    destruct HY as (s2 & r & s3 & -> & Hs2 & Hs3 & Hz3).
    destruct (prefixes_safe s2 r s3 Hs2 Hs3 10 (-1) (u64 (size * 10))) as (p & q & -> & P1 & P2 & Q & Small & Large); [lia|lia|cbn; lia|apply u64_range|]. cbn [bind].
    assert (F : exists p' q', (if 1 <? b2 then correct 10 m t g s3 p (u64 (q * b2)) else Ok (p, q)) = Ok (p', q') /\ 0 <= p' + s3 <= 7 /\ 0 <= q' < 2 ^ 64).
    { assert (Z0 : s3 <> 0 \/ g <= s2 \/ (s3 = 0 /\ s2 < g)) by lia. destruct (Z.ltb_spec 1 b2).
      - destruct (correct_safe s3 ltac:(lia) 10 p (u64 (q * b2)) P1 P2 ltac:(change (Z.of_nat 10) with 10; lia) (u64_range _)) as (p' & q' & -> & C1 & C2 & C3 & C4). exists p', q'. split; [reflexivity|]. split; [|lia].
        destruct Z0 as [Z0|[Z0|[Z0 Z1]]]; [lia|specialize (Large Z0); lia|].
        destruct (Hz3 Z0) as [E1 ->]. destruct (Hz E1) as [-> Hb]. destruct (Small Z1) as [-> ->]. rewrite Z0 in *.
        assert (G1 : g <= 1024 /\ g * g <= 1048576) by (clear - Hg; destruct Hg as [->| ->]; lia).
        assert (M : 0 <= size * bs <= 1024 * 1048576) by (split; [apply Z.mul_nonneg_nonneg; lia|apply Z.mul_le_mono_nonneg; lia]).
        assert (U1 : u64 (size * bs) = size * bs) by (apply u64_small; lia).
        assert (U2 : u64 (size * 10) = size * 10) by (apply u64_small; lia).
        assert (U3 : u64 (size * 10 * bs) = size * 10 * bs) by (apply u64_small; lia).
        rewrite U1 in Hg0. rewrite U2, U3 in C4. assert (size <= size * bs) by nia. assert (g <= size * bs) by lia. assert (p' >= 0) by (specialize (C4 ltac:(lia) ltac:(lia)); lia). lia.
      - exists p, q. split; [reflexivity|]. split; [|exact Q]. destruct Z0 as [Z0|[Z0|[Z0 Z1]]]; [lia|specialize (Large Z0); lia|].
        exfalso. destruct (Hz3 Z0) as [E1 ->]. destruct (Hz E1) as [-> Hb]. assert (bs = 1) by lia. subst bs. rewrite Z.mul_1_r, (u64_small size Hs) in Hg0. lia. }
    destruct F as (p' & q' & -> & R1 & R2). cbn [bind]. destruct (T (p' + s3)) as (b & -> & _); [lia|]. cbn [bind].
    destruct (dec64 (q' / 10)) as [-> _]; [split; [apply Z.div_pos; lia|apply Z.div_lt_upper_bound; lia]|].
    destruct (dec64 (q' mod 10)) as [-> _]; [pose proof (Z.mod_pos_bound q' 10); lia|]. cbn [bind]. eexists. reflexivity.
  Qed.
End Safe.

(** ** Times *)
Definition items (d h m : Z) (sd sh sm : bytes) : list bytes :=
  (if 0 <? d then [sd] else []) ++ (if 0 <? h then [sh] else []) ++ (if 0 <? m then [sm] else []).
Lemma plural (n : Z) (a b : bytes) : 0 < n -> (if 1 <? n then a ++ b else a) = a ++ (if n =? 1 then [] else b).
Proof. intros H. destruct (Z.ltb_spec 1 n), (Z.eqb_spec n 1); try lia; [reflexivity|symmetry; apply app_nil_r]. Qed.
Lemma secondstoa_ok n : 0 <= n < 2 ^ 32 -> exists d h m s sd sh sm ss,
  n = 86400 * d + 3600 * h + 60 * m + s /\ 0 <= d /\ 0 <= h < 24 /\ 0 <= m < 60 /\ 0 <= s < 60 /\
  amount d (B "day") sd /\ amount h (B "hour") sh /\ amount m (B "minute") sm /\ amount s (B "second") ss /\
  secondstoa n = Ok (match items d h m sd sh sm with [] => ss | l => listing l end).
Proof.
  intros Hn. set (d := n / (3600 * 24)). set (h := (n mod (3600 * 24)) / 3600). set (m := ((n mod (3600 * 24)) mod 3600) / 60). set (s := ((n mod (3600 * 24)) mod 3600) mod 60).
  assert (X : n = 86400 * d + 3600 * h + 60 * m + s /\ 0 <= d < 2 ^ 32 /\ 0 <= h < 24 /\ 0 <= m < 60 /\ 0 <= s < 60).
  { unfold d, h, m, s. clear d h m s. Z.to_euclidean_division_equations. lia. }
  destruct X as (E & Hd & Hh & Hm & Hs). exists d, h, m, s.
  destruct (dec64 d) as [Ed Dd]; [lia|]. destruct (dec64 h) as [Eh Dh]; [lia|]. destruct (dec64 m) as [Em Dm]; [lia|]. destruct (dec64 s) as [Es Ds]; [lia|].
  exists (dec d ++ B " day" ++ if d =? 1 then [] else B "s"), (dec h ++ B " hour" ++ if h =? 1 then [] else B "s"), (dec m ++ B " minute" ++ if m =? 1 then [] else B "s"), (dec s ++ B " second" ++ if s =? 1 then [] else B "s").
  split; [exact E|]. split; [lia|]. split; [exact Hh|]. split; [exact Hm|]. split; [exact Hs|].
  split; [exists (dec d); auto|]. split; [exists (dec h); auto|]. split; [exists (dec m); auto|]. split; [exists (dec s); auto|].
  unfold secondstoa. fold d. fold h. fold m. fold s. rewrite Ed, Eh, Em, Es. cbn [bind]. unfold items.
  change (B " days") with (B " day" ++ B "s"). change (B " hours") with (B " hour" ++ B "s"). change (B " minutes") with (B " minute" ++ B "s"). change (B " seconds") with (B " second" ++ B "s").
  assert (P4 : (if negb (s =? 1) then B " second" ++ B "s" else B " second") = B " second" ++ if s =? 1 then [] else B "s") by (destruct (s =? 1); reflexivity). rewrite P4.
  destruct (Z.ltb_spec 0 d) as [P1|P1]; destruct (Z.ltb_spec 0 h) as [P2|P2]; destruct (Z.ltb_spec 0 m) as [P3|P3]; cbn [one unless0 bind];
    try rewrite (plural d) by assumption; try rewrite (plural h) by assumption; try rewrite (plural m) by assumption;
    try (replace (d =? 0) with false by lia); try (replace (h =? 0) with false by lia); try (replace (m =? 0) with false by lia);
    try (replace (d =? 0) with true by lia); try (replace (h =? 0) with true by lia); try (replace (m =? 0) with true by lia);
    cbn [andb unless0 bind]; cbv [sep Z.add Z.sub Z.opp Z.pos_sub Pos.add Pos.succ Z.ltb Z.compare Pos.compare Pos.compare_cont Z.eqb Pos.eqb Pos.pred_double Z.pred_double Z.double];
    cbn [app listing]; rewrite <- ?app_assoc, ?app_nil_r; reflexivity.
Qed.

(** ** Digits in groups *)
(** The digits from the least, [k] of them before, with spaces between groups *)
Fixpoint spaced (k : Z) (ds : bytes) : bytes :=
  match ds with
  | [] => []
  | d :: r => d :: match r with [] => [] | _ => if (k + 1) mod 3 =? 0 then " "%char :: spaced (k + 1) r else spaced (k + 1) r end
  end.
Lemma count_pos : forall f j n, 0 <= j < 10 ^ Z.of_nat f -> count_digits (S f) j n = Ok (n + Z.of_nat (length (digits_rev f j))).
Proof.
  induction f as [|f IH]; intros j n H; [change (10 ^ Z.of_nat 0) with 1 in H; assert (j = 0) as -> by lia; cbn; f_equal; lia|].
  rewrite Nat2Z.inj_succ, Z.pow_succ_r in H by lia. change (count_digits (S (S f)) j n) with (if j =? 0 then Ok n else count_digits (S f) (Z.quot j 10) (n + 1)). cbn [digits_rev].
  destruct (Z.eqb_spec j 0); destruct (Z.ltb_spec 0 j); try lia; [cbn; f_equal; lia|].
  rewrite Z.quot_div_nonneg by lia. rewrite IH by (split; [apply Z.div_pos; lia|apply Z.div_lt_upper_bound; lia]). f_equal. cbn [length]. lia.
Qed.
Lemma count_opp : forall f j n, count_digits f (- j) n = count_digits f j n.
Proof.
  induction f as [|f IH]; intros j n; [reflexivity|]. cbn [count_digits]. rewrite Z.quot_opp_l, IH by lia.
  destruct (Z.eqb_spec j 0), (Z.eqb_spec (- j) 0); lia || reflexivity.
Qed.
Lemma spaced_len : forall ds k, 0 <= k -> ds <> [] -> Z.of_nat (length (spaced k ds)) = Z.of_nat (length ds) + (Z.of_nat (length ds) - 1 + k mod 3) / 3.
Proof.
  induction ds as [|d r IH]; intros k Hk N; [contradiction|]. cbn [spaced length]. destruct r as [|e r].
  - cbn [length]. pose proof (Z.mod_pos_bound k 3). rewrite Z.div_small; lia.
  - assert (Nr : e :: r <> []) by discriminate. pose proof (IH (k + 1) ltac:(lia) Nr) as I. remember (e :: r) as r' eqn:Er. assert (0 < Z.of_nat (length r')) by (subst; cbn; lia).
    destruct (Z.eqb_spec ((k + 1) mod 3) 0) as [E|E]; cbn [length]; rewrite Nat2Z.inj_succ.
    + rewrite (Nat2Z.inj_succ (length (spaced _ _))), I. clear I IH. Z.to_euclidean_division_equations. lia.
    + rewrite I. clear I IH. Z.to_euclidean_division_equations. lia.
Qed.
Lemma spaced_strip ds : forall k, Forall digit ds -> filter (fun c => negb (Ascii.eqb c " ")) (spaced k ds) = ds.
Proof.
  assert (D : forall c, digit c -> negb (Ascii.eqb c " ") = true) by (intros c H; destruct (Ascii.eqb_spec c " "); [subst; unfold digit in H; cbn in H; lia|reflexivity]).
  induction ds as [|d r IH]; intros k H; [reflexivity|]. inversion H as [|? ? H1 H2]; subst. cbn [spaced filter]. rewrite (D d H1). f_equal. destruct r as [|e r]; [reflexivity|].
  destruct ((k + 1) mod 3 =? 0); [|apply IH, H2]. change (filter (fun c => negb (Ascii.eqb c " ")) (" "%char :: spaced (k + 1) (e :: r))) with (filter (fun c => negb (Ascii.eqb c " ")) (spaced (k + 1) (e :: r))). apply IH, H2.
Qed.
Lemma spaced_at ds : forall k i c, 0 <= k -> Forall digit ds -> nth_error (spaced k ds) i = Some c -> (c = " "%char <-> (Z.of_nat i + k mod 3) mod 4 = 3).
Proof.
  induction ds as [|d r IH]; intros k i c Hk H E; [destruct i; discriminate|]. inversion H as [|? ? H1 H2]; subst. cbn [spaced] in E. destruct i as [|i].
  - cbn in E. injection E as ->. split; [intros ->; unfold digit in H1; cbn in H1; lia|]. intros X. exfalso. revert X. Z.to_euclidean_division_equations. lia.
  - cbn [nth_error] in E. destruct r as [|e r]; [destruct i; discriminate|]. destruct (Z.eqb_spec ((k + 1) mod 3) 0) as [E3|E3].
    + destruct i as [|i].
      * cbn in E. injection E as <-. split; [intros _|auto]. Z.to_euclidean_division_equations. lia.
      * cbn [nth_error] in E. rewrite (IH (k + 1) i c ltac:(lia) H2 E). clear E IH H H1 H2. split; intros X; Z.to_euclidean_division_equations; lia.
    + rewrite (IH (k + 1) i c ltac:(lia) H2 E). clear E IH H H1 H2. split; intros X; Z.to_euclidean_division_equations; lia.
Qed.
Lemma spaced_last ds : forall k, ds <> [] -> Forall digit ds -> exists l c, spaced k ds = l ++ [c] /\ digit c.
Proof.
  induction ds as [|d r IH]; intros k N H; [contradiction|]. inversion H as [|? ? H1 H2]; subst. cbn [spaced]. destruct r as [|e r]; [exists [], d; auto|].
  destruct (IH (k + 1) ltac:(discriminate) H2) as (l & c & E & Dc). rewrite E. destruct ((k + 1) mod 3 =? 0); [exists (d :: " "%char :: l), c|exists (d :: l), c]; auto.
Qed.
Lemma put_ok : forall f j k p out D, 0 <= j < 10 ^ Z.of_nat f -> 0 <= k -> D = k + Z.of_nat (length (digits_rev f j)) ->
  Z.of_nat (length (spaced k (digits_rev f j))) <= p + 1 ->
  put_digits (S f) D k j p out = Ok (p - Z.of_nat (length (spaced k (digits_rev f j))), rev (spaced k (digits_rev f j)) ++ out).
Proof.
  induction f as [|f IH]; intros j k p out D Hj Hk HD Hp.
  - cbn in *. subst D. replace (k <? k + 0) with false by lia. f_equal. f_equal. lia.
  - rewrite Nat2Z.inj_succ, Z.pow_succ_r in Hj by lia. cbn [digits_rev] in *. destruct (Z.ltb_spec 0 j) as [J|J].
    + assert (Q : 0 <= j / 10 < 10 ^ Z.of_nat f) by (split; [apply Z.div_pos; lia|apply Z.div_lt_upper_bound; lia]).
      cbn [length] in HD. cbn [spaced] in Hp |- *. set (ds := digits_rev f (j / 10)) in *.
      change (put_digits (S (S f)) D k j p out) with
        (if k <? D then if p <? 0 then Fault else
           if (Z.rem (k + 1) 3 =? 0) && (k <? D - 1)
           then if p - 1 <? 0 then Fault else put_digits (S f) D (k + 1) (Z.quot j 10) (p - 1 - 1) (" "%char :: ascii_of_nat (Z.to_nat (48 + Z.rem j 10)) :: out)
           else put_digits (S f) D (k + 1) (Z.quot j 10) (p - 1) (ascii_of_nat (Z.to_nat (48 + Z.rem j 10)) :: out)
         else Ok (p, out)).
      replace (k <? D) with true by lia. rewrite Z.quot_div_nonneg, (Z.rem_mod_nonneg j 10), (Z.rem_mod_nonneg (k + 1) 3) by lia.
      replace (Z.to_nat (48 + j mod 10)) with (48 + Z.to_nat (j mod 10))%nat by (pose proof (Z.mod_pos_bound j 10); lia).
      set (c := ascii_of_nat (48 + Z.to_nat (j mod 10))) in *. cbn [length] in Hp. replace (p <? 0) with false by lia.
      assert (Rest : forall p' out', Z.of_nat (length (spaced (k + 1) ds)) <= p' + 1 -> put_digits (S f) D (k + 1) (j / 10) p' out' = Ok (p' - Z.of_nat (length (spaced (k + 1) ds)), rev (spaced (k + 1) ds) ++ out')) by (intros; apply IH; fold ds; lia || assumption).
      destruct ds as [|e r] eqn:Ed.
      * cbn [length] in HD. replace (k <? D - 1) with false by lia. rewrite Bool.andb_false_r, Rest by (cbn [spaced length]; cbn in Hp; lia). cbn. f_equal. f_equal. lia.
      * rewrite <- Ed in *. cbn [length] in HD. assert (K : (k <? D - 1) = true) by (rewrite Ed in HD; cbn in HD; lia). rewrite K, Bool.andb_true_r. destruct ((k + 1) mod 3 =? 0).
        -- cbn [length] in Hp. replace (p - 1 <? 0) with false by lia. rewrite Rest by lia. cbn [rev length]. rewrite <- !app_assoc. cbn [app]. f_equal. f_equal. lia.
        -- rewrite Rest by lia. cbn [rev length]. rewrite <- !app_assoc. cbn [app]. f_equal. f_equal. lia.
    + assert (j = 0) as -> by lia. cbn in *. subst D. replace (k <? k + 0) with false by lia. f_equal. f_equal. lia.
Qed.
Lemma digits_S : forall f i, 0 <= i < 10 ^ Z.of_nat f -> digits_rev (S f) i = digits_rev f i.
Proof.
  induction f as [|f IH]; intros i H; [change (10 ^ Z.of_nat 0) with 1 in H; assert (i = 0) as -> by lia; reflexivity|].
  rewrite Nat2Z.inj_succ, Z.pow_succ_r in H by lia. cbn [digits_rev] in *. destruct (0 <? i); [|reflexivity]. f_equal. apply IH. split; [apply Z.div_pos; lia|apply Z.div_lt_upper_bound; lia].
Qed.
Lemma metric_ok i : - 2 ^ 63 < i < 2 ^ 63 -> i <> 0 ->
  metriculate i = Ok ((if i <? 0 then B "-" else []) ++ rev (spaced 0 (digits_rev 64 (Z.abs i)))).
Proof.
  intros Hi N. unfold metriculate. set (a := Z.abs i).
  assert (Ha : 0 < a < 10 ^ Z.of_nat 64). { split; [lia|]. unfold a. assert (2 ^ 63 < 10 ^ Z.of_nat 64) by reflexivity. lia. }
  assert (C : count_digits 65 i 0 = Ok (Z.of_nat (length (digits_rev 64 a)))).
  { transitivity (count_digits 65 a 0); [|rewrite (count_pos 64 a 0) by lia; f_equal; lia]. unfold a. destruct (Z.abs_spec i) as [[_ ->]|[_ ->]]; [reflexivity|symmetry; apply count_opp]. }
  rewrite C. cbn [bind]. set (ds := digits_rev 64 a).
  assert (Nd : ds <> []). { destruct (digits_rev_last 64 a Ha) as (l & c & E & _). unfold ds. rewrite E. destruct l; discriminate. }
  assert (D1 : 0 < Z.of_nat (length ds)) by (destruct ds; [contradiction|cbn; lia]).
  rewrite Z.quot_div_nonneg by lia. pose proof (spaced_len ds 0 ltac:(lia) Nd) as L. rewrite Z.mod_0_l, Z.add_0_r in L by lia.
  assert (P : forall p, Z.of_nat (length (spaced 0 ds)) <= p + 1 -> put_digits 65 (Z.of_nat (length ds)) 0 a p [] = Ok (p - Z.of_nat (length (spaced 0 ds)), rev (spaced 0 ds))).
  { intros p Hp. pose proof (put_ok 64 a 0 p [] (Z.of_nat (length ds)) ltac:(lia) ltac:(lia) ltac:(fold ds; lia) Hp) as X. fold ds in X. rewrite app_nil_r in X. exact X. }
  destruct (Z.ltb_spec i 0).
  - replace (i =? - 2 ^ 63) with false by lia. cbn [bind]. replace (- i) with a by lia.
    match goal with |- (if ?b then _ else _) = _ => replace b with false by lia end. rewrite P by lia. cbn [bind].
    match goal with |- (if ?b then _ else _) = _ => replace b with true by lia end. reflexivity.
  - cbn [bind]. replace i with a by lia.
    match goal with |- (if ?b then _ else _) = _ => replace b with false by lia end. rewrite P by lia. cbn [bind].
    match goal with |- (if ?b then _ else _) = _ => replace b with true by lia end. reflexivity.
Qed.
Lemma metric_spec a : 0 < a < 2 ^ 63 -> let s := rev (spaced 0 (digits_rev 64 a)) in
  is_decimal a (filter (fun c => negb (Ascii.eqb c " ")) s) /\ (forall k c, nth_error (rev s) k = Some c -> (c = " "%char <-> (k mod 4 = 3)%nat)) /\ hd nul s <> " "%char.
Proof.
  intros Ha s. assert (Hb : 0 <= a < 10 ^ Z.of_nat 64). { split; [lia|]. assert (2 ^ 63 < 10 ^ Z.of_nat 64) by reflexivity. lia. }
  pose proof (digits_rev_digits 64 a) as Dg. split; [|split].
  - unfold s. assert (E : forall f (l : bytes), filter f (rev l) = rev (filter f l)).
    { intros f l. induction l as [|x l IH]; [reflexivity|]. cbn. rewrite filter_app, IH. cbn. destruct (f x); cbn; [reflexivity|apply app_nil_r]. }
    rewrite E, spaced_strip by exact Dg. rewrite <- (digits_S 64 a Hb). pose proof (dec_is a) as D. unfold dec in D. replace (a =? 0) with false in D by lia. apply D. unfold big. lia.
  - intros k c H. unfold s in H. rewrite rev_involutive in H. rewrite (spaced_at _ 0 k c ltac:(lia) Dg H). change (0 mod 3) with 0. lia.
  - assert (Nd : digits_rev 64 a <> []). { destruct (digits_rev_last 64 a ltac:(lia)) as (l & c & E & _). rewrite E. destruct l; discriminate. }
    destruct (spaced_last _ 0 Nd Dg) as (l & c & E & Dc). unfold s. rewrite E, rev_app_distr. cbn. intros ->. unfold digit in Dc. cbn in Dc. lia.
Qed.
