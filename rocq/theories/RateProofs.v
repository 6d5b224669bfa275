(** Proofs about WvRateAdjust. *)
From Verif Require Import Base TimeModel RateSpec RateModel.
Local Open Scope Z_scope.

Lemma i32_ok z : - 2 ^ 31 <= z < 2 ^ 31 -> i32 z = Ok z.
Proof. intros H. unfold i32. destruct (Z.leb_spec (- 2 ^ 31) z); [|lia]. destruct (Z.ltb_spec z (2 ^ 31)); [reflexivity|lia]. Qed.

Lemma uns_id z : 0 <= z < 2 ^ 32 -> uns z = z.
Proof. intros H. apply Z.mod_small. exact H. Qed.

Lemma to_int_id z : - 2 ^ 31 <= z < 2 ^ 31 -> to_int z = z.
Proof. intros H. unfold to_int. rewrite Z.mod_small by lia. lia. Qed.

(** What was written so far, and room for more. *)
Definition inv (size cap : nat) (done : bytes) (o : out) : Prop :=
  exists f j, buf o = map Some done ++ repeat None f /\ optr o = length done /\
    (ostart o + cap = length (buf o))%nat /\ (optr o = ostart o + j * size)%nat /\ (j * size <= cap)%nat.

Lemma alloc_inv size cap done : inv size cap done (alloc cap (map Some done)).
Proof.
  exists cap, O. cbn. rewrite app_length, !map_length, repeat_length. repeat split; lia.
Qed.

Lemma inv_full size cap done o : inv size cap done o -> (cap <= optr o - ostart o)%nat -> buf o = map Some done.
Proof.
  intros (f & j & A & C & D & E & F) L. assert (length (buf o) = length done) by lia.
  rewrite A in H. rewrite app_length, map_length, repeat_length in H. assert (f = O) by lia. subst f. rewrite A. apply app_nil_r.
Qed.

Lemma write_inv size cap q done o s : (cap = q * size)%nat -> length s = size -> (0 < size)%nat ->
  inv size cap done o -> (optr o - ostart o < cap)%nat ->
  exists o', write s o = Ok o' /\ inv size cap (done ++ s) o'.
Proof.
  intros -> S P (f & j & A & C & D & E & F) L. unfold write.
  assert (J : (j < q)%nat) by (apply (Nat.mul_lt_mono_pos_r size); lia).
  assert (R : (j * size + size <= q * size)%nat) by (replace (j * size + size)%nat with ((j + 1) * size)%nat by lia; apply Nat.mul_le_mono_r; lia).
  destruct (Nat.leb_spec (optr o + length s) (length (buf o))) as [Q|Q]; [|lia].
  eexists. split; [reflexivity|]. assert (LF : (size <= f)%nat).
  { rewrite A, app_length, map_length, repeat_length in D. lia. }
  exists (f - size)%nat, (Datatypes.S j). cbn [buf ostart optr].
  assert (X : firstn (optr o) (buf o) ++ map Some s ++ skipn (optr o + length s) (buf o) = map Some (done ++ s) ++ repeat None (f - size)).
  { rewrite A, C, map_app, <- app_assoc. f_equal.
    - rewrite firstn_app, map_length, Nat.sub_diag, firstn_O, app_nil_r. apply firstn_all2. rewrite map_length. lia.
    - f_equal. rewrite skipn_app, map_length. rewrite skipn_all2 by (rewrite map_length; lia). cbn [app].
      replace (length done + length s - length done)%nat with size by lia. clear - LF. revert f LF.
      induction size as [|z IH]; intros f LF; [cbn; f_equal; lia|]. destruct f; [lia|]. cbn. apply IH. lia. }
  rewrite X. split; [reflexivity|]. split; [rewrite app_length; lia|].
  assert (Y : length (map Some (done ++ s) ++ repeat None (f - size)) = length (buf o)).
  { rewrite A, !app_length, !map_length, app_length, !repeat_length. lia. }
  rewrite Y. split; [exact D|]. split; lia.
Qed.

Lemma step_inv size cap q done o s piece : (cap = q * size)%nat -> (0 < q)%nat -> length s = size -> (0 < size)%nat ->
  piece = Z.of_nat cap -> piece < 2 ^ 32 -> inv size cap done o ->
  exists o', write s (if piece <=? uns (Z.of_nat (optr o - ostart o)) then alloc (Z.to_nat piece) (buf o) else o) = Ok o' /\
    inv size cap (done ++ s) o'.
Proof.
  intros C Q S P -> L I. assert (O : (optr o - ostart o <= cap)%nat) by (destruct I as (f & j & A & X); lia).
  rewrite uns_id by lia. rewrite Nat2Z.id. destruct (Z.leb_spec (Z.of_nat cap) (Z.of_nat (optr o - ostart o))) as [F|F].
  - rewrite (inv_full size cap done o I) by lia. apply write_inv with (q := q); try assumption; [apply alloc_inv|].
    cbn. assert (0 < q * size)%nat by (apply Nat.mul_pos_pos; assumption). lia.
  - apply write_inv with (q := q); try assumption. lia.
Qed.

Lemma fill_ok size cap q piece minus s : (cap = q * size)%nat -> (0 < q)%nat -> length s = size -> (0 < size)%nat ->
  piece = Z.of_nat cap -> piece < 2 ^ 32 -> 0 < minus ->
  forall n b done o, 0 <= b < 2 ^ 31 -> (Z.to_nat (b / minus) < n)%nat -> inv size cap done o ->
  exists o', fill n piece minus s b o = Ok (b mod minus, o') /\
    inv size cap (done ++ concat (repeat s (Z.to_nat (b / minus)))) o'.
Proof.
  intros C Q S P E L M. induction n as [|n IH]; intros b done o H F I; [lia|]. cbn [fill].
  destruct (Z.leb_spec minus b) as [G|G].
  - destruct (step_inv size cap q done o s piece C Q S P E L I) as (o1 & W & I1). rewrite W. cbn [bind].
    rewrite i32_ok by lia. cbn [bind].
    assert (D : b / minus = (b - minus) / minus + 1) by (rewrite <- Z.div_add by lia; f_equal; lia).
    assert (DP : 0 <= (b - minus) / minus) by (apply Z.div_pos; lia).
    destruct (IH (b - minus) (done ++ s) o1) as (o' & F' & I'); [lia|lia|exact I1|].
    exists o'. split.
    + rewrite F'. do 2 f_equal. rewrite <- (Z.mod_add (b - minus) 1 minus) by lia. f_equal. lia.
    + replace (Z.to_nat (b / minus)) with (Datatypes.S (Z.to_nat ((b - minus) / minus))) by lia. cbn [repeat concat].
      rewrite app_assoc. exact I'.
  - exists o. rewrite Z.mod_small, Z.div_small by lia. split; [reflexivity|]. cbn. rewrite app_nil_r. exact I.
Qed.

Lemma div_carry b p m j : 0 < m -> b / m + (b mod m + j * p) / m = (b + j * p) / m.
Proof.
  intros M. pose proof (Z.div_mod b m ltac:(lia)).
  replace (b + j * p) with (b mod m + j * p + b / m * m) by lia. rewrite Z.div_add by lia. lia.
Qed.

Lemma copy_ok size cap q piece plus minus : (cap = q * size)%nat -> (0 < q)%nat -> (0 < size)%nat ->
  piece = Z.of_nat cap -> piece < 2 ^ 32 -> 0 < minus -> 0 <= plus -> minus + plus <= 2 ^ 31 ->
  forall samples b done o, Forall (fun s => length s = size) samples -> 0 <= b -> b + plus < 2 ^ 31 -> inv size cap done o ->
  exists ks b' o', copy piece plus minus samples b o = Ok (b', o') /\ length ks = length samples /\
    inv size cap (done ++ stretched ks samples) o' /\
    (forall j, (0 < j <= length samples)%nat -> out_after j ks = (b + Z.of_nat j * plus) / minus) /\
    (samples <> [] -> b' = (b + Z.of_nat (length samples) * plus) mod minus) /\ (samples = [] -> b' = b).
Proof.
  intros C Q P E L M PP MP. induction samples as [|s samples IH]; intros b done o F H BP I.
  - exists [], b, o. cbn. rewrite app_nil_r. split; [reflexivity|]. split; [reflexivity|]. split; [exact I|]. split; [lia|]. split; [congruence|reflexivity].
  - inversion F as [|? ? S F']; subst. cbn [copy]. rewrite i32_ok by lia. cbn [bind].
    destruct (fill_ok (length s) (q * length s) q (Z.of_nat (q * length s)) minus s eq_refl Q eq_refl P eq_refl L M
      (Datatypes.S (Z.to_nat ((b + plus) / minus))) (b + plus) done o) as (o1 & W & I1); [lia|lia|exact I|].
    rewrite W. cbn [bind]. pose proof (Z.mod_pos_bound (b + plus) minus M) as MB.
    destruct (IH ((b + plus) mod minus) _ o1 F' ltac:(lia) ltac:(lia) I1) as (ks & b' & o' & R & LK & I' & J & B1 & B2).
    set (k := Z.to_nat ((b + plus) / minus)) in *.
    exists (k :: ks), b', o'. split; [exact R|]. split; [cbn; lia|]. split; [cbn [stretched]; rewrite app_assoc; exact I'|].
    assert (K : Z.of_nat k = (b + plus) / minus) by (unfold k; rewrite Z2Nat.id; [reflexivity|apply Z.div_pos; lia]).
    split.
    + intros j JL. destruct j as [|j]; [lia|]. unfold out_after. cbn [firstn list_sum fold_right]. rewrite Nat2Z.inj_add, K.
      fold (out_after j ks). destruct (Nat.eq_dec j 0) as [->|NZ].
      * cbn [firstn fold_right]. change (Z.of_nat 0) with 0. rewrite Z.add_0_r. change (Z.of_nat 1) with 1. rewrite Z.mul_1_l. reflexivity.
      * change (fold_right Nat.add 0%nat (firstn j ks)) with (list_sum (firstn j ks)). fold (out_after j ks).
        rewrite J by (cbn in JL; lia). rewrite div_carry by exact M. f_equal. lia.
    + split; [|discriminate]. intros _. cbn [length]. destruct samples as [|s' samples].
      * rewrite (B2 eq_refl). change (Z.of_nat (length (s :: []))) with 1. cbn [length]. change (Z.of_nat 1) with 1. rewrite Z.mul_1_l. reflexivity.
      * rewrite B1 by discriminate. rewrite Z.add_mod_idemp_l by lia. f_equal. lia.
Qed.

Lemma split_forall n size : forall l, (length l = n * size)%nat -> Forall (fun s => length s = size) (split n size l).
Proof.
  induction n as [|n IH]; intros l L; cbn [split]; [constructor|]. constructor.
  - rewrite firstn_length. lia.
  - apply IH. rewrite skipn_length. lia.
Qed.

Lemma split_length n size : forall l, length (split n size l) = n.
Proof. induction n as [|n IH]; intros l; cbn; [reflexivity|]. rewrite IH. reflexivity. Qed.

Lemma split_concat n size : forall l, (length l = n * size)%nat -> concat (split n size l) = l.
Proof.
  induction n as [|n IH]; intros l L; cbn [split concat].
  - destruct l; [reflexivity|discriminate].
  - rewrite IH by (rewrite skipn_length; lia). apply firstn_skipn.
Qed.

(** One call whose rates do not overflow. *)
Lemma encode_ok now m input pre r r1 (n : nat) plus minus :
  (0 < n)%nat -> 0 < sampsize r -> Z.of_nat (length input) = Z.of_nat n * sampsize r ->
  adjust now (Z.of_nat n) m r = Ok r1 ->
  plus = orate_n r1 * irate_d r1 -> minus = irate_n r1 * orate_d r1 ->
  0 < minus -> 0 <= plus -> minus + plus <= 2 ^ 31 -> minus < 2 ^ 31 -> 0 <= bucket r -> bucket r + plus < 2 ^ 31 ->
  2 * Z.of_nat n * sampsize r < 2 ^ 32 ->
  exists ks samples r', concat samples = input /\ length samples = n /\ length ks = n /\
    Forall (fun s => Z.of_nat (length s) = sampsize r) samples /\
    encode now m input (map Some pre) r = Ok (r', map Some (pre ++ stretched ks samples)) /\
    (forall j, (0 < j <= n)%nat -> out_after j ks = (bucket r + Z.of_nat j * plus) / minus) /\
    bucket r' = (bucket r + Z.of_nat n * plus) mod minus /\
    irate_n r' = irate_n r1 /\ irate_d r' = irate_d r1 /\ orate_n r' = orate_n r1 /\ orate_d r' = orate_d r1 /\
    epoch r' = epoch r1 /\ sampsize r' = sampsize r.
Proof.
  intros N SP L A -> -> M PP MP ML B BP BIG.
  assert (R1 : sampsize r1 = sampsize r /\ bucket r1 = bucket r).
  { unfold adjust in A. destruct (match m with Some _ => _ | None => _ end) as [on od].
    destruct (msecdiff _ _) as [ms| |]; cbn [bind] in A; try discriminate. destruct (100 <? _).
    - destruct (i32 _); cbn [bind] in A; try discriminate. injection A as <-. auto.
    - injection A as <-. auto. }
  destruct R1 as [R1 R2]. unfold encode.
  assert (LI : (0 < length input)%nat) by (assert (0 < Z.of_nat n * sampsize r) by (apply Z.mul_pos_pos; lia); lia).
  destruct (Nat.eqb_spec (length input) 0); [lia|].
  rewrite L, Z.mod_mul by lia. cbn [Z.eqb negb]. rewrite Z.div_mul by lia. rewrite A. cbn [bind].
  rewrite (i32_ok (orate_n r1 * irate_d r1)) by lia. cbn [bind]. rewrite (i32_ok (irate_n r1 * orate_d r1)) by lia. cbn [bind].
  set (plus := orate_n r1 * irate_d r1) in *. set (minus := irate_n r1 * orate_d r1) in *.
  set (size := Z.to_nat (sampsize r)). assert (SZ : Z.of_nat size = sampsize r) by (unfold size; lia).
  pose proof (Z.div_mod (Z.of_nat n) 2 ltac:(lia)) as DM. pose proof (Z.mod_pos_bound (Z.of_nat n) 2 ltac:(lia)) as MB.
  set (q := Z.to_nat (Z.of_nat n + Z.of_nat n / 2)).
  assert (QZ : Z.of_nat q = Z.of_nat n + Z.of_nat n / 2) by (unfold q; lia).
  assert (QS : Z.of_nat q * sampsize r < 2 ^ 32) by nia.
  assert (QN : Z.of_nat q < 2 ^ 32) by nia.
  rewrite R1, R2. rewrite <- QZ. rewrite (uns_id (Z.of_nat q)) by lia.
  rewrite (uns_id (Z.of_nat q * sampsize r)) by (split; [apply Z.mul_nonneg_nonneg; lia|exact QS]).
  set (cap := (q * size)%nat). assert (CZ : Z.of_nat q * sampsize r = Z.of_nat cap) by (unfold cap; lia).
  rewrite CZ in *. rewrite Nat2Z.id. fold size. rewrite Nat2Z.id.
  assert (LN : length input = (n * size)%nat) by lia.
  destruct (copy_ok size cap q (Z.of_nat cap) plus minus eq_refl ltac:(lia) ltac:(lia) eq_refl QS M PP MP
     (split n size input) (bucket r) pre (alloc cap (map Some pre)) (split_forall n size input LN) B BP (alloc_inv size cap pre))
     as (ks & b' & o' & R & LK & I & J & B1 & _).
  rewrite split_length in *. rewrite R. cbn [bind].
  destruct I as (f & j & I1 & I2 & I3 & I4 & I5).
  assert (UN : uns (Z.of_nat cap - Z.of_nat (optr o' - ostart o')) = Z.of_nat f).
  { rewrite uns_id by lia. rewrite I1, app_length, map_length, repeat_length in I3. lia. }
  rewrite UN. destruct (Z.ltb_spec (Z.of_nat (length (buf o'))) (Z.of_nat f)) as [X|X].
  { rewrite I1, app_length, map_length, repeat_length in X. lia. }
  exists ks, (split n size input). eexists. split; [apply split_concat; exact LN|]. split; [apply split_length|].
  split; [exact LK|]. split.
  { eapply Forall_impl; [|apply (split_forall n size input LN)]. cbn. intros s S. lia. }
  split.
  { do 2 f_equal. rewrite Nat2Z.id, I1, app_length, repeat_length, Nat.add_sub, firstn_app, Nat.sub_diag, firstn_O, app_nil_r.
    apply firstn_all. }
  split; [exact J|]. cbn [bucket irate_n irate_d orate_n orate_d epoch sampsize]. split; [apply B1|repeat split; reflexivity].
  destruct n; [lia|discriminate].
Qed.
