(** Proofs about version numbers. *)
From Verif Require Import Base BaseFacts VerSpec VerModel.
From Coq Require Import NArith.
Local Open Scope N_scope.


Lemma lor_add a b n : b < 2 ^ n -> N.lor (a * 2 ^ n) b = a * 2 ^ n + b.
Proof.
  intros H. symmetry. rewrite <- N.lxor_lor, N.add_nocarry_lxor; auto.
  all: apply N.bits_inj; intros i; rewrite N.land_spec, N.bits_0; destruct (N.lt_ge_cases i n) as [L|L]; [rewrite N.mul_pow2_bits_low by exact L; reflexivity|].
  all: replace (N.testbit b i) with false; [apply Bool.andb_false_r|]; symmetry; rewrite <- (N.mod_small b (2 ^ n)) by exact H; apply N.mod_pow2_bits_high; exact L.
Qed.
Lemma lt16 (P : N -> Prop) : P 0 -> P 1 -> P 2 -> P 3 -> P 4 -> P 5 -> P 6 -> P 7 -> P 8 -> P 9 -> P 10 -> P 11 -> P 12 -> P 13 -> P 14 -> P 15 -> forall d, d < 16 -> P d.
Proof.
  intros. assert (X : d = 0 \/ d = 1 \/ d = 2 \/ d = 3 \/ d = 4 \/ d = 5 \/ d = 6 \/ d = 7 \/ d = 8 \/ d = 9 \/ d = 10 \/ d = 11 \/ d = 12 \/ d = 13 \/ d = 14 \/ d = 15) by lia.
  repeat (destruct X as [->|X]; [assumption|]). subst. assumption.
Qed.
Lemma digit_hexch d : d < 16 -> digit (hexch d) = Some d /\ sep (hexch d) = false /\ Ascii.eqb (hexch d) "." = false.
Proof. revert d. apply lt16; vm_compute; auto. Qed.
Lemma hexch_zero d : d < 16 -> Ascii.eqb (hexch d) "0" = (d =? 0).
Proof. revert d. apply lt16; reflexivity. Qed.

Definition vfrom (n : N) (l : list N) : N := fold_left (fun n d => 16 * n + d) l n.
Lemma vfrom_bound : forall l n k, digits l -> n < 16 ^ k -> vfrom n l < 16 ^ (k + N.of_nat (length l)).
Proof.
  induction l as [|d l IH]; intros n k D H; [cbn; rewrite N.add_0_r; exact H|]. inversion D; subst. cbn [vfrom fold_left length]. replace (k + N.of_nat (S (length l))) with (N.succ k + N.of_nat (length l)) by lia. apply IH; [assumption|]. rewrite N.pow_succ_r'. lia.
Qed.
Lemma value_bound l : digits l -> value l < 16 ^ N.of_nat (length l).
Proof. intros D. apply (vfrom_bound l 0 0 D). cbn. lia. Qed.
(** One digit more. *)
Lemma one_digit n d : d < 16 -> n < 16 ^ 7 -> N.lor (shl n 4) d = 16 * n + d.
Proof. intros D H. unfold shl, wrap. change (16 ^ 7) with 268435456 in H. rewrite N.mod_small by (change (2 ^ 4) with 16; change (2 ^ 32) with 4294967296; lia). rewrite lor_add by (change (2 ^ 4) with 16; exact D). change (2 ^ 4) with 16. lia. Qed.
Lemma major_text : forall l n k r, digits l -> n < 16 ^ k -> k + N.of_nat (length l) <= 8 -> (match r with [] => True | c :: _ => sep c = true end) -> major (text l ++ r) n = (vfrom n l, r).
Proof.
  induction l as [|d l IH]; intros n k r D H K R.
  - cbn. destruct r; [reflexivity|]. cbn. rewrite R. reflexivity.
  - inversion D; subst. cbn [text map app major]. destruct (digit_hexch d) as (E1 & E2 & _); [assumption|]. rewrite E2, E1. cbn [length] in K.
    assert (B7 : n < 16 ^ 7) by (eapply N.lt_le_trans; [exact H|]; apply N.pow_le_mono_r; lia). rewrite one_digit by assumption. change (vfrom n (d :: l)) with (vfrom (16 * n + d) l). apply (IH _ (N.succ k)); [assumption| |lia|exact R]. rewrite N.pow_succ_r'. lia.
Qed.
Lemma minor_text : forall l stop n k b r, digits l -> n < 16 ^ k -> k + N.of_nat b <= 7 -> minor stop (text l ++ r) b n = minor stop (text (skipn b l) ++ r) (b - length (firstn b l)) (vfrom n (firstn b l)).
Proof.
  induction l as [|d l IH]; intros stop n k b r D H K; [rewrite firstn_nil, skipn_nil, Nat.sub_0_r; reflexivity|]. inversion D; subst. destruct b as [|b]; [reflexivity|]. cbn [text map app minor firstn skipn length]. destruct (digit_hexch d) as (E1 & E2 & _); [assumption|]. rewrite E2, E1, Bool.andb_false_r.
  assert (B7 : n < 16 ^ 7) by (eapply N.lt_le_trans; [exact H|]; apply N.pow_le_mono_r; lia). rewrite one_digit by assumption. rewrite (IH stop (16 * n + d) (N.succ k)); [reflexivity|assumption|rewrite N.pow_succ_r'; lia|lia].
Qed.
Lemma minor_end stop l b n : minor stop (text (skipn b l) ++ []) (b - length (firstn b l)) n = (n, (b - length (firstn b l))%nat, text (skipn b l)).
Proof.
  rewrite app_nil_r. destruct (Nat.le_gt_cases (length l) b) as [L|L].
  - rewrite (skipn_all2 l) by exact L. destruct (b - _)%nat; reflexivity.
  - rewrite firstn_length_le, Nat.sub_diag by lia. destruct (text (skipn b l)); reflexivity.
Qed.
Lemma digits_firstn n l : digits l -> digits (firstn n l).
Proof. intros D. revert n. induction D; intros [|n]; cbn; constructor; auto. apply IHD. Qed.
Lemma fraction_bound l : digits l -> fraction l < 2 ^ 16.
Proof.
  intros D. unfold fraction. pose proof (value_bound _ (digits_firstn 4 l D)) as V. pose proof (firstn_le_length 4 l) as L. set (m := length (firstn 4 l)) in *. change (2 ^ 16) with (16 ^ 4). replace 4 with (N.of_nat m + (4 - N.of_nat m)) at 2 by lia. rewrite N.pow_add_r. apply N.mul_lt_mono_pos_r; [|exact V]. assert (16 ^ (4 - N.of_nat m) <> 0) by (apply N.pow_nonzero; lia). lia.
Qed.
Lemma frac_shl l : digits l -> shl (value (firstn 4 l)) (4 * N.of_nat (4 - length (firstn 4 l))) = fraction l.
Proof.
  intros D. pose proof (fraction_bound l D) as F. unfold shl, wrap. replace (value (firstn 4 l) * 2 ^ (4 * N.of_nat (4 - length (firstn 4 l)))) with (fraction l).
  - apply N.mod_small. eapply N.lt_trans; [exact F|reflexivity].
  - unfold fraction. f_equal. rewrite N.pow_mul_r. change (2 ^ 4) with 16. f_equal. lia.
Qed.

Lemma fraction_small l : digits l -> (length l <= 4)%nat -> fraction l = value l * 16 ^ (4 - N.of_nat (length l)).
Proof. intros D L. unfold fraction. rewrite firstn_all2 by exact L. reflexivity. Qed.
Lemma old_reads a b : digits a -> digits b -> (length a <= 4)%nat -> string_to_old_ver (text a ++ B "." ++ text b) = value a * 2 ^ 16 + fraction b.
Proof.
  intros Da Db La. unfold string_to_old_ver. rewrite (major_text a 0 0) by (cbn; auto; lia). change (B "." ++ text b) with ("."%char :: text b). cbn [minor andb].
  change (digit ".") with (@None N). cbv iota beta. rewrite <- (app_nil_r (text b)). rewrite (minor_text b false 0 0 4) by (cbn; auto; lia). rewrite minor_end. change (vfrom 0 (firstn 4 b)) with (value (firstn 4 b)). rewrite frac_shl by exact Db.
  pose proof (value_bound a Da) as Va. assert (V : value a < 2 ^ 16) by (eapply N.lt_le_trans; [exact Va|]; change (2 ^ 16) with (16 ^ 4); apply N.pow_le_mono_r; lia).
  change (vfrom 0 a) with (value a). unfold shl, wrap. rewrite N.mod_small by (change (2 ^ 16) with 65536 in *; change (2 ^ 32) with 4294967296; lia). apply lor_add, fraction_bound, Db.
Qed.
Lemma new_reads a b c : digits a -> digits b -> digits c -> (length a <= 2)%nat -> (length b <= 2)%nat ->
  string_to_new_ver (text a ++ B "." ++ text b ++ B "." ++ text c) = value a * 2 ^ 24 + value b * 2 ^ 16 + fraction c.
Proof.
  intros Da Db Dc La Lb. unfold string_to_new_ver. rewrite (major_text a 0 0) by (cbn; auto; lia). change (B "." ++ text b ++ B "." ++ text c) with ("."%char :: text b ++ "."%char :: text c). cbn [tl].
  rewrite (minor_text b true 0 0 2) by (cbn; auto; lia). rewrite firstn_all2, skipn_all2 by exact Lb. cbn [text map app].
  assert (M : forall n k, minor true ("."%char :: map hexch c) k n = (n, k, "."%char :: map hexch c)) by (intros n [|k]; reflexivity). rewrite M. cbn [minor andb]. change (digit ".") with (@None N). cbv iota beta. change (map hexch c) with (text c). rewrite <- (app_nil_r (text c)).
  rewrite (minor_text c false 0 0 4) by (cbn; auto; lia). rewrite minor_end. change (vfrom 0 (firstn 4 c)) with (value (firstn 4 c)). rewrite frac_shl by exact Dc. change (vfrom 0 a) with (value a). change (vfrom 0 b) with (value b).
  assert (V2 : forall l, digits l -> (length l <= 2)%nat -> value l < 256) by (intros l D L; eapply N.lt_le_trans; [apply value_bound, D|]; change 256 with (16 ^ 2); apply N.pow_le_mono_r; lia).
  pose proof (V2 a Da La). pose proof (V2 b Db Lb). unfold shl, wrap. rewrite !N.mod_small by (change (2 ^ 24) with 16777216; change (2 ^ 16) with 65536; change (2 ^ 32) with 4294967296; lia).
  rewrite lor_add by (change (2 ^ 24) with 16777216; change (2 ^ 16) with 65536; lia). replace (value a * 2 ^ 24 + value b * 2 ^ 16) with ((value a * 256 + value b) * 2 ^ 16) by (change (2 ^ 24) with (256 * 2 ^ 16); lia). apply lor_add, fraction_bound, Dc.
Qed.

Lemma after_text l r : digits l -> after_dot (text l ++ r) = after_dot r.
Proof. induction l as [|d l IH]; intros D; [reflexivity|]. inversion D; subst. cbn [text map app after_dot]. destruct (digit_hexch d) as (_ & _ & E); [assumption|]. rewrite E. apply IH. assumption. Qed.
Lemma old_form a b : digits a -> digits b -> is_new_verstr (text a ++ B "." ++ text b) = false.
Proof. intros Da Db. unfold is_new_verstr. rewrite after_text by exact Da. assert (E : after_dot (text b) = None) by (rewrite <- (app_nil_r (text b)), after_text by exact Db; reflexivity). change (after_dot (B "." ++ text b)) with (Some (text b)). cbn iota. rewrite E. reflexivity. Qed.
Lemma new_form a b c : digits a -> digits b -> is_new_verstr (text a ++ B "." ++ text b ++ B "." ++ c) = true.
Proof. intros Da Db. unfold is_new_verstr. rewrite after_text by exact Da. change (after_dot (B "." ++ text b ++ B "." ++ c)) with (Some (text b ++ B "." ++ c)). cbn iota. rewrite after_text by exact Db. reflexivity. Qed.

Ltac Zify.zify_post_hook ::= Z.to_euclidean_division_equations.
Lemma nib_lt n k : nib n k < 16.
Proof. unfold nib. apply N.mod_lt. lia. Qed.
Lemma unzero_text : forall l, digits l -> exists k, unzero (text l) = text k /\ digits k /\ (length k <= length l)%nat /\ value k = value l /\ (l <> [] -> k <> []).
Proof.
  induction l as [|d l IH]; intros D; [exists []; repeat split; auto|]. inversion D; subst. destruct l as [|e l]; [exists [d]; repeat split; auto|]. cbn [text map unzero]. rewrite hexch_zero by assumption. destruct (N.eqb_spec d 0) as [->|Z].
  - destruct (IH ltac:(assumption)) as (k & K1 & K2 & K3 & K4 & K5). exists k. split; [exact K1|]. split; [exact K2|]. split; [cbn in *; lia|]. split; [exact K4|]. intros _. apply K5. discriminate.
  - exists (d :: e :: l). repeat split; auto.
Qed.
Lemma nibs n : n < 2 ^ 16 -> value [nib n 3; nib n 2; nib n 1; nib n 0] = n.
Proof. unfold value, nib. cbn [fold_left]. change (16 ^ 3) with 4096. change (16 ^ 2) with 256. change (16 ^ 1) with 16. change (16 ^ 0) with 1. change (2 ^ 16) with 65536. lia. Qed.
Lemma nibs2 n : n < 2 ^ 8 -> value [nib n 1; nib n 0] = n /\ nib n 3 = 0 /\ nib n 2 = 0.
Proof. unfold value, nib. cbn [fold_left]. change (16 ^ 3) with 4096. change (16 ^ 2) with 256. change (16 ^ 1) with 16. change (16 ^ 0) with 1. change (2 ^ 8) with 256. lia. Qed.
Lemma x_text n : n < 2 ^ 16 -> exists l, x n = text l /\ digits l /\ (length l <= 4)%nat /\ value l = n /\ l <> [] /\ (n < 2 ^ 8 -> (length l <= 2)%nat).
Proof.
  intros H. assert (D4 : digits [nib n 3; nib n 2; nib n 1; nib n 0]) by (repeat (constructor; [apply nib_lt|]); constructor).
  destruct (N.lt_ge_cases n (2 ^ 8)) as [L|L].
  - destruct (nibs2 n L) as (V & Z3 & Z2). assert (D2 : digits [nib n 1; nib n 0]) by (repeat (constructor; [apply nib_lt|]); constructor). destruct (unzero_text _ D2) as (k & K1 & K2 & K3 & K4 & K5). exists k.
    split; [unfold x, x4; rewrite Z3, Z2; exact K1|]. split; [exact K2|]. split; [cbn in K3; lia|]. split; [congruence|]. split; [apply K5; discriminate|]. intros _. exact K3.
  - destruct (unzero_text _ D4) as (k & K1 & K2 & K3 & K4 & K5). exists k. split; [exact K1|]. split; [exact K2|]. split; [exact K3|]. split; [rewrite K4; apply nibs, H|]. split; [apply K5; discriminate|]. lia.
Qed.
(** Trimming the zeroes. *)
Lemma trim_text a b : digits b -> b <> [] -> exists k, trim_verstr (a ++ B "." ++ text b) = a ++ B "." ++ text k /\ digits k /\ (length k <= length b)%nat /\ value b = value k * 16 ^ (N.of_nat (length b) - N.of_nat (length k)).
Proof.
  change (B ".") with ["."%char]. intros D N. induction b as [|d b IH] using rev_ind; [congruence|]. clear N. apply Forall_app in D. destruct D as [Db Dd]. inversion Dd; subst. unfold trim_verstr. unfold text in *. rewrite map_app, !rev_app_distr. cbn [map rev app]. rewrite <- app_assoc. cbn [app].
  assert (STAY : exists k, rev (hexch d :: rev (map hexch b) ++ "."%char :: rev a) = a ++ ["."%char] ++ map hexch k /\ digits k /\ (length k <= length (b ++ [d]))%nat /\ value (b ++ [d]) = value k * 16 ^ (N.of_nat (length (b ++ [d])) - N.of_nat (length k))).
  { exists (b ++ [d]). split; [cbn [rev]; rewrite rev_app_distr, rev_involutive; cbn [rev]; rewrite rev_involutive, map_app, <- !app_assoc; reflexivity|]. split; [apply Forall_app; auto|]. split; [lia|]. rewrite N.sub_diag. cbn [N.pow]. lia. }
  destruct b as [|e b _] using rev_ind.
  - cbn [map rev app]. cbn [app trim_rev]. change (negb ("." =? ".")%char) with false. rewrite Bool.andb_false_r. exact STAY.
  - rewrite map_app, rev_app_distr in *. cbn [map rev app trim_rev] in *. rewrite hexch_zero by assumption. destruct (N.eqb_spec d 0) as [->|Z]; [|exact STAY].
    assert (E16 : e < 16) by (apply Forall_app in Db; destruct Db as [_ Q]; inversion Q; assumption). destruct (digit_hexch e E16) as (_ & _ & E). rewrite E. cbn [negb andb].
    destruct IH as (k & K1 & K2 & K3 & K4); [exact Db|destruct b; discriminate|]. exists k. split; [|split; [exact K2|split; [rewrite (app_length (b ++ [e])); cbn; lia|]]].
    + rewrite <- K1. unfold trim_verstr. replace (rev (a ++ "."%char :: map hexch b ++ [hexch e])) with (hexch e :: rev (map hexch b) ++ "."%char :: rev a); [reflexivity|].
      rewrite rev_app_distr. cbn [rev]. rewrite rev_app_distr. cbn [rev app]. rewrite <- app_assoc. reflexivity.
    + unfold value in *. rewrite fold_left_app. cbn [fold_left]. rewrite K4, (app_length (b ++ [e])). cbn [length]. replace (N.of_nat (length (b ++ [e]) + 1) - N.of_nat (length k)) with (N.succ (N.of_nat (length (b ++ [e])) - N.of_nat (length k))) by lia. rewrite N.pow_succ_r'. lia.
Qed.

Lemma x4_text n : x4 n = text [nib n 3; nib n 2; nib n 1; nib n 0].
Proof. reflexivity. Qed.
Lemma x2_text n : x2 n = text [nib n 1; nib n 0].
Proof. reflexivity. Qed.
(** What is printed. *)
Lemma old_prints v : v < 2 ^ 32 -> exists a b, old_ver_to_string v = Ok (text a ++ B "." ++ text b) /\ digits a /\ digits b /\ (length a <= 4)%nat /\ (length b <= 4)%nat /\ value a = v / 2 ^ 16 /\ fraction b = v mod 2 ^ 16.
Proof.
  intros H. assert (M : v / 2 ^ 16 < 2 ^ 16) by (change (2 ^ 16) with 65536; change (2 ^ 32) with 4294967296 in H; lia). destruct (x_text _ M) as (a & A1 & A2 & A3 & A4 & _).
  set (w := v mod 2 ^ 16) in *. assert (W : w < 2 ^ 16) by (apply N.mod_lt; discriminate). assert (D : digits [nib w 3; nib w 2; nib w 1; nib w 0]) by (repeat (constructor; [apply nib_lt|]); constructor).
  destruct (trim_text (text a) _ D ltac:(discriminate)) as (b & B1 & B2 & B3 & B4). exists a, b. unfold old_ver_to_string. fold w. rewrite A1, x4_text. replace (Nat.ltb _ _) with true.
  - rewrite B1. split; [reflexivity|]. split; [exact A2|]. split; [exact B2|]. split; [exact A3|]. split; [exact B3|]. split; [exact A4|]. rewrite fraction_small by assumption. rewrite <- (nibs w W), B4. reflexivity.
  - symmetry. apply Nat.ltb_lt. rewrite !app_length. unfold text. rewrite !map_length. cbn. lia.
Qed.
Lemma new_prints v : v < 2 ^ 32 -> exists a b c, new_ver_to_string v = Ok (text a ++ B "." ++ text b ++ B "." ++ text c) /\ digits a /\ digits b /\ digits c /\ (length a <= 2)%nat /\ (length b <= 2)%nat /\ (length c <= 4)%nat /\
  value a = v / 2 ^ 24 /\ value b = v / 2 ^ 16 mod 2 ^ 8 /\ fraction c = v mod 2 ^ 16.
Proof.
  intros H. assert (M : v / 2 ^ 24 < 2 ^ 8) by (change (2 ^ 24) with 16777216; change (2 ^ 8) with 256; change (2 ^ 32) with 4294967296 in H; lia). destruct (x_text (v / 2 ^ 24)) as (a & A1 & A2 & _ & A4 & _ & A5); [eapply N.lt_trans; [exact M|reflexivity]|]. specialize (A5 M).
  set (w := v mod 2 ^ 16) in *. assert (W : w < 2 ^ 16) by (apply N.mod_lt; discriminate). assert (D : digits [nib w 3; nib w 2; nib w 1; nib w 0]) by (repeat (constructor; [apply nib_lt|]); constructor).
  set (u := v / 2 ^ 16 mod 2 ^ 8) in *. assert (U : u < 2 ^ 8) by (apply N.mod_lt; discriminate). assert (D2 : digits [nib u 1; nib u 0]) by (repeat (constructor; [apply nib_lt|]); constructor).
  exists a, [nib u 1; nib u 0], [nib w 3; nib w 2; nib w 1; nib w 0]. unfold new_ver_to_string. fold w u. rewrite A1, x4_text, x2_text. replace (Nat.ltb _ _) with true.
  - split; [reflexivity|]. split; [exact A2|]. split; [exact D2|]. split; [exact D|]. split; [exact A5|]. split; [cbn; lia|]. split; [cbn; lia|]. split; [exact A4|]. split; [apply nibs2, U|]. rewrite fraction_small by (auto; cbn; lia). cbn [length N.of_nat]. change (4 - _) with 0. rewrite nibs by exact W. cbn. lia.
  - symmetry. apply Nat.ltb_lt. rewrite !app_length. unfold text. rewrite !map_length. cbn. lia.
Qed.
