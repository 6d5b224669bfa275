(** Proofs about the digests. *)
From Verif Require Import Base BaseFacts DigSpec DigModel.
From Coq Require Import NArith.
Local Open Scope N_scope.

(** ** CRC-32 *)
Lemma odd_lxor a b : N.odd (N.lxor a b) = xorb (N.odd a) (N.odd b).
Proof. rewrite <- !N.bit0_odd. apply N.lxor_spec. Qed.
Lemma div2_lxor a b : N.div2 (N.lxor a b) = N.lxor (N.div2 a) (N.div2 b).
Proof. rewrite !N.div2_spec. apply N.shiftr_lxor. Qed.
Lemma bit_shift c b : crc_bit (N.lxor c b) = N.lxor (shift c (N.odd b)) (N.div2 b).
Proof.
  unfold crc_bit, shift. rewrite odd_lxor, <- N.div2_spec, div2_lxor. destruct (xorb (N.odd c) (N.odd b)); [|reflexivity].
  rewrite !N.lxor_assoc. f_equal. apply N.lxor_comm.
Qed.
Definition steps (n : nat) (c : N) : N := Nat.iter n crc_bit c.
Fixpoint low (n : nat) (b : N) : list bool := match n with O => [] | S n => N.odd b :: low n (N.div2 b) end.
Fixpoint half (n : nat) (b : N) : N := match n with O => b | S n => half n (N.div2 b) end.
Lemma steps_S n c : steps (S n) c = steps n (crc_bit c).
Proof. unfold steps. induction n; [reflexivity|]. cbn in *. rewrite IHn. reflexivity. Qed.
Lemma steps_shift : forall n c b, steps n (N.lxor c b) = N.lxor (fold_left shift (low n b) c) (half n b).
Proof. induction n as [|n IH]; intros c b; [reflexivity|]. rewrite steps_S, bit_shift, IH. reflexivity. Qed.
Lemma byte_bits c b : crc_byte c b = fold_left shift (bits b) c.
Proof.
  unfold crc_byte. change (N.iter 8 crc_bit (N.lxor c (N_of_ascii b))) with (steps 8 (N.lxor c (N_of_ascii b))). rewrite steps_shift.
  replace (half 8 (N_of_ascii b)) with 0 by (destruct b as [[] [] [] [] [] [] [] []]; reflexivity). rewrite N.lxor_0_r. f_equal. destruct b as [[] [] [] [] [] [] [] []]; reflexivity.
Qed.
Lemma bytes_bits : forall l c, fold_left crc_byte l c = fold_left shift (flat_map bits l) c.
Proof. induction l as [|b l IH]; intros c; [reflexivity|]. cbn [fold_left flat_map]. rewrite fold_left_app, IH, byte_bits. reflexivity. Qed.
Lemma flip_flip c : flip (flip c) = c.
Proof. unfold flip. rewrite N.lxor_assoc, N.lxor_nilpotent, N.lxor_0_r. reflexivity. Qed.
Lemma crc_app c a b : zcrc32 (zcrc32 c a) b = zcrc32 c (a ++ b).
Proof. unfold zcrc32. rewrite flip_flip, fold_left_app. reflexivity. Qed.
Lemma crc_nil c : zcrc32 c [] = c.
Proof. apply flip_flip. Qed.
Lemma crc_spec l : zcrc32 0 l = crc l.
Proof. unfold zcrc32, crc, register. rewrite bytes_bits. reflexivity. Qed.

(** *** Errors that are found *)
Definition small (c : N) : Prop := c < 2 ^ 32.
Lemma small_bits c : small c <-> forall i, 32 <= i -> N.testbit c i = false.
Proof.
  unfold small. split; intros H.
  - intros i L. rewrite <- (N.mod_small c (2 ^ 32)) by exact H. apply N.mod_pow2_bits_high, L.
  - destruct (N.lt_ge_cases c (2 ^ 32)) as [X|X]; [exact X|]. exfalso. assert (P : 0 < c) by (change (2 ^ 32) with 4294967296 in X; lia). assert (L : 32 <= N.log2 c) by (apply N.log2_le_pow2; assumption). apply H in L. rewrite N.bit_log2 in L; [discriminate|lia].
Qed.
Lemma small_lxor a b : small a -> small b -> small (N.lxor a b).
Proof. rewrite !small_bits. intros A B i L. rewrite N.lxor_spec, A, B by exact L. reflexivity. Qed.
Lemma small_half c : small c -> N.div2 c < 2 ^ 31.
Proof. unfold small. intros H. rewrite N.div2_div. apply N.div_lt_upper_bound; [lia|]. change (2 * 2 ^ 31) with (2 ^ 32). exact H. Qed.
Lemma bit_small c : small c -> small (crc_bit c).
Proof.
  intros H. assert (D := small_half c H). unfold crc_bit. rewrite <- N.div2_spec. assert (S2 : small (N.div2 c)) by (unfold small; eapply N.lt_trans; [exact D|reflexivity]). destruct (N.odd c); [apply small_lxor; [exact S2|reflexivity]|exact S2].
Qed.
Lemma top31 c : c < 2 ^ 31 -> N.testbit c 31 = false.
Proof. intros H. rewrite <- (N.mod_small c (2 ^ 31)) by exact H. apply N.mod_pow2_bits_high. lia. Qed.
Lemma bit_inj a b : small a -> small b -> crc_bit a = crc_bit b -> a = b.
Proof.
  intros A B E. assert (TA := top31 _ (small_half a A)). assert (TB := top31 _ (small_half b B)). unfold crc_bit in E. rewrite <- !N.div2_spec in E.
  assert (O : N.odd a = N.odd b).
  { apply (f_equal (fun x => N.testbit x 31)) in E. destruct (N.odd a), (N.odd b); auto; rewrite ?N.lxor_spec, TA, TB in E; cbn in E; discriminate. }
  assert (D : N.div2 a = N.div2 b). { rewrite <- O in E. destruct (N.odd a); [|exact E]. apply (f_equal (fun x => N.lxor x 3988292384)) in E. rewrite !N.lxor_assoc, !N.lxor_nilpotent, !N.lxor_0_r in E. exact E. }
  rewrite (N.div2_odd a), (N.div2_odd b), D, O. reflexivity.
Qed.
Lemma steps_inj : forall n a b, small a -> small b -> steps n a = steps n b -> a = b.
Proof. induction n as [|n IH]; intros a b A B E; [exact E|]. rewrite !steps_S in E. apply bit_inj; auto. apply IH; auto using bit_small. Qed.
Lemma num_small b : num b < 256.
Proof. destruct b as [[] [] [] [] [] [] [] []]; reflexivity. Qed.
Lemma byte_small c b : small c -> small (crc_byte c b).
Proof.
  intros H. assert (X : small (N.lxor c (N_of_ascii b))) by (apply small_lxor; [exact H|]; unfold small; eapply N.lt_trans; [apply (num_small b)|reflexivity]). unfold crc_byte. cbn [N.iter Pos.iter]. auto 20 using bit_small.
Qed.
Lemma feed_small : forall l c, small c -> small (fold_left crc_byte l c).
Proof. induction l as [|b l IH]; intros c H; [exact H|]. cbn [fold_left]. apply IH, byte_small, H. Qed.
Lemma feed_inj : forall l a b, small a -> small b -> fold_left crc_byte l a = fold_left crc_byte l b -> a = b.
Proof.
  induction l as [|x l IH]; intros a b A B E; [exact E|]. cbn [fold_left] in E. apply IH in E; auto using byte_small.
  assert (X : small (N_of_ascii x)) by (unfold small; eapply N.lt_trans; [apply (num_small x)|reflexivity]).
  unfold crc_byte in E. change (N.iter 8 crc_bit) with (steps 8) in E. apply steps_inj in E; auto using small_lxor. apply (f_equal (fun y => N.lxor y (N_of_ascii x))) in E. rewrite !N.lxor_assoc, !N.lxor_nilpotent, !N.lxor_0_r in E. exact E.
Qed.
(** Bytes as one number, least significant first. *)
Fixpoint le (l : bytes) : N := match l with [] => 0 | b :: l => num b + 256 * le l end.
Lemma crc_bit_double x c : crc_bit (N.lxor c (2 * x)) = N.lxor (crc_bit c) x.
Proof. replace (crc_bit c) with (shift c false); [|unfold crc_bit, shift; rewrite Bool.xorb_false_r, N.div2_spec; reflexivity]. rewrite bit_shift. f_equal; [f_equal; apply N.odd_mul|]. rewrite N.div2_double. reflexivity. Qed.
Lemma steps_double : forall n x c, steps n (N.lxor c (2 ^ N.of_nat n * x)) = N.lxor (steps n c) x.
Proof.
  induction n as [|n IH]; intros x c; [cbn; rewrite N.mul_1_l || idtac; f_equal; destruct x; reflexivity|]. rewrite !steps_S. replace (2 ^ N.of_nat (S n) * x) with (2 * (2 ^ N.of_nat n * x)) by (rewrite Nat2N.inj_succ, N.pow_succ_r'; lia). rewrite crc_bit_double. apply IH.
Qed.
Lemma add_xor b x : num b + 256 * x = N.lxor (num b) (256 * x).
Proof.
  apply N.add_nocarry_lxor. apply N.bits_inj. intros i. rewrite N.land_spec, N.bits_0. destruct (N.lt_ge_cases i 8) as [L|L].
  - replace (256 * x) with (x * 2 ^ 8) by (change (2 ^ 8) with 256; lia). rewrite N.mul_pow2_bits_low by exact L. apply Bool.andb_false_r.
  - replace (N.testbit (num b) i) with false; [reflexivity|]. symmetry. rewrite <- (N.mod_small (num b) (2 ^ 8)) by apply num_small. apply N.mod_pow2_bits_high, L.
Qed.
Lemma steps_add : forall m n c, steps (n + m) c = steps m (steps n c).
Proof. intros m n. revert m. induction n as [|n IH]; intros m c; [reflexivity|]. cbn [plus]. rewrite !steps_S. apply IH. Qed.
Lemma feed_le : forall l c, fold_left crc_byte l c = steps (8 * length l) (N.lxor c (le l)).
Proof.
  induction l as [|b l IH]; intros c; [cbn; rewrite N.lxor_0_r; reflexivity|]. cbn [fold_left le length]. rewrite IH. replace (8 * S (length l))%nat with (8 + 8 * length l)%nat by lia. rewrite steps_add. f_equal. rewrite add_xor, <- N.lxor_assoc.
  change (256 * le l) with (2 ^ N.of_nat 8 * le l). rewrite steps_double. reflexivity.
Qed.
Lemma le_inj : forall a b, length a = length b -> le a = le b -> a = b.
Proof.
  induction a as [|x a IH]; intros [|y b] L E; try discriminate; [reflexivity|]. cbn [le length] in E, L. pose proof (num_small x). pose proof (num_small y). assert (X : num x = num y /\ le a = le b) by lia. destruct X as [X1 X2]. f_equal; [|apply IH; [lia|exact X2]].
  rewrite <- (ascii_N_embedding x), <- (ascii_N_embedding y). f_equal. exact X1.
Qed.
Lemma le_small : forall l, le l < 2 ^ (8 * N.of_nat (length l)).
Proof. induction l as [|b l IH]; [reflexivity|]. cbn [le length]. replace (8 * N.of_nat (S (length l))) with (8 + 8 * N.of_nat (length l)) by lia. rewrite N.pow_add_r. change (2 ^ 8) with 256. pose proof (num_small b). revert IH. generalize (2 ^ (8 * N.of_nat (length l))). intros P IH. lia. Qed.
Lemma crc_burst p a b q : length a = length b -> (length a <= 4)%nat -> a <> b -> crc (p ++ a ++ q) <> crc (p ++ b ++ q).
Proof.
  intros L L4 N E. apply N. rewrite <- !crc_spec in E. unfold zcrc32 in E. apply (f_equal flip) in E. rewrite !flip_flip, !fold_left_app in E. set (c := fold_left crc_byte p (flip 0)) in *. assert (C : small c) by (apply feed_small; reflexivity).
  apply feed_inj in E; auto using feed_small. rewrite !feed_le, L in E. 
  assert (SM : forall l : bytes, (length l <= 4)%nat -> small (le l)) by (intros l Q; unfold small; eapply N.lt_le_trans; [apply le_small|]; apply N.pow_le_mono_r; lia).
  apply steps_inj in E; [|apply small_lxor; [exact C|apply SM; lia]|apply small_lxor; [exact C|apply SM; lia]].
  apply le_inj; [exact L|]. apply (f_equal (N.lxor c)) in E. rewrite <- !N.lxor_assoc, !N.lxor_nilpotent, !N.lxor_0_l in E. exact E.
Qed.

(** ** Adler-32 *)
Lemma adler_fold : forall l a b, fold_left adler_byte l (a mod 65521, b mod 65521) = ((a + sum l) mod 65521, (b + N.of_nat (length l) * a + weighted l) mod 65521).
Proof.
  induction l as [|x l IH]; intros a b; [cbn [fold_left sum length weighted]; f_equal; f_equal; lia|]. cbn [fold_left sum weighted length]. unfold adler_byte at 2. cbn [fst snd]. fold (num x).
  rewrite N.add_mod_idemp_l by discriminate. rewrite <- N.add_mod by discriminate. rewrite IH. f_equal; f_equal; lia.
Qed.
Lemma unpack a b : a < 65536 -> (b * 65536 + a) mod 65536 = a /\ (b * 65536 + a) / 65536 = b.
Proof. intros H. rewrite N.add_comm, N.mod_add, N.div_add, N.mod_small, N.div_small by (lia || discriminate). auto. Qed.
Lemma one_fold d : fold_left adler_byte d (1 mod 65536, 1 / 65536) = ((1 + sum d) mod 65521, (N.of_nat (length d) + weighted d) mod 65521).
Proof. change (1 mod 65536, 1 / 65536) with (1 mod 65521, 0 mod 65521). rewrite adler_fold. f_equal. f_equal. lia. Qed.
Lemma adler_spec d : zadler32 1 d = adler d.
Proof. unfold zadler32. rewrite one_fold. reflexivity. Qed.
Lemma adler_app a b : zadler32 (zadler32 1 a) b = zadler32 1 (a ++ b).
Proof.
  unfold zadler32. rewrite fold_left_app, one_fold. pose proof (N.mod_lt (1 + sum a) 65521 ltac:(discriminate)). set (m := (1 + sum a) mod 65521) in *. set (k := (N.of_nat (length a) + weighted a) mod 65521).
  destruct (unpack m k) as [-> ->]; [lia|]. reflexivity.
Qed.

(** ** Histories *)
(** [upd] of pieces is that of all; [f] is the state after data. *)
Record lawful (A : algo) (h : bytes -> bytes) (f : bytes -> state A) : Prop := Lawful {
  l_init : f [] = init A;
  l_update : forall a b, update A (f a) b = f (a ++ b);
  l_final : forall d, final A (f d) = h d }.
Lemma evp_lawful h : lawful (evp h) h (fun d => d).
Proof. constructor; reflexivity. Qed.
Lemma crc_lawful : lawful crc32 (fun d => be32 (crc d)) (fun d => zcrc32 0 d).
Proof. constructor; [reflexivity|intros; apply crc_app|]. intros d. cbn [final crc32]. rewrite crc_spec. reflexivity. Qed.
Lemma adler_lawful : lawful adler32 (fun d => be32 (adler d)) (fun d => zadler32 1 d).
Proof. constructor; [reflexivity|intros; apply adler_app|]. intros d. cbn [final adler32]. rewrite adler_spec. reflexivity. Qed.
Section H.
Context (A : algo) (h : bytes -> bytes) (f : bytes -> state A) (W : lawful A h f).
Definition at_ (e : enc A) (d : bytes) (done : bool) : Prop := okay e = true /\ finished e = done /\ (done = false -> active e = true) /\ cur e = f d.
Lemma pieces : forall l d, fold_left (update A) l (f d) = f (d ++ concat l).
Proof. induction l as [|b l IH]; intros d; cbn; [rewrite app_nil_r; reflexivity|]. rewrite (l_update A h f W), IH, <- app_assoc. reflexivity. Qed.
Lemma encode_at e d done i fl fin : at_ e d done ->
  exists e' ok, encode e i fl fin = Ok (e', ok, if (done || (Nat.eqb (length (concat i)) 0 && negb fl))%bool then i else [], if (fin && negb done)%bool then h (d ++ concat i) else []) /\
    at_ e' (if done then d else d ++ concat i) (done || fin) /\ (ok = true <-> done = false /\ (concat i <> [] \/ fl = true)).
Proof.
  intros (O & F & Ac & C). unfold encode. rewrite O, F. destruct done; cbn [negb andb orb].
  - destruct fin; cbn [negb andb]; [unfold finish; rewrite O, F; cbn [negb andb bind]|]; eexists _, _; (split; [reflexivity|]); (split; [repeat split; cbn; auto; discriminate|]); split; [discriminate|intros [X _]; discriminate|discriminate|intros [X _]; discriminate].
  - specialize (Ac eq_refl). destruct (Nat.eqb_spec (length (concat i)) 0) as [Z|Z]; cbn [negb orb andb].
    + apply length_zero_iff_nil in Z. rewrite Z, app_nil_r. destruct fl; cbn [negb].
      * assert (P : fold_left (update A) i (cur e) = f d) by (rewrite C, pieces, Z, app_nil_r; reflexivity). destruct fin; cbn [negb andb].
        -- unfold finish, _finish, _encode. cbn [okay finished active cur]. rewrite O, F, Ac. cbn [negb andb bind]. rewrite P, (l_final A h f W). eexists _, _. split; [reflexivity|]. split; [repeat split; cbn; auto; discriminate|]. cbn. tauto.
        -- eexists _, _. split; [reflexivity|]. unfold _encode. split; [repeat split; cbn; auto|]. tauto.
      * destruct fin; cbn [negb andb].
        -- unfold finish, _finish. rewrite O, F, Ac. cbn [negb andb bind]. rewrite C, (l_final A h f W). eexists _, _. split; [reflexivity|]. split; [repeat split; cbn; auto; discriminate|]. cbn. split; [discriminate|intros [_ [X|X]]; congruence].
        -- eexists _, _. split; [reflexivity|]. split; [repeat split; auto|]. split; [discriminate|intros [_ [X|X]]; congruence].
    + assert (NZ : concat i <> []) by (intros X; apply Z; rewrite X; reflexivity). assert (P : fold_left (update A) i (cur e) = f (d ++ concat i)) by (rewrite C, pieces; reflexivity). destruct fin; cbn [negb andb].
      * unfold finish, _finish, _encode. cbn [okay finished active cur]. rewrite O, F, Ac. cbn [negb andb bind]. rewrite P, (l_final A h f W). eexists _, _. split; [reflexivity|]. split; [repeat split; cbn; auto; discriminate|]. cbn. tauto.
      * eexists _, _. split; [reflexivity|]. unfold _encode. split; [repeat split; cbn; auto|]. tauto.
Qed.
Lemma finish_at e d done : at_ e d done -> exists e', finish e = Ok (e', negb done, if done then [] else h d) /\ at_ e' d true.
Proof.
  intros (O & F & Ac & C). unfold finish. rewrite O, F. destruct done; cbn [negb andb bind].
  - eexists. split; [reflexivity|]. repeat split; cbn; auto; discriminate.
  - unfold _finish. rewrite (Ac eq_refl). cbn [bind]. rewrite C, (l_final A h f W). eexists. split; [reflexivity|]. repeat split; cbn; auto; discriminate.
Qed.
Lemma run_at : forall l e d done, at_ e d done -> exists e' d' done', run e l = Ok (e', expect h l d done) /\ at_ e' d' done'.
Proof.
  induction l as [|o l IH]; intros e d done I; [exists e, d, done; split; [reflexivity|exact I]|]. cbn [run]. destruct o as [i fl fin| |]; cbn [step expect].
  - destruct (encode_at e d done i fl fin I) as (e' & ok & E & I' & _). rewrite E. cbn [bind]. destruct (IH _ _ _ I') as (e2 & d2 & n2 & E2 & I2). rewrite E2. cbn [bind]. exists e2, d2, n2. split; [|exact I2]. destruct done; cbn [orb negb andb] in *; [rewrite Bool.andb_false_r; reflexivity|]. rewrite Bool.andb_true_r. destruct fin; reflexivity.
  - destruct (finish_at e d done I) as (e' & E & I'). rewrite E. cbn [bind]. destruct (IH _ _ _ I') as (e2 & d2 & n2 & E2 & I2). rewrite E2. cbn [bind]. exists e2, d2, n2. split; [|exact I2]. destruct done; reflexivity.
  - cbn [bind]. destruct (IH (reset e) [] false) as (e2 & d2 & n2 & E2 & I2); [repeat split; cbn; auto; symmetry; apply (l_init A h f W)|]. rewrite E2. cbn [bind]. exists e2, d2, n2. split; [reflexivity|exact I2].
Qed.
Lemma new_at : at_ (new A) [] false.
Proof. repeat split; cbn; auto. symmetry. apply (l_init A h f W). Qed.
End H.
