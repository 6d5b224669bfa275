(** Proofs about IP addresses and networks. *)
From Verif Require Import Base BaseFacts Ctype DecSpec IntFmtModel IntFmtProofs IpModel IpSpec.
Local Open Scope N_scope.

Lemma number_eq a : number a = ntohl_addr a.
Proof. unfold number, ntohl_addr. lia. Qed.
Lemma tb hi lo i : lo < 256 -> N.testbit (hi * 256 + lo) i = if i <? 8 then N.testbit lo i else N.testbit hi (i - 8).
Proof.
  intros H. destruct (N.ltb_spec i 8) as [L|L].
  - rewrite <- (N.mod_pow2_bits_low _ 8 i L). f_equal. change (2 ^ 8) with 256. rewrite N.add_comm, N.mod_add by lia. apply N.mod_small, H.
  - transitivity (N.testbit ((hi * 256 + lo) / 2 ^ 8) (i - 8)).
    + rewrite N.div_pow2_bits. f_equal. lia.
    + f_equal. change (2 ^ 8) with 256. rewrite N.add_comm, N.div_add, N.div_small by lia. reflexivity.
Qed.
Definition pick (a : ipaddr) (i : N) : bool :=
  if i <? 8 then N.testbit (b3 a) i else if i - 8 <? 8 then N.testbit (b2 a) (i - 8) else
  if i - 8 - 8 <? 8 then N.testbit (b1 a) (i - 8 - 8) else N.testbit (b0 a) (i - 8 - 8 - 8).
Lemma number_bit a i : ok_ip a -> N.testbit (number a) i = pick a i.
Proof. intros (H0 & H1 & H2 & H3). rewrite number_eq. unfold ntohl_addr, pick. rewrite !tb by assumption. reflexivity. Qed.
Lemma number_lt a : ok_ip a -> number a < 2 ^ 32.
Proof. intros (H0 & H1 & H2 & H3). unfold number. change (2 ^ 24) with 16777216. change (2 ^ 16) with 65536. change (2 ^ 8) with 256. change (2 ^ 32) with 4294967296. lia. Qed.
Lemma high_bit n k i : n < 2 ^ k -> k <= i -> N.testbit n i = false.
Proof. intros H K. destruct (N.eq_dec n 0) as [->|Z]; [apply N.bits_0|]. apply N.bits_above_log2. apply N.log2_lt_pow2; [lia|]. eapply N.lt_le_trans; [exact H|]. apply N.pow_le_mono_r; lia. Qed.
Lemma number_high a i : ok_ip a -> 32 <= i -> N.testbit (number a) i = false.
Proof. intros H K. apply high_bit with 32; [apply number_lt, H|exact K]. Qed.
Lemma number_inj a c : ok_ip a -> ok_ip c -> number a = number c -> a = c.
Proof.
  destruct a as [a0 a1 a2 a3], c as [c0 c1 c2 c3]. unfold ok_ip, number. cbn [b0 b1 b2 b3]. change (2 ^ 24) with 16777216. change (2 ^ 16) with 65536. change (2 ^ 8) with 256. intros. 
  assert (a0 = c0) by lia. assert (a1 = c1) by lia. assert (a2 = c2) by lia. assert (a3 = c3) by lia. subst. reflexivity.
Qed.
Lemma of_htonl_ok v : ok_ip (of_htonl v).
Proof. unfold ok_ip, of_htonl. cbn [b0 b1 b2 b3]. repeat split; apply N.mod_lt; discriminate. Qed.
Lemma of_htonl_number v : v < 2 ^ 32 -> number (of_htonl v) = v.
Proof.
  change (2 ^ 32) with 4294967296. intros H. rewrite number_eq. unfold ntohl_addr, of_htonl. cbn [b0 b1 b2 b3].
  change 16777216 with (256 * 256 * 256). change 65536 with (256 * 256). rewrite <- !N.div_div by discriminate.
  set (x := v / 256). set (y := x / 256). set (z := y / 256). assert (z < 256) by (unfold z, y, x; rewrite !N.div_div by discriminate; apply N.div_lt_upper_bound; [discriminate|exact H]).
  rewrite (N.mod_small z) by assumption. pose proof (N.div_mod v 256 ltac:(discriminate)). pose proof (N.div_mod x 256 ltac:(discriminate)). pose proof (N.div_mod y 256 ltac:(discriminate)). fold x in H1. fold y in H2. fold z in H3. lia.
Qed.
Lemma bounded_land x y : x < 256 -> N.land x y < 256.
Proof. intros H. change 256 with (2 ^ 8) in *. destruct (N.eq_dec (N.land x y) 0) as [->|Z]; [lia|]. apply N.log2_lt_pow2; [lia|]. apply N.le_lt_trans with (N.log2 x); [etransitivity; [apply N.log2_land|lia]|]. apply N.log2_lt_pow2; [|exact H]. destruct x; [elim Z; reflexivity|lia]. Qed.
Lemma bounded_lor x y : x < 256 -> y < 256 -> N.lor x y < 256.
Proof. intros H K. change 256 with (2 ^ 8) in *. destruct (N.eq_dec (N.lor x y) 0) as [->|Z]; [lia|]. apply N.log2_lt_pow2; [lia|]. rewrite N.log2_lor. destruct (N.eq_dec x 0) as [->|X]; destruct (N.eq_dec y 0) as [->|Y].
  - elim Z. reflexivity. - change (N.log2 0) with 0. rewrite N.max_0_l. apply N.log2_lt_pow2; lia. - change (N.log2 0) with 0. rewrite N.max_0_r. apply N.log2_lt_pow2; lia.
  - apply N.max_lub_lt; apply N.log2_lt_pow2; lia. Qed.
Lemma bounded_lxor x y : x < 256 -> y < 256 -> N.lxor x y < 256.
Proof. intros H K. change 256 with (2 ^ 8) in *. destruct (N.eq_dec (N.lxor x y) 0) as [->|Z]; [lia|]. apply N.log2_lt_pow2; [lia|]. eapply N.le_lt_trans; [apply N.log2_lxor|]. destruct (N.eq_dec x 0) as [->|X]; destruct (N.eq_dec y 0) as [->|Y].
  - elim Z. reflexivity. - change (N.log2 0) with 0. rewrite N.max_0_l. apply N.log2_lt_pow2; lia. - change (N.log2 0) with 0. rewrite N.max_0_r. apply N.log2_lt_pow2; lia.
  - apply N.max_lub_lt; apply N.log2_lt_pow2; lia. Qed.
Lemma and_ok a c : ok_ip a -> ok_ip (ip_and a c).
Proof. intros (H0 & H1 & H2 & H3). unfold ok_ip, ip_and, bytewise. cbn [b0 b1 b2 b3]. repeat split; apply bounded_land; assumption. Qed.
Lemma or_ok a c : ok_ip a -> ok_ip c -> ok_ip (ip_or a c).
Proof. intros (H0 & H1 & H2 & H3) (K0 & K1 & K2 & K3). unfold ok_ip, ip_or, bytewise. cbn [b0 b1 b2 b3]. repeat split; apply bounded_lor; assumption. Qed.
Lemma xor_ok a c : ok_ip a -> ok_ip c -> ok_ip (ip_xor a c).
Proof. intros (H0 & H1 & H2 & H3) (K0 & K1 & K2 & K3). unfold ok_ip, ip_xor, bytewise. cbn [b0 b1 b2 b3]. repeat split; apply bounded_lxor; assumption. Qed.
Lemma full_ok : ok_ip (Ip 255 255 255 255). Proof. repeat split. Qed.
Lemma not_ok a : ok_ip a -> ok_ip (ip_not a).
Proof. intros H. apply (xor_ok a _ H full_ok). Qed.
Ltac picks := unfold pick, ip_and, ip_or, ip_xor, ip_not, bytewise; cbn [b0 b1 b2 b3]; repeat match goal with |- context [if ?b then _ else _] => destruct b end.
Lemma and_bit a c i : ok_ip a -> ok_ip c -> N.testbit (number (ip_and a c)) i = N.testbit (number a) i && N.testbit (number c) i.
Proof. intros H K. rewrite !number_bit by auto using and_ok. picks; apply N.land_spec. Qed.
Lemma or_bit a c i : ok_ip a -> ok_ip c -> N.testbit (number (ip_or a c)) i = N.testbit (number a) i || N.testbit (number c) i.
Proof. intros H K. rewrite !number_bit by auto using or_ok. picks; apply N.lor_spec. Qed.
Lemma xor_bit a c i : ok_ip a -> ok_ip c -> N.testbit (number (ip_xor a c)) i = xorb (N.testbit (number a) i) (N.testbit (number c) i).
Proof. intros H K. rewrite !number_bit by auto using xor_ok. picks; apply N.lxor_spec. Qed.
Lemma full_bit i : N.testbit (number (Ip 255 255 255 255)) i = (i <? 32).
Proof. change (number (Ip 255 255 255 255)) with (N.ones 32). destruct (N.ltb_spec i 32); [apply N.ones_spec_low|apply N.ones_spec_high]; lia. Qed.
Lemma not_bit a i : ok_ip a -> N.testbit (number (ip_not a)) i = negb (N.testbit (number a) i) && (i <? 32).
Proof.
  intros H. change (ip_not a) with (ip_xor a (Ip 255 255 255 255)). rewrite xor_bit, full_bit by (assumption || apply full_ok). destruct (N.ltb_spec i 32); [destruct (N.testbit _ _); reflexivity|]. rewrite (number_high a i H) by lia. reflexivity.
Qed.
Lemma eqb_eq a c : ip_eqb a c = true <-> a = c.
Proof. unfold ip_eqb. rewrite !andb_true_iff, !N.eqb_eq. destruct a as [a0 a1 a2 a3], c as [c0 c1 c2 c3]; cbn [b0 b1 b2 b3]. split; [intros [[[-> ->] ->] ->]; reflexivity|]. intros E. injection E as -> -> -> ->. auto. Qed.
Lemma eqb_bits a c : ok_ip a -> ok_ip c -> (ip_eqb a c = true <-> forall i, N.testbit (number a) i = N.testbit (number c) i).
Proof. intros H K. rewrite eqb_eq. split; [intros ->; reflexivity|]. intros Q. apply number_inj; [assumption..|]. apply N.bits_inj. exact Q. Qed.

Lemma member_eqb n x : ok_net n -> ok_ip x -> (member n x <-> ip_eqb (ip_and x (mask n)) (network n) = true).
Proof.
  intros [H K] X. unfold network. rewrite eqb_bits by auto using and_ok. unfold member. split; intros Q i.
  - rewrite !and_bit by assumption. specialize (Q i). destruct (N.testbit (number (mask n)) i); [|rewrite !andb_false_r; reflexivity]. rewrite Q; reflexivity.
  - intros M. specialize (Q i). rewrite !and_bit, M, !andb_true_r in Q by assumption. exact Q.
Qed.
Lemma includes_iff n a : ok_net n -> ok_net a -> (includes n a = true <->
  (forall i, N.testbit (number (mask n)) i = true -> N.testbit (number (mask a)) i = true /\ N.testbit (number (base a)) i = N.testbit (number (base n)) i)).
Proof.
  intros N A. unfold includes. rewrite andb_true_iff. destruct A as [A1 A2]. rewrite <- (member_eqb n (base a) N A1). destruct N as [N1 N2]. rewrite eqb_bits by auto using and_ok. split.
  - intros [M Q] i T. split; [|apply M, T]. specialize (Q i). rewrite and_bit, T, andb_true_r in Q by assumption. exact Q.
  - intros Q. split.
    + intros i T. apply Q, T.
    + intros i. rewrite and_bit by assumption. destruct (N.testbit (number (mask n)) i) eqn:T; [|apply andb_false_r]. destruct (Q i T) as [-> _]. reflexivity.
Qed.
Lemma includes_subset n a : ok_net n -> ok_net a -> (includes n a = true <-> forall x, ok_ip x -> member a x -> member n x).
Proof.
  intros N A. rewrite includes_iff by assumption. split.
  - intros Q x X M i T. destruct (Q i T) as [T' E]. rewrite (M i T'). exact E.
  - intros Q i T. assert (M : member n (base a)) by (apply Q; [apply A|intros j _; reflexivity]). split; [|apply M, T].
    destruct (N.testbit (number (mask a)) i) eqn:T'; [reflexivity|]. exfalso. assert (I : i < 32). { destruct (N.lt_ge_cases i 32); [assumption|]. rewrite (number_high (mask n)) in T; [discriminate|apply N|assumption]. }
    pose (v := N.lxor (number (base a)) (2 ^ i)). assert (V : v < 2 ^ 32).
    { destruct (N.eq_dec v 0) as [->|Z]; [lia|]. apply N.log2_lt_pow2; [lia|]. unfold v. eapply N.le_lt_trans; [apply N.log2_lxor|]. apply N.max_lub_lt; [|rewrite N.log2_pow2 by lia; exact I]. destruct (N.eq_dec (number (base a)) 0) as [->|]; [reflexivity|]. apply N.log2_lt_pow2; [lia|apply number_lt, A]. }
    assert (Bv : forall j, N.testbit (number (of_htonl v)) j = xorb (N.testbit (number (base a)) j) (i =? j)). { intros j. rewrite of_htonl_number by exact V. unfold v. rewrite N.lxor_spec, N.pow2_bits_eqb. reflexivity. }
    assert (X : member n (of_htonl v)).
    { apply Q; [apply of_htonl_ok|]. intros j Tj. rewrite Bv. destruct (N.eqb_spec i j) as [<-|]; [congruence|]. apply xorb_false_r. }
    specialize (X i T). specialize (M i T). rewrite Bv, N.eqb_refl in X. destruct (N.testbit (number (base a)) i), (N.testbit (number (base n)) i); discriminate.
Qed.
Lemma include_ok n a : ok_net n -> ok_net a -> ok_net (include n a).
Proof. intros [H K] [P Q]. split; [exact H|]. unfold include. cbn [mask]. auto using and_ok. Qed.
Lemma include_bit n a i : ok_net n -> ok_net a -> N.testbit (number (mask (include n a))) i = true <->
  N.testbit (number (mask n)) i = true /\ N.testbit (number (mask a)) i = true /\ N.testbit (number (base n)) i = N.testbit (number (base a)) i.
Proof.
  intros [H K] [P Q]. unfold include. cbn [mask]. rewrite !and_bit, not_bit, xor_bit by auto using and_ok, xor_ok, not_ok. rewrite !andb_true_iff. split.
  - intros [[A1 A2] [A3 _]]. split; [exact A1|]. split; [exact A2|]. destruct (N.testbit (number (base n)) i), (N.testbit (number (base a)) i); (reflexivity || discriminate).
  - intros (A1 & A2 & ->). split; [split; assumption|]. split; [rewrite xorb_nilpotent; reflexivity|]. apply N.ltb_lt. destruct (N.lt_ge_cases i 32); [assumption|]. rewrite (number_high (mask n)) in A1; [discriminate|exact K|assumption].
Qed.
Lemma bits_le a c : (forall i, N.testbit a i = true -> N.testbit c i = true) -> a <= c.
Proof. intros H. apply N.ldiff_le. apply N.bits_inj. intros i. rewrite N.ldiff_spec, N.bits_0. specialize (H i). destruct (N.testbit a i); [|reflexivity]. rewrite H; reflexivity. Qed.

(** ** Prefix masks *)
Lemma prefix_bit k i : k <= 32 -> N.testbit (2 ^ 32 - 2 ^ (32 - k)) i = (32 - k <=? i) && (i <? 32).
Proof.
  intros K. assert (E : 2 ^ 32 - 2 ^ (32 - k) = N.shiftl (N.ones k) (32 - k)).
  { rewrite N.shiftl_mul_pow2, N.ones_equiv, <- N.sub_1_r, N.mul_sub_distr_r, N.mul_1_l, <- N.pow_add_r. f_equal. f_equal. lia. }
  rewrite E. destruct (N.leb_spec (32 - k) i) as [L|L]; [|rewrite N.shiftl_spec_low by exact L; reflexivity]. rewrite N.shiftl_spec_high' by exact L. destruct (N.ltb_spec i 32); [apply N.ones_spec_low|apply N.ones_spec_high]; lia.
Qed.
Lemma mask_of_bits_ok k : k <= 32 -> exists m, mask_of_bits (Z.of_N k) = Ok m /\ ok_ip m /\ prefix_mask m k.
Proof.
  intros K. unfold mask_of_bits. destruct (Z.ltb_spec 0 (Z.of_N k)) as [L|L].
  - destruct (Z.ltb_spec 32 (Z.of_N k)); [lia|]. eexists. split; [reflexivity|]. split; [apply of_htonl_ok|]. split; [exact K|]. replace (Z.to_N (32 - Z.of_N k)) with (32 - k) by lia.
    assert (E : N.lxor (2 ^ (32 - k) - 1) (2 ^ 32 - 1) = 2 ^ 32 - 2 ^ (32 - k)).
    { apply N.bits_inj. intros i. rewrite N.lxor_spec, prefix_bit by exact K. rewrite !N.sub_1_r, <- !N.ones_equiv. destruct (N.leb_spec (32 - k) i), (N.ltb_spec i 32);
        repeat first [rewrite (N.ones_spec_low 32) by lia|rewrite (N.ones_spec_high 32) by lia|rewrite (N.ones_spec_low (32 - k)) by lia|rewrite (N.ones_spec_high (32 - k)) by lia]; reflexivity. }
    rewrite E. apply of_htonl_number. assert (0 < 2 ^ (32 - k)) by (apply N.neq_0_lt_0, N.pow_nonzero; discriminate). assert (0 < 2 ^ 32) by reflexivity. lia.
  - assert (k = 0) by lia. subst. eexists. split; [reflexivity|]. split; [repeat split|]. split; [lia|]. reflexivity.
Qed.
Lemma prefix_testbit m k i : prefix_mask m k -> N.testbit (number m) i = (32 - k <=? i) && (i <? 32).
Proof. intros [K ->]. apply prefix_bit, K. Qed.

(** ** Counting bits *)
Definition leading (m l : N) : Prop := l <= 32 /\ (forall i, 32 - l <= i < 32 -> N.testbit m i = true) /\ (l < 32 -> N.testbit m (31 - l) = false).
Lemma top_bit v : v < 2 ^ 32 -> v / 2 ^ 31 = if N.testbit v 31 then 1 else 0.
Proof.
  intros H. pose proof (N.testbit_spec' v 31) as T. rewrite N.mod_small in T; [|apply N.div_lt_upper_bound; [discriminate|]; exact H]. rewrite <- T. destruct (N.testbit v 31); reflexivity.
Qed.
Lemma double_bit v i : N.testbit (2 * v mod 2 ^ 32) i = (i <? 32) && (1 <=? i) && N.testbit v (i - 1).
Proof.
  destruct (N.ltb_spec i 32).
  - rewrite N.mod_pow2_bits_low by assumption. destruct (N.leb_spec 1 i); [|assert (i = 0) by lia; subst; apply N.testbit_even_0]. cbn [andb]. replace i with (N.succ (i - 1)) at 1 by lia. apply N.testbit_even_succ, N.le_0_l.
  - apply N.mod_pow2_bits_high. assumption.
Qed.
Lemma bits_loop_ok f : forall acc v l, (N.to_nat l < f)%nat -> v < 2 ^ 32 -> 1 <= l -> leading v l -> bits_loop f acc v = Ok (acc + l).
Proof.
  induction f as [|f IH]; intros acc v l F V L (K & A & Z); [lia|]. cbn [bits_loop]. rewrite top_bit by exact V. rewrite (A 31) by lia.
  assert (V' : 2 * v mod 2 ^ 32 < 2 ^ 32) by (apply N.mod_lt; discriminate). rewrite double_bit. change ((31 <? 32) && (1 <=? 31)) with true. change (31 - 1) with 30. cbn [andb].
  destruct (N.eq_dec l 1) as [->|L1].
  - change 30 with (31 - 1). rewrite Z by lia. reflexivity.
  - rewrite (A 30) by lia. rewrite (IH (acc + 1) (2 * v mod 2 ^ 32) (l - 1)); [f_equal; lia|lia|exact V'|lia|]. split; [lia|]. split.
    + intros i I. rewrite double_bit. destruct (N.ltb_spec i 32); [|lia]. destruct (N.leb_spec 1 i); [|lia]. cbn [andb]. apply A. lia.
    + intros _. rewrite double_bit. destruct (N.ltb_spec (31 - (l - 1)) 32); [|lia]. destruct (N.leb_spec 1 (31 - (l - 1))); [|reflexivity]. cbn [andb]. replace (31 - (l - 1) - 1) with (31 - l) by lia. apply Z. lia.
Qed.
Lemma leading_ex v : exists l, leading v l.
Proof.
  assert (H : forall k, (k <= 32)%nat -> (exists l, leading v l) \/ forall i, 32 - N.of_nat k <= i < 32 -> N.testbit v i = true).
  { induction k as [|k IH]; intros K; [right; lia|]. destruct IH as [IH|IH]; [lia|left; exact IH|]. destruct (N.testbit v (31 - N.of_nat k)) eqn:T.
    - right. intros i I. destruct (N.eq_dec i (31 - N.of_nat k)) as [->|]; [exact T|apply IH; lia].
    - left. exists (N.of_nat k). split; [lia|]. split; [exact IH|intros _; exact T]. }
  destruct (H 32%nat ltac:(lia)) as [Q|Q]; [exact Q|]. exists 32. split; [lia|]. split; [exact Q|lia].
Qed.
Lemma leading_bits n l : ok_net n -> leading (number (mask n)) l -> (N.testbit (number (mask n)) 31 = false -> N.testbit (number (mask n)) 30 = false) ->
  bits n = Ok l.
Proof.
  intros [_ M] L S. unfold bits. rewrite <- number_eq. destruct (N.eq_dec l 0) as [->|Z].
  - destruct L as (_ & _ & Z). specialize (Z eq_refl). change (31 - 0) with 31 in Z. cbn [bits_loop]. rewrite top_bit, Z by apply number_lt, M. rewrite double_bit. change (31 - 1) with 30. rewrite (S Z), andb_false_r. reflexivity.
  - rewrite (bits_loop_ok 33 0 _ l); [reflexivity| |apply number_lt, M|lia|exact L]. destruct L. lia.
Qed.
Lemma prefix_leading m k : prefix_mask m k -> leading (number m) k.
Proof.
  intros P. pose proof P as [K _]. split; [exact K|]. split.
  - intros i I. rewrite (prefix_testbit _ _ _ P). destruct (N.leb_spec (32 - k) i); [|lia]. destruct (N.ltb_spec i 32); [reflexivity|lia].
  - intros L. rewrite (prefix_testbit _ _ _ P). destruct (N.leb_spec (32 - k) (31 - k)); [lia|reflexivity].
Qed.
Lemma prefix_bits n k : ok_net n -> prefix_mask (mask n) k -> bits n = Ok k.
Proof.
  intros H P. apply leading_bits; [exact H|apply prefix_leading, P|]. rewrite !(prefix_testbit _ _ _ P). change (31 <? 32) with true. change (30 <? 32) with true. rewrite !andb_true_r. intros Q. apply N.leb_gt in Q. apply N.leb_gt. lia.
Qed.

(** ** Text *)
Lemma strtol_decimal n s t : is_decimal n s -> (0 <= n < 2 ^ 62)%Z -> (match t with [] => True | c :: _ => isdigit c = false end) -> strtol10 (s ++ t) = n.
Proof.
  intros (Ne & D & Vn & _) R T. unfold strtol10. destruct s as [|c s]; [congruence|]. pose proof (Forall_inv D) as Dc. destruct (digit_not_space c Dc) as (S1 & S2 & S3).
  cbn [app skip_space]. rewrite S1, S2, S3. change (c :: s ++ t) with ((c :: s) ++ t). rewrite atoi_digits_app by assumption. fold (value (c :: s)). rewrite Vn. lia.
Qed.
Lemma after_app c s t : ~ In c s -> after c (s ++ c :: t) = Some t.
Proof. induction s as [|x s IH]; cbn [app after]; intros H; [rewrite Ascii.eqb_refl; reflexivity|]. destruct (Ascii.eqb_spec x c) as [->|]; [elim H; left; reflexivity|]. apply IH. intros Q. apply H. right. exact Q. Qed.
Lemma after_none c s : ~ In c s -> after c s = None.
Proof. induction s as [|x s IH]; cbn [after]; intros H; [reflexivity|]. destruct (Ascii.eqb_spec x c) as [->|]; [elim H; left; reflexivity|]. apply IH. intros Q. apply H. right. exact Q. Qed.
Lemma digits_no c s : Forall digit s -> isdigit c = false -> ~ In c s.
Proof. intros F D I. rewrite Forall_forall in F. apply F in I. apply digit_isdigit in I. congruence. Qed.
Lemma byte_decimal b : b < 256 -> exists s, string_of_signed 32 (Z.of_N b) = Ok s /\ is_decimal (Z.of_N b) s.
Proof.
  intros H. rewrite signed_ok by (cbn; lia). eexists. split; [reflexivity|]. pose proof (sdec_is (Z.of_N b)) as Q. unfold is_signed_decimal in Q. destruct (Z.ltb_spec (Z.of_N b) 0); [lia|]. apply Q. unfold big. lia.
Qed.
Definition ends (t : bytes) : Prop := match t with [] => True | c :: _ => isdigit c = false end.
Lemma ip_print_ok a : ok_ip a -> exists s0 s1 s2 s3, ip_print a = Ok (s0 ++ dot :: s1 ++ dot :: s2 ++ dot :: s3) /\
  is_decimal (Z.of_N (b0 a)) s0 /\ is_decimal (Z.of_N (b1 a)) s1 /\ is_decimal (Z.of_N (b2 a)) s2 /\ is_decimal (Z.of_N (b3 a)) s3.
Proof.
  intros (H0 & H1 & H2 & H3). destruct (byte_decimal _ H0) as (s0 & E0 & D0). destruct (byte_decimal _ H1) as (s1 & E1 & D1). destruct (byte_decimal _ H2) as (s2 & E2 & D2). destruct (byte_decimal _ H3) as (s3 & E3 & D3).
  exists s0, s1, s2, s3. unfold ip_print. rewrite E0, E1, E2, E3. cbn [bind]. auto.
Qed.
Lemma ip_read s0 s1 s2 s3 a t : ok_ip a -> is_decimal (Z.of_N (b0 a)) s0 -> is_decimal (Z.of_N (b1 a)) s1 -> is_decimal (Z.of_N (b2 a)) s2 -> is_decimal (Z.of_N (b3 a)) s3 -> ends t ->
  ip_of_string ((s0 ++ dot :: s1 ++ dot :: s2 ++ dot :: s3) ++ t) = a.
Proof.
  intros (H0 & H1 & H2 & H3) D0 D1 D2 D3 T.
  assert (Nd : forall n s, is_decimal n s -> ~ In dot s) by (intros n s (_ & F & _); apply digits_no; [exact F|reflexivity]).
  assert (Small : forall b, b < 256 -> Z.to_N (Z.of_N b mod 256) = b) by (intros b Hb; rewrite Z.mod_small by lia; lia).
  assert (Step : forall n s b r, b < 256 -> is_decimal (Z.of_N b) s -> ip_bytes (S n) (s ++ dot :: r) = b :: ip_bytes n r).
  { intros n s b r Hb D. cbn [ip_bytes]. rewrite (strtol_decimal _ _ _ D) by (try lia; reflexivity). rewrite Small by exact Hb. rewrite after_app by (eapply Nd, D). reflexivity. }
  unfold ip_of_string. rewrite <- app_assoc. cbn [app]. rewrite <- app_assoc. cbn [app]. rewrite <- app_assoc. cbn [app]. rewrite (Step 3%nat _ _ _ H0 D0), (Step 2%nat _ _ _ H1 D1), (Step 1%nat _ _ _ H2 D2).
  cbn [ip_bytes]. rewrite (strtol_decimal _ _ _ D3) by (lia || exact T). rewrite Small by exact H3. cbn [nth]. destruct a; reflexivity.
Qed.
