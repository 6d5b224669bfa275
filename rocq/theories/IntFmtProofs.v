From Verif Require Import Base BaseFacts Ctype CryptModel IntFmtModel DecSpec.
From Coq Require Import ZifyBool ZifyNat.
Local Open Scope Z_scope.

(** ** Digits of a number, least significant first *)
Fixpoint digits_rev (fuel : nat) (i : Z) : bytes :=
  match fuel with
  | O => []
  | S fuel => if 0 <? i then ascii_of_nat (48 + Z.to_nat (i mod 10)) :: digits_rev fuel (i / 10) else []
  end.

Lemma code_digit d : 0 <= d < 10 -> nat_of_ascii (ascii_of_nat (48 + Z.to_nat d)) = (48 + Z.to_nat d)%nat.
Proof. intros H. apply nat_ascii_embedding. lia. Qed.

Lemma digits_rev_digits fuel : forall i, Forall digit (digits_rev fuel i).
Proof.
  induction fuel as [|fuel IH]; intros i; cbn [digits_rev]; [constructor|]. destruct (0 <? i); constructor; [|apply IH].
  unfold digit. pose proof (Z.mod_pos_bound i 10). rewrite code_digit; lia.
Qed.
Lemma value_app s t : value (s ++ t) = fold_left (fun a c => 10 * a + digit_value c) t (value s).
Proof. unfold value. apply fold_left_app. Qed.
Lemma digits_rev_value fuel : forall i, 0 <= i < 10 ^ Z.of_nat fuel -> value (rev (digits_rev fuel i)) = i.
Proof.
  induction fuel as [|fuel IH]; intros i Hi; cbn [digits_rev].
  - cbn in *. lia.
  - destruct (Z.ltb_spec 0 i); [|assert (i = 0) as -> by lia; reflexivity]. cbn [rev]. rewrite value_app.
    rewrite IH.
    + cbn [fold_left]. unfold digit_value. pose proof (Z.mod_pos_bound i 10). rewrite code_digit by lia.
      pose proof (Z.div_mod i 10). lia.
    + rewrite Nat2Z.inj_succ, Z.pow_succ_r in Hi by lia. split; [apply Z.div_pos; lia|apply Z.div_lt_upper_bound; lia].
Qed.
Lemma digits_rev_last fuel : forall i, 0 < i < 10 ^ Z.of_nat fuel ->
  exists l c, digits_rev fuel i = l ++ [c] /\ c <> ascii_of_nat 48.
Proof.
  induction fuel as [|fuel IH]; intros i Hi; [cbn in Hi; lia|]. cbn [digits_rev].
  destruct (Z.ltb_spec 0 i); [|lia]. destruct (Z.eq_dec (i / 10) 0) as [E|E].
  - exists []. rewrite E. exists (ascii_of_nat (48 + Z.to_nat (i mod 10))). split.
    + destruct fuel; reflexivity.
    + intros X. apply (f_equal nat_of_ascii) in X. pose proof (Z.mod_pos_bound i 10). rewrite code_digit in X by lia.
      rewrite nat_ascii_embedding in X by lia. pose proof (Z.div_mod i 10). lia.
  - destruct (IH (i / 10)) as (l & c & -> & Hc).
    + rewrite Nat2Z.inj_succ, Z.pow_succ_r in Hi by lia. pose proof (Z.div_pos i 10). split; [lia|apply Z.div_lt_upper_bound; lia].
    + exists (ascii_of_nat (48 + Z.to_nat (i mod 10)) :: l), c. split; [reflexivity|assumption].
Qed.
Lemma digits_rev_length fuel : forall i k, 0 <= i < 10 ^ Z.of_nat k -> (length (digits_rev fuel i) <= k)%nat.
Proof.
  induction fuel as [|fuel IH]; intros i k Hi; cbn [digits_rev]; [cbn; lia|].
  destruct (Z.ltb_spec 0 i); [|cbn; lia]. destruct k as [|k]; [cbn in Hi; lia|]. cbn [length].
  apply le_n_S. apply IH. rewrite Nat2Z.inj_succ, Z.pow_succ_r in Hi by lia. split; [apply Z.div_pos; lia|apply Z.div_lt_upper_bound; lia].
Qed.

Definition dec (i : Z) : bytes := if i =? 0 then [ascii_of_nat 48] else rev (digits_rev 65 i).
Definition big : Z := 10 ^ 20.

Lemma big_small i : 0 <= i < big -> 0 <= i < 10 ^ Z.of_nat 65.
Proof.
  intros H. split; [lia|]. unfold big in H. eapply Z.lt_le_trans; [apply H|]. apply Z.pow_le_mono_r; lia.
Qed.

Lemma dec_is i : 0 <= i < big -> is_decimal i (dec i).
Proof.
  intros H. unfold dec. destruct (Z.eqb_spec i 0) as [->|Hz].
  - split; [discriminate|]. split; [repeat constructor; cbn; lia|]. split; reflexivity.
  - pose proof (big_small i H) as Hb.
    destruct (digits_rev_last 65 i ltac:(lia)) as (l & c & E & Hc).
    split; [|split; [|split]].
    + rewrite E, rev_app_distr. discriminate.
    + apply Forall_rev. apply digits_rev_digits.
    + apply digits_rev_value. assumption.
    + rewrite E, rev_app_distr. cbn [rev app hd]. intros X. contradiction.
Qed.
Lemma dec_len i : 0 <= i < big -> (length (dec i) <= 20)%nat.
Proof.
  intros H. unfold dec. destruct (i =? 0); [cbn; lia|]. rewrite rev_length.
  apply digits_rev_length. unfold big in H. cbn [Z.of_nat Pos.of_succ_nat Pos.succ]. lia.
Qed.
Lemma dec_digits i : 0 <= i -> Forall digit (dec i).
Proof.
  intros H. unfold dec. destruct (i =? 0); [repeat constructor; cbn; lia|]. apply Forall_rev, digits_rev_digits.
Qed.
Lemma dec_nonempty i : 0 <= i < big -> dec i <> [].
Proof. intros H. apply (dec_is i H). Qed.
Lemma digit_not_nul c : digit c -> c <> nul.
Proof. intros H ->. unfold digit in H. cbn in H. lia. Qed.

(** ** Writing the digits *)
Lemma uitoar_loop_S fuel m e i : uitoar_loop (S fuel) m e i =
  if 0 <? i then let! (m, e) := digit_store m e (Z.rem i 10) in uitoar_loop fuel m e (Z.quot i 10) else Ok (m, e).
Proof. reflexivity. Qed.
Lemma uitoar_loop_ok fuel : forall m e i, 0 <= i < 10 ^ Z.of_nat fuel -> (e + length (digits_rev fuel i) <= length m)%nat ->
  (0 < fuel)%nat -> exists m', store_seq m e (digits_rev fuel i) = Some m' /\
    uitoar_loop (S fuel) m e i = Ok (m', (e + length (digits_rev fuel i))%nat).
Proof.
  induction fuel as [|fuel IH]; intros m e i Hi Hl Hf; [lia|].
  rewrite uitoar_loop_S. cbn [digits_rev] in *. destruct (Z.ltb_spec 0 i) as [Hp|Hp].
  - pose proof (Z.mod_pos_bound i 10 ltac:(lia)) as Hm.
    rewrite Z.rem_mod_nonneg, Z.quot_div_nonneg by lia. unfold digit_store.
    replace ((0 <=? i mod 10) && (i mod 10 <=? 9)) with true by (symmetry; apply andb_true_intro; split; apply Z.leb_le; lia).
    set (c := ascii_of_nat (48 + Z.to_nat (i mod 10))) in *. cbn [length] in Hl. cbn [store_seq].
    destruct (store m e c) as [m1|] eqn:Es; [|rewrite store_some in Es by lia; discriminate].
    cbn [of_opt bind]. assert (Hd : 0 <= i / 10 < 10 ^ Z.of_nat fuel).
    { rewrite Nat2Z.inj_succ, Z.pow_succ_r in Hi by lia. split; [apply Z.div_pos; lia|apply Z.div_lt_upper_bound; lia]. }
    destruct fuel as [|fuel].
    + assert (i / 10 = 0) as -> by (cbn in Hd; lia). cbn. exists m1. split; [reflexivity|]. do 2 f_equal. lia.
    + destruct (IH m1 (S e) (i / 10) Hd) as (m' & E1 & E2); [|lia|].
      * rewrite (store_length _ _ _ _ Es). lia.
      * exists m'. split; [exact E1|]. cbn beta iota.
        rewrite E2. cbn [length]. do 2 f_equal. lia.
  - exists m. split; [reflexivity|]. cbn [length]. do 2 f_equal. lia.
Qed.

Lemma uitoar_ok m i : 0 <= i < big -> (22 <= length m)%nat -> exists r,
  uitoar m i = Ok (rev (dec i) ++ nul :: r, length (dec i)) /\ (length (dec i) + S (length r) = length m)%nat.
Proof.
  intros Hi Hm. pose proof (dec_len i Hi) as Hl. unfold uitoar. pose proof (big_small i Hi) as Hb.
  assert (E : exists m', (if i =? 0 then let! m := of_opt (store m 0 (ascii_of_nat 48)) in Ok (m, 1%nat) else uitoar_loop 65 m 0 i)
     = Ok (m', length (dec i)) /\ store_seq m 0 (rev (dec i)) = Some m').
  { unfold dec in *. destruct (Z.eqb_spec i 0) as [->|Hz].
    - cbn [rev app length store_seq]. destruct (store m 0 (ascii_of_nat 48)) as [m1|] eqn:Es; [|rewrite store_some in Es by lia; discriminate].
      exists m1. split; reflexivity.
    - rewrite rev_involutive, rev_length in *.
      assert (H64 : digits_rev 65 i = digits_rev 64 i).
      { clear -Hi. assert (Hb : 0 <= i < 10 ^ Z.of_nat 64).
        { split; [lia|]. unfold big in Hi. eapply Z.lt_le_trans; [apply Hi|]. apply Z.pow_le_mono_r; lia. }
        revert Hb. clear Hi. change 65%nat with (S 64). generalize 64%nat. intros n. revert i.
        induction n as [|n IH]; intros i Hb.
        - cbn in Hb. assert (i = 0) as -> by lia. reflexivity.
        - change (digits_rev (S (S n)) i) with (if 0 <? i then ascii_of_nat (48 + Z.to_nat (i mod 10)) :: digits_rev (S n) (i / 10) else []).
          change (digits_rev (S n) i) with (if 0 <? i then ascii_of_nat (48 + Z.to_nat (i mod 10)) :: digits_rev n (i / 10) else []).
          destruct (Z.ltb_spec 0 i); [|reflexivity]. f_equal. apply IH.
          rewrite Nat2Z.inj_succ, Z.pow_succ_r in Hb by lia. split; [apply Z.div_pos; lia|apply Z.div_lt_upper_bound; lia]. }
      rewrite H64 in *. destruct (uitoar_loop_ok 64 m 0 i) as (m' & E1 & E2).
      + split; [lia|]. unfold big in Hi. eapply Z.lt_le_trans; [apply Hi|]. apply Z.pow_le_mono_r; lia.
      + lia.
      + lia.
      + exists m'. split; [exact E2|exact E1]. }
  destruct E as (m' & -> & Es). cbn [bind].
  assert (Lr : length (rev (dec i)) = length (dec i)) by apply rev_length.
  assert (H0 : store_seq m 0 (rev (dec i)) = Some (rev (dec i) ++ skipn (length (dec i)) m)).
  { rewrite store_seq_some by lia. cbn [firstn app]. rewrite Lr. reflexivity. }
  rewrite H0 in Es. injection Es as <-.
  rewrite store_some by (rewrite app_length, skipn_length; lia). cbn [of_opt bind].
  exists (skipn (S (length (dec i))) m). split.
  - do 2 f_equal. rewrite firstn_app_len by lia.
    rewrite (skipn_app_len (rev (dec i)) _ _ 1) by lia. f_equal. f_equal. rewrite skipn_skipn_add. reflexivity.
  - rewrite skipn_length. lia.
Qed.

(** ** Reversal *)
Lemma bxor_swap x y : bxor y (bxor x y) = x /\ bxor (bxor x y) x = y.
Proof.
  destruct x as [a0 a1 a2 a3 a4 a5 a6 a7], y as [b0 b1 b2 b3 b4 b5 b6 b7]. cbn. split; f_equal;
    repeat match goal with b : bool |- _ => first [destruct b]; try reflexivity end.
Qed.

Lemma nth_mid (a : bytes) c r : nth_error (a ++ c :: r) (length a) = Some c.
Proof. rewrite nth_error_app2, Nat.sub_diag by lia. reflexivity. Qed.
Lemma store_mid (a : bytes) c d r : store (a ++ c :: r) (length a) d = Some (a ++ d :: r).
Proof.
  rewrite store_some by (rewrite app_length; cbn; lia). rewrite firstn_app_len by reflexivity.
  rewrite (skipn_app_len a _ _ 1) by lia. reflexivity.
Qed.

Lemma strrev_ok fuel : forall mid a r, (length mid < fuel)%nat ->
  strrev fuel (a ++ mid ++ r) (length a) (length a + length mid) = Ok (a ++ rev mid ++ r).
Proof.
  induction fuel as [|fuel IH]; intros mid a r Hf; [lia|]. cbn [strrev].
  destruct mid as [|x mid]; [cbn [length]; destruct (Nat.ltb_spec (S (length a)) (length a + 0)); [lia|reflexivity]|].
  destruct (Nat.ltb_spec (S (length a)) (length a + length (x :: mid))) as [Hl|Hl].
  2:{ cbn [length] in Hl. destruct mid; [reflexivity|cbn in Hl; lia]. }
  destruct (exists_last (l := mid)) as (inner & y & ->); [intros ->; cbn in Hl; lia|].
  assert (Et : (length a + length (x :: inner ++ [y]) - 1 = length (a ++ x :: inner))%nat).
  { cbn [length]. rewrite !app_length. cbn [length]. lia. }
  rewrite Et. clear Et.
  assert (Em : forall u v, a ++ (u :: inner ++ [v]) ++ r = (a ++ u :: inner) ++ v :: r).
  { intros u v. rewrite <- app_assoc. cbn [app]. rewrite <- app_assoc. reflexivity. }
  assert (Em2 : forall u v, a ++ (u :: inner ++ [v]) ++ r = a ++ u :: (inner ++ v :: r)).
  { intros u v. cbn [app]. rewrite <- app_assoc. reflexivity. }
  assert (L2 : forall u w, length (a ++ u :: inner) = length (a ++ w :: inner)) by (intros; rewrite !app_length; reflexivity).
  rewrite Em2, nth_mid. cbn [of_opt bind]. rewrite <- Em2, Em, nth_mid. cbn [of_opt bind].
  rewrite <- Em, Em2, store_mid. cbn [of_opt bind]. rewrite nth_mid. cbn [of_opt bind].
  rewrite <- Em2, Em, (L2 x (bxor x y)), nth_mid. cbn [of_opt bind].
  rewrite store_mid. cbn [of_opt bind]. rewrite <- Em, Em2, nth_mid. cbn [of_opt bind].
  rewrite <- Em2, Em, nth_mid. cbn [of_opt bind]. rewrite <- Em, Em2, store_mid. cbn [of_opt bind].
  destruct (bxor_swap x y) as [-> ->].
  replace (a ++ y :: inner ++ x :: r) with ((a ++ [y]) ++ inner ++ x :: r) by (rewrite <- app_assoc; reflexivity).
  replace (S (length a)) with (length (a ++ [y])) by (rewrite app_length; cbn; lia).
  replace (length (a ++ bxor x y :: inner)) with (length (a ++ [y]) + length inner)%nat by (rewrite !app_length; cbn; lia).
  rewrite IH by (cbn [length] in Hf; rewrite app_length in Hf; cbn in Hf; lia).
  f_equal. rewrite <- app_assoc. cbn [app rev]. rewrite rev_app_distr. cbn [rev app]. rewrite <- app_assoc. reflexivity.
Qed.

Lemma strrev_string s r : nul_free s -> (length s < 65)%nat ->
  (let! m := strrev 65 (rev s ++ nul :: r) 0 (length s) in Ok (cstr m)) = Ok s.
Proof.
  intros Hn Hl. pose proof (strrev_ok 65 (rev s) [] (nul :: r)) as H. rewrite rev_length in H.
  cbn [app length Nat.add] in H. rewrite H by assumption. cbn [bind]. rewrite rev_involutive.
  rewrite cstr_app_nul by assumption. reflexivity.
Qed.
Lemma digits_nul_free s : Forall digit s -> nul_free s.
Proof. intros H Hin. rewrite Forall_forall in H. apply (digit_not_nul nul (H nul Hin)). reflexivity. Qed.

Lemma unsigned_ok i : 0 <= i < big -> string_of_unsigned i = Ok (dec i).
Proof.
  intros Hi. unfold string_of_unsigned. destruct (uitoar_ok (setsize 32) i Hi) as (r & E & _); [cbn; lia|].
  rewrite E. cbn [bind]. apply strrev_string; [apply digits_nul_free, dec_digits; lia|].
  pose proof (dec_len i Hi). lia.
Qed.

Definition sdec (i : Z) : bytes := if i <? 0 then ascii_of_nat 45 :: dec (- i) else dec i.
Lemma sdec_is i : - big < i < big -> is_signed_decimal i (sdec i).
Proof.
  intros H. unfold is_signed_decimal, sdec. destruct (Z.ltb_spec i 0); [eexists; split; [reflexivity|]|]; apply dec_is; lia.
Qed.

Lemma signed_ok w i : (8 <= w <= 64)%nat -> - 2 ^ (Z.of_nat w - 1) < i < 2 ^ (Z.of_nat w - 1) ->
  string_of_signed w i = Ok (sdec i).
Proof.
  intros Hw Hi.
  assert (Hp : 2 ^ (Z.of_nat w - 1) <= 2 ^ 63) by (apply Z.pow_le_mono_r; lia).
  assert (Hb : 2 ^ 63 < big) by (unfold big; lia).
  unfold string_of_signed, itoar, sdec. destruct (Z.ltb_spec i 0) as [Hn|Hn].
  - assert (En : negate w i = Ok (- i)).
    { unfold negate. destruct (Nat.ltb_spec w 32).
      - destruct (Z.eqb_spec (- i) (2 ^ (Z.of_nat w - 1))); [lia|reflexivity].
      - destruct (Z.eqb_spec i (- 2 ^ (Z.of_nat w - 1))); [lia|reflexivity]. }
    rewrite En. cbn [bind].
    destruct (uitoar_ok (setsize 32) (- i)) as (r & E & Lr); [lia|cbn; lia|]. rewrite E. cbn [bind].
    pose proof (dec_len (- i) ltac:(lia)) as Hl. cbn [setsize calloc repeat length] in Lr.
    destruct r as [|x r]; [cbn in Lr; lia|].
    assert (Ld : length (dec (- i)) = length (rev (dec (- i)))) by (symmetry; apply rev_length).
    rewrite Ld, store_mid. cbn [of_opt bind].
    replace (rev (dec (- i)) ++ ascii_of_nat 45 :: x :: r) with (rev (ascii_of_nat 45 :: dec (- i)) ++ x :: r)
      by (cbn [rev]; rewrite <- app_assoc; reflexivity).
    replace (S (length (rev (dec (- i))))) with (length (rev (ascii_of_nat 45 :: dec (- i)))) by (rewrite !rev_length; reflexivity).
    rewrite store_mid. cbn [of_opt bind]. rewrite rev_length.
    apply strrev_string.
    + intros [Hin|Hin]; [discriminate|]. apply (digits_nul_free (dec (- i))); [apply dec_digits; lia|assumption].
    + cbn [length]. lia.
  - cbn [bind]. destruct (uitoar_ok (setsize 32) i) as (r & E & Lr); [lia|cbn; lia|]. rewrite E. cbn [bind].
    apply strrev_string; [apply digits_nul_free, dec_digits; lia|]. pose proof (dec_len i ltac:(lia)). lia.
Qed.

(** ** atoi *)
Lemma digit_isdigit c : digit c <-> isdigit c = true.
Proof. unfold digit, isdigit, cc. lia. Qed.
Lemma atoi_digits_app s t : Forall digit s -> (match t with [] => True | c :: _ => isdigit c = false end) ->
  forall a, atoi_digits (s ++ t) a = fold_left (fun a c => 10 * a + digit_value c) s a.
Proof.
  intros H Ht. induction H as [|c s Hc Hs IH]; intros a; cbn [app atoi_digits fold_left].
  - destruct t as [|c t]; [reflexivity|]. cbn [atoi_digits]. rewrite Ht. reflexivity.
  - apply digit_isdigit in Hc. rewrite Hc. rewrite IH. reflexivity.
Qed.
Lemma digit_not_space c : digit c -> isspace c = false /\ (cc c =? 45)%nat = false /\ (cc c =? 43)%nat = false.
Proof. unfold digit, isspace, cc. intros H. repeat split; lia. Qed.

Lemma atoi_signed i t : int_min <= i <= int_max -> (match t with [] => True | c :: _ => isdigit c = false end) ->
  atoi (sdec i ++ t) = Ok i.
Proof.
  intros Hi Ht. unfold atoi, sdec.
  assert (Hb : int_max < big /\ - big < int_min) by (unfold int_max, int_min, big; lia).
  destruct (Z.ltb_spec i 0) as [Hn|Hn].
  - cbn [app skip_space]. change (isspace (ascii_of_nat 45)) with false. cbn iota.
    change (cc (ascii_of_nat 45) =? 45)%nat with true. cbn iota.
    destruct (dec_is (- i) ltac:(lia)) as (_ & Hd & Hv & _).
    rewrite atoi_digits_app by assumption. fold (value (dec (- i))). rewrite Hv, Z.opp_involutive.
    unfold in_int. destruct (Z.leb_spec int_min i), (Z.leb_spec i int_max); try lia. reflexivity.
  - destruct (dec_is i ltac:(lia)) as (Hne & Hd & Hv & _). destruct (dec i) as [|c s] eqn:E; [contradiction|].
    pose proof (digit_not_space c (Forall_inv Hd)) as (H1 & H2 & H3). cbn [app skip_space]. rewrite H1, H2, H3.
    change (c :: s ++ t) with ((c :: s) ++ t). rewrite atoi_digits_app by assumption. fold (value (c :: s)). rewrite Hv.
    unfold in_int. destruct (Z.leb_spec int_min i), (Z.leb_spec i int_max); try lia. reflexivity.
Qed.

(** ** Uniqueness of decimal notation *)
Lemma value_snoc s c : value (s ++ [c]) = 10 * value s + digit_value c.
Proof. rewrite value_app. reflexivity. Qed.
Lemma digit_value_bound c : digit c -> 0 <= digit_value c < 10.
Proof. unfold digit, digit_value. lia. Qed.
Lemma digit_value_inj c d : digit_value c = digit_value d -> c = d.
Proof.
  unfold digit_value. intros H. rewrite <- (ascii_nat_embedding c), <- (ascii_nat_embedding d). f_equal. lia.
Qed.
Lemma value_nonneg s : Forall digit s -> 0 <= value s.
Proof.
  induction s as [|c s IH] using rev_ind; intros H; [cbn; lia|]. apply Forall_app in H. destruct H as [H1 H2].
  rewrite value_snoc. pose proof (digit_value_bound c (Forall_inv H2)). pose proof (IH H1). lia.
Qed.
Lemma value_zero s : Forall digit s -> hd nul s <> ascii_of_nat 48 -> value s = 0 -> s = [].
Proof.
  induction s as [|c s IH] using rev_ind; intros H Hh Hv; [reflexivity|]. apply Forall_app in H. destruct H as [H1 H2].
  rewrite value_snoc in Hv. pose proof (digit_value_bound c (Forall_inv H2)) as Hc. pose proof (value_nonneg s H1) as Hs.
  destruct s as [|d s].
  - cbn [app hd value fold_left] in *. exfalso. apply Hh. apply digit_value_inj.
    assert (digit_value (ascii_of_nat 48) = 0) as -> by reflexivity. unfold value in Hv. cbn [fold_left] in Hv. lia.
  - exfalso. assert (d :: s = []) as X; [|discriminate]. apply IH; [assumption|exact Hh|lia].
Qed.
Lemma value_inj s : forall t, Forall digit s -> Forall digit t -> hd nul s <> ascii_of_nat 48 -> hd nul t <> ascii_of_nat 48 ->
  value s = value t -> s = t.
Proof.
  induction s as [|c s IH] using rev_ind; intros t Hs Ht H1 H2 Hv.
  - symmetry. apply value_zero; try assumption. rewrite <- Hv. reflexivity.
  - destruct (list_eq_dec ascii_dec t []) as [->|Hne].
    { apply value_zero; assumption. }
    destruct (exists_last Hne) as (t' & d & ->). apply Forall_app in Hs, Ht. destruct Hs as [Hs Hc], Ht as [Ht Hd].
    rewrite !value_snoc in Hv. pose proof (digit_value_bound c (Forall_inv Hc)). pose proof (digit_value_bound d (Forall_inv Hd)).
    assert (value s = value t') by lia.
    assert (c = d) by (apply digit_value_inj; lia). subst d. f_equal.
    apply IH; try assumption.
    + destruct s; [discriminate|exact H1].
    + destruct t'; [discriminate|exact H2].
Qed.
Lemma decimal_unique n s t : is_decimal n s -> is_decimal n t -> s = t.
Proof.
  intros (S1 & S2 & S3 & S4) (T1 & T2 & T3 & T4).
  destruct (ascii_dec (hd nul s) (ascii_of_nat 48)) as [E|E], (ascii_dec (hd nul t) (ascii_of_nat 48)) as [F|F].
  - rewrite (S4 E), (T4 F). reflexivity.
  - exfalso. apply T1. apply value_zero; try assumption. rewrite T3, <- S3, (S4 E). reflexivity.
  - exfalso. apply S1. apply value_zero; try assumption. rewrite S3, <- T3, (T4 F). reflexivity.
  - apply value_inj; try assumption. congruence.
Qed.
Lemma signed_decimal_unique n s t : is_signed_decimal n s -> is_signed_decimal n t -> s = t.
Proof.
  unfold is_signed_decimal. destruct (n <? 0).
  - intros (s' & -> & Hs) (t' & -> & Ht). f_equal. apply (decimal_unique _ _ _ Hs Ht).
  - apply decimal_unique.
Qed.
