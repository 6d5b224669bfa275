From Coq Require Import NArith Nnat.
From Coq Require Import ZifyBool ZifyNat ZifyN.
From Verif Require Import Base BaseFacts EncoderModel EncoderProofs CryptModel CryptSpec.

Lemma bxor_spec a b : bxor a b = xor_byte a b.
Proof.
  assert (H : forall a, forallb (fun b => Ascii.eqb (bxor a b) (xor_byte a b)) all_bytes = true)
    by (apply byte_sweep; vm_compute; reflexivity).
  apply Ascii.eqb_eq. exact (byte_sweep _ (H a) b).
Qed.
Lemma bxor_inv a k : bxor (bxor a k) k = a.
Proof. destruct a, k; cbn. rewrite !xorb_assoc, !xorb_nilpotent, !xorb_false_r. reflexivity. Qed.
Lemma xor_byte_inv a k : xor_byte (xor_byte a k) k = a.
Proof. rewrite <- !bxor_spec. apply bxor_inv. Qed.

Lemma map_seq_S {A} (f : nat -> A) n : map f (seq 1 n) = map (fun i => f (S i)) (seq 0 n).
Proof. rewrite <- seq_shift, map_map. reflexivity. Qed.

(** ** XOR *)
Lemma xor_loop_spec key l : forall off, off < length key ->
  exists off', off' < length key /\
  xor_loop key off l = Some (off', map (fun i => xor_byte (nth i l nul) (nth ((off + i) mod length key) key nul)) (seq 0 (length l)))
  /\ off' = (off + length l) mod length key.
Proof.
  induction l as [|c l IH]; intros off Hoff; cbn [xor_loop length seq map].
  - exists off. repeat split; auto. rewrite Nat.add_0_r, Nat.mod_small by assumption. reflexivity.
  - destruct (nth_error key off) as [k|] eqn:Ek; [|apply nth_error_None in Ek; lia].
    destruct (Nat.eqb_spec (length key) 0); [lia|].
    destruct (IH (S off mod length key)) as (off' & H1 & H2 & H3); [apply Nat.mod_upper_bound; assumption|].
    rewrite H2. exists off'. split; [assumption|]. split.
    + f_equal. f_equal. rewrite Nat.add_0_r, (Nat.mod_small off) by assumption.
      rewrite bxor_spec. f_equal.
      * f_equal. cbn. apply (nth_error_nth _ _ nul) in Ek. congruence.
      * rewrite map_seq_S. apply map_ext. intros i. cbn [nth]. f_equal. f_equal.
        rewrite Nat.add_mod_idemp_l by assumption. f_equal. lia.
    + rewrite H3. rewrite Nat.add_mod_idemp_l by assumption. f_equal. lia.
Qed.

Lemma xor_loop_app key a : forall off b s out,
  xor_loop key off (a ++ b) = Some (s, out) ->
  exists s1 o1 o2, xor_loop key off a = Some (s1, o1) /\ xor_loop key s1 b = Some (s, o2) /\ out = o1 ++ o2.
Proof.
  induction a as [|c a IH]; intros off b s out H; cbn [app xor_loop] in *.
  - exists off, [], out. auto.
  - destruct (nth_error key off) as [k|]; [|discriminate]. destruct (length key =? 0); [discriminate|].
    destruct (xor_loop key _ (a ++ b)) as [[s2 o]|] eqn:E; [|discriminate]. inversion H; subst.
    destruct (IH _ _ _ _ E) as (s1 & o1 & o2 & H1 & H2 & ->). rewrite H1. eexists s1, _, o2. auto.
Qed.

Theorem xor_feed key calls : key <> [] ->
  exists s bs, feed (XOREncoder key) (est_init _) [] calls = Ok (s, [], xor_text key (fed calls), bs).
Proof.
  intros Hk. assert (Hl : 0 < length key) by (destruct key; [congruence|cbn; lia]).
  destruct (xor_loop_spec key (fed calls) 0 Hl) as (off & _ & H & _).
  destruct (feed_run (XOREncoder key) (xor_loop key)) with (calls := calls) (s := 0) (s' := off)
     (out := xor_text key (fed calls)) as (bs & Hf).
  - intros s inp flush s' o E. cbn. rewrite E. cbn. eauto.
  - reflexivity.
  - intros. apply xor_loop_app. assumption.
  - exact H.
  - eauto.
Qed.

Lemma xor_text_length key l : length (xor_text key l) = length l.
Proof. unfold xor_text. rewrite map_length, seq_length. reflexivity. Qed.

Lemma nth_map_seq {A} (f : nat -> A) n i d : i < n -> nth i (map f (seq 0 n)) d = f i.
Proof.
  intros H. rewrite (nth_indep _ d (f 0)) by (rewrite map_length, seq_length; assumption).
  rewrite map_nth, seq_nth by assumption. reflexivity.
Qed.

Lemma xor_text_inv key l : xor_text key (xor_text key l) = l.
Proof.
  apply nth_ext with (d := nul) (d' := nul).
  - rewrite !xor_text_length. reflexivity.
  - rewrite !xor_text_length. intros i Hi. unfold xor_text at 1.
    rewrite nth_map_seq by (rewrite xor_text_length; assumption).
    unfold xor_text. rewrite nth_map_seq by assumption. apply xor_byte_inv.
Qed.

Theorem xor_inverse key calls s e bs calls' : key <> [] ->
  feed (XOREncoder key) (est_init _) [] calls = Ok (s, [], e, bs) -> fed calls' = e ->
  exists s' bs', feed (XOREncoder key) (est_init _) [] calls' = Ok (s', [], fed calls, bs').
Proof.
  intros Hk H Hf. destruct (xor_feed key calls Hk) as (s0 & bs0 & H0). rewrite H0 in H.
  assert (He : xor_text key (fed calls) = e) by congruence.
  destruct (xor_feed key calls' Hk) as (s1 & bs1 & H1). rewrite Hf, <- He, xor_text_inv in H1. eauto.
Qed.

(** ** Counters *)
Lemma N_ascii_bound c : (N_of_ascii c < 256)%N.
Proof. apply N_ascii_bounded. Qed.

Local Open Scope N_scope.
Lemma ascii_N_mod v : N_of_ascii (ascii_of_N (v mod 256)) = v mod 256.
Proof. apply N_ascii_embedding. apply N.mod_lt. discriminate. Qed.

Lemma succ_byte c : ascii_of_nat ((nat_of_ascii c + 1) mod 256) = ascii_of_N ((N_of_ascii c + 1) mod 256).
Proof.
  assert (H : forall c, Ascii.eqb (ascii_of_nat ((nat_of_ascii c + 1) mod 256)) (ascii_of_N ((N_of_ascii c + 1) mod 256)) = true)
    by (apply byte_sweep; vm_compute; reflexivity).
  apply Ascii.eqb_eq, H.
Qed.

Lemma ascii_of_N_nul v : v < 256 -> (Ascii.eqb (ascii_of_N v) nul = true <-> v = 0).
Proof.
  intros Hv. rewrite Ascii.eqb_eq. split.
  - intros H. rewrite <- (N_ascii_embedding v Hv), H. reflexivity.
  - intros ->. reflexivity.
Qed.

Ltac Zify.zify_post_hook ::= Z.div_mod_to_equations.

Lemma incr_spec n : forall v, incrcounter (le_bytes n v) = le_bytes n (v + 1).
Proof.
  induction n as [|n IH]; intros v; [reflexivity|]. cbn [le_bytes incrcounter].
  rewrite succ_byte, ascii_N_mod. rewrite N.add_mod_idemp_l by discriminate.
  destruct (Ascii.eqb (ascii_of_N ((v + 1) mod 256)) nul) eqn:E.
  - apply ascii_of_N_nul in E; [|apply N.mod_lt; discriminate].
    f_equal. rewrite IH. f_equal. lia.
  - assert ((v + 1) mod 256 <> 0).
    { intros H. apply (ascii_of_N_nul ((v + 1) mod 256)) in H; [congruence|apply N.mod_lt; discriminate]. }
    f_equal. f_equal. lia.
Qed.

Lemma le_bytes_length n : forall v, length (le_bytes n v) = n.
Proof. induction n as [|n IH]; intros v; cbn; [reflexivity|]. rewrite IH. reflexivity. Qed.

Lemma le_bytes_val l : le_bytes (length l) (le_val l) = l.
Proof.
  induction l as [|c l IH]; [reflexivity|]. cbn [length le_val le_bytes].
  pose proof (N_ascii_bound c).
  replace ((N_of_ascii c + 256 * le_val l) mod 256) with (N_of_ascii c) by lia.
  replace ((N_of_ascii c + 256 * le_val l) / 256) with (le_val l) by lia.
  rewrite IH, ascii_N_embedding. reflexivity.
Qed.

Lemma le_bytes_inj n : forall a b, le_bytes n a = le_bytes n b -> a mod 256 ^ N.of_nat n = b mod 256 ^ N.of_nat n.
Proof.
  induction n as [|n IH]; intros a b H.
  - cbn [N.of_nat]. rewrite N.pow_0_r, !N.mod_1_r. reflexivity.
  - cbn [le_bytes] in H.
    assert (H1 : ascii_of_N (a mod 256) = ascii_of_N (b mod 256)) by congruence.
    assert (H2 : le_bytes n (a / 256) = le_bytes n (b / 256)) by congruence.
    apply (f_equal N_of_ascii) in H1. rewrite !ascii_N_mod in H1. apply IH in H2.
    rewrite Nat2N.inj_succ, N.pow_succ_r'.
    assert (Hp : 256 ^ N.of_nat n <> 0) by (apply N.pow_nonzero; discriminate).
    rewrite !N.mod_mul_r by (assumption || discriminate). rewrite H1, H2. reflexivity.
Qed.

Lemma le_bytes_mod n : forall a b, a mod 256 ^ N.of_nat n = b mod 256 ^ N.of_nat n -> le_bytes n a = le_bytes n b.
Proof.
  induction n as [|n IH]; intros a b H; [reflexivity|].
  rewrite Nat2N.inj_succ, N.pow_succ_r' in H.
  assert (Hp : 256 ^ N.of_nat n <> 0) by (apply N.pow_nonzero; discriminate).
  rewrite !N.mod_mul_r in H by (assumption || discriminate).
  cbn [le_bytes].
  assert (Hr : a mod 256 = b mod 256 /\ (a / 256) mod 256 ^ N.of_nat n = (b / 256) mod 256 ^ N.of_nat n).
  { set (x := (a / 256) mod 256 ^ N.of_nat n) in *. set (y := (b / 256) mod 256 ^ N.of_nat n) in *.
    clearbody x y. split; lia. }
  destruct Hr as [H1 H2]. rewrite H1. f_equal. apply IH. exact H2.
Qed.
Local Close Scope N_scope.

Lemma iter_incr c : forall k, Nat.iter k incrcounter c = le_bytes (length c) (le_val c + N.of_nat k).
Proof.
  induction k as [|k IH]; cbn [Nat.iter].
  - rewrite N.add_0_r. symmetry. apply le_bytes_val.
  - change (Nat.iter (S k) incrcounter c) with (incrcounter (Nat.iter k incrcounter c)).
    rewrite IH, incr_spec. f_equal. lia.
Qed.

Theorem counter_period c i j :
  Nat.iter i incrcounter c = Nat.iter j incrcounter c <->
  (N.of_nat i mod 256 ^ N.of_nat (length c) = N.of_nat j mod 256 ^ N.of_nat (length c))%N.
Proof.
  rewrite !iter_incr. set (M := (256 ^ N.of_nat (length c))%N).
  assert (HM : M <> 0%N) by (apply N.pow_nonzero; discriminate).
  split.
  - intros H. apply le_bytes_inj in H. fold M in H.
    apply (f_equal (fun x => (x + (M - le_val c mod M)) mod M)%N) in H.
    rewrite !N.add_mod_idemp_l in H by assumption.
    pose proof (N.mod_lt (le_val c) M HM). pose proof (N.div_mod (le_val c) M HM) as Hd.
    assert (Hx : forall k : N, ((le_val c + k + (M - le_val c mod M)) mod M = k mod M)%N).
    { intros k. replace (le_val c + k + (M - le_val c mod M))%N with (k + (le_val c / M + 1) * M)%N by lia.
      apply N.mod_add. assumption. }
    rewrite !Hx in H. exact H.
  - intros H. apply le_bytes_mod. fold M.
    rewrite <- (N.add_mod_idemp_r _ (N.of_nat i)), <- (N.add_mod_idemp_r _ (N.of_nat j)), H by assumption. reflexivity.
Qed.

Ltac Zify.zify_post_hook ::= idtac.

(** ** Counter mode *)
Section Ctr.
Variable keycrypt : bytes -> option bytes.
Variable K : bytes -> bytes.
Variable n : nat.
Hypothesis n_pos : 0 < n.
Hypothesis K_ok : forall b, length b = n -> keycrypt b = Some (K b).
Hypothesis K_len : forall b, length b = n -> length (K b) = n.

Definition blk (v : N) : bytes := K (le_bytes n v).
Lemma blk_len v : length (blk v) = n.
Proof. apply K_len, le_bytes_length. Qed.

(** [m] blocks of key stream. *)
Fixpoint ksf (v : N) (m : nat) : bytes :=
  match m with O => [] | S m => blk v ++ ksf (v + 1) m end.
Lemma ksf_len m : forall v, length (ksf v m) = m * n.
Proof. induction m as [|m IH]; intros v; cbn; [reflexivity|]. rewrite app_length, blk_len, IH. reflexivity. Qed.

Lemma div_step a : n <= a -> a / n = S ((a - n) / n).
Proof.
  intros H. replace a with ((a - n) + 1 * n) at 1 by lia. rewrite Nat.div_add by lia. lia.
Qed.
Lemma mod_step a : n <= a -> a mod n = (a - n) mod n.
Proof.
  intros H. replace a with ((a - n) + 1 * n) at 1 by lia. rewrite Nat.mod_add by lia. reflexivity.
Qed.

Lemma keystream_spec fuel : forall v len, len <= fuel ->
  keystream keycrypt fuel (le_bytes n v) len =
  Ok (len mod n, le_bytes n (v + N.of_nat (len / n)), ksf v (len / n), true).
Proof.
  induction fuel as [|fuel IH]; intros v len Hf; cbn [keystream]; rewrite le_bytes_length.
  - destruct (Nat.ltb_spec len n); [|lia]. rewrite Nat.mod_small, Nat.div_small by assumption.
    cbn [N.of_nat ksf]. rewrite N.add_0_r. reflexivity.
  - destruct (Nat.ltb_spec len n).
    + rewrite Nat.mod_small, Nat.div_small by assumption. cbn [N.of_nat ksf]. rewrite N.add_0_r. reflexivity.
    + rewrite K_ok by apply le_bytes_length. rewrite incr_spec. rewrite IH by lia. cbn [bind].
      rewrite (div_step len), (mod_step len) by assumption. cbn [ksf].
      replace (v + 1 + N.of_nat ((len - n) / n))%N with (v + N.of_nat (S ((len - n) / n)))%N by lia.
      reflexivity.
Qed.

Lemma xor_zip_length a : forall b, length (xor_zip a b) = min (length a) (length b).
Proof. induction a as [|x a IH]; intros [|y b]; cbn; auto. Qed.
Lemma xor_zip_nth a : forall b i, i < length a -> i < length b ->
  nth i (xor_zip a b) nul = xor_byte (nth i a nul) (nth i b nul).
Proof.
  induction a as [|x a IH]; intros [|y b] i Ha Hb; cbn in *; try lia.
  destruct i as [|i]; [apply bxor_spec|]. apply IH; lia.
Qed.

Lemma ksf_nth m : forall v t, t < m * n -> nth t (ksf v m) nul = nth (t mod n) (blk (v + N.of_nat (t / n))) nul.
Proof.
  induction m as [|m IH]; intros v t Ht; [lia|]. cbn [ksf].
  destruct (Nat.lt_ge_cases t n).
  - rewrite app_nth1 by (rewrite blk_len; assumption).
    rewrite Nat.mod_small, Nat.div_small by assumption. cbn [N.of_nat]. rewrite N.add_0_r. reflexivity.
  - rewrite app_nth2 by (rewrite blk_len; assumption). rewrite blk_len.
    rewrite IH by lia. rewrite (mod_step t), (div_step t) by assumption. do 2 f_equal. lia.
Qed.

Lemma ctr_text_length v l : length (ctr_text K n v l) = length l.
Proof. unfold ctr_text. rewrite map_length, seq_length. reflexivity. Qed.
Lemma ctr_text_nth v l i : i < length l ->
  nth i (ctr_text K n v l) nul = xor_byte (nth i l nul) (nth (i mod n) (blk (v + N.of_nat (i / n))) nul).
Proof. intros H. unfold ctr_text. rewrite nth_map_seq by assumption. reflexivity. Qed.

Lemma xor_ksf v m l ks : length l <= m * n -> ks = firstn (length l) (ksf v m) ->
  xor_zip l ks = ctr_text K n v l.
Proof.
  intros Hl ->. assert (Hks : length (firstn (length l) (ksf v m)) = length l).
  { rewrite firstn_length, ksf_len. lia. }
  apply nth_ext with (d := nul) (d' := nul).
  - rewrite xor_zip_length, ctr_text_length, Hks. lia.
  - intros i Hi. rewrite xor_zip_length, Hks, Nat.min_id in Hi.
    rewrite xor_zip_nth by (try rewrite Hks; assumption).
    rewrite ctr_text_nth by assumption. f_equal.
    rewrite <- (ksf_nth m) by lia.
    rewrite <- (firstn_skipn (length l) (ksf v m)) at 2.
    rewrite app_nth1 by (rewrite Hks; assumption). reflexivity.
Qed.

Lemma ctr_text_app v a b q : length a = q * n ->
  ctr_text K n v (a ++ b) = ctr_text K n v a ++ ctr_text K n (v + N.of_nat q) b.
Proof.
  intros Ha. apply nth_ext with (d := nul) (d' := nul).
  - rewrite app_length, !ctr_text_length, app_length. reflexivity.
  - rewrite ctr_text_length, app_length. intros i Hi.
    rewrite ctr_text_nth by (rewrite app_length; assumption).
    destruct (Nat.lt_ge_cases i (length a)).
    + rewrite !app_nth1 by (try rewrite ctr_text_length; assumption).
      rewrite ctr_text_nth by assumption. reflexivity.
    + rewrite !app_nth2 by (try rewrite ctr_text_length; assumption). rewrite ctr_text_length.
      rewrite ctr_text_nth by lia.
      replace i with ((i - length a) + q * n) at 2 3 by lia.
      rewrite Nat.mod_add, Nat.div_add by lia. do 3 f_equal. lia.
Qed.

Definition ceil (k : nat) : nat := (k + n - 1) / n.
Lemma ceil_app q k : ceil (q * n + k) = q + ceil k.
Proof.
  unfold ceil. replace (q * n + k + n - 1) with ((k + n - 1) + q * n) by lia.
  rewrite Nat.div_add by lia. lia.
Qed.
Lemma ceil_exact k : k mod n = 0 -> ceil k = k / n.
Proof.
  intros H. unfold ceil. rewrite (Nat.div_mod k n) at 1 by lia. rewrite H.
  replace (n * (k / n) + 0 + n - 1) with ((n - 1) + (k / n) * n) by lia.
  rewrite Nat.div_add by lia. rewrite Nat.div_small by lia. reflexivity.
Qed.
Lemma ceil_part k : k mod n <> 0 -> ceil k = S (k / n).
Proof.
  intros H. unfold ceil. rewrite (Nat.div_mod k n) at 1 by lia.
  pose proof (Nat.mod_upper_bound k n ltac:(lia)).
  replace (n * (k / n) + k mod n + n - 1) with ((k mod n - 1) + (S (k / n)) * n) by lia.
  rewrite Nat.div_add by lia. rewrite Nat.div_small by lia. reflexivity.
Qed.

Definition full (k : nat) : nat := k / n * n.
Lemma full_le k : full k <= k.
Proof. unfold full. pose proof (Nat.div_mod k n ltac:(lia)). lia. Qed.

Lemma ctr_encode_noflush v inp :
  ctr_encode keycrypt (le_bytes n v) inp false =
  Ok (EncOut (le_bytes n (v + N.of_nat (length inp / n))) (skipn (full (length inp)) inp)
        (ctr_text K n v (firstn (full (length inp)) inp)) true false false).
Proof.
  unfold ctr_encode. rewrite keystream_spec by lia. cbn [bind andb].
  pose proof (Nat.div_mod (length inp) n ltac:(lia)) as Hd.
  pose proof (Nat.mod_le (length inp) n ltac:(lia)) as Hl.
  replace (length inp - length inp mod n) with (full (length inp)) by (unfold full; lia).
  rewrite ksf_len. fold (full (length inp)). rewrite Nat.eqb_refl.
  rewrite (xor_ksf v (length inp / n)).
  - reflexivity.
  - rewrite firstn_length. unfold full. lia.
  - rewrite firstn_length. pose proof (full_le (length inp)). rewrite Nat.min_l by assumption.
    rewrite firstn_all2; [reflexivity|]. rewrite ksf_len. unfold full. lia.
Qed.

Lemma ksf_snoc m : forall v, ksf v (S m) = ksf v m ++ blk (v + N.of_nat m).
Proof.
  induction m as [|m IH]; intros v.
  - cbn [ksf N.of_nat]. rewrite N.add_0_r, app_nil_r. reflexivity.
  - change (ksf v (S (S m))) with (blk v ++ ksf (v + 1) (S m)). rewrite IH. cbn [ksf].
    rewrite <- app_assoc. do 3 f_equal. lia.
Qed.

Lemma ctr_encode_flush v inp :
  ctr_encode keycrypt (le_bytes n v) inp true =
  Ok (EncOut (le_bytes n (v + N.of_nat (ceil (length inp)))) [] (ctr_text K n v inp) true false false).
Proof.
  unfold ctr_encode. rewrite keystream_spec by lia. cbn [bind andb].
  pose proof (Nat.div_mod (length inp) n ltac:(lia)) as Hd.
  pose proof (Nat.mod_le (length inp) n ltac:(lia)) as Hl.
  pose proof (Nat.mod_upper_bound (length inp) n ltac:(lia)) as Hm.
  destruct (Nat.eqb_spec (length inp mod n) 0) as [Hz|Hz]; cbn [negb andb].
  - cbn [bind]. rewrite Hz, Nat.sub_0_r, ksf_len.
    replace (length inp / n * n) with (length inp) by lia. rewrite Nat.eqb_refl.
    rewrite firstn_all, skipn_all. rewrite (xor_ksf v (length inp / n)).
    + rewrite ceil_exact by assumption. reflexivity.
    + lia.
    + rewrite firstn_all2; [reflexivity|]. rewrite ksf_len. lia.
  - rewrite K_ok by apply le_bytes_length. rewrite le_bytes_length.
    set (kb := K (le_bytes n (v + N.of_nat (length inp / n)))).
    assert (Hk : length kb = n) by apply blk_len. rewrite Hk.
    destruct (Nat.leb_spec (n - length inp mod n) n); [|lia]. cbn [bind].
    rewrite Nat.sub_0_r. rewrite app_length, ksf_len, firstn_length, Hk.
    replace (length inp / n * n + min (n - (n - length inp mod n)) n) with (length inp) by lia.
    rewrite Nat.eqb_refl. rewrite firstn_all, skipn_all.
    rewrite (xor_ksf v (S (length inp / n))).
    + rewrite incr_spec, ceil_part by assumption.
      replace (v + N.of_nat (length inp / n) + 1)%N with (v + N.of_nat (S (length inp / n)))%N by lia. reflexivity.
    + lia.
    + rewrite ksf_snoc. fold (blk (v + N.of_nat (length inp / n))) in kb. unfold kb.
      rewrite firstn_app, ksf_len. rewrite (firstn_all2 (ksf v (length inp / n))) by (rewrite ksf_len; lia).
      f_equal. f_equal. lia.
Qed.

Lemma segments_app P calls : forall x,
  segments (P ++ x) calls =
  match segments x calls with
  | (s :: ss, l) => ((P ++ s) :: ss, l)
  | ([], l) => ([], P ++ l)
  end.
Proof.
  induction calls as [|[c f] calls IH]; intros x; cbn [segments]; [reflexivity|].
  destruct f.
  - destruct (segments [] calls) as [s l]. rewrite <- app_assoc. reflexivity.
  - rewrite <- app_assoc. apply IH.
Qed.

(** Everything output for the flushed segments and the complete blocks of the
    unflushed remainder. *)
Definition ctr_out (v : N) (segs : list bytes) (last : bytes) : bytes :=
  ctr_segments K n v (segs ++ [firstn (full (length last)) last]).

Lemma ctr_out_app v P q segs last : length P = q * n ->
  ctr_out v (match segs with s :: ss => (P ++ s) :: ss | [] => [] end)
            (match segs with s :: ss => last | [] => P ++ last end)
  = ctr_text K n v P ++ ctr_out (v + N.of_nat q) segs last.
Proof.
  intros HP. unfold ctr_out. destruct segs as [|s ss]; cbn [app ctr_segments].
  - rewrite !app_nil_r. rewrite app_length.
    assert (E : full (length P + length last) = length P + full (length last)).
    { unfold full. rewrite HP. replace (q * n + length last) with (length last + q * n) by lia.
      rewrite Nat.div_add by lia. lia. }
    rewrite E. rewrite firstn_app_2. apply ctr_text_app. assumption.
  - rewrite (ctr_text_app v P s q HP). rewrite <- app_assoc. do 2 f_equal.
    rewrite app_length. unfold ceil in *. rewrite HP. fold (ceil (q * n + length s)). rewrite ceil_app.
    fold (ceil (length s)). f_equal. lia.
Qed.

Theorem ctr_feed_gen calls counter0 : forall v r, length r < n ->
  exists s bs,
  let '(segs, last) := segments r calls in
  feed (CounterModeEncoder keycrypt counter0) (@Est (CounterModeEncoder keycrypt counter0) true false (le_bytes n v)) r calls =
  Ok (s, skipn (full (length last)) last, ctr_out v segs last, bs).
Proof.
  induction calls as [|[c f] calls IH]; intros v r Hr.
  - cbn [segments feed]. eexists _, _. unfold ctr_out, full. rewrite Nat.div_small by assumption.
    cbn [Nat.mul firstn skipn app ctr_segments]. reflexivity.
  - cbn [segments feed].
    destruct f.
    + unfold enc_do_encode. cbn [okay finished st negb andb]. rewrite orb_true_r. cbn [enc_encode CounterModeEncoder]. rewrite ctr_encode_flush.
      cbn [bind o_st o_rest o_out o_ret o_err o_fin negb andb orb].
      destruct (IH (v + N.of_nat (ceil (length (r ++ c))))%N [] n_pos) as (s & bs & H).
      destruct (segments [] calls) as [ss l]. exists s, (true :: bs). rewrite H. cbn [bind].
      unfold ctr_out. cbn [app ctr_segments]. reflexivity.
    + assert (HF : exists b, enc_do_encode (CounterModeEncoder keycrypt counter0)
           (@Est (CounterModeEncoder keycrypt counter0) true false (le_bytes n v)) (r ++ c) false false =
         Ok (@Est (CounterModeEncoder keycrypt counter0) true false (le_bytes n (v + N.of_nat (length (r ++ c) / n))), skipn (full (length (r ++ c))) (r ++ c),
             ctr_text K n v (firstn (full (length (r ++ c))) (r ++ c)), b)).
      { destruct (r ++ c) as [|x y] eqn:E.
        - exists false. cbn [length]. unfold full. rewrite Nat.div_small by assumption.
          cbn [Nat.mul skipn firstn N.of_nat]. rewrite N.add_0_r. reflexivity.
        - exists true. unfold enc_do_encode. cbn [okay finished st negb andb orb]. rewrite <- E. cbn [enc_encode CounterModeEncoder].
          rewrite ctr_encode_noflush. reflexivity. }
      destruct HF as (b & ->). cbn [bind].
      set (L := length (r ++ c)).
      pose proof (Nat.div_mod L n ltac:(lia)) as Hd.
      pose proof (Nat.mod_upper_bound L n ltac:(lia)) as Hm.
      assert (Hfl : full L = L / n * n) by reflexivity.
      assert (Hrest : length (skipn (full L) (r ++ c)) < n) by (rewrite skipn_length; fold L; lia).
      destruct (IH (v + N.of_nat (L / n))%N (skipn (full L) (r ++ c)) Hrest) as (s & bs & H).
      assert (HP : length (firstn (full L) (r ++ c)) = L / n * n) by (rewrite firstn_length; fold L; lia).
      pose proof (segments_app (firstn (full L) (r ++ c)) calls (skipn (full L) (r ++ c))) as Hs.
      rewrite firstn_skipn in Hs. rewrite Hs.
      destruct (segments (skipn (full L) (r ++ c)) calls) as [ss l].
      exists s, (b :: bs).
      pose proof (ctr_out_app v _ _ ss l HP) as Ho.
      destruct ss as [|s1 ss].
      * rewrite H. cbn [bind]. rewrite Ho. f_equal. f_equal. f_equal. f_equal.
        rewrite app_length, HP.
        assert (E : full (L / n * n + length l) = L / n * n + full (length l)).
        { unfold full. replace (L / n * n + length l) with (length l + L / n * n) by lia.
          rewrite Nat.div_add by lia. rewrite Nat.mul_add_distr_r. apply Nat.add_comm. }
        rewrite E. rewrite <- HP. rewrite skipn_app.
        rewrite (skipn_all2 (firstn (full L) (r ++ c))) by apply Nat.le_add_r. cbn [app]. rewrite Nat.add_comm, Nat.add_sub. reflexivity.
      * rewrite H. cbn [bind]. rewrite Ho. reflexivity.
Qed.

Theorem ctr_feed counter calls : length counter = n ->
  exists s bs,
  let '(segs, last) := segments [] calls in
  feed (CounterModeEncoder keycrypt counter) (est_init _) [] calls =
  Ok (s, skipn (length last / n * n) last,
      ctr_segments K n (le_val counter) (segs ++ [firstn (length last / n * n) last]), bs).
Proof.
  intros Hc. destruct (ctr_feed_gen calls counter (le_val counter) [] n_pos) as (s & bs & H).
  assert (E : le_bytes n (le_val counter) = counter) by (rewrite <- Hc; apply le_bytes_val).
  exists s, bs. destruct (segments [] calls) as [segs last]. rewrite E in H. exact H.
Qed.

Lemma ctr_text_inv v l : ctr_text K n v (ctr_text K n v l) = l.
Proof.
  apply nth_ext with (d := nul) (d' := nul).
  - rewrite !ctr_text_length. reflexivity.
  - rewrite !ctr_text_length. intros i Hi.
    rewrite ctr_text_nth by (rewrite ctr_text_length; assumption). rewrite ctr_text_nth by assumption.
    apply xor_byte_inv.
Qed.

Lemma ctr_segments_inv segs : forall v segs2, map (@length _) segs2 = map (@length _) segs ->
  concat segs2 = ctr_segments K n v segs -> ctr_segments K n v segs2 = concat segs.
Proof.
  induction segs as [|s segs IH]; intros v segs2 Hl Hc; (destruct segs2 as [|s2 segs2]; try discriminate).
  - reflexivity.
  - cbn [map concat ctr_segments] in *. assert (Hs : length s2 = length s) by congruence.
    assert (Hss : map (@length _) segs2 = map (@length _) segs) by congruence.
    assert (E1 : s2 = ctr_text K n v s).
    { apply (f_equal (firstn (length s))) in Hc.
      rewrite firstn_app_len in Hc by congruence. rewrite firstn_app_len in Hc by (rewrite ctr_text_length; reflexivity).
      exact Hc. }
    assert (E2 : concat segs2 = ctr_segments K n (v + N.of_nat ((length s + n - 1) / n)) segs).
    { rewrite E1 in Hc. apply app_inv_head in Hc. exact Hc. }
    rewrite E1 at 1. rewrite ctr_text_inv. f_equal. rewrite Hs. apply IH; assumption.
Qed.
Lemma segments_concat calls : forall cur, let '(s, l) := segments cur calls in concat s ++ l = cur ++ fed calls.
Proof.
  induction calls as [|[c f] calls IH]; intros cur; cbn [segments].
  - cbn. rewrite app_nil_r. reflexivity.
  - change (fed ((c, f) :: calls)) with (c ++ fed calls). destruct f.
    + specialize (IH []). destruct (segments [] calls) as [s l]. cbn [concat].
      rewrite <- !app_assoc. rewrite IH. reflexivity.
    + specialize (IH (cur ++ c)). destruct (segments (cur ++ c) calls) as [s l].
      rewrite IH, app_assoc. reflexivity.
Qed.

Theorem ctr_inverse counter calls segs s rest e bs calls2 segs2 : length counter = n ->
  segments [] calls = (segs, []) ->
  feed (CounterModeEncoder keycrypt counter) (est_init _) [] calls = Ok (s, rest, e, bs) ->
  segments [] calls2 = (segs2, []) -> map (@length _) segs2 = map (@length _) segs -> fed calls2 = e ->
  exists s2 bs2, feed (CounterModeEncoder keycrypt counter) (est_init _) [] calls2 = Ok (s2, [], fed calls, bs2).
Proof.
  intros Hc H1 H2 H3 H4 H5.
  destruct (ctr_feed counter calls Hc) as (sa & ba & Ha). rewrite H1 in Ha. rewrite Ha in H2.
  destruct (ctr_feed counter calls2 Hc) as (sb & bb & Hb). rewrite H3 in Hb.
  cbn [length] in *. rewrite Nat.div_0_l in * by lia. cbn [Nat.mul firstn skipn] in *.
  pose proof (segments_concat calls []) as C1. rewrite H1 in C1. cbn [app] in C1. rewrite app_nil_r in C1.
  pose proof (segments_concat calls2 []) as C2. rewrite H3 in C2. cbn [app] in C2. rewrite app_nil_r in C2.
  assert (Hz : forall sg v, ctr_segments K n v (sg ++ [[]]) = ctr_segments K n v sg).
  { induction sg as [|x sg IHs]; intros v; cbn [app ctr_segments].
    - reflexivity.
    - rewrite IHs. reflexivity. }
  rewrite Hz in *. inversion H2. 
  exists sb, bb. rewrite Hb. do 3 f_equal. f_equal. rewrite <- C1. apply ctr_segments_inv.
  - assumption.
  - rewrite C2, H5. congruence.
Qed.
End Ctr.
