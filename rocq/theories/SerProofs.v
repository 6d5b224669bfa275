(** Proofs about SerModel. *)
From Verif Require Import Base SerModel SerSpec.
Local Open Scope Z_scope.

Lemma le_len w : forall z, length (le w z) = w.
Proof. induction w; intros z; cbn; [reflexivity|]. rewrite IHw. reflexivity. Qed.
Lemma pow_S w : 2 ^ (8 * Z.of_nat (S w)) = 256 * 2 ^ (8 * Z.of_nat w).
Proof. replace (8 * Z.of_nat (S w)) with (8 + 8 * Z.of_nat w) by lia. rewrite Z.pow_add_r by lia. reflexivity. Qed.
Lemma pow_pos w : 0 < 2 ^ (8 * Z.of_nat w).
Proof. apply Z.pow_pos_nonneg; lia. Qed.
Lemma N_of_byte z : 0 <= z < 256 -> Z.of_N (Ascii.N_of_ascii (Ascii.ascii_of_N (Z.to_N z))) = z.
Proof. intros H. rewrite Ascii.N_ascii_embedding by lia. lia. Qed.
Lemma byte_range c : 0 <= Z.of_N (Ascii.N_of_ascii c) < 256.
Proof. pose proof (Ascii.N_ascii_bounded c). lia. Qed.
Lemma of_le_le w : forall z, of_le (le w z) = to_u w z.
Proof.
  unfold to_u. induction w as [|w IH]; intros z; cbn [le of_le].
  - cbn. rewrite Z.mod_1_r. reflexivity.
  - rewrite N_of_byte by (apply Z.mod_pos_bound; lia). rewrite IH, pow_S. pose proof (pow_pos w). rewrite Z.rem_mul_r by lia. lia.
Qed.
Lemma le_of_le l : le (length l) (of_le l) = l.
Proof.
  induction l as [|c l IH]; [reflexivity|]. cbn [length le of_le]. pose proof (byte_range c). f_equal.
  - replace (Z.of_N (Ascii.N_of_ascii c) + 256 * of_le l) with (Z.of_N (Ascii.N_of_ascii c) + of_le l * 256) by lia. rewrite Z.mod_add, Z.mod_small by lia. rewrite N2Z.id. apply Ascii.ascii_N_embedding.
  - transitivity (le (length l) (of_le l)); [f_equal|exact IH]. replace (Z.of_N (Ascii.N_of_ascii c) + 256 * of_le l) with (Z.of_N (Ascii.N_of_ascii c) + of_le l * 256) by lia. rewrite Z.div_add, Z.div_small by lia. reflexivity.
Qed.
Lemma of_le_range l : 0 <= of_le l < 2 ^ (8 * Z.of_nat (length l)).
Proof. induction l as [|c l IH]; [cbn; lia|]. cbn [of_le length]. rewrite pow_S. pose proof (byte_range c). lia. Qed.
Lemma of_le_app a b : of_le (a ++ b) = of_le a + 2 ^ (8 * Z.of_nat (length a)) * of_le b.
Proof. induction a as [|c a IH]; [cbn [app of_le length]; change (2 ^ (8 * Z.of_nat 0)) with 1; lia|]. cbn [app of_le length]. rewrite IH, pow_S. lia. Qed.
Lemma to_u_id w z : 0 <= z < 2 ^ (8 * Z.of_nat w) -> to_u w z = z.
Proof. intros H. apply Z.mod_small, H. Qed.
Lemma to_u_range w z : 0 <= to_u w z < 2 ^ (8 * Z.of_nat w).
Proof. apply Z.mod_pos_bound, pow_pos. Qed.
Lemma to_u_u w z : to_u w (to_u w z) = to_u w z.
Proof. apply to_u_id, to_u_range. Qed.
Lemma to_u_s w z : to_u w (to_s w z) = to_u w z.
Proof.
  unfold to_s. destruct (_ <? _); [apply to_u_u|]. unfold to_u at 1. replace (to_u w z - 2 ^ (8 * Z.of_nat w)) with (to_u w z + -1 * 2 ^ (8 * Z.of_nat w)) by lia.
  rewrite Z.mod_add by (pose proof (pow_pos w); lia). apply to_u_u.
Qed.
Lemma le_ext w a b : to_u w a = to_u w b -> le w a = le w b.
Proof. intros E. rewrite <- !of_le_le in E. rewrite <- (le_of_le (le w a)), <- (le_of_le (le w b)), E, !le_len. reflexivity. Qed.
Lemma le_of l w : length l = w -> le w (of_le l) = l.
Proof. intros <-. apply le_of_le. Qed.
Lemma cast_of w s z : (0 < w)%nat -> fits w s z -> cast w s (to_u w z) = z.
Proof.
  intros Hw F. unfold cast, fits in *. destruct s.
  - unfold to_s. rewrite to_u_u. pose proof (pow_pos w). assert (E : 2 ^ (8 * Z.of_nat w) = 2 * 2 ^ (8 * Z.of_nat w - 1)) by (rewrite <- Z.pow_succ_r by lia; f_equal; lia).
    destruct (Z.leb_spec 0 z).
    + rewrite to_u_id by lia. destruct (Z.ltb_spec z (2 ^ (8 * Z.of_nat w - 1))); lia.
    + assert (Eu : to_u w z = z + 2 ^ (8 * Z.of_nat w)). { unfold to_u. rewrite <- (Z.mod_add z 1) by lia. rewrite Z.mul_1_l. apply Z.mod_small. lia. }
      rewrite Eu. destruct (Z.ltb_spec (z + 2 ^ (8 * Z.of_nat w)) (2 ^ (8 * Z.of_nat w - 1))); lia.
  - rewrite to_u_u. apply to_u_id, F.
Qed.
Lemma cast_ext w s a b : to_u w a = to_u w b -> cast w s a = cast w s b.
Proof. intros E. unfold cast, to_s. rewrite E. reflexivity. Qed.

Lemma le_split a b z : le (a + b) z = le a z ++ le b (z / 2 ^ (8 * Z.of_nat a)).
Proof.
  revert z. induction a as [|a IH]; intros z; cbn [Nat.add le app].
  - cbn. rewrite Z.div_1_r. reflexivity.
  - rewrite IH, pow_S. f_equal. f_equal. f_equal. apply Z.div_div; [lia|apply pow_pos].
Qed.
Lemma swap_range h w u : 0 <= u < 2 ^ (8 * Z.of_nat w) -> 0 <= swap h w u < 2 ^ (8 * Z.of_nat w).
Proof. intros H. unfold swap. destruct (h_big h); [exact H|]. pose proof (of_le_range (rev (le w u))) as R. rewrite rev_length, le_len in R. exact R. Qed.
Lemma htonll_swap h z : htonll h z = swap h 8 (to_u 8 z).
Proof.
  unfold htonll, swap. destruct (h_big h); [reflexivity|]. set (n := to_u 8 z). set (a := of_le (rev (le 4 (to_u 4 n)))). set (b := of_le (rev (le 4 (to_u 4 (Z.shiftr n 32))))).
  assert (Ra : 0 <= a < 2 ^ 32) by (pose proof (of_le_range (rev (le 4 (to_u 4 n)))) as R; rewrite rev_length, le_len in R; exact R).
  assert (Rb : 0 <= b < 2 ^ 32) by (pose proof (of_le_range (rev (le 4 (to_u 4 (Z.shiftr n 32))))) as R; rewrite rev_length, le_len in R; exact R).
  rewrite (to_u_id 8 a) by (change (2 ^ (8 * Z.of_nat 8)) with (2 ^ 32 * 2 ^ 32); nia). rewrite Z.shiftl_mul_pow2 by lia. rewrite to_u_id by (change (2 ^ (8 * Z.of_nat 8)) with (2 ^ 32 * 2 ^ 32); nia).
  assert (L : Z.land (a * 2 ^ 32) b = 0).
  { apply Z.bits_inj'. intros i Hi. rewrite Z.bits_0, Z.land_spec. destruct (Z.ltb_spec i 32).
    - rewrite Z.mul_pow2_bits_low by lia. reflexivity.
    - rewrite (Z.bits_above_log2 b i); [apply andb_false_r|lia|]. destruct (Z.eq_dec b 0) as [->|]; [cbn; lia|]. apply Z.log2_lt_pow2; [lia|]. eapply Z.lt_le_trans; [apply Rb|]. apply Z.pow_le_mono_r; lia. }
  rewrite <- Z.lxor_lor by exact L. rewrite <- Z.add_nocarry_lxor by exact L. change 8%nat with (4 + 4)%nat. rewrite le_split, rev_app_distr, of_le_app, rev_length, le_len. change (8 * Z.of_nat 4) with 32. unfold a, b.
  rewrite (le_ext 4 (to_u 4 n) n) by apply to_u_u. rewrite (le_ext 4 (to_u 4 (Z.shiftr n 32)) (n / 2 ^ 32)) by (rewrite to_u_u, Z.shiftr_div_pow2 by lia; reflexivity). lia.
Qed.
Lemma le_swap h w u : le w (swap h w u) = if h_big h then le w u else rev (le w u).
Proof. unfold swap. destruct (h_big h); [reflexivity|]. apply le_of. rewrite rev_length. apply le_len. Qed.
Lemma le_hton h w z : le w (wv_hton h w z) = if h_big h then le w z else rev (le w z).
Proof.
  unfold wv_hton. rewrite (le_ext w _ (swap h w (to_u w (to_s w z)))) by apply to_u_s. rewrite le_swap. rewrite (le_ext w (to_u w (to_s w z)) z) by (rewrite to_u_u; apply to_u_s). reflexivity.
Qed.
Lemma le_htonll h z : le 8 (htonll h z) = if h_big h then le 8 z else rev (le 8 z).
Proof. rewrite htonll_swap, le_swap. rewrite (le_ext 8 (to_u 8 z) z) by apply to_u_u. reflexivity. Qed.
(** What is written: the bytes, most significant first *)
Lemma ser_scalar_ok h w z : width w -> (w = 2%nat -> h_big h = false) -> ser_scalar h w z = rev (le w z).
Proof.
  intros W B. destruct W as [->|[->|[->| ->]]]; cbn [ser_scalar].
  - unfold image. destruct (h_big h); reflexivity.
  - specialize (B eq_refl). unfold image. rewrite B. change 4%nat with (2 + 2)%nat. rewrite le_split, firstn_app, le_len, Nat.sub_diag, firstn_O, app_nil_r. rewrite firstn_all2 by (rewrite le_len; lia). rewrite le_hton, B. reflexivity.
  - unfold image. rewrite le_hton. destruct (h_big h); reflexivity.
  - unfold image. rewrite (le_ext 8 _ (htonll h z)) by apply to_u_s. rewrite le_htonll. destruct (h_big h); reflexivity.
Qed.
Lemma to_u_of w a b : le w a = le w b -> to_u w a = to_u w b.
Proof. intros E. rewrite <- !of_le_le, E. reflexivity. Qed.
Lemma deser_scalar_ok h w s z rest : width w -> fits w s z -> deser_scalar h w s (rev (le w z) ++ rest) = (z, rest).
Proof.
  intros W F. assert (Hw : (0 < w)%nat) by (destruct W as [->|[->|[->| ->]]]; lia). assert (L : length (rev (le w z)) = w) by (rewrite rev_length; apply le_len).
  unfold deser_scalar. rewrite app_length, L. destruct (Nat.ltb_spec (w + length rest) w); [lia|]. rewrite firstn_app, skipn_app, L, Nat.sub_diag, firstn_O, skipn_O, app_nil_r. rewrite firstn_all2, skipn_all2 by lia. cbn [app]. f_equal.
  assert (I : le w (of_image h (rev (le w z))) = if h_big h then le w z else rev (le w z)).
  { unfold of_image. destruct (h_big h); [rewrite rev_involutive, of_le_le; apply le_ext, to_u_u|apply le_of, L]. }
  set (i := of_image h (rev (le w z))) in *. transitivity (cast w s (to_u w z)); [|apply cast_of; assumption].
  assert (K : forall f : Z -> Z, (forall x, le w (f x) = if h_big h then le w x else rev (le w x)) -> cast w s (f (to_s w i)) = cast w s (to_u w z)).
  { intros f Hf. apply cast_ext. rewrite to_u_u. apply to_u_of. rewrite Hf. rewrite (le_ext w (to_s w i) i) by apply to_u_s. rewrite I. destruct (h_big h); [reflexivity|]. apply rev_involutive. }
  destruct W as [->|[->|[->| ->]]].
  - apply cast_ext. rewrite to_u_s, to_u_u. apply to_u_of. rewrite I. destruct (h_big h); reflexivity.
  - apply (K (wv_hton h 2)), le_hton.
  - apply (K (wv_hton h 4)), le_hton.
  - apply (K (htonll h)), le_htonll.
Qed.
Lemma deser_short h w s b : (length b < w)%nat -> deser_scalar h w s b = (0, b).
Proof. intros H. unfold deser_scalar. destruct (Nat.ltb_spec (length b) w); [reflexivity|lia]. Qed.
Lemma deser_rest h w s b z r : deser_scalar h w s b = (z, r) -> exists p, b = p ++ r.
Proof. unfold deser_scalar. destruct (_ <? _)%nat; intros E; injection E as E1 <-; [exists []; reflexivity|]. exists (firstn w b). symmetry. apply firstn_skipn. Qed.

Lemma find_nul_ok s rest : ~ In nul s -> find_nul (s ++ nul :: rest) = S (length s).
Proof.
  induction s as [|c s IH]; intros N; cbn [app find_nul length]; [reflexivity|]. destruct (Ascii.eqb_spec c nul) as [->|]; [elim N; left; reflexivity|]. rewrite IH by (intros X; apply N; right; exact X). reflexivity.
Qed.
Lemma deser_str_ok linked s rest : ~ In nul s -> deser_str linked (s ++ nul :: rest) = Ok (Some s, rest).
Proof.
  intros N. unfold deser_str. rewrite find_nul_ok by exact N. replace (s ++ nul :: rest) with ((s ++ [nul]) ++ rest) at 2 by (rewrite <- app_assoc; reflexivity).
  rewrite firstn_app, Nat.sub_diag, firstn_O, app_nil_r, firstn_all. rewrite skipn_app, app_length. cbn [length]. rewrite Nat.add_1_r, Nat.sub_diag. rewrite skipn_all2 by (rewrite app_length; cbn; lia). reflexivity.
Qed.
Lemma spells_rev_le l z : spells (rev l) z <-> of_le l = z.
Proof.
  unfold spells. 
  assert (E : fold_left (fun z c => z * 256 + Z.of_N (Ascii.N_of_ascii c)) (rev l) 0 = of_le l).
  { induction l as [|c l IH]; [reflexivity|]. cbn [rev]. rewrite fold_left_app, IH. cbn [fold_left of_le]. lia. }
  rewrite E. reflexivity.
Qed.
