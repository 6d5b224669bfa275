(** Encoders as machines *)
From Coq Require Import NArith Lia.
From Verif Require Import Base BaseFacts EncoderModel EStreamModel EStreamSpec HexModel HexSpec CryptModel Base64Model Base64Spec Base64Proofs CryptSpec CryptProofs.
Local Open Scope nat_scope.

(** Hex digits: two for each byte *)
Definition hex_machine (upper : bool) : machine :=
  Machine unit tt (fun _ c => (tt, hex_encode_loop (alphabase upper) [c])) (fun s => (s, [])) (fun _ => []).
Lemma hex_run u b : bytes_run (hex_machine u) tt b = (tt, hex_encode_loop (alphabase u) b).
Proof. induction b as [|c b IH]; [reflexivity|]. cbn [bytes_run]. cbn [M_byte hex_machine]. rewrite IH. reflexivity. Qed.
Lemma call_steady M s b f : steady M -> call_run M s b f false = bytes_run M s b.
Proof.
  intro H. unfold call_run. destruct (bytes_run M s b) as [s' o]. destruct f; [rewrite (H s')|]; now rewrite !app_nil_r.
Qed.
Lemma hex_steady u : steady (hex_machine u).
Proof. intros []. reflexivity. Qed.
Definition hex_like (u : bool) : works_like (HexEncoder u) (hex_machine u).
Proof.
  refine (WorksLike (HexEncoder u) (hex_machine u) (fun _ => tt) (fun _ => []) _ _ _ _); auto.
  - intros [] b f. exists true. rewrite call_steady by apply hex_steady. rewrite hex_run. reflexivity.
  - intros []. exists true. reflexivity.
Defined.
(** Xor with the key, over and over *)
Definition xor_machine (key : bytes) : machine :=
  Machine nat 0 (fun n c => (S n, [bxor c (nth (n mod length key) key nul)])) (fun s => (s, [])) (fun _ => []).
Lemma xor_steady k : steady (xor_machine k).
Proof. intro s. reflexivity. Qed.
Lemma xor_run k : k <> [] -> forall b n, xor_loop k (n mod length k) b = Some (let (n', o) := bytes_run (xor_machine k) n b in (n' mod length k, o)).
Proof.
  intros Hk. assert (Hl : length k <> 0) by (destruct k; [contradiction|cbn; lia]).
  induction b as [|c b IH]; intro n; [reflexivity|]. cbn [xor_loop bytes_run].
  pose proof (Nat.mod_upper_bound n (length k) Hl) as Hb.
  rewrite (nth_error_nth' k nul Hb). replace (length k =? 0) with false by (symmetry; apply Nat.eqb_neq; lia).
  replace (S (n mod length k) mod length k) with (S n mod length k).
  2:{ rewrite <- (Nat.add_1_r (n mod length k)), Nat.add_mod_idemp_l by exact Hl. now rewrite Nat.add_1_r. }
  rewrite IH. cbn [M_byte xor_machine]. destruct (bytes_run (xor_machine k) (S n) b) as [n' o]. reflexivity.
Qed.
Definition xor_like (k : bytes) (H : k <> []) : works_like (XOREncoder k) (xor_machine k).
Proof.
  refine (WorksLike (XOREncoder k) (xor_machine k) (fun n : nat => n mod length k) (fun _ => []) _ _ _ _); auto.
  - split; [|reflexivity]. cbn. apply Nat.mod_0_l. destruct k; [contradiction|cbn; lia].
  - intros s b f. exists true. rewrite call_steady by apply xor_steady. cbn [enc_encode XOREncoder app]. rewrite (xor_run k H). destruct (bytes_run (xor_machine k) s b). reflexivity.
  - intro s. exists true. reflexivity.
Defined.
(** Base 64: what is left of the last byte but for whole groups *)
Inductive pend := P0 | P1 (a : byte) | P2 (b : byte).
Definition b64_machine : machine :=
  Machine pend P0
    (fun s c => match s with
      | P0 => (P1 c, [b64_digit (val c / 4)])
      | P1 a => (P2 c, [b64_digit ((val a mod 4) * 16 + val c / 16)])
      | P2 b => (P0, [b64_digit ((val b mod 16) * 4 + val c / 64); b64_digit (val c mod 64)])
      end)
    (fun s => (s, []))
    (fun s => match s with P0 => [] | P1 a => [b64_digit ((val a mod 4) * 16); "="%char; "="%char] | P2 b => [b64_digit ((val b mod 16) * 4); "="%char] end).
Lemma b64_steady : steady b64_machine.
Proof. intro s. reflexivity. Qed.
Definition b64_st (s : pend) : b64e := match s with P0 => B64E EAT0 0 | P1 a => B64E EAT2 (N.of_nat (val a mod 4)) | P2 b => B64E EAT4 (N.of_nat (val b mod 16)) end.
Lemma b64_run b : forall s, b64e_loop (b64_st s) b = Some (let (s', o) := bytes_run b64_machine s b in (b64_st s', o)).
Proof.
  induction b as [|c b IH]; intro s; [reflexivity|]. cbn [b64e_loop bytes_run].
  destruct s as [|a|a]; cbn [b64_st].
  - rewrite step_EAT0. cbn [M_byte b64_machine]. pose proof (IH (P1 c)) as H. cbn [b64_st] in H. rewrite H. destruct (bytes_run b64_machine (P1 c) b). reflexivity.
  - rewrite step_EAT2 by (apply (mod_lt_N (val a) 4); lia). rewrite Nat2N.id. cbn [M_byte b64_machine]. pose proof (IH (P2 c)) as H. cbn [b64_st] in H. rewrite H. destruct (bytes_run b64_machine (P2 c) b). reflexivity.
  - rewrite step_EAT4 by (apply (mod_lt_N (val a) 16); lia). rewrite Nat2N.id. cbn [M_byte b64_machine]. pose proof (IH P0) as H. cbn [b64_st] in H. rewrite H. destruct (bytes_run b64_machine P0 b). reflexivity.
Qed.
Definition b64_like : works_like Base64Encoder b64_machine.
Proof.
  refine (WorksLike Base64Encoder b64_machine b64_st (fun _ => []) _ _ _ _); auto.
  - intros s b f. exists (negb (f && negb (b64e_at0 (b64_st (fst (bytes_run b64_machine s b)))))). rewrite call_steady by apply b64_steady. cbn [enc_encode Base64Encoder app]. rewrite b64_run.
    destruct (bytes_run b64_machine s b). reflexivity.
  - intros [|a|a]; exists true; cbn [enc_finish Base64Encoder b64_st].
    + reflexivity.
    + rewrite finish_EAT2 by (apply (mod_lt_N (val a) 4); lia). now rewrite Nat2N.id.
    + rewrite finish_EAT4 by (apply (mod_lt_N (val a) 16); lia). now rewrite Nat2N.id.
Defined.
(** Counter mode: the bytes of a block wait for its last one, or for a flush *)
Section Ctr.
Variable keycrypt : bytes -> option bytes.
Variable K : bytes -> bytes.
Variable n : nat.
Hypothesis n_pos : 0 < n.
Hypothesis K_ok : forall b, length b = n -> keycrypt b = Some (K b).
Hypothesis K_len : forall b, length b = n -> length (K b) = n.
Definition norm (p : bytes) : bytes := if length p <? n then p else [].
Definition ctr_machine (c0 : bytes) : machine :=
  Machine (N * bytes) (le_val c0, [])
    (fun '(v, p) x => let q := norm p ++ [x] in if length q =? n then ((v + 1, [])%N, ctr_text K n v q) else ((v, q), []))
    (fun '(v, p) => match norm p with [] => ((v, []), []) | q => ((v + 1, [])%N, ctr_text K n v q) end)
    (fun _ => []).
Lemma norm_lt p : length (norm p) < n.
Proof. unfold norm. destruct (Nat.ltb_spec (length p) n); [assumption|cbn; lia]. Qed.
Lemma norm_id p : length p < n -> norm p = p.
Proof. intro H. unfold norm. destruct (Nat.ltb_spec (length p) n); [reflexivity|lia]. Qed.
Lemma ctr_run c0 b : forall v p, let q := norm p ++ b in
  exists p', bytes_run (ctr_machine c0) (v, p) b = ((v + N.of_nat (length q / n), p')%N, ctr_text K n v (firstn (full n (length q)) q)) /\ norm p' = skipn (full n (length q)) q.
Proof.
  induction b as [|x b IH]; intros v p q.
  - exists p. subst q. rewrite app_nil_r. pose proof (norm_lt p). unfold full. rewrite Nat.div_small by assumption. cbn. rewrite N.add_0_r. auto.
  - cbn [bytes_run M_byte ctr_machine]. set (q1 := norm p ++ [x]). assert (Eq : q = q1 ++ b) by (unfold q, q1; now rewrite <- app_assoc).
    assert (L1 : length q1 <= n) by (unfold q1; rewrite app_length; cbn; pose proof (norm_lt p); lia).
    destruct (length q1 =? n) eqn:E.
    + apply Nat.eqb_eq in E. destruct (IH (v + 1)%N []) as (p' & R & Hn). rewrite R. cbn [app] in *. replace (norm []) with (@nil byte) in * by (unfold norm; destruct n; [lia|reflexivity]). cbn [app] in *.
      assert (Lq : length q = length b + 1 * n) by (rewrite Eq, app_length; lia).
      assert (D : length q / n = S (length b / n)) by (rewrite Lq, Nat.div_add by lia; lia).
      assert (Ff : full n (length q) = length q1 + full n (length b)) by (unfold full; rewrite D; lia).
      exists p'. rewrite D, Ff, Eq. rewrite firstn_app_2, skipn_app. rewrite skipn_all2 by lia. replace (length q1 + full n (length b) - length q1) with (full n (length b)) by lia.
      split; [|exact Hn]. rewrite (ctr_text_app keycrypt K n n_pos K_ok K_len v q1 _ 1) by lia. f_equal. f_equal. lia.
    + apply Nat.eqb_neq in E. destruct (IH v q1) as (p' & R & Hn). rewrite R. rewrite (norm_id q1) in * by lia. exists p'. rewrite Eq. auto.
Qed.
Definition ctr_like (c0 : bytes) (Hc : length c0 = n) : works_like (CounterModeEncoder keycrypt c0) (ctr_machine c0).
Proof.
  refine (WorksLike (CounterModeEncoder keycrypt c0) (ctr_machine c0) (fun s => le_bytes n (fst s)) (fun s => norm (snd s)) _ _ _ _).
  - cbn. split; [rewrite <- Hc; apply le_bytes_val|apply norm_id; cbn; lia].
  - intros [v p] b f. exists true. cbn [enc_encode CounterModeEncoder fst snd]. destruct (ctr_run c0 b v p) as (p' & R & Hn). unfold call_run. rewrite R. destruct f.
    + rewrite (ctr_encode_flush keycrypt K n n_pos K_ok K_len). cbn [M_flush ctr_machine]. rewrite Hn. set (q := norm p ++ b) in *.
      pose proof (full_le n n_pos (length q)) as Hf. pose proof (Nat.div_mod (length q) n ltac:(lia)) as Dm. pose proof (Nat.mod_upper_bound (length q) n ltac:(lia)) as Mb.
      destruct (skipn (full n (length q)) q) as [|y z] eqn:Es.
      * assert (Z : length q mod n = 0). { apply (f_equal (@length byte)) in Es. rewrite skipn_length in Es. cbn in Es. unfold full in *. lia. }
        rewrite (ceil_exact n n_pos) by exact Z. cbn [fst snd]. rewrite (norm_id []) by (cbn; lia). rewrite !app_nil_r. rewrite firstn_all2; [reflexivity|]. unfold full. lia.
      * assert (Z : length q mod n <> 0). { apply (f_equal (@length byte)) in Es. rewrite skipn_length in Es. cbn in Es. unfold full in *. lia. }
        rewrite (ceil_part n n_pos) by exact Z. cbn [fst snd]. rewrite (norm_id []) by (cbn; lia). rewrite !app_nil_r.
        rewrite <- (ctr_text_app keycrypt K n n_pos K_ok K_len v (firstn (full n (length q)) q) (y :: z) (length q / n)) by (rewrite firstn_length; unfold full in *; lia).
        rewrite <- Es, firstn_skipn. replace (v + N.of_nat (S (length q / n)))%N with (v + N.of_nat (length q / n) + 1)%N by lia. reflexivity.
    + rewrite (ctr_encode_noflush keycrypt K n n_pos K_ok K_len). cbn [fst snd]. rewrite Hn, !app_nil_r. reflexivity.
  - intros [v p]. cbn [M_flush ctr_machine]. destruct (norm p); apply norm_id; cbn; lia.
  - intros s. exists true. reflexivity.
Defined.
End Ctr.
