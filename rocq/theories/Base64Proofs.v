From Coq Require Import NArith ZArith ZifyBool ZifyNat ZifyN Lia.
From Verif Require Import Base BaseFacts EncoderModel EncoderProofs Base64Model Base64Spec.

(** ** Finite facts about digits and bytes *)
Definition below (n : nat) : list N := map N.of_nat (seq 0 n).
Lemma in_below n k : (k < N.of_nat n)%N -> In k (below n).
Proof.
  intros H. unfold below. apply in_map_iff. exists (N.to_nat k). split; [lia|].
  apply in_seq. lia.
Qed.

Lemma code_val c : code c = N.of_nat (val c).
Proof. unfold code, val, nat_of_ascii. rewrite N2Nat.id. reflexivity. Qed.
Lemma val_bound c : val c < 256.
Proof. apply nat_ascii_bounded. Qed.

Definition eq_step (r : option (b64e * bytes)) (k : estate) (bits : N) (out : bytes) : bool :=
  match r with
  | Some (B64E k' b', o) =>
      (match k, k' with EAT0, EAT0 | EAT2, EAT2 | EAT4, EAT4 => true | _, _ => false end)
      && N.eqb b' bits && (if list_eq_dec ascii_dec o out then true else false)
  | None => false
  end.
Lemma eq_step_true r k bits out : eq_step r k bits out = true -> r = Some (B64E k bits, out).
Proof.
  unfold eq_step. destruct r as [[[k' b'] o]|]; [|discriminate].
  rewrite !andb_true_iff, N.eqb_eq. intros [[H1 ->] H2].
  destruct (list_eq_dec ascii_dec o out); [subst|discriminate].
  destruct k, k'; try discriminate; reflexivity.
Qed.

Lemma step_EAT0 c : b64e_step (B64E EAT0 0) c =
  Some (B64E EAT2 (N.of_nat (val c mod 4)), [b64_digit (val c / 4)]).
Proof.
  assert (H : forallb (fun c => eq_step (b64e_step (B64E EAT0 0) c) EAT2 (N.of_nat (val c mod 4)) [b64_digit (val c / 4)]) all_bytes = true)
    by (vm_compute; reflexivity).
  apply eq_step_true. exact (byte_sweep _ H c).
Qed.

Lemma step_EAT2 b c : (b < 4)%N -> b64e_step (B64E EAT2 b) c =
  Some (B64E EAT4 (N.of_nat (val c mod 16)), [b64_digit (N.to_nat b * 16 + val c / 16)]).
Proof.
  intros Hb.
  assert (H : forallb (fun b => forallb (fun c => eq_step (b64e_step (B64E EAT2 b) c) EAT4
     (N.of_nat (val c mod 16)) [b64_digit (N.to_nat b * 16 + val c / 16)]) all_bytes) (below 4) = true)
    by (vm_compute; reflexivity).
  rewrite forallb_forall in H. specialize (H b (in_below 4 b Hb)).
  apply eq_step_true. exact (byte_sweep _ H c).
Qed.

Lemma step_EAT4 b c : (b < 16)%N -> b64e_step (B64E EAT4 b) c =
  Some (B64E EAT0 0, [b64_digit (N.to_nat b * 4 + val c / 64); b64_digit (val c mod 64)]).
Proof.
  intros Hb.
  assert (H : forallb (fun b => forallb (fun c => eq_step (b64e_step (B64E EAT4 b) c) EAT0
     0 [b64_digit (N.to_nat b * 4 + val c / 64); b64_digit (val c mod 64)]) all_bytes) (below 16) = true)
    by (vm_compute; reflexivity).
  rewrite forallb_forall in H. specialize (H b (in_below 16 b Hb)).
  apply eq_step_true. exact (byte_sweep _ H c).
Qed.

Lemma finish_EAT2 b : (b < 4)%N ->
  b64e_finish (B64E EAT2 b) = Ok ([b64_digit (N.to_nat b * 16); "="; "="]%char, true).
Proof.
  intros Hb.
  assert (H : In b (below 4)) by (apply in_below; exact Hb).
  cbn in H. destruct H as [<-|[<-|[<-|[<-|[]]]]]; vm_compute; reflexivity.
Qed.
Lemma finish_EAT4 b : (b < 16)%N ->
  b64e_finish (B64E EAT4 b) = Ok ([b64_digit (N.to_nat b * 4); "="]%char, true).
Proof.
  intros Hb.
  assert (H : In b (below 16)) by (apply in_below; exact Hb).
  cbn in H. repeat (destruct H as [<-|H]; [vm_compute; reflexivity|]). destruct H.
Qed.

(** ** Encoder *)
Lemma mod_lt_N n k : k <> 0 -> (N.of_nat (n mod k) < N.of_nat k)%N.
Proof. intros H. pose proof (Nat.mod_upper_bound n k H). lia. Qed.

Lemma b64e_loop_spec l : forall n, length l <= n ->
  exists s out tail, b64e_loop (B64E EAT0 0) l = Some (s, out) /\
    b64e_finish s = Ok (tail, true) /\ out ++ tail = b64 l.
Proof.
  intros n; revert l; induction n as [|n IH]; intros l Hl.
  - destruct l; [|cbn in Hl; lia]. exists (B64E EAT0 0), [], []. auto.
  - destruct l as [|a [|b [|c r]]].
    + exists (B64E EAT0 0), [], []. auto.
    + cbn [b64e_loop]. rewrite step_EAT0.
      do 3 eexists. split; [reflexivity|]. split.
      * apply finish_EAT2. apply (mod_lt_N (val a) 4). lia.
      * cbn [app]. rewrite Nat2N.id. reflexivity.
    + cbn [b64e_loop]. rewrite step_EAT0. rewrite step_EAT2 by (apply (mod_lt_N (val a) 4); lia).
      do 3 eexists. split; [reflexivity|]. split.
      * apply finish_EAT4. apply (mod_lt_N (val b) 16). lia.
      * cbn [app]. rewrite !Nat2N.id. reflexivity.
    + destruct (IH r) as (s & out & tail & H1 & H2 & H3); [cbn in Hl; lia|].
      cbn [b64e_loop]. rewrite step_EAT0. rewrite step_EAT2 by (apply (mod_lt_N (val a) 4); lia).
      rewrite step_EAT4 by (apply (mod_lt_N (val b) 16); lia). rewrite H1.
      do 3 eexists. split; [reflexivity|]. split; [exact H2|].
      cbn [app b64]. rewrite !Nat2N.id, H3. reflexivity.
Qed.

Lemma b64e_loop_app a : forall s b s' out, b64e_loop s (a ++ b) = Some (s', out) ->
  exists s1 o1 o2, b64e_loop s a = Some (s1, o1) /\ b64e_loop s1 b = Some (s', o2) /\ out = o1 ++ o2.
Proof.
  induction a as [|c a IH]; intros s b s' out H.
  - exists s, [], out. auto.
  - cbn [app b64e_loop] in *. destruct (b64e_step s c) as [[s1 o]|]; [|discriminate].
    destruct (b64e_loop s1 (a ++ b)) as [[s2 o']|] eqn:E; [|discriminate].
    inversion H; subst. destruct (IH _ _ _ _ E) as (s3 & o1 & o2 & H1 & H2 & ->).
    rewrite H1. exists s3, (o ++ o1), o2. rewrite app_assoc. auto.
Qed.

Theorem b64_encoder_feed calls : feed_finish Base64Encoder calls = Ok ([], b64 (fed calls)).
Proof.
  destruct (b64e_loop_spec (fed calls) _ (le_n _)) as (s & out & tail & H1 & H2 & H3).
  unfold feed_finish.
  destruct (feed_run Base64Encoder b64e_loop) with (calls := calls) (s := B64E EAT0 0%N) (s' := s) (out := out)
    as (bs & Hf).
  - intros s0 inp flush s' o H. cbn. rewrite H. cbn. eauto.
  - reflexivity.
  - intros. apply b64e_loop_app. assumption.
  - exact H1.
  - unfold est_init. cbn [enc_init Base64Encoder] in *. rewrite Hf. cbn [bind].
    unfold enc_do_finish. cbn [okay finished negb andb st enc_finish Base64Encoder].
    rewrite H2. cbn [bind]. rewrite H3. reflexivity.
Qed.

(** ** Decoder *)
Lemma lookup_digit n : n < 64 -> lookup (b64_digit n) = Some (N.of_nat n).
Proof.
  intros Hn.
  assert (H : forallb (fun n => match lookup (b64_digit n) with Some k => N.eqb k (N.of_nat n) | None => false end)
     (seq 0 64) = true) by (vm_compute; reflexivity).
  rewrite forallb_forall in H. specialize (H n ltac:(apply in_seq; lia)).
  destruct (lookup (b64_digit n)) as [k|]; [|discriminate]. apply N.eqb_eq in H. congruence.
Qed.

Lemma lor_digit b s : (b < 64)%N -> (s < 64)%N -> N.lor (N.shiftl b 6 mod 2^32) s = (b * 64 + s)%N.
Proof.
  intros Hb Hs.
  assert (H : forallb (fun b => forallb (fun s => N.eqb (N.lor (N.shiftl b 6 mod 2^32) s) (b * 64 + s)) (below 64)) (below 64) = true)
    by (vm_compute; reflexivity).
  rewrite forallb_forall in H. specialize (H b (in_below 64 b Hb)).
  rewrite forallb_forall in H. specialize (H s (in_below 64 s Hs)).
  apply N.eqb_eq. exact H.
Qed.

Definition sym_step (s : b64d) (symbol : N) (r : bytes) : b64d * bytes * bytes * bool * bool :=
  let bits := N.lor (N.shiftl (bd_bits s) 6 mod 2^32) symbol in
  match bd_state s with
  | DAT0 => b64d_loop (B64D DAT2 bits) r
  | DAT2 => let '(s', rest, out, ok, p) := b64d_loop (B64D DAT4 (N.land bits 15)) r in
            (s', rest, putch (N.shiftr bits 4) :: out, ok, p)
  | DAT4 => let '(s', rest, out, ok, p) := b64d_loop (B64D DAT6 (N.land bits 3)) r in
            (s', rest, putch (N.shiftr bits 2) :: out, ok, p)
  | DAT6 => let '(s', rest, out, ok, p) := b64d_loop (B64D DAT0 0) r in
            (s', rest, putch bits :: out, ok, p)
  | DPAD => (B64D DPAD bits, r, [], false, false)
  end.

(** One step of the loop, as a function of the look-up result. *)
Lemma loop_cons s c r : b64d_loop s (c :: r) =
  match lookup c with
  | None => (s, r, [], false, false)
  | Some k => if N.eqb k 64 then
                let '(s', rest, out, ok, _) := b64d_loop (B64D DPAD (bd_bits s)) r in
                (s', rest, out, ok, true)
              else if N.eqb k 65 then b64d_loop s r
              else sym_step s k r
  end.
Proof. reflexivity. Qed.

Lemma loop_digit s n r : n < 64 ->
  b64d_loop s (b64_digit n :: r) = sym_step s (N.of_nat n) r.
Proof.
  intros Hn. rewrite loop_cons, lookup_digit by assumption.
  destruct (N.eqb_spec (N.of_nat n) 64); [lia|].
  destruct (N.eqb_spec (N.of_nat n) 65); [lia|]. reflexivity.
Qed.

Definition push (o : bytes) (x : b64d * bytes * bytes * bool * bool) :=
  let '(s', rest, out, ok, p) := x in (s', rest, o ++ out, ok, p).

Lemma land15 k : N.land k 15 = (k mod 16)%N.
Proof. change 15%N with (N.ones 4). rewrite N.land_ones. reflexivity. Qed.
Lemma land3 k : N.land k 3 = (k mod 4)%N.
Proof. change 3%N with (N.ones 2). rewrite N.land_ones. reflexivity. Qed.

Lemma putch_val n c : n = N.of_nat (val c) -> putch n = c.
Proof.
  intros ->. unfold putch. rewrite N.mod_small by (pose proof (val_bound c); lia).
  rewrite <- code_val. apply ascii_N_embedding.
Qed.

Ltac Zify.zify_post_hook ::= Z.div_mod_to_equations.

Lemma dig1 a : val a / 4 < 64. Proof. pose proof (val_bound a). lia. Qed.
Lemma dig2 a b : (val a mod 4) * 16 + val b / 16 < 64.
Proof. pose proof (val_bound b). lia. Qed.
Lemma dig3 b c : (val b mod 16) * 4 + val c / 64 < 64.
Proof. pose proof (val_bound c). lia. Qed.
Lemma dig4 c : val c mod 64 < 64. Proof. lia. Qed.
Lemma dig2' a : (val a mod 4) * 16 < 64. Proof. lia. Qed.
Lemma dig3' b : (val b mod 16) * 4 < 64. Proof. lia. Qed.

Lemma dec_first a r : b64d_loop (B64D DAT0 0) (b64_digit (val a / 4) :: r) =
  b64d_loop (B64D DAT2 (N.of_nat (val a / 4))) r.
Proof. rewrite loop_digit by apply dig1. reflexivity. Qed.

Lemma dec_second a k r : k < 16 ->
  b64d_loop (B64D DAT2 (N.of_nat (val a / 4))) (b64_digit ((val a mod 4) * 16 + k) :: r) =
  push [a] (b64d_loop (B64D DAT4 (N.of_nat k)) r).
Proof.
  intros Hk. rewrite loop_digit by lia. unfold sym_step. cbn [bd_state bd_bits].
  pose proof (val_bound a).
  rewrite lor_digit by lia. rewrite land15, N.shiftr_div_pow2.
  rewrite (putch_val _ a) by (change (2 ^ 4)%N with 16%N; lia).
  replace ((N.of_nat (val a / 4) * 64 + N.of_nat (val a mod 4 * 16 + k)) mod 16)%N with (N.of_nat k) by lia.
  reflexivity.
Qed.

Lemma dec_third b k r : k < 4 ->
  b64d_loop (B64D DAT4 (N.of_nat (val b / 16))) (b64_digit ((val b mod 16) * 4 + k) :: r) =
  push [b] (b64d_loop (B64D DAT6 (N.of_nat k)) r).
Proof.
  intros Hk. rewrite loop_digit by lia. unfold sym_step. cbn [bd_state bd_bits].
  pose proof (val_bound b).
  rewrite lor_digit by lia. rewrite land3, N.shiftr_div_pow2.
  rewrite (putch_val _ b) by (change (2 ^ 2)%N with 4%N; lia).
  replace ((N.of_nat (val b / 16) * 64 + N.of_nat (val b mod 16 * 4 + k)) mod 4)%N with (N.of_nat k) by lia.
  reflexivity.
Qed.

Lemma dec_fourth c r :
  b64d_loop (B64D DAT6 (N.of_nat (val c / 64))) (b64_digit (val c mod 64) :: r) =
  push [c] (b64d_loop (B64D DAT0 0) r).
Proof.
  rewrite loop_digit by lia. unfold sym_step. cbn [bd_state bd_bits].
  pose proof (val_bound c).
  rewrite lor_digit by lia. rewrite (putch_val _ c) by lia. reflexivity.
Qed.

Lemma dec_pad s r : b64d_loop s ("="%char :: r) =
  let '(s', rest, out, ok, _) := b64d_loop (B64D DPAD (bd_bits s)) r in (s', rest, out, ok, true).
Proof. reflexivity. Qed.

Lemma b64d_loop_spec l : forall n, length l <= n ->
  exists s p, b64d_loop (B64D DAT0 0) (b64 l) = (s, [], l, true, p) /\ bd_partial s = false.
Proof.
  intros n; revert l; induction n as [|n IH]; intros l Hl.
  - destruct l; [|cbn in Hl; lia]. cbn. eauto.
  - destruct l as [|a [|b [|c r]]].
    + cbn. eauto.
    + cbn [b64]. rewrite dec_first.
      replace ((val a mod 4) * 16) with ((val a mod 4) * 16 + 0) by lia.
      rewrite dec_second by lia. rewrite !dec_pad. cbn. eauto.
    + cbn [b64]. pose proof (val_bound b). rewrite dec_first, dec_second by lia.
      replace ((val b mod 16) * 4) with ((val b mod 16) * 4 + 0) by lia.
      rewrite dec_third by lia. rewrite !dec_pad. cbn. eauto.
    + cbn [b64]. pose proof (val_bound b). pose proof (val_bound c).
      rewrite dec_first, dec_second, dec_third, dec_fourth by lia.
      destruct (IH r) as (s & p & H1 & H2); [cbn in Hl; lia|]. rewrite H1.
      exists s, p. split; [reflexivity|exact H2].
Qed.

(** White space is skipped. *)
Lemma white_lookup c : In c b64_white -> lookup c = Some 65%N.
Proof.
  unfold b64_white. cbn [In]. intros H.
  repeat (destruct H as [<-|H]; [vm_compute; reflexivity|]). contradiction.
Qed.

Lemma spaced_loop t u : spaced t u -> forall s s' out p,
  b64d_loop s t = (s', [], out, true, p) -> b64d_loop s u = (s', [], out, true, p).
Proof.
  induction 1 as [|c t u Hc Hs IH|c t u Hs IH]; intros s s' out p H.
  - exact H.
  - rewrite loop_cons, white_lookup by assumption. cbn [N.eqb Pos.eqb]. apply IH. exact H.
  - rewrite loop_cons in *. destruct (lookup c) as [k|]; [|discriminate].
    destruct (N.eqb k 64).
    + destruct (b64d_loop (B64D DPAD (bd_bits s)) t) as [[[[s1 r1] o1] k1] p1] eqn:E.
      inversion H; subst. rewrite (IH _ _ _ _ E). reflexivity.
    + destruct (N.eqb k 65); [apply IH; exact H|].
      unfold sym_step in *. destruct (bd_state s).
      * apply IH. exact H.
      * destruct (b64d_loop _ t) as [[[[s1 r1] o1] k1] p1] eqn:E.
        inversion H; subst. rewrite (IH _ _ _ _ E). reflexivity.
      * destruct (b64d_loop _ t) as [[[[s1 r1] o1] k1] p1] eqn:E.
        inversion H; subst. rewrite (IH _ _ _ _ E). reflexivity.
      * destruct (b64d_loop _ t) as [[[[s1 r1] o1] k1] p1] eqn:E.
        inversion H; subst. rewrite (IH _ _ _ _ E). reflexivity.
      * inversion H.
Qed.

Lemma b64d_loop_app a : forall s b s' out p,
  b64d_loop s (a ++ b) = (s', [], out, true, p) ->
  exists s1 o1 o2 p1 p2, b64d_loop s a = (s1, [], o1, true, p1) /\
    b64d_loop s1 b = (s', [], o2, true, p2) /\ out = o1 ++ o2 /\ p = p1 || p2.
Proof.
  induction a as [|c a IH]; intros s b s' out p H.
  - exists s, [], out, false, p. auto.
  - cbn [app] in H. rewrite loop_cons in *. destruct (lookup c) as [k|] eqn:El; [|discriminate].
    destruct (N.eqb k 64).
    + destruct (b64d_loop _ (a ++ b)) as [[[[s1 r1] o1] k1] p1] eqn:E. inversion H; subst.
      destruct (IH _ _ _ _ _ E) as (s2 & o2 & o3 & p2 & p3 & H1 & H2 & H3 & H4).
      rewrite H1. exists s2, o2, o3, true, p3. auto.
    + destruct (N.eqb k 65); [apply IH; exact H|].
      unfold sym_step in *. destruct (bd_state s).
      * apply IH. exact H.
      * destruct (b64d_loop _ (a ++ b)) as [[[[s1 r1] o1] k1] p1] eqn:E. inversion H; subst.
        destruct (IH _ _ _ _ _ E) as (s2 & o2 & o3 & p2 & p3 & H1 & H2 & H3 & H4).
        rewrite H1. subst. eexists s2, _, o3, p2, p3. auto.
      * destruct (b64d_loop _ (a ++ b)) as [[[[s1 r1] o1] k1] p1] eqn:E. inversion H; subst.
        destruct (IH _ _ _ _ _ E) as (s2 & o2 & o3 & p2 & p3 & H1 & H2 & H3 & H4).
        rewrite H1. subst. eexists s2, _, o3, p2, p3. auto.
      * destruct (b64d_loop _ (a ++ b)) as [[[[s1 r1] o1] k1] p1] eqn:E. inversion H; subst.
        destruct (IH _ _ _ _ _ E) as (s2 & o2 & o3 & p2 & p3 & H1 & H2 & H3 & H4).
        rewrite H1. subst. eexists s2, _, o3, p2, p3. auto.
      * inversion H.
Qed.

(** After padding nothing more is produced. *)
Lemma dpad_silent t : forall s s' out p, bd_state s = DPAD ->
  b64d_loop s t = (s', [], out, true, p) -> out = [] /\ bd_state s' = DPAD.
Proof.
  induction t as [|c t IH]; intros s s' out p Hs H.
  - inversion H; subst. auto.
  - rewrite loop_cons in H. destruct (lookup c) as [k|]; [|discriminate].
    destruct (N.eqb k 64).
    + destruct (b64d_loop _ t) as [[[[s1 r1] o1] k1] p1] eqn:E. inversion H; subst.
      apply IH in E; auto.
    + destruct (N.eqb k 65); [eapply IH; eassumption|].
      unfold sym_step in H. rewrite Hs in H. inversion H.
Qed.

Lemma pad_state t : forall s s' out, b64d_loop s t = (s', [], out, true, true) -> bd_state s' = DPAD.
Proof.
  induction t as [|c t IH]; intros s s' out H.
  - inversion H.
  - rewrite loop_cons in H. destruct (lookup c) as [k|]; [|discriminate].
    destruct (N.eqb k 64).
    + destruct (b64d_loop _ t) as [[[[s1 r1] o1] k1] p1] eqn:E. inversion H; subst.
      apply dpad_silent in E; [tauto|reflexivity].
    + destruct (N.eqb k 65); [eapply IH; eassumption|].
      unfold sym_step in H. destruct (bd_state s).
      * eapply IH; eassumption.
      * destruct (b64d_loop _ t) as [[[[s1 r1] o1] k1] p1] eqn:E. inversion H; subst. eapply IH; eassumption.
      * destruct (b64d_loop _ t) as [[[[s1 r1] o1] k1] p1] eqn:E. inversion H; subst. eapply IH; eassumption.
      * destruct (b64d_loop _ t) as [[[[s1 r1] o1] k1] p1] eqn:E. inversion H; subst. eapply IH; eassumption.
      * inversion H.
Qed.

Lemma feed_finished (E : encoder) b s calls : forall inp,
  exists bs, feed E (Est b true s) inp calls = Ok (Est b true s, inp ++ fed calls, [], bs).
Proof.
  induction calls as [|[c f] calls IH]; intros inp.
  - cbn. rewrite app_nil_r. eauto.
  - cbn [feed]. unfold enc_do_encode. cbn [okay finished negb]. rewrite andb_false_r. cbn [andb bind].
    destruct (IH (inp ++ c)) as (bs & ->). cbn [bind app].
    rewrite <- app_assoc. eauto.
Qed.

Lemma do_encode_loop s inp flush s' out p :
  b64d_loop s inp = (s', [], out, true, p) ->
  exists ret, enc_do_encode Base64Decoder (@Est Base64Decoder true false s) inp flush false
              = Ok (@Est Base64Decoder true p s', [], out, ret).
Proof.
  intros H. unfold enc_do_encode. cbn [okay finished st negb andb].
  destruct inp as [|c inp].
  - inversion H; subst. destruct flush; cbn; eauto.
  - cbn [negb orb]. cbn [Base64Decoder enc_encode]. rewrite H. cbn. eauto.
Qed.

Lemma b64_feed calls : forall s s' out p,
  b64d_loop s (fed calls) = (s', [], out, true, p) ->
  exists st2 rest bs, feed Base64Decoder (@Est Base64Decoder true false s) [] calls
    = Ok (st2, rest, out, bs) /\ okay st2 = true.
Proof.
  induction calls as [|[c f] calls IH]; intros s s' out p H.
  - inversion H; subst. cbn. eauto 6.
  - change (fed ((c, f) :: calls)) with (c ++ fed calls) in H.
    apply b64d_loop_app in H. destruct H as (s1 & o1 & o2 & p1 & p2 & H1 & H2 & -> & ->).
    cbn [feed app]. destruct (do_encode_loop _ _ f _ _ _ H1) as (ret & ->). cbn [bind].
    destruct p1.
    + apply pad_state in H1. apply dpad_silent in H2; [|assumption]. destruct H2 as [-> _].
      destruct (feed_finished Base64Decoder true s1 calls []) as (bs & ->). cbn. eauto 6.
    + destruct (IH _ _ _ _ H2) as (st2 & rest & bs & -> & Hok). cbn [bind]. eauto 6.
Qed.

Theorem b64_decoder_feed calls l : spaced (b64 l) (fed calls) ->
  exists s rest bs, feed Base64Decoder (est_init _) [] calls = Ok (s, rest, l, bs) /\ okay s = true.
Proof.
  intros H. destruct (b64d_loop_spec l _ (le_n _)) as (s & p & H1 & _).
  apply (b64_feed calls (B64D DAT0 0) s l p). eapply spaced_loop; eassumption.
Qed.

(** A single flushing call reports success and consumes everything. *)
Theorem b64_decoder_once l t : spaced (b64 l) t ->
  exists s, enc_do_encode Base64Decoder (est_init _) t true false = Ok (s, [], l, true)
            /\ okay s = true.
Proof.
  intros H. destruct (b64d_loop_spec l _ (le_n _)) as (s & p & H1 & H2).
  pose proof (spaced_loop _ _ H _ _ _ _ H1) as H3.
  unfold enc_do_encode. cbn [okay finished est_init negb andb]. rewrite orb_true_r.
  change (st (est_init Base64Decoder)) with (B64D DAT0 0). cbn [Base64Decoder enc_encode].
  rewrite H3. cbn [bind o_st o_rest o_out o_ret o_err o_fin]. rewrite H2. cbn [negb andb].
  eexists. split; reflexivity.
Qed.

Lemma spaced_refl t : spaced t t.
Proof. induction t; constructor; assumption. Qed.

Theorem b64_roundtrip calls e calls' :
  feed_finish Base64Encoder calls = Ok ([], e) -> fed calls' = e ->
  exists s rest bs, feed Base64Decoder (est_init _) [] calls' = Ok (s, rest, fed calls, bs) /\ okay s = true.
Proof.
  rewrite b64_encoder_feed. intros H1 H2. inversion H1; subst e.
  apply b64_decoder_feed. rewrite H0. apply spaced_refl.
Qed.

(** ** Rejection *)
Lemma lookup_bad c : b64_bad c -> lookup c = None.
Proof.
  intros (H1 & H2 & H3).
  assert (H : forallb (fun c => (match lookup c with None => true | _ => false end)
      || existsb (Ascii.eqb c) (b64_digits ++ "="%char :: b64_white)) all_bytes = true)
    by (vm_compute; reflexivity).
  pose proof (byte_sweep _ H c) as Hc. cbn beta in Hc. apply orb_true_iff in Hc.
  destruct Hc as [Hc|Hc].
  - destruct (lookup c); [discriminate|reflexivity].
  - exfalso. apply existsb_exists in Hc. destruct Hc as (x & Hx & E).
    apply Ascii.eqb_eq in E. subst x. apply in_app_or in Hx. destruct Hx as [Hx|[Hx|Hx]]; auto.
Qed.

Lemma loop_bad c t : b64_bad c -> In c t -> forall s, exists s' r o p, b64d_loop s t = (s', r, o, false, p).
Proof.
  intros Hb. induction t as [|x t IH]; intros Hin s; [destruct Hin|].
  rewrite loop_cons. destruct Hin as [->|Hin].
  - rewrite lookup_bad by assumption. eauto 6.
  - destruct (lookup x) as [k|]; [|eauto 6].
    destruct (N.eqb k 64).
    { destruct (IH Hin (B64D DPAD (bd_bits s))) as (s' & r & o & p & ->). eauto 6. }
    destruct (N.eqb k 65); [apply IH; assumption|].
    unfold sym_step. destruct (bd_state s); [apply IH; assumption| | | |eauto 6].
    all: match goal with |- context [b64d_loop ?s' ?tt] => destruct (IH Hin s') as (s2 & r & o & p & ->) end; eauto 6.
Qed.

Theorem b64_decoder_rejects c t flush : b64_bad c -> In c t ->
  exists s rest out, enc_do_encode Base64Decoder (est_init _) t flush false = Ok (s, rest, out, false)
    /\ okay s = false.
Proof.
  intros Hb Hin. destruct (loop_bad c t Hb Hin (B64D DAT0 0)) as (s' & r & o & p & H).
  unfold enc_do_encode. cbn [okay finished est_init negb andb].
  destruct t as [|x t]; [destruct Hin|]. cbn [negb orb].
  change (st (est_init Base64Decoder)) with (B64D DAT0 0). cbn [Base64Decoder enc_encode].
  rewrite H. cbn [bind o_st o_rest o_out o_ret o_err o_fin]. eexists _, _, _. split; reflexivity.
Qed.
