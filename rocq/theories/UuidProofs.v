(** Proofs about UUIDs in text form. *)
From Verif Require Import Base Ctype UuidSpec UuidModel.
Local Open Scope char_scope.

Lemma hexval_digit c d : digit c d -> hexval c = Some d.
Proof.
  intros H. unfold hexval. inversion H as [x R E|x R E|x R E]; subst.
  - destruct (Nat.leb_spec 48 (nat_of_ascii c)); [|lia]. destruct (Nat.leb_spec (nat_of_ascii c) 57); [|lia]. reflexivity.
  - destruct (Nat.leb_spec 48 (nat_of_ascii c)); [|lia]. destruct (Nat.leb_spec (nat_of_ascii c) 57); [lia|]. cbn [andb].
    destruct (Nat.leb_spec 97 (nat_of_ascii c)); [|lia]. destruct (Nat.leb_spec (nat_of_ascii c) 102); [|lia]. reflexivity.
  - destruct (Nat.leb_spec 48 (nat_of_ascii c)); [|lia]. destruct (Nat.leb_spec (nat_of_ascii c) 57); [lia|]. cbn [andb].
    destruct (Nat.leb_spec 97 (nat_of_ascii c)); [lia|]. cbn [andb]. destruct (Nat.leb_spec 65 (nat_of_ascii c)); [|lia]. destruct (Nat.leb_spec (nat_of_ascii c) 70); [|lia]. reflexivity.
Qed.
Lemma digit_range c d : digit c d -> (0 <= d < 16)%Z.
Proof. intros []; lia. Qed.

Lemma digits_number s v : number s v -> forall acc r, digits acc (s ++ r) = digits (acc * 16 ^ Z.of_nat (length s) + v)%Z r.
Proof.
  induction 1 as [|s c v d N IH D]; intros acc r; [cbn [app length]; f_equal; lia|].
  rewrite <- app_assoc. cbn [app]. rewrite IH. cbn [digits]. rewrite (hexval_digit _ _ D). f_equal.
  rewrite app_length. cbn [length]. replace (Z.of_nat (length s + 1)) with (Z.of_nat (length s) + 1)%Z by lia. rewrite Z.pow_add_r by lia. lia.
Qed.
Lemma number_range s v : number s v -> (0 <= v < 16 ^ Z.of_nat (length s))%Z.
Proof.
  induction 1 as [|s c v d N IH D]; [cbn; lia|]. apply digit_range in D. rewrite app_length. cbn [length].
  replace (Z.of_nat (length s + 1)) with (Z.of_nat (length s) + 1)%Z by lia. rewrite Z.pow_add_r by lia. lia.
Qed.
Lemma number_digits s v : number s v -> Forall (fun c => exists d, digit c d) s.
Proof. induction 1 as [|s c v d N IH D]; [constructor|]. apply Forall_app. split; [exact IH|]. constructor; [eauto|constructor]. Qed.

Lemma digit_plain c d : digit c d -> isspace c = false /\ Ascii.eqb c "-" = false /\ Ascii.eqb c "+" = false /\ Ascii.eqb c "x" = false /\ Ascii.eqb c "X" = false.
Proof.
  intros H. assert (R : 48 <= nat_of_ascii c <= 57 \/ 97 <= nat_of_ascii c <= 102 \/ 65 <= nat_of_ascii c <= 70) by (inversion H; lia). clear H.
  assert (N : forall k, nat_of_ascii k < 48 \/ 102 < nat_of_ascii k \/ 70 < nat_of_ascii k < 97 -> Ascii.eqb c k = false).
  { intros k K. apply Ascii.eqb_neq. intros ->. lia. }
  assert (S : isspace c = false).
  { destruct (isspace c) eqn:E; [|reflexivity]. exfalso. destruct c as [[] [] [] [] [] [] [] []]; cbn in E; try discriminate; cbn in R; lia. }
  split; [exact S|]. split; [apply N; cbn; lia|]. split; [apply N; cbn; lia|]. split; apply N; cbn; lia.
Qed.

Lemma strtoul_ok s v r : number s v -> 2 <= length s <= 8 -> is_digit r = false -> strtoul16 (s ++ r) = (v, r).
Proof.
  intros N L R. pose proof (number_range _ _ N) as V. pose proof (number_digits _ _ N) as F.
  destruct s as [|a [|b s]]; cbn [length] in L; try lia. inversion F as [|? ? [da DA] F']; subst. inversion F' as [|? ? [db DB] _]; subst.
  destruct (digit_plain _ _ DA) as (A1 & A2 & A3 & _). destruct (digit_plain _ _ DB) as (_ & _ & _ & B1 & B2).
  pose proof (digits_number _ _ N 0%Z r) as D. cbn [app] in *. unfold strtoul16. cbn [skip_space]. rewrite A1, A2, A3, B1, B2. cbn [orb]. rewrite andb_false_r. cbn [andb].
  unfold is_digit at 1. rewrite (hexval_digit _ _ DA). rewrite D.
  assert (E : digits (0 * 16 ^ Z.of_nat (length (a :: b :: s)) + v)%Z r = (v, r)).
  { cbn [Z.mul Z.add]. destruct r as [|c r]; [reflexivity|]. cbn [digits]. unfold is_digit in R. destruct (hexval c); [discriminate|reflexivity]. }
  rewrite E. f_equal. assert (16 ^ Z.of_nat (length (a :: b :: s)) <= 16 ^ 8)%Z by (apply Z.pow_le_mono_r; cbn [length]; lia). apply Z.min_l. lia.
Qed.
Lemma field_ok w s v r : number s v -> length s = w -> 2 <= w <= 8 -> is_digit r = false -> field w (s ++ r) = Some (v, r).
Proof. intros N L W R. unfold field. rewrite (strtoul_ok s v r) by (assumption || lia). rewrite app_length, L, Nat.eqb_refl. reflexivity. Qed.
Lemma octet_ok a b v r : number [a; b] v -> octet (a :: b :: r) = Some (v, r).
Proof.
  intros N. unfold octet. cbn [firstn skipn]. rewrite <- (app_nil_r [a; b]) at 1. rewrite (strtoul_ok [a; b] v []) by (assumption || reflexivity || (cbn; lia)).
  cbn [length Nat.eqb andb]. pose proof (number_range _ _ N) as V. cbn in V. rewrite Z.mod_small by lia. reflexivity.
Qed.
Lemma loop_ok e vs : octets e vs -> forall r, octet_loop (length vs) (e ++ r) = (map Some vs, r).
Proof. induction 1 as [|a b s v vs N O IH]; intros r; [reflexivity|]. cbn [length octet_loop app map]. rewrite (octet_ok _ _ _ _ N), IH. reflexivity. Qed.

Lemma body_ok u t post : bare t u -> forall f : bool, post = (if f then ["}"] else []) ->
  (get (d1, s) <- field 8 (t ++ post);
  get s <- literal "-" s;
  get (d2, s) <- field 4 s;
  get s <- literal "-" s;
  get (d3, s) <- field 4 s;
  get s <- literal "-" s;
  get (o0, s) <- octet s;
  get (o1, s) <- octet s;
  get s <- literal "-" s;
  let '(os, s) := octet_loop 6 s in
  get s <- (if f then literal "}" s else Some s);
  match s with [] => Struct (d1 mod 2 ^ 32) (d2 mod 2 ^ 16) (d3 mod 2 ^ 16) (Some o0 :: Some o1 :: os) | _ => Null end%Z) =
  Struct (data1 u) (data2 u) (data3 u) (map Some (data4 u)).
Proof.
  intros (a & b & c & d & e & -> & LA & NA & LB & NB & LC & NC & OD & OE & L4) f P.
  repeat (rewrite <- app_assoc; cbn [app]).
  rewrite (field_ok 8 a (data1 u)) by (auto; lia). cbn [literal]. rewrite Ascii.eqb_refl.
  rewrite (field_ok 4 b (data2 u)) by (auto; lia). cbn [literal]. rewrite Ascii.eqb_refl.
  rewrite (field_ok 4 c (data3 u)) by (auto; lia). cbn [literal]. rewrite Ascii.eqb_refl.
  destruct (data4 u) as [|x0 [|x1 d4]] eqn:E4; cbn [length] in L4; try lia. cbn [firstn skipn] in OD, OE.
  inversion OD as [|p q s v vs N1 O1 E1 E2]; subst. inversion O1 as [|p' q' s' v' vs' N2 O2 E3 E4']; subst. inversion O2; subst. cbn [app].
  rewrite (octet_ok _ _ _ _ N1), (octet_ok _ _ _ _ N2). cbn [literal]. rewrite Ascii.eqb_refl.
  replace 6 with (length d4) by lia. rewrite (loop_ok _ _ OE).
  apply number_range in NA, NB, NC. rewrite LA in NA. rewrite LB in NB. rewrite LC in NC. change (16 ^ Z.of_nat 8)%Z with (2 ^ 32)%Z in NA. change (16 ^ Z.of_nat 4)%Z with (2 ^ 16)%Z in NB, NC.
  rewrite !Z.mod_small by lia. destruct f; cbn [literal app map]; reflexivity.
Qed.

Lemma hexchar_digit d : (0 <= d < 16)%Z -> digit (hexchar d) d.
Proof.
  intros R. unfold hexchar. destruct (Z.ltb_spec d 10).
  - assert (E : nat_of_ascii (ascii_of_nat (Z.to_nat d + 48)) = Z.to_nat d + 48) by (apply nat_ascii_embedding; lia).
    replace d with (Z.of_nat (nat_of_ascii (ascii_of_nat (Z.to_nat d + 48))) - 48)%Z at 2 by lia. apply decimal. lia.
  - assert (E : nat_of_ascii (ascii_of_nat (Z.to_nat d + 87)) = Z.to_nat d + 87) by (apply nat_ascii_embedding; lia).
    replace d with (Z.of_nat (nat_of_ascii (ascii_of_nat (Z.to_nat d + 87))) - 87)%Z at 2 by lia. apply small. lia.
Qed.
Lemma hexpad_number w : forall v, (0 <= v < 16 ^ Z.of_nat w)%Z -> number (hexpad w v) v /\ length (hexpad w v) = w.
Proof.
  induction w as [|w IH]; intros v R; cbn [hexpad].
  - cbn in R. replace v with 0%Z by lia. split; [constructor|reflexivity].
  - replace (Z.of_nat (S w)) with (Z.of_nat w + 1)%Z in R by lia. rewrite Z.pow_add_r in R by lia.
    pose proof (Z.div_mod v 16 ltac:(lia)) as DM. pose proof (Z.mod_pos_bound v 16 ltac:(lia)) as MB.
    destruct (IH (v / 16)%Z) as [N L]; [lia|]. split.
    + assert (X : number (hexpad w (v / 16) ++ [hexchar (v mod 16)]) (16 * (v / 16) + v mod 16)%Z) by (constructor; [exact N|]; apply hexchar_digit; exact MB).
      rewrite <- DM in X. exact X.
    + rewrite app_length, L. cbn. lia.
Qed.
Lemma concat_octets vs : Forall (fun b => 0 <= b < 256)%Z vs -> octets (concat (map (hexpad 2) vs)) vs.
Proof.
  induction 1 as [|v vs R F IH]; [constructor|]. cbn [map concat]. destruct (hexpad_number 2 v) as [N L]; [exact R|].
  destruct (hexpad 2 v) as [|a [|b [|? ?]]]; cbn [length] in L; try lia. cbn [app]. constructor; assumption.
Qed.

(** ** What is accepted *)
Definition tail (r s : bytes) : Prop := exists a, s = a ++ r.
Lemma tail_refl s : tail s s. Proof. exists []. reflexivity. Qed.
Lemma tail_cons c r s : tail r s -> tail r (c :: s). Proof. intros [a ->]. exists (c :: a). reflexivity. Qed.
Lemma tail_trans a b c : tail a b -> tail b c -> tail a c. Proof. intros [x ->] [y ->]. exists (y ++ x). apply app_assoc. Qed.
Lemma tail_digits s : forall acc, tail (snd (digits acc s)) s.
Proof. induction s as [|c s IH]; intros acc; cbn [digits]; [apply tail_refl|]. destruct (hexval c); [apply tail_cons, IH|apply tail_refl]. Qed.
Lemma tail_skip s : tail (skip_space s) s.
Proof. induction s as [|c s IH]; cbn [skip_space]; [apply tail_refl|]. destruct (isspace c); [apply tail_cons, IH|apply tail_refl]. Qed.
Lemma tail_strtoul s : tail (snd (strtoul16 s)) s.
Proof.
  unfold strtoul16. pose proof (tail_skip s) as T. set (t := skip_space s) in *. clearbody t.
  set (nt := match t with [] => _ | _ => _ end). assert (T2 : tail (snd nt) s).
  { unfold nt. destruct t as [|c t]; [exact T|]. destruct (Ascii.eqb c "-"); [eapply tail_trans; [|exact T]; apply tail_cons, tail_refl|].
    destruct (Ascii.eqb c "+"); [eapply tail_trans; [|exact T]; apply tail_cons, tail_refl|exact T]. }
  clearbody nt. destruct nt as [neg t2]. cbn [snd] in T2. set (t3 := match t2 with [] => _ | _ => _ end). assert (T3 : tail t3 s).
  { unfold t3. destruct t2 as [|z [|x r]]; try exact T2. destruct (_ && _)%bool; [|exact T2]. eapply tail_trans; [|exact T2]. apply tail_cons, tail_cons, tail_refl. }
  clearbody t3. destruct (is_digit t3); [|apply tail_refl]. pose proof (tail_digits t3 0%Z) as D. destruct (digits 0 t3) as [v r]. cbn [snd] in *. eapply tail_trans; eassumption.
Qed.
Lemma field_inv w s v r : field w s = Some (v, r) -> exists a, s = a ++ r /\ length a = w.
Proof.
  unfold field. pose proof (tail_strtoul s) as [a T]. destruct (strtoul16 s) as [v' r']. cbn [snd] in T. destruct (Nat.eqb_spec (length s) (w + length r')) as [E|]; [|discriminate].
  intros H. injection H as <- <-. exists a. split; [exact T|]. rewrite T, app_length in E. lia.
Qed.
Lemma octet_inv s v r : octet s = Some (v, r) -> exists a, s = a ++ r /\ length a = 2.
Proof.
  unfold octet. destruct (strtoul16 (firstn 2 s)) as [v' r']. destruct (Nat.eqb_spec (length (firstn 2 s)) 2) as [E|]; [|discriminate]. cbn [andb].
  destruct (Nat.eqb (length r') 0); [|discriminate]. intros H. injection H as _ <-. exists (firstn 2 s). split; [symmetry; apply firstn_skipn|exact E].
Qed.
Lemma literal_inv c s r : literal c s = Some r -> s = c :: r.
Proof. unfold literal. destruct s as [|x s]; [discriminate|]. destruct (Ascii.eqb_spec x c); [|discriminate]. intros H. injection H as <-. congruence. Qed.
Definition nones (l : list (option Z)) : nat := length (filter (fun x => match x with None => true | Some _ => false end) l).
Lemma nones_repeat k : nones (repeat None k) = k.
Proof. induction k as [|k IH]; [reflexivity|]. unfold nones in *. cbn. f_equal. exact IH. Qed.
Lemma loop_inv n : forall s vs r, octet_loop n s = (vs, r) -> exists e k, s = e ++ r /\ length e = 2 * k /\ k <= n /\ length vs = n /\ nones vs = n - 1 - k.
Proof.
  induction n as [|n IH]; intros s vs r H; cbn [octet_loop] in H.
  - injection H as <- <-. exists [], 0. cbn. auto.
  - destruct (octet s) as [[v r']|] eqn:O.
    + destruct (octet_loop n r') as [vs' r''] eqn:L. injection H as <- <-. destruct (IH _ _ _ L) as (e & k & -> & E & K & LV & N).
      destruct (octet_inv _ _ _ O) as (a & -> & LA). exists (a ++ e), (S k). rewrite app_assoc, app_length. cbn [length]. unfold nones in *. cbn [filter].
      split; [reflexivity|]. lia.
    + injection H as <- <-. exists [], 0. split; [reflexivity|]. split; [reflexivity|]. split; [lia|]. split; [cbn [length]; rewrite repeat_length; reflexivity|].
      unfold nones. cbn [filter]. fold (nones (repeat None n)). rewrite nones_repeat. lia.
Qed.
