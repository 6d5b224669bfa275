(** C18: strings built from integers are their decimal notation. *)
From Verif Require Import Base IntFmtModel DecSpec IntFmtProofs.
Local Open Scope Z_scope.

(** unsigned short, unsigned, unsigned long and unsigned long long: every value *)
Theorem C18_unsigned : forall w i, (16 <= w <= 64)%nat -> 0 <= i < 2 ^ Z.of_nat w ->
  exists s, string_of_unsigned i = Ok s /\ is_decimal i s.
Proof.
  intros w i Hw Hi.
  assert (H : 0 <= i < big).
  { split; [apply Hi|]. eapply Z.lt_le_trans; [apply Hi|]. apply Z.le_trans with (2 ^ 64); [apply Z.pow_le_mono_r; lia|unfold big; lia]. }
  exists (dec i). split; [exact (unsigned_ok i H)|exact (dec_is i H)].
Qed.

(** short, int, long and long long: every value except the most negative one *)
Theorem C18_signed_partial : forall w i, (16 <= w <= 64)%nat ->
  - 2 ^ (Z.of_nat w - 1) < i < 2 ^ (Z.of_nat w - 1) ->
  exists s, string_of_signed w i = Ok s /\ is_signed_decimal i s.
Proof.
  intros w i Hw Hi. exists (sdec i). split; [apply signed_ok; [lia|exact Hi]|].
  apply sdec_is. assert (2 ^ (Z.of_nat w - 1) <= 2 ^ 63) by (apply Z.pow_le_mono_r; lia). assert (2 ^ 63 < big) by (unfold big; lia). lia.
Qed.

(** The decimal notation of a number is unique, so the statements above fix the text. *)
Theorem C18_unique : forall n s t, is_signed_decimal n s -> is_signed_decimal n t -> s = t.
Proof. exact signed_decimal_unique. Qed.

(** Reading an int back gives the number that was written, whatever non-digit text follows. *)
Theorem C18_round_trip : forall i t, - 2 ^ 31 < i < 2 ^ 31 ->
  match t with [] => True | c :: _ => ~ digit c end ->
  exists s, string_of_signed 32 i = Ok s /\ num (Some (s ++ t)) = Ok i.
Proof.
  intros i t Hi Ht. exists (sdec i). split; [apply signed_ok; [lia|exact Hi]|].
  apply atoi_signed; [unfold int_min, int_max; lia|]. destruct t as [|c t]; [exact I|].
  destruct (Ctype.isdigit c) eqn:E; [|reflexivity]. exfalso. apply Ht. apply digit_isdigit. exact E.
Qed.

(** The most negative short is written as a lone minus sign ... *)
Theorem C18_short_min_refuted : exists i, - 2 ^ 15 <= i < 2 ^ 15 /\ string_of_signed 16 i = Ok (B "-").
Proof. exists (- 2 ^ 15). split; [lia|vm_compute; reflexivity]. Qed.
(** ... and the most negative int overflows when negated. *)
Theorem C18_int_min_refuted : exists i, - 2 ^ 31 <= i < 2 ^ 31 /\ string_of_signed 32 i = Fault.
Proof. exists (- 2 ^ 31). split; [lia|vm_compute; reflexivity]. Qed.

Example C18_ex : string_of_signed 64 (-9223372036854775807) = Ok (B "-9223372036854775807") /\
  string_of_unsigned 18446744073709551615 = Ok (B "18446744073709551615") /\ string_of_signed 16 0 = Ok (B "0").
Proof. vm_compute. repeat split. Qed.
Example C18_round_ex : num (Some (B "-120 apples")) = Ok (-120) /\ ~ digit (ascii_of_nat 32).
Proof. split; [vm_compute; reflexivity|unfold digit; cbn; lia]. Qed.

Print Assumptions C18_unsigned.
Print Assumptions C18_signed_partial.
Print Assumptions C18_unique.
Print Assumptions C18_round_trip.
Print Assumptions C18_short_min_refuted.
Print Assumptions C18_int_min_refuted.
