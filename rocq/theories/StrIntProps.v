(** C50: numbers and truth values in configuration values. *)
From Verif Require Import Base Ctype DecSpec IntFmtModel StrIntModel StrIntSpec StrIntProofs.
Local Open Scope nat_scope.

(** Every int but the smallest is read back as it was stored, whatever the default. *)
Theorem C50_round_trip i d : (- 2 ^ 31 < i < 2 ^ 31)%Z -> exists s, setint i = Ok s /\ str2int (Some s) d = i.
Proof. apply round_trip. Qed.
(** A decimal number that fits an int is read as such, after blanks and a sign and
    before any text that does not continue it. *)
Theorem C50_decimal b sg n s t d : Forall blank b -> sign sg -> is_decimal n s ->
  match t with [] => True | c :: _ => ~ digit c end -> (s = [ascii_of_nat 48] -> match t with [] => True | c :: _ => tolower c <> ascii_of_nat 120 end) ->
  (- 2 ^ 31 <= signed sg n < 2 ^ 31)%Z -> str2int (Some (b ++ sg ++ s ++ t)) d = signed sg n.
Proof.
  intros F Sg D Ht R In. apply decimal_ok; auto. intros E. specialize (R E). destruct t as [|c t]; [exact I|]. intros Q. apply R. unfold cc in Q. rewrite <- Q. symmetry. apply ascii_nat_embedding.
Qed.
(** The words for true and false, in any case; anything else that is no number, and
    a missing value, give the default. *)
Theorem C50_words v d : nul_free v -> ~ numeric v ->
  (one_of v yes_words -> str2int (Some v) d = 1%Z) /\ (one_of v no_words -> str2int (Some v) d = 0%Z) /\
  (~ one_of v yes_words -> ~ one_of v no_words -> str2int (Some v) d = d).
Proof. apply words_ok. Qed.
Theorem C50_missing d : str2int None d = d.
Proof. reflexivity. Qed.
(** The default plays no part for a number. *)
Theorem C50_numeric v d d' : numeric v -> str2int (Some v) d = str2int (Some v) d'.
Proof. intros H. apply strtol_numeric in H. unfold str2int. destruct (strtol0 v); [reflexivity|congruence]. Qed.
(** A number too large wraps around, and one with a leading zero is octal. *)
Theorem C50_wrap_refuted : exists n s, is_decimal n s /\ (n > 0)%Z /\ str2int (Some s) 7 = 0%Z.
Proof.
  exists 4294967296%Z, (B "4294967296"). split; [|split; [lia|vm_compute; reflexivity]]. split; [discriminate|]. split; [|split; [reflexivity|discriminate]].
  repeat (apply Forall_cons; [unfold digit; cbn; lia|]). apply Forall_nil.
Qed.
Theorem C50_octal_refuted : exists s, Forall digit s /\ value s = 10%Z /\ str2int (Some s) 0 = 8%Z.
Proof. exists (B "010"). split; [repeat (apply Forall_cons; [unfold digit; cbn; lia|]); apply Forall_nil|]. split; reflexivity. Qed.

Example C50_ex : str2int (Some (B " -42 apples")) 7 = (-42)%Z /\ str2int (Some (B "YES")) 7 = 1%Z /\ str2int (Some (B "maybe")) 7 = 7%Z /\
  str2int (Some (B "0x1F")) 0 = 31%Z /\ setint (-42) = Ok (B "-42").
Proof. vm_compute. repeat split. Qed.
Example C50_ex_word : one_of (B "Yes") yes_words /\ ~ numeric (B "Yes").
Proof.
  split; [exists (B "yes"); split; [right; left; reflexivity|reflexivity]|]. intros H. apply strtol_numeric in H. apply H. reflexivity.
Qed.
Example C50_ex_decimal : Forall blank (B " ") /\ sign (B "-") /\ is_decimal 42 (B "42") /\ (- 2 ^ 31 <= signed (B "-") 42 < 2 ^ 31)%Z.
Proof.
  split; [repeat constructor|]. split; [right; left; reflexivity|]. split; [|unfold signed; cbn; lia]. split; [discriminate|]. split; [|split; [reflexivity|discriminate]].
  repeat (apply Forall_cons; [unfold digit; cbn; lia|]). apply Forall_nil.
Qed.
Print Assumptions C50_round_trip.
Print Assumptions C50_decimal.
Print Assumptions C50_words.
