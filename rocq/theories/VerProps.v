(** C99: version numbers and version strings. *)
From Verif Require Import Base BaseFacts VerSpec VerModel VerProofs.
From Coq Require Import NArith.
Local Open Scope N_scope.

(** Printing a version and reading it back, and nothing is written outside the buffers. *)
Theorem C99_roundtrip v : v < 2 ^ 32 -> exists s, ver_to_string v = Ok s /\ string_to_ver s = v.
Proof.
  intros H. unfold ver_to_string. destruct (is_new_ver v) eqn:N.
  - destruct (new_prints v H) as (a & b & c & E & Da & Db & Dc & La & Lb & Lc & Va & Vb & Vc). exists (text a ++ B "." ++ text b ++ B "." ++ text c). split; [exact E|]. unfold string_to_ver. rewrite new_form, new_reads by assumption. rewrite Va, Vb, Vc. change (2 ^ 24) with 16777216. change (2 ^ 16) with 65536. change (2 ^ 8) with 256. lia.
  - destruct (old_prints v H) as (a & b & E & Da & Db & La & Lb & Va & Vb). exists (text a ++ B "." ++ text b). split; [exact E|]. unfold string_to_ver. rewrite old_form, old_reads by assumption. rewrite Va, Vb. change (2 ^ 16) with 65536. lia.
Qed.
(** The old form alone, also for numbers that have a new one. *)
Theorem C99_old_roundtrip v : v < 2 ^ 32 -> exists s, old_ver_to_string v = Ok s /\ string_to_old_ver s = v /\ string_to_ver s = v.
Proof.
  intros H. destruct (old_prints v H) as (a & b & E & Da & Db & La & Lb & Va & Vb). exists (text a ++ B "." ++ text b). split; [exact E|]. assert (R : string_to_old_ver (text a ++ B "." ++ text b) = v) by (rewrite old_reads by assumption; rewrite Va, Vb; change (2 ^ 16) with 65536; lia).
  split; [exact R|]. unfold string_to_ver. rewrite old_form by assumption. exact R.
Qed.
(** Different versions have different texts. *)
Theorem C99_distinct v w s : v < 2 ^ 32 -> w < 2 ^ 32 -> ver_to_string v = Ok s -> ver_to_string w = Ok s -> v = w.
Proof. intros V W E F. destruct (C99_roundtrip v V) as (a & A1 & A2). destruct (C99_roundtrip w W) as (b & B1 & B2). congruence. Qed.

(** What a text means: MAJOR.MINOR with a hexadecimal fraction after the dot, and
    MAJOR.MINOR.REVISION with a fraction after the second. *)
Theorem C99_reads a b : digits a -> digits b -> (length a <= 4)%nat -> string_to_ver (text a ++ B "." ++ text b) = value a * 2 ^ 16 + fraction b.
Proof. intros. unfold string_to_ver. rewrite old_form by assumption. apply old_reads; assumption. Qed.
Theorem C99_reads_partial a b c : digits a -> digits b -> digits c -> (length a <= 2)%nat -> (length b <= 2)%nat ->
  string_to_ver (text a ++ B "." ++ text b ++ B "." ++ text c) = value a * 2 ^ 24 + value b * 2 ^ 16 + fraction c.
Proof. intros. unfold string_to_ver. rewrite new_form by assumption. apply new_reads; assumption. Qed.
(** So versions with the same major number are ordered like their fractions. *)
Theorem C99_order a b c : digits a -> digits b -> digits c -> (length a <= 4)%nat ->
  (string_to_ver (text a ++ B "." ++ text b) < string_to_ver (text a ++ B "." ++ text c) <-> fraction b < fraction c).
Proof. intros. rewrite !C99_reads by assumption. lia. Qed.

(** A minor number of three digits runs over into the revision. *)
Theorem C99_minor_refuted : string_to_ver (B "1.123.4") = 16777216 + 18 * 65536 + 3 * 4096 + 4 * 256.
Proof. reflexivity. Qed.
(** A text of two numbers comes back as three if the first is 100 or more. *)
Theorem C99_text_refuted : ver_to_string (string_to_ver (B "100.5")) = Ok (B "1.00.5000").
Proof. reflexivity. Qed.

Example C99_ex : ver_to_string 76288 = Ok (B "1.2a") /\ string_to_ver (B "1.2A") = 76288 /\ ver_to_string 65536 = Ok (B "1.0") /\ ver_to_string 0 = Ok (B "0.0") /\ ver_to_string 4294967295 = Ok (B "ff.ff.ffff") /\ string_to_ver (B "4_05") = 263424.
Proof. repeat split; vm_compute; reflexivity. Qed.
Example C99_ex_meets : digits [1; 2] /\ digits [10; 0; 15; 3; 9] /\ text [1; 2] = B "12" /\ text [10; 0; 15; 3; 9] = B "a0f39" /\ value [1; 2] = 18 /\ fraction [10; 0; 15; 3; 9] = 41203 /\ fraction [2; 10] = 10752.
Proof. repeat split; try reflexivity; repeat (constructor; [reflexivity|]); constructor. Qed.

Print Assumptions C99_roundtrip.
Print Assumptions C99_old_roundtrip.
Print Assumptions C99_distinct.
Print Assumptions C99_reads.
Print Assumptions C99_reads_partial.
Print Assumptions C99_order.
Print Assumptions C99_minor_refuted.
Print Assumptions C99_text_refuted.
